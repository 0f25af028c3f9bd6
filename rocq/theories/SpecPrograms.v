(** * Terms of the statements about the programs: what their settings are, given
    what the command line says and what the top-level file contains. *)
From Coq Require Import String NArith List Bool.
Import ListNotations.
From Verif Require Import PyBase SpecText IniView IniRead ExcControl Cpe SpecWalk SpecRun SpecParse SpecApi EnvVar ArgParse SpecArgs
  TopLevel SpecTop Programs.

(** The value that a line with these events gives for the option spelled [name],
    if any. *)
Inductive given (name : str) (evs : list event) : option str -> Prop :=
| given_last o v : In name (o_strings o) -> last_value o evs v -> given name evs (Some v)
| given_not : (forall o v, In name (o_strings o) -> ~ In (EOption o (Some v)) evs) -> given name evs None.
(** The option without a value spelled [name] is there. *)
Definition flagged (name : str) (evs : list event) : Prop := exists o, In name (o_strings o) /\ In (EOption o None) evs.
(** The build name: empty if there is none. *)
Inductive build_given (evs : list event) : str -> Prop :=
| bg_name w : In (EBuild w) evs -> build_given evs w
| bg_none : (forall w, ~ In (EBuild w) evs) -> build_given evs [].
(** The path that is given for the option, if any. *)
Definition path_given (real : path -> str) (name : str) (evs : list event) (f : option str) : Prop :=
  match f with
  | Some f => exists v p, given name evs (Some v) /\ denotes v p /\ f = real p
  | None => given name evs None
  end.
(** The file used: that of the command line, or else that of the top-level file. *)
Definition file_used (real : path -> str) (ini : str) (evs : list event) (name : str) (d : dict (option str)) (k f : str) : Prop :=
  exists g, given name evs g /\ chosen_file real ini g d k f.

(** The settings of [load_env.py]; [d] is the section [load-env] of its top-level
    file. *)
Record load_means (real : path -> str) (ini : str) (d : dict (option str)) (evs : list event) (s : load_settings) : Prop := {
  lm_systems : file_used real ini evs $"--supported-systems" d $"supported-systems" (ls_systems s);
  lm_envs : file_used real ini evs $"--supported-envs" d $"supported-envs" (ls_envs s);
  lm_specs : file_used real ini evs $"--environment-specs" d $"environment-specs" (ls_specs s);
  lm_output : path_given real $"--output" evs (ls_output s);
  lm_location : path_given real $"--load-matching-env-location" evs (ls_location s);
  lm_list : ls_list s = true <-> flagged $"--list-envs" evs;
  lm_force : ls_force s = true <-> flagged $"--force" evs;
  lm_build : build_given evs (ls_build s)
}.

(** The settings of [gen_config.py]; [dg] and [dl] are the sections [gen-config]
    and [load-env] of its top-level file. *)
Record gen_means (real : path -> str) (ini : str) (dg dl : dict (option str)) (evs : list event) (s : gen_settings) : Prop := {
  gm_flags : file_used real ini evs $"--supported-config-flags" dg $"supported-config-flags" (gs_flags s);
  gm_specs : file_used real ini evs $"--config-specs" dg $"config-specs" (gs_specs s);
  gm_systems : file_used real ini evs $"--supported-systems" dl $"supported-systems" (gs_systems s);
  gm_envs : file_used real ini evs $"--supported-envs" dl $"supported-envs" (gs_envs s);
  gm_envspecs : file_used real ini evs $"--environment-specs" dl $"environment-specs" (gs_envspecs s);
  gm_list_flags : gs_list_flags s = true <-> flagged $"--list-config-flags" evs;
  gm_list : gs_list s = true <-> flagged $"--list-configs" evs;
  gm_save : path_given real $"--save-load-env-args" evs (gs_save s);
  gm_fragment : path_given real $"--cmake-fragment" evs (gs_fragment s);
  gm_yes : gs_yes s = true <-> flagged $"--yes" evs;
  gm_ci : gs_ci s = true <-> flagged $"--ci-mode" evs;
  gm_force : gs_force s = true <-> flagged $"--force" evs;
  gm_build : build_given evs (gs_build s)
}.

(** A top-level file as it should be (C69): the section [load-env] reads [d], and
    names the three files. *)
Record load_top (uniword : pychar -> bool) (fs : str -> option str) (fuel : nat) (ini : str) (d : dict (option str)) : Prop := {
  lt_file : exists i root dir name, denotes ini (Path root (dir ++ [name])) /\ has_file fs (open_ini ini) i /\
    length (ini_sections i) + 3 <= fuel /\
    parsable (base_class uniword) i $"DEFAULT" $"load-env" /\ expansion (base_class uniword) i $"DEFAULT" $"load-env" d;
  lt_values : forall k, In k env_keys -> exists v, value_of d k v
}.
(** The same for [GenConfig]: an absolute path, and five files that are there. *)
Record gen_top (uniword : pychar -> bool) (fs : str -> option str) (fuel : nat) (there : path -> bool) (ini : str)
    (dg dl : dict (option str)) : Prop := {
  gt_file : exists i root dir name, denotes ini (Path root (dir ++ [name])) /\ root <> [] /\ has_file fs (open_ini ini) i /\
    length (ini_sections i) + 3 <= fuel /\
    parsable (base_class uniword) i $"DEFAULT" $"gen-config" /\ parsable (base_class uniword) i $"DEFAULT" $"load-env" /\
    expansion (base_class uniword) i $"DEFAULT" $"gen-config" dg /\ expansion (base_class uniword) i $"DEFAULT" $"load-env" dl;
  gt_flags : forall k, In k gen_keys -> names_a_file there ini dg k;
  gt_envs : forall k, In k env_keys -> names_a_file there ini dl k
}.

(** [python3] runs this program when it is started with this script. *)
Definition runs_program (python3 : list str -> environ -> dict str -> N * dict str) (script : str)
    (program : list str -> environ -> dict str -> N * dict str) : Prop :=
  forall argv e files, python3 ([$"-E"; $"-s"; script] ++ argv) e files = program argv e files.
(** A resolved name: resolving it again does not change it. *)
Definition settled (real : path -> str) (f : str) : Prop := exists p, denotes f p /\ real p = f.
(** The files and the build name can be given to [load_env.py], and its top-level
    file is as it should be: [gen_config.py] can make the [LoadEnv] object that it
    needs. *)
Definition has_loadenv (uniword : pychar -> bool) (fs : str -> option str) (fuel : nat) (real : path -> str) (load_ini : str)
    (s : gen_settings) : Prop :=
  exists d, load_top uniword fs fuel load_ini d /\
    Forall (fun w => ~ starts [45%N] w) [gs_systems s; gs_envs s; gs_envspecs s; gs_build s] /\
    settled real (gs_systems s) /\ settled real (gs_envs s).
