(** * What the files that a command line names say. *)
From Coq Require Import String NArith List Bool.
Import ListNotations.
From Verif Require Import PyBase IniView IniRead ExcControl Cpe SpecWalk SpecRun SpecParse SpecApi SpecObjects TopLevel Programs.

Section Files.
Variable uniword : pychar -> bool.
Variable fs : str -> option str.
Variable fuel : nat.

(** The file is there, can be parsed, and its sections with their keys are these. *)
Definition tells_keys (file : str) (systems : list (str * list str)) : Prop :=
  exists i, readable uniword fs fuel file i /\ keys_of uniword i systems.
(** ... and its sections have these options. *)
Definition tells_table (file : str) (conf : str -> res (dict (option str))) : Prop :=
  exists i, readable uniword fs fuel file i /\ table_of uniword i conf.
(** The file is there, and has these sections. *)
Definition tells_names (file : str) (names : list str) : Prop :=
  exists i, has_file fs (open_ini file) i /\ names = ini_sections i.

(** The files of the two programs. *)
Definition load_files_tell (s : load_settings) (systems : list (str * list str)) (envs : str -> res (dict (option str))) : Prop :=
  tells_keys (ls_systems s) systems /\ tells_table (ls_envs s) envs.
Record gen_files_tell (s : gen_settings) (systems : list (str * list str)) (envs flags : str -> res (dict (option str)))
    (specs : list str) : Prop := {
  gf_systems : tells_keys (gs_systems s) systems;
  gf_envs : tells_table (gs_envs s) envs;
  gf_flags : tells_table (gs_flags s) flags;
  gf_specs : tells_names (gs_specs s) specs
}.
End Files.

(** The file is missing, or its text is not that of an [.ini] file. *)
Definition unreadable (fs : str -> option str) (file : str) : Prop := forall i, ~ has_file fs (open_ini file) i.
