(** * The programs [wip/loadenv/load_env.py] and [wip/genconfig/gen_config.py]:
    from the command line to the exit status and the files written.

    Line numbers refer to these files. The parts are those of [ArgParse.v] (the
    command line), [TopLevel.v] (the top-level files), [LoadRun.v] and [GenRun.v]
    (what [main] does with the settings). An exception that is not caught ends a
    program with status 1, and so does [sys.exit] with a message; [sys.exit()]
    ends it with 0. *)
From Coq Require Import String NArith ZArith List Bool.
Import ListNotations.
From Verif Require Import PyBase IniView IniRead ExcControl Cpe EnvVar SetEnv Regex Keyword DetSys EnvKeyword LoadEnv LoadRun GenRun
  TopLevel ArgParse.
Local Open Scope sm_scope.

(** Attributes of the namespace. *)
Definition path_of (ns : namespace) (dest : str) : option str :=
  match dget dest ns with Some (VPath p) => Some p | _ => None end.
Definition flag_of (ns : namespace) (dest : str) : bool :=
  match dget dest ns with Some (VBool b) => b | _ => false end.
Definition text_of (ns : namespace) (dest : str) : option str :=
  match dget dest ns with Some (VStr s) => Some s | _ => None end.
(** [if args.x is None: args.x = ...] *)
Definition or_else {S : Type} (given : option str) (m : SM S str) : SM S str :=
  match given with Some p => ret p | None => m end.
(** The status of a program that ends in this way. *)
Definition status {A} (r : res A) : N := match r with Ok _ => 0%N | Err _ => 1%N end.

(** [LoadEnv.args] *)
Record load_settings := LoadSettings {
  ls_systems : str; ls_envs : str; ls_specs : str;
  ls_output : option str; ls_location : option str;
  ls_list : bool; ls_force : bool; ls_build : str
}.
(** [GenConfig.args] *)
Record gen_settings := GenSettings {
  gs_flags : str; gs_specs : str; gs_systems : str; gs_envs : str; gs_envspecs : str;
  gs_list_flags : bool; gs_list : bool; gs_save : option str; gs_fragment : option str;
  gs_yes : bool; gs_ci : bool; gs_force : bool; gs_build : str
}.

Section Programs.
(** As in [ArgParse.v] and [TopLevel.v]; [real p] is [str(p.resolve())]. *)
Variable uni_digit : pychar -> bool.
Variable uniword : pychar -> bool.
Variable fs : str -> option str.
Variable fuel : nat.
Variable there : path -> bool.
Variable real : path -> str.
(** The top-level file of [LoadEnv] (load_env.py 110) and of [GenConfig]
    (gen_config.py 31-32). *)
Variable load_ini gen_ini : str.
(** What the files of this name contain, as in [LoadEnv.v] and [GenRun.v]. *)
Variable systems_in : str -> list (str * list str).
Variable envs_in : str -> str -> res (dict (option str)).
Variable flags_in : str -> str -> res (dict (option str)).
Variable specs_in : str -> list str.
Variable gen_in : str -> str -> str -> res (list str).
(** As in [LoadRun.v]. *)
Variable other_re : str -> str -> res bool.
Variable hostname : str.
Variable which : environ -> str -> option str.
Variable mods : list str -> environ -> res Z * environ.
Variable other : str -> environ -> res Z * environ.
Variable header : str -> str.
Variable tmp_file : str.
Variable writable : str -> bool.
(** As in [GenRun.v]. *)
Variable args_file loc_file : str.
Variable answers : list str.
(** What [gen_config.py] does when it cannot make a [LoadEnv] object for its own
    build name ([load_load_env], gen_config.py 261-267): arbitrary. *)
Variable without_loadenv : gen_settings -> dict str -> N * dict str.

Definition real_text (s : str) : str := real (mk_path s).

(** ** load_env.py *)

(** The end of [args], 345-358. *)
Definition load_files (ns : namespace) : SM (obj unit unit) (list str) :=
  a <- or_else (path_of ns $"supported_systems_file") (le_file uniword fs fuel str real None $"supported-systems") ;;
  b <- or_else (path_of ns $"supported_envs_file") (le_file uniword fs fuel str real None $"supported-envs") ;;
  c <- or_else (path_of ns $"environment_specs_file") (le_file uniword fs fuel str real None $"environment-specs") ;;
  ret [a; b; c].

(** [LoadEnv(argv)], 109-129: the top-level file is read first (124), then
    [args] is asked for (105, 126). *)
Definition load_args (argv : list str) : outcome load_settings :=
  match parse_top_level uniword fs fuel load_ini (open_ini load_ini) with
  | (Err _, _) => Exit 1%N
  | (Ok _, o) =>
      obind (load_parse uni_digit real_text argv) (fun ns =>
      match fst (load_files ns o), text_of ns $"build_name" with
      | Err _, _ => Exit 1%N
      | Ok [a; b; c], Some build =>
          Done (LoadSettings a b c (path_of ns $"output") (path_of ns $"load_matching_env_location")
                  (flag_of ns $"list_envs") (flag_of ns $"force") build)
      | _, _ => Stuck
      end)
  end.

(** [main], 530-543. [list_envs] (180-193) ends with [sys.exit()] if it gets that
    far. *)
Definition load_run (s : load_settings) (e : environ) (files : dict str) : N * dict str :=
  let systems := systems_in (ls_systems s) in
  let envs := envs_in (ls_envs s) in
  let w := new_lworld (ls_build s) (ls_force s) e files in
  let rw := load_main other_re systems hostname envs which mods other uniword fs fuel header (ls_specs s) tmp_file
              (ls_output s) (ls_location s) (ls_list s) writable w in
  (if ls_list s then status (fst (le_ekp other_re systems hostname envs (r_le w))) else status (fst rw), r_out (snd rw)).
Definition load_program (argv : list str) (e : environ) (files : dict str) : N * dict str :=
  match load_args argv with
  | Done s => load_run s e files
  | Exit n => (n, files)
  | Stuck => (1%N, files)
  end.

(** ** gen_config.py *)

(** The end of [args], 353-375. *)
Definition gen_files_of (ns : namespace) : SM (obj unit unit) (list str) :=
  gen_data uniword fs fuel there gen_ini ;;
  d <- getitem (base_class uniword) fs fuel $"gen-config" ;;
  a <- or_else (path_of ns $"supported_config_flags_file") (gen_file str real None d $"supported-config-flags") ;;
  b <- or_else (path_of ns $"config_specs_file") (gen_file str real None d $"config-specs") ;;
  gen_data uniword fs fuel there gen_ini ;;
  d <- getitem (base_class uniword) fs fuel $"load-env" ;;
  x <- or_else (path_of ns $"supported_systems_file") (gen_file str real None d $"supported-systems") ;;
  y <- or_else (path_of ns $"supported_envs_file") (gen_file str real None d $"supported-envs") ;;
  z <- or_else (path_of ns $"environment_specs_file") (gen_file str real None d $"environment-specs") ;;
  ret [a; b; x; y; z].

(** [args], 343-379: here the command line comes first. *)
Definition gen_args (argv : list str) : outcome gen_settings :=
  obind (gen_parse uni_digit real_text argv) (fun ns =>
  match fst (gen_files_of ns (open_ini gen_ini)), text_of ns $"build_name" with
  | Err _, _ => Exit 1%N
  | Ok [a; b; x; y; z], Some build =>
      Done (GenSettings a b x y z (flag_of ns $"list_config_flags") (flag_of ns $"list_configs")
              (path_of ns $"save_load_env_args") (path_of ns $"cmake_fragment")
              (flag_of ns $"yes") (flag_of ns $"ci_mode") (flag_of ns $"force") build)
  | _, _ => Stuck
  end).

(** [main], 499-538. *)
Definition gen_run (s : gen_settings) (files : dict str) : N * dict str :=
  let systems := systems_in (gs_systems s) in
  let envs := envs_in (gs_envs s) in
  let w := new_gworld (gs_build s) (gs_force s) files answers in
  let rw := gen_main other_re systems hostname envs (flags_in (gs_flags s)) (specs_in (gs_specs s)) (gen_in (gs_specs s))
              (gs_list_flags s) (gs_list s) (gs_save s) (gs_fragment s) (gs_yes s) (gs_ci s)
              (gs_systems s) (gs_envs s) (gs_envspecs s) args_file loc_file writable w in
  (if negb (gs_list_flags s) && gs_list s
   then status (fst (list_configs other_re systems hostname (specs_in (gs_specs s)) (v_gc w)))
   else status (fst rw), v_out (snd rw)).

(** Whether a [LoadEnv] object is made: not for a list of flags (504-505), nor to
    save the arguments (508-510). *)
Definition makes_loadenv (s : gen_settings) : bool :=
  negb (gs_list_flags s) && (gs_list s || match gs_save s with Some _ => false | None => true end).
(** The [LoadEnv] object has the settings that [GenRun.v] takes for granted. *)
Definition same_loadenv (s : gen_settings) : bool :=
  match load_args (load_env_args (gs_ci s) (gs_systems s) (gs_envs s) (gs_envspecs s) (new_genconfig (gs_build s) (gs_force s))) with
  | Done l => str_eqb (ls_systems l) (gs_systems s) && str_eqb (ls_envs l) (gs_envs s) &&
              str_eqb (ls_build l) (gs_build s) && Bool.eqb (ls_force l) (gs_force s)
  | _ => false
  end.
Definition gen_program (argv : list str) (e : environ) (files : dict str) : N * dict str :=
  match gen_args argv with
  | Done s => if makes_loadenv s && negb (same_loadenv s) then without_loadenv s files else gen_run s files
  | Exit n => (n, files)
  | Stuck => (1%N, files)
  end.
End Programs.
