(** * The programs [wip/loadenv/load_env.py] and [wip/genconfig/gen_config.py]
    with all the [.ini] files they read.

    [LoadRun.v], [GenRun.v] and [Programs.v] have tables in place of
    [supported-systems.ini], [supported-envs.ini] and
    [supported-config-flags.ini]. Here the objects are those of [FileObjects.v],
    which read these files as the code does. Line numbers refer to [load_env.py]
    (LE) and [gen_config.py] (GC). *)
From Coq Require Import String NArith ZArith List Bool.
Import ListNotations.
From Verif Require Import PyBase IniView IniRead ExcControl Cpe EnvVar SetEnv Regex Keyword DetSys EnvKeyword LoadEnv LoadRun GenRun
  TopLevel ArgParse Programs FileObjects.
Local Open Scope sm_scope.

Section FilePrograms.
(** As in [Programs.v]; no tables. *)
Variable uni_digit : pychar -> bool.
Variable uniword : pychar -> bool.
Variable fs : str -> option str.
Variable fuel : nat.
Variable there : path -> bool.
Variable real : path -> str.
Variable load_ini gen_ini : str.
Variable other_re : str -> str -> res bool.
Variable hostname : str.
Notation cpe := (obj unit unit).

(** ** load_env.py *)
Section Load.
Variable which : environ -> str -> option str.
Variable mods : list str -> environ -> res Z * environ.
Variable other : str -> environ -> res Z * environ.
Variable header : str -> str.
Variable tmp_file : str.
Variable writable : str -> bool.
(** [args] *)
Variable args : load_settings.

(** The object with the parser of its [env_keyword_parser], [set_environment],
    [os.environ], and the files that have been written. *)
Record flworld := FLWorld {
  fr_le : cpe * loadenv;
  fr_set : option sobj;
  fr_env : environ;
  fr_out : dict str
}.
Definition f_new_lworld (e : environ) (out : dict str) : flworld :=
  FLWorld (f_new_loadenv (ls_envs args) (ls_build args) (ls_force args)) None e out.

Definition f_on_names {A} (m : SM (cpe * loadenv) A) : SM flworld A := fun w =>
  let (r, le) := m (fr_le w) in (r, FLWorld le (fr_set w) (fr_env w) (fr_out w)).
Definition f_on_set {A} (m : SM world A) : SM flworld A := fun w =>
  match fr_set w with
  | Some o => let (r, w') := m (World o (fr_env w)) in (r, FLWorld (fr_le w) (Some (w_obj w')) (w_env w') (fr_out w))
  | None => (Err AttributeError, w)
  end.

(** [load_set_environment], LE 210-225. *)
Definition f_load_set : SM flworld unit :=
  modify (fun w => match fr_set w with
                   | Some _ => w
                   | None => FLWorld (fr_le w) (Some (new_set (ls_specs args))) (fr_env w) (fr_out w)
                   end) ;;
  f_on_set (on_obj (set_level 5)) ;;
  f_on_set (on_obj (assert_file (SetEnvironment uniword) fs fuel)) ;;
  ret tt.
Definition f_need_set : SM flworld unit :=
  w <- get ;;
  match fr_set w with Some _ => ret tt | None => f_load_set end.

Definition f_env_name : SM flworld str :=
  f_on_names (f_le_parsed_env_name uniword fs fuel other_re hostname (ls_systems args) (ls_envs args)).

(** [apply_env], LE 227-247. *)
Definition f_apply_env : SM flworld unit :=
  f_need_set ;;
  n <- f_env_name ;;
  rval <- f_on_set (apply which mods other uniword fs fuel n) ;;
  if (rval =? 0)%Z then ret tt else f_env_name ;; raise RuntimeError.

(** [write_load_matching_env], LE 250-279. *)
Definition f_set_out (f : str -> dict str -> dict str) (p : str) : SM flworld unit :=
  modify (fun w => FLWorld (fr_le w) (fr_set w) (fr_env w) (f p (fr_out w))).
Definition f_write_one (p : str) : SM flworld unit :=
  f_set_out ddel p ;;
  (if writable p then ret tt else raise IOError) ;;
  n <- f_env_name ;;
  t <- f_on_set (on_obj (write_actions uniword fs fuel header n true true true $"bash")) ;;
  match fst t with
  | Some text => f_set_out (fun p => dset p text) p
  | None => ret tt
  end ;;
  n <- f_env_name ;;
  f_set_out (fun p out =>
    dset p (match dget p out with Some text => text | None => [] end ++ $"export LOADED_ENV_NAME=" ++ n) out) p.
Fixpoint f_write_each (l : list str) : SM flworld unit :=
  match l with [] => ret tt | p :: l' => f_write_one p ;; f_write_each l' end.
Definition f_write_env : SM flworld unit := f_need_set ;; f_write_each (out_files tmp_file (ls_output args)).

(** [list_envs], LE 180-193; it ends with [sys.exit()]. *)
Definition f_list_envs : SM flworld unit :=
  f_on_names (f_le_ekp uniword fs fuel other_re hostname (ls_systems args) (ls_envs args)) ;; ret tt.

(** [main], LE 530-543, without a list. *)
Definition f_load_main : SM flworld unit :=
  f_apply_env ;;
  f_env_name ;;
  f_write_env ;;
  match ls_location args with
  | Some p => if writable p then f_set_out (fun p => dset p tmp_file) p else raise IOError
  | None => ret tt
  end.
Definition f_load_run (e : environ) (files : dict str) : N * dict str :=
  let rw := (if ls_list args then f_list_envs else f_load_main) (f_new_lworld e files) in
  (status (fst rw), fr_out (snd rw)).
End Load.

Definition f_load_program which mods other header tmp_file writable
    (argv : list str) (e : environ) (files : dict str) : N * dict str :=
  match load_args uni_digit uniword fs fuel real load_ini argv with
  | Done s => f_load_run which mods other header tmp_file writable s e files
  | Exit n => (n, files)
  | Stuck => (1%N, files)
  end.

(** ** gen_config.py *)
Section Gen.
(** What [SetProgramOptionsCMake] makes of a section of [config-specs.ini], as in
    [GenRun.v]: that class is not in the repository. *)
Variable gen_in : str -> str -> str -> res (list str).
Variable args_file loc_file : str.
Variable writable : str -> bool.
Variable answers : list str.
Variable without_loadenv : gen_settings -> dict str -> N * dict str.

Section Run.
Variable args : gen_settings.
Notation gen := (gen_in (gs_specs args)).

(** [ConfigParserEnhanced(config_specs_file).configparserenhanceddata.keys()], GC
    186-191, and [.sections()], GC 153-157. *)
Definition f_spec_names : res (list str) := fst (data_keys fs (open_ini (gs_specs args))).
Definition f_spec_sections : res (list str) :=
  fst (data_sections (base_class uniword) fs fuel (PBool false) (open_ini (gs_specs args))).

(** [validate_config_specs_ini], GC 178-236, as [f_validate], with the names from
    the file. *)
Definition f_validate_file : SM fgen unit :=
  f_load_ckp uniword fs fuel (gs_flags args) ;;
  f_load_le ;;
  f_on_le (f_le_set_force true) ;;
  specs <- of_res f_spec_names ;;
  bad <- f_check_sections uniword fs fuel other_re hostname (gs_systems args) (gs_envs args) specs ;;
  match bad with
  | _ :: _ => raise ValueError
  | [] =>
      p <- on_gen get ;;
      f_on_le (f_le_set_build (g_build p)) ;;
      f_on_le (f_le_set_force (g_force p)) ;;
      f_on_ckp (f_set_build_name (g_build p)) ;;
      on_gen (modify (fun p => GenConfig (g_build p) (g_force p) (g_ckp p) (g_le p) (g_config p) true))
  end.
(** [generated_config_flags_str], GC 54-65, and [write_cmake_fragment], GC 74-80,
    up to [gen_option_list]. *)
Definition f_generated (kind : str) : SM fgen (list str) :=
  p <- on_gen get ;;
  (if g_valid p then ret tt else f_validate_file) ;;
  c <- f_complete_config uniword fs fuel other_re hostname (gs_systems args) (gs_envs args) (gs_flags args) ;;
  of_res (gen kind c).
(** [list_configs], GC 139-157. *)
Definition f_list_file : SM fgen (list str) :=
  f_load_le ;;
  n <- f_on_le (f_le_system_name uniword fs fuel other_re hostname (gs_systems args)) ;;
  specs <- of_res f_spec_sections ;;
  ret (filter (starts_with n) specs).

(** The object with its parsers, [_cmake_fragment_file], the files that have been
    written, and the lines that the user will enter. *)
Record fgworld := FGWorld {
  fv_gc : fgen;
  fv_fragment : option str;
  fv_out : dict str;
  fv_in : list str
}.
Definition f_new_gworld (out : dict str) : fgworld :=
  FGWorld (f_new_genconfig (gs_envs args) (gs_flags args) (gs_build args) (gs_force args)) None out answers.
Definition f_on_gc {A} (m : SM fgen A) : SM fgworld A := fun w =>
  let (r, p) := m (fv_gc w) in (r, FGWorld p (fv_fragment w) (fv_out w) (fv_in w)).
Definition f_put_out (f : dict str -> dict str) : SM fgworld unit :=
  modify (fun w => FGWorld (fv_gc w) (fv_fragment w) (f (fv_out w)) (fv_in w)).
(** [with open(p, "w") as F:] up to the first write *)
Definition f_open_file (p : str) : SM fgworld unit :=
  if writable p then f_put_out (dset p []) else raise IOError.
(** GC 85-99 *)
Definition f_ask : SM fgworld bool := fun w =>
  let (r, l) := confirm (fv_in w) in (r, FGWorld (fv_gc w) (fv_fragment w) (fv_out w) l).
Definition f_flags_of (kind : str) : SM fgworld (list str) :=
  f_on_gc (f_generated kind).

(** [write_cmake_fragment], GC 67-111. *)
Definition f_write_fragment (p : str) : SM fgworld str :=
  w <- get ;;
  match fv_fragment w with
  | Some q => ret q
  | None =>
      l <- f_flags_of $"cmake_fragment" ;;
      w <- get ;;
      (if dmem p (fv_out w) then
         (if gs_yes args then ret tt
          else b <- f_ask ;; if b then ret tt else raise SystemExit) ;;
         f_put_out (ddel p)
       else ret tt) ;;
      f_open_file p ;;
      f_put_out (dset p (join newline l)) ;;
      modify (fun w => FGWorld (fv_gc w) (Some p) (fv_out w) (fv_in w)) ;;
      ret p
  end.
(** [generated_config_flags_str], GC 52-65. *)
Definition f_flags_str : SM fgworld str :=
  l <- f_flags_of $"bash" ;;
  ret (join ($" \" ++ newline ++ $"    ") l).

(** [main], GC 499-538, without a list. *)
Definition f_gen_main : SM fgworld unit :=
  match gs_save args with
  | Some p =>
      f_open_file p ;;
      w <- get ;;
      f_put_out (dset p (join $" " (load_env_args (gs_ci args) (gs_systems args) (gs_envs args) (gs_envspecs args) (fg (fv_gc w)))))
  | None =>
      match gs_fragment args with
      | Some p => f_write_fragment p ;; ret tt
      | None =>
          f_open_file args_file ;;
          s <- f_flags_str ;;
          f_put_out (dset args_file s) ;;
          f_open_file loc_file ;;
          f_put_out (dset loc_file args_file)
      end
  end.
(** The lists: [list_config_flags] (GC 113-137) ends with an error, see
    [GenRun.v]; [list_configs] (GC 139-159) with [sys.exit()]. *)
Definition f_gen_run (files : dict str) : N * dict str :=
  let m := if gs_list_flags args then f_on_gc (f_load_ckp uniword fs fuel (gs_flags args)) ;; raise SystemExit
           else if gs_list args
                then f_on_gc f_list_file ;; ret tt
                else f_gen_main in
  let rw := m (f_new_gworld files) in
  (status (fst rw), fv_out (snd rw)).
End Run.

Definition f_gen_program (argv : list str) (e : environ) (files : dict str) : N * dict str :=
  match gen_args uni_digit uniword fs fuel there real gen_ini argv with
  | Done s => if makes_loadenv s && negb (same_loadenv uni_digit uniword fs fuel real load_ini s)
              then without_loadenv s files else f_gen_run s files
  | Exit n => (n, files)
  | Stuck => (1%N, files)
  end.
End Gen.
End FilePrograms.
