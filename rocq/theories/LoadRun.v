(** * [wip/loadenv/load_env.py]: loading an environment and writing the script.

    Line numbers refer to that file. Console output and messages are not modelled.
    The files that are read ([fs]) do not change: the files that are written are
    not among them. *)
From Coq Require Import String NArith ZArith List Bool.
Import ListNotations.
From Verif Require Import PyBase IniView IniRead ExcControl Cpe EnvVar SetEnv Regex Keyword DetSys EnvKeyword LoadEnv.
Local Open Scope sm_scope.

Section LoadRun.
(** As in [LoadEnv.v]. *)
Variable other_re : str -> str -> res bool.
Variable systems : list (str * list str).
Variable hostname : str.
Variable envs : str -> res (dict (option str)).
(** As in [SetEnv.v]. *)
Variable which : environ -> str -> option str.
Variable mods : list str -> environ -> res Z * environ.
Variable other : str -> environ -> res Z * environ.
Variable uniword : pychar -> bool.
Variable fs : str -> option str.
Variable fuel : nat.
Variable header : str -> str.
(** [args.environment_specs_file], [tmp_load_matching_env_file] (318-330),
    [args.output], [args.load_matching_env_location], [args.list_envs]. *)
Variable specs_file tmp_file : str.
Variable output location : option str.
Variable list_flag : bool.
(** Whether the directory of a path exists or can be made, and the file written. *)
Variable writable : str -> bool.

(** The object, [os.environ], and the files that have been written. *)
Record lworld := LWorld {
  r_le : loadenv;
  r_set : option sobj;              (** [set_environment] *)
  r_env : environ;
  r_out : dict str
}.
Definition new_lworld (build : str) (force : bool) (e : environ) (out : dict str) : lworld :=
  LWorld (new_loadenv build force) None e out.

Definition on_names {A} (m : SM loadenv A) : SM lworld A := fun w =>
  let (r, le) := m (r_le w) in (r, LWorld le (r_set w) (r_env w) (r_out w)).
Definition on_set {A} (m : SM world A) : SM lworld A := fun w =>
  match r_set w with
  | Some o => let (r, w') := m (World o (r_env w)) in (r, LWorld (r_le w) (Some (w_obj w')) (w_env w') (r_out w))
  | None => (Err AttributeError, w)
  end.

(** [SetEnvironment(filename=...)] *)
Definition new_set : sobj := snd (set_inifilepath (FOne specs_file) (new_obj [])).

(** [load_set_environment], 210-225. *)
Definition load_set : SM lworld unit :=
  modify (fun w => match r_set w with
                   | Some _ => w
                   | None => LWorld (r_le w) (Some new_set) (r_env w) (r_out w)
                   end) ;;
  on_set (on_obj (set_level 5)) ;;
  on_set (on_obj (assert_file (SetEnvironment uniword) fs fuel)) ;;
  ret tt.
Definition need_set : SM lworld unit :=
  w <- get ;;
  match r_set w with Some _ => ret tt | None => load_set end.

Definition env_name : SM lworld str := on_names (le_parsed_env_name other_re systems hostname envs).

(** [apply_env], 227-247. *)
Definition apply_env : SM lworld unit :=
  need_set ;;
  n <- env_name ;;
  rval <- on_set (apply which mods other uniword fs fuel n) ;;
  if (rval =? 0)%Z then ret tt else env_name ;; raise RuntimeError.

(** [write_load_matching_env], 250-279. *)
Definition set_out (f : str -> dict str -> dict str) (p : str) : SM lworld unit :=
  modify (fun w => LWorld (r_le w) (r_set w) (r_env w) (f p (r_out w))).
Definition write_one (p : str) : SM lworld unit :=
  set_out ddel p ;;
  (if writable p then ret tt else raise IOError) ;;
  n <- env_name ;;
  t <- on_set (on_obj (write_actions uniword fs fuel header n true true true $"bash")) ;;
  match fst t with
  | Some text => set_out (fun p => dset p text) p
  | None => ret tt
  end ;;
  n <- env_name ;;
  set_out (fun p out =>
    dset p (match dget p out with Some text => text | None => [] end ++ $"export LOADED_ENV_NAME=" ++ n) out) p.
Fixpoint write_each (l : list str) : SM lworld unit :=
  match l with [] => ret tt | p :: l' => write_one p ;; write_each l' end.
Definition out_files : list str := tmp_file :: match output with Some p => [p] | None => [] end.
Definition write_env : SM lworld unit := need_set ;; write_each out_files.

(** [list_envs], 180-193. *)
Definition list_envs : SM lworld unit :=
  on_names (le_ekp other_re systems hostname envs) ;; raise SystemExit.

(** [main], 530-543. *)
Definition load_main : SM lworld unit :=
  (if list_flag then list_envs else ret tt) ;;
  apply_env ;;
  env_name ;;
  write_env ;;
  match location with
  | Some p => if writable p then set_out (fun p => dset p tmp_file) p else raise IOError
  | None => ret tt
  end.
End LoadRun.
