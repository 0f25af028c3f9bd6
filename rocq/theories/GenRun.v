(** * [wip/genconfig/gen_config.py]: the program and the files it writes.

    Line numbers refer to that file. Console output is not modelled. The files
    that are read do not change: the files that are written are not among them. *)
From Coq Require Import String NArith List Bool.
Import ListNotations.
From Verif Require Import PyBase EnvVar Regex Keyword DetSys EnvKeyword LoadEnv.
Local Open Scope sm_scope.

Definition EOFError : exc := UserExc 108.

Section GenRun.
(** As in [LoadEnv.v]. *)
Variable other_re : str -> str -> res bool.
Variable systems : list (str * list str).
Variable hostname : str.
Variable envs : str -> res (dict (option str)).
Variable flags : str -> res (dict (option str)).
Variable specs : list str.
(** [gen_option_list] of [SetProgramOptionsCMake] for a kind of text and a
    configuration; an error of its constructor counts as one of this function. *)
Variable gen : str -> str -> res (list str).
(** The command line: [args.list_config_flags], [args.list_configs],
    [args.save_load_env_args], [args.cmake_fragment], [args.yes], [args.ci_mode]
    and the three files that are passed on, as absolute paths. *)
Variable list_flags list_confs : bool.
Variable save fragment : option str.
Variable yes ci : bool.
Variable systems_file envs_file env_specs_file : str.
(** [bash_cmake_args_file_loc] (530-532) and [.bash_cmake_args_loc] (537). *)
Variable args_file loc_file : str.
(** Whether the directory of a path exists or can be made, and the file written. *)
Variable writable : str -> bool.

(** The object, [_cmake_fragment_file], the files that have been written, and
    the lines that the user will enter. *)
Record gworld := GWorld {
  v_gc : genconfig;
  v_fragment : option str;
  v_out : dict str;
  v_in : list str
}.
Definition new_gworld (build : str) (force : bool) (out : dict str) (answers : list str) : gworld :=
  GWorld (new_genconfig build force) None out answers.

Definition on_gc {A} (m : SM genconfig A) : SM gworld A := fun w =>
  let (r, p) := m (v_gc w) in (r, GWorld p (v_fragment w) (v_out w) (v_in w)).
Definition put_out (f : dict str -> dict str) : SM gworld unit :=
  modify (fun w => GWorld (v_gc w) (v_fragment w) (f (v_out w)) (v_in w)).
(** [with open(p, "w") as F:] up to the first write *)
Definition open_file (p : str) : SM gworld unit :=
  if writable p then put_out (dset p []) else raise IOError.

(** The questions of 85-99: whether the answer is yes. *)
Fixpoint confirm (l : list str) : res bool * list str :=
  match l with
  | [] => (Err EOFError, [])
  | r :: l' =>
      match lower r with
      | [] => (Err IndexError, l')
      | c :: _ => if N.eqb c 121 then (Ok true, l')
                  else if N.eqb c 110 then (Ok false, l')
                  else confirm l'
      end
  end.
Definition ask : SM gworld bool := fun w =>
  let (r, l) := confirm (v_in w) in (r, GWorld (v_gc w) (v_fragment w) (v_out w) l).

(** [write_cmake_fragment], 67-111; [p] is [args.cmake_fragment]. *)
Definition write_fragment (p : str) : SM gworld str :=
  w <- get ;;
  match v_fragment w with
  | Some q => ret q
  | None =>
      l <- on_gc (generated_flags other_re systems hostname envs flags specs (gen $"cmake_fragment")) ;;
      w <- get ;;
      (if dmem p (v_out w) then
         (if yes then ret tt
          else b <- ask ;; if b then ret tt else raise SystemExit) ;;
         put_out (ddel p)
       else ret tt) ;;
      open_file p ;;
      put_out (dset p (join newline l)) ;;
      modify (fun w => GWorld (v_gc w) (Some p) (v_out w) (v_in w)) ;;
      ret p
  end.

(** [generated_config_flags_str], 52-65; the program reads it once. *)
Definition flags_str : SM gworld str :=
  l <- on_gc (generated_flags other_re systems hostname envs flags specs (gen $"bash")) ;;
  ret (join ($" \" ++ newline ++ $"    ") l).

(** [load_env_args], 269-280. *)
Definition load_env_args (p : genconfig) : list str :=
  [$"--supported-systems"; systems_file; $"--supported-envs"; envs_file; $"--environment-specs"; env_specs_file] ++
  (if g_force p then [$"--force"] else []) ++ (if ci then [$"--ci-mode"] else []) ++ [g_build p].

(** [main], 499-538. *)
Definition gen_main : SM gworld unit :=
  if list_flags then on_gc (load_ckp flags) ;; raise SystemExit
  else if list_confs then on_gc (list_configs other_re systems hostname specs) ;; raise SystemExit
  else match save with
  | Some p =>
      open_file p ;;
      w <- get ;;
      put_out (dset p (join $" " (load_env_args (v_gc w))))
  | None =>
      match fragment with
      | Some p => write_fragment p ;; ret tt
      | None =>
          open_file args_file ;;
          s <- flags_str ;;
          put_out (dset args_file s) ;;
          open_file loc_file ;;
          put_out (dset loc_file args_file)
      end
  end.
End GenRun.
