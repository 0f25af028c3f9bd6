(** * Terms of the statements about [gen-config.sh]. *)
From Coq Require Import String NArith List Bool.
Import ListNotations.
From Verif Require Import PyBase SpecText EnvVar Bash SpecBash SpecGenRun GenRun LoadSh SpecSh.

(** The names that the script removes at its end, and those that it and
    [load-env.sh] use. *)
Definition gen_removed : list str :=
  [$"python_too_old"; $"script_dir"; $"cleanup_gc"; $"gen_config_py_call_args"; $"gen_config_helper";
   $"path_to_src"; $"load_env_call_args"; $"cmake_args_file"].
Definition gen_names : list str := gen_removed ++ load_names ++ [$"cmake_args"].
Definition gen_functions : list str := gen_removed ++ removed_names.

(** Its files. *)
Definition args_loc (t : term) : str := tmp_path (user_of t) $".bash_cmake_args_loc".
Definition saved_args (t : term) : str := tmp_path (user_of t) $".load_env_args".
Definition gen_paths (t : term) : list str := [args_loc t; saved_args t].

(** A shell in which a build can be configured: no environment is loaded,
    [python3] can be used, and four names are free. *)
Record gen_ready (which_python3 too_old : environ -> str) (t : term) : Prop := {
  gr_mode : dget $"LOAD_ENV_INTERACTIVE_MODE" (t_vars t) = None;
  gr_python : forall e, same_but gen_names (t_vars t) e -> which_python3 e <> [] /\ too_old e <> $"True";
  gr_user : unsplit (user_of t);
  gr_free : forall x, In x [$"cleanup_gc"; $"gen_config_helper"; $"cleanup"; $"env_file"] -> dget x (t_vars t) = None
}.

(** The shell [t'] after the script: variables, functions and files as said, but
    for the names of the scripts and the files [gone]. *)
Record gen_leaves (vars : environ) (funs files : dict str) (gone : list str) (t' : term) : Prop := {
  gl_vars : same_but gen_names vars (t_vars t');
  gl_unset : forall x, In x gen_removed -> dget x (t_vars t') = None;
  gl_funs : same_but gen_functions funs (t_funs t');
  gl_removed : dget $"cleanup_gc" (t_funs t') = None /\ dget $"gen_config_helper" (t_funs t') = None;
  gl_trap : t_trap t' = None;
  gl_files : same_but gone files (t_files t');
  gl_gone : forall p, In p gone -> dget p (t_files t') = None
}.

(** The command lines of [gen_config.py]. *)
Definition gen_command (here : str) (l : list str) : list str := [$"-E"; $"-s"; here ++ $"/gen_config.py"] ++ l.
Definition save_options (t : term) : list str := [$"--save-load-env-args"; saved_args t].

(** [python3], started in the shell [t] with these arguments and files, ends with
    the status [r] and leaves the files [fs']; the names of the scripts do not
    matter to it. *)
Definition ends (python3 : list str -> environ -> dict str -> N * dict str) (t : term) (line : list str) (fs : dict str)
    (r : N) (fs' : dict str) : Prop :=
  forall e, same_but gen_names (t_vars t) e -> python3 line e fs = (r, fs').

(** The program that [python3] runs with this command line is [main]. *)
Definition is_gen_config (python3 : list str -> environ -> dict str -> N * dict str) (line : list str)
    (main : dict str -> res unit * gworld) : Prop :=
  forall e files,
    python3 line e files = (match fst (main files) with Ok _ => 0%N | Err _ => 1%N end, v_out (snd (main files))).
