(** * Terms of the statements about [load-env.sh]. *)
From Coq Require Import String NArith List Bool.
Import ListNotations.
From Verif Require Import PyBase SpecText EnvVar Bash SpecBash SpecGenRun LoadRun LoadSh.

(** The names that the script uses, and those that it removes at its end. *)
Definition removed_names : list str :=
  [$"python_too_old"; $"script_dir"; $"ci_mode"; $"cleanup"; $"env_file"; $"ret"].
Definition load_names : list str :=
  removed_names ++ [$"load_matching_env_loc"; $"env_file_rc"; $"run_gen_config_helper_cmd"].

(** The files that it always removes. *)
Definition tmp_path (user name : str) : str := $"/tmp/" ++ user ++ $"/" ++ name.
Definition user_of (t : term) : str := match dget $"USER" (t_vars t) with Some u => u | None => [] end.
Definition tmp_paths (t : term) : list str :=
  [tmp_path (user_of t) $".load_matching_env_loc"; tmp_path (user_of t) $".ci_mode"].

(** A shell in which an environment can be loaded: none is loaded, [python3] can
    be used, and two names of the script are free. *)
Record ready (which_python3 too_old : environ -> str) (t : term) : Prop := {
  rd_mode : dget $"LOAD_ENV_INTERACTIVE_MODE" (t_vars t) = None \/ dget $"LOAD_ENV_INTERACTIVE_MODE" (t_vars t) = Some [];
  rd_python : which_python3 (t_vars t) <> [] /\ too_old (t_vars t) <> $"True";
  rd_user : unsplit (user_of t);
  rd_cleanup : dget $"cleanup" (t_vars t) = None;
  rd_env_file : dget $"env_file" (t_vars t) = None
}.

(** The shell [t'] after the script: variables, functions and files as said, but
    for the names of the script and the files [gone]. *)
Record leaves (vars : environ) (funs files : dict str) (gone : list str) (t' : term) : Prop := {
  lv_vars : same_but load_names vars (t_vars t');
  lv_unset : forall x, In x removed_names -> dget x (t_vars t') = None;
  lv_funs : same_but removed_names funs (t_funs t');
  lv_cleanup : dget $"cleanup" (t_funs t') = None;
  lv_trap : t_trap t' = None;
  lv_files : same_but gone files (t_files t');
  lv_gone : forall p, In p gone -> dget p (t_files t') = None
}.

(** The command line of [load_env.py]. *)
Definition loc_file (random : str) : str := $".load_matching_env_loc." ++ random.
Definition load_command (here random : str) (args : list str) : list str :=
  [$"-E"; $"-s"; here ++ $"/load_env.py"; $"--load-matching-env-location"; loc_file random] ++ args.

(** The option is written in the arguments, as a part of any of them. *)
Definition mentions (o : str) (args : list str) : Prop := exists a b, join $" " args = a ++ o ++ b.
Definition asks_ci (args : list str) : Prop := mentions $"--ci-mode" args.

(** A script that [load_env.py] may have written. *)
Record script_file (env_file stem : str) : Prop := {
  sf_name : exists a b, env_file = stem ++ [a; b];
  sf_other : env_file <> stem ++ $"rc";
  sf_bare : bare_word env_file
}.

(** The shell [t2] in which the script of the environment is executed: that of
    the user, after the run of [load_env.py] that left the files [fs], but for the
    names of the script and the file [rc]. *)
Record prepared (t : term) (fs : dict str) (rc : str) (call : list str) (t2 : term) : Prop := {
  pr_vars : same_but load_names (t_vars t) (t_vars t2);
  pr_funs : same_but removed_names (t_funs t) (t_funs t2);
  pr_files : same_but [rc] fs (t_files t2);
  pr_calls : t_calls t2 = t_calls t ++ [call]
}.

(** What happens after the script of the environment: the function
    [gen_config_helper], if there is one. *)
Definition then_helper (run_function : str -> sh unit) (t t' : term) : Prop :=
  match dget $"gen_config_helper" (t_funs t) with
  | None => t' = t
  | Some body => run_function body t = (Ok tt, t')
  end.

(** The names of the script, and the user's name, have the values they had. *)
Definition keeps (l : list str) (e e' : environ) : Prop :=
  forall x, In x l \/ x = $"USER" -> dget x e' = dget x e.
Definition keeps_names (t t' : term) : Prop := keeps load_names (t_vars t) (t_vars t').

(** The program that [python3] runs with this command line is [main]: its files
    remain, and its status says whether it ended without an error. *)
Definition is_load_env (python3 : list str -> environ -> dict str -> N * dict str) (line : list str)
    (main : environ -> dict str -> res unit * lworld) : Prop :=
  forall e files,
    python3 line e files =
      (match fst (main e files) with Ok _ => 0%N | Err _ => 1%N end, r_out (snd (main e files))).

(** The shell executes a text that begins with this heading as [run_bash] does:
    the heading defines functions, but not [gen_config_helper]. *)
Definition is_bash (run_text : str -> sh unit) (heading : str) (run_bash : str -> environ -> res unit * environ) : Prop :=
  forall c t, exists f',
    run_text (heading ++ c) t =
      (fst (run_bash c (t_vars t)), Term (snd (run_bash c (t_vars t))) f' (t_trap t) (t_files t) (t_calls t)) /\
    dget $"gen_config_helper" f' = dget $"gen_config_helper" (t_funs t).
