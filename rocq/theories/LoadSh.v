(** * [wip/loadenv/load-env.sh].

    Line numbers refer to that file. The script is transcribed command by command.
    Of bash there is: variables (all of them are seen by the programs that are
    started), functions (a name and a text), the handler of the three signals, the
    files, and the list of the programs that were started. Paths are compared as
    they are written, relative ones belong to the current directory. Output on the
    console is not modelled, and no signal arrives while the script runs. The
    script of the environment does not redefine [cleanup]. Word splitting is that
    of [Bash.v]. *)
From Coq Require Import String NArith List Bool.
Import ListNotations.
From Verif Require Import PyBase EnvVar SetEnv Bash Debuggable.
Local Open Scope sm_scope.

Record term := Term {
  t_vars : environ;
  t_funs : dict str;
  t_trap : option str;             (** for SIGHUP, SIGINT and SIGTERM *)
  t_files : dict str;
  t_calls : list (list str)        (** programs and their arguments, in order *)
}.
Definition sh := SM term.

(** A failing expansion: bash drops the command line it was given at the prompt. *)
Definition Abandoned : exc := UserExc 2%N.

Definition value (x : str) (t : term) : str := value_or_empty (dget x (t_vars t)).
Definition set_vars (f : environ -> environ) : sh unit :=
  modify (fun t => Term (f (t_vars t)) (t_funs t) (t_trap t) (t_files t) (t_calls t)).
Definition set_funs (f : dict str -> dict str) : sh unit :=
  modify (fun t => Term (t_vars t) (f (t_funs t)) (t_trap t) (t_files t) (t_calls t)).
Definition set_trap (h : option str) : sh unit :=
  modify (fun t => Term (t_vars t) (t_funs t) h (t_files t) (t_calls t)).
Definition set_files (f : dict str -> dict str) : sh unit :=
  modify (fun t => Term (t_vars t) (t_funs t) (t_trap t) (f (t_files t)) (t_calls t)).
Definition started (words : list str) : sh unit :=
  modify (fun t => Term (t_vars t) (t_funs t) (t_trap t) (t_files t) (t_calls t ++ [words])).

(** [x=v] *)
Definition let_var (x v : str) : sh unit := set_vars (dset x v).
(** [unset x ...]: the variable; the function, if there is no such variable. *)
Fixpoint unset_names (l : list str) : sh unit :=
  match l with
  | [] => ret tt
  | x :: l' =>
      t <- get ;;
      (if dmem x (t_vars t) then set_vars (ddel x) else set_funs (ddel x)) ;;
      unset_names l'
  end.
(** [${x::-2}]: nothing if there is no such variable. *)
Definition but_two (x : str) : sh str :=
  t <- get ;;
  match dget x (t_vars t) with
  | None => ret []
  | Some s => if Nat.ltb (length s) 2 then raise Abandoned else ret (firstn (length s - 2) s)
  end.
(** The number written in decimal. *)
Definition number (s : str) : N := fold_left (fun n c => 10 * n + (c - 48))%N s 0%N.
Definition is_number (s : str) : bool :=
  negb (empty_str s) && forallb (fun c => (48 <=? c) && (c <=? 57))%N s.
Definition newline_ended (s : str) : str := s ++ newline.

Section LoadSh.
(** Pathname expansion. *)
Variable glob : str -> list str.
(** [[ ... ]] with two or more words where one is expected, and [return] with an
    argument that is not a number. *)
Variable odd_test : list str -> bool.
Variable odd_status : str -> N.
(** [$(which python3)], and [$(python3 -c 'import sys; ...')] of line 53. *)
Variable which_python3 too_old : environ -> str.
(** A run of [python3]: its exit status and the files after it. *)
Variable python3 : list str -> environ -> dict str -> N * dict str.
(** An interactive [/bin/bash]: the files after it. *)
Variable interactive : list str -> environ -> dict str -> dict str.
(** Executing the text of a file, or the body of a function, in the current shell. *)
Variable run_text run_function : str -> sh unit.
(** The directory of the script, and [$RANDOM]. *)
Variable here random : str.

Definition words (w : list piece) : list str := fields glob w.

(** [[ -f w ]] *)
Definition is_file (w : list piece) (t : term) : bool :=
  match words w with
  | [] => true
  | [p] => dmem p (t_files t)
  | l => odd_test ($"-f" :: l)
  end.
(** [[ ! -z w ]] *)
Definition not_empty (w : list piece) : bool :=
  match words w with
  | [] => false
  | [p] => negb (empty_str p)
  | l => odd_test ($"!" :: $"-z" :: l)
  end.
(** [rm -f w] *)
Definition rm (w : list piece) : sh unit := set_files (fun fs => fold_left (fun d p => ddel p d) (words w) fs).
(** [return $v] at the end of a function, after a command that succeeded. *)
Definition status_of (v : str) : N :=
  match words [U v] with
  | [] => 0%N
  | [w] => if is_number w then (number w mod 256)%N else odd_status v
  | _ => odd_status v
  end.
(** [> w], [>> w] *)
Definition write (w : list piece) (text : str) : sh unit :=
  match words w with [p] => set_files (dset p text) | _ => ret tt end.
Definition append (w : list piece) (text : str) : sh unit :=
  match words w with
  | [p] => set_files (fun fs => dset p (value_or_empty (dget p fs) ++ text) fs)
  | _ => ret tt
  end.
(** [$(cat w)] *)
Definition cat (w : list piece) (t : term) : str :=
  chomp (flat_map (fun p => value_or_empty (dget p (t_files t))) (words w)).
(** [python3 ...] *)
Definition python (l : list str) : sh N :=
  t <- get ;;
  let (r, fs) := python3 l (t_vars t) (t_files t) in
  started ($"python3" :: l) ;; set_files (fun _ => fs) ;; ret r.
(** [source w]: a missing file is reported. *)
Definition source (w : list piece) : sh unit :=
  t <- get ;;
  match words w with
  | p :: _ => match dget p (t_files t) with Some text => run_text text | None => ret tt end
  | [] => ret tt
  end.

(** [cleanup], 31-41. *)
Definition tmp (user name : str) : list piece := [Q ($"/tmp/"); U user; Q ($"/" ++ name)].
Definition rm_if (w : list piece) : sh unit := t <- get ;; if is_file w t then rm w else ret tt.
Definition cleanup : sh N :=
  t <- get ;;
  let ret_val := value $"ret" t in
  let user := value $"USER" t in
  let env_file := value $"env_file" t in
  rm_if (tmp user $".load_matching_env_loc") ;;
  rm_if (tmp user $".ci_mode") ;;
  (if not_empty [U env_file] then rm [U env_file] else ret tt) ;;
  stem <- but_two $"env_file" ;;
  rm [U stem; Q $"rc"] ;;
  unset_names [$"python_too_old"; $"script_dir"; $"ci_mode"; $"cleanup"; $"env_file"; $"ret"] ;;
  set_trap None ;;
  ret (status_of ret_val).
(** [cleanup; return 1] *)
Definition give_up : sh N := cleanup ;; ret 1%N.

(** The text of [${env_file_rc}], 103-118; the words of the last line are not
    expanded as patterns here. *)
Definition stars : str := $"echo ""********************************************************************************""".
Definition helper_line : str :=
  $"declare -f -F gen_config_helper >/dev/null && [ $? -eq 0 ] && gen_config_helper || true".
Definition rc_text (env_file : str) (ci : bool) : str :=
  flat_map newline_ended
    ([$"source " ++ env_file; $"echo; echo; echo"; stars;
      $"echo ""           E N V I R O N M E N T  L O A D E D  S U C E S S F U L L Y"""; stars] ++
     (if ci then [] else
      [$"echo; echo; echo"; stars;
       $"echo ""          T Y P E  ""exit""  T O  L E A V E  T H E  E N V I R O N M E N T"""; stars;
       $"export PS1=""($LOADED_ENV_NAME) $ """; $"export LOAD_ENV_INTERACTIVE_MODE=""True"""]) ++
     [helper_line]).
(** [source ${env_file_rc}], 123, where the file has the text above: the lines
    with [source] and with the function; the others print. *)
Definition source_rc (env_file : str) : sh unit :=
  source [U env_file] ;;
  t <- get ;;
  match dget $"gen_config_helper" (t_funs t) with Some body => run_function body | None => ret tt end.

(** 83-131. *)
Definition enter (args : list str) : sh N :=
  (if contains $"--ci-mode" (join $" " args) then let_var $"ci_mode" $"1" else let_var $"ci_mode" $"0") ;;
  t <- get ;;
  let loc := value $"load_matching_env_loc" t in
  let ci := contains $"--ci-mode" (join $" " args) in
  if is_file [U loc] t then
    let_var $"env_file" (cat [U loc] t) ;;
    stem <- but_two $"env_file" ;;
    let_var $"env_file_rc" (stem ++ $"rc") ;;
    let_var $"run_gen_config_helper_cmd" helper_line ;;
    t <- get ;;
    let env_file := value $"env_file" t in
    let rc := value $"env_file_rc" t in
    if is_file [U env_file] t then
      write [U rc] (rc_text env_file ci) ;;
      (if ci then
         t <- get ;;
         if is_file [U rc] t then source_rc env_file else ret tt
       else
         started ([$"/bin/bash"; $"--init-file"] ++ words [U rc] ++ [$"-i"]) ;;
         t <- get ;;
         set_files (interactive (words [U rc]) (t_vars t))) ;;
      cleanup
    else give_up
  else cleanup.

(** 1-133; [sourced]: whether the script is sourced, [args]: its arguments. The
    result is the status of the command [source]. *)
Definition load_env_sh (sourced : bool) (args : list str) : sh N :=
  if negb sourced then raise ScriptExit else
  t <- get ;;
  if not_empty [U (value $"LOAD_ENV_INTERACTIVE_MODE" t)] then ret 1%N else
  set_funs (dset $"cleanup" $"load-env.sh: cleanup") ;;
  set_trap (Some $"cleanup; return 1") ;;
  t <- get ;;
  if empty_str (which_python3 (t_vars t)) then give_up else
  let_var $"python_too_old" (too_old (t_vars t)) ;;
  if str_eqb (too_old (t_vars t)) $"True" then give_up else
  let_var $"script_dir" here ;;
  match args with
  | [] => python ([$"-E"; $"-s"] ++ words [U here; Q $"/load_env.py"] ++ [$"--help"]) ;; give_up
  | _ =>
      let_var $"load_matching_env_loc" ($".load_matching_env_loc." ++ random) ;;
      r <- python ([$"-E"; $"-s"] ++ words [U here; Q $"/load_env.py"] ++
                   [$"--load-matching-env-location"] ++ words [U ($".load_matching_env_loc." ++ random)] ++
                   flat_map (fun a => words [U a]) args) ;;
      let_var $"ret" (dec_of_N r) ;;
      if negb (N.eqb r 0) then cleanup else enter args
  end.
End LoadSh.
