(** * [wip/setenvironment/src/setenvironment/ModuleHelper.py]: the two versions of
    [module(command, *arguments)].

    Line numbers refer to that file. Console output is not modelled. *)
From Coq Require Import String NArith ZArith List Bool.
Import ListNotations.
From Verif Require Import PyBase EnvVar SetEnv.
Local Open Scope sm_scope.

(** [s.split()]: the runs of characters that are not white space. *)
Fixpoint split_blanks (s : str) (cur : str) : list str :=
  match s with
  | [] => match cur with [] => [] | _ => [cur] end
  | c :: s' =>
      if is_space c then match cur with [] => split_blanks s' [] | _ => cur :: split_blanks s' [] end
      else split_blanks s' (cur ++ [c])
  end.
Definition py_split (s : str) : list str := split_blanks s [].

(** [command] is a text or a list of texts (97-112, 240-243). *)
Definition command := (str + list str)%type.
Definition command_words (c : command) : list str :=
  match c with inl w => [w] | inr l => l end.

(** ** The version that runs [modulecmd], 174-315 *)

(** The local variable [_mlstatus] after the text has been executed: not set, equal
    to [False], or another value. *)
Inductive mlstatus := NoStatus | StatusFalse | StatusOther.

Section Modulecmd.
(** [distutils.spawn.find_executable] or [shutil.which] for [modulecmd] (196-202). *)
Variable on_path : environ -> option str.
(** The paths that the regular expression finds in the output of [type module]
    (219-222), and [shutil.which] for such a path (230). *)
Variable in_function : environ -> list str.
Variable exists_on_path : environ -> str -> bool.
(** The command line, executed in the environment (254-260): output, error output
    and return code, or the exception that [Popen] or the decoding raises. *)
Variable run : list str -> environ -> res (str * str * Z).
(** [exec(output)] (278): the environment can change even if it raises. *)
Variable exec_text : str -> environ -> res mlstatus * environ.
(** Whether variables set by [exec] in a function are seen by [locals()]: true up
    to CPython 3.12, false from 3.13 on. *)
Variable exec_sets_locals : bool.

(** Lines 196-236. A [TypeError] for a missing code (312-313) cannot happen after
    [communicate]. [FileNotFoundError] is an [OSError]. *)
Definition find_modulecmd : SM environ str := fun e =>
  match on_path e with
  | Some p => (Ok p, e)
  | None =>
      match in_function e with
      | [p] => if exists_on_path e p then (Ok p, e) else (Err IOError, e)
      | _ => (Err IOError, e)
      end
  end.

(** Lines 238-248. *)
Definition command_line (modulecmd : str) (c : command) (args : list str) : list str :=
  [modulecmd; $"python"] ++ command_words c ++
  match args with
  | [a] => py_split a
  | _ => args
  end.

(** Lines 250-315. *)
Definition module_cmd (c : command) (args : list str) : SM environ Z :=
  p <- find_modulecmd ;;
  e <- get ;;
  x <- of_res (run (command_line p c args) e) ;;
  let '(output, stderr, code) := x in
  if contains $"ERROR:" stderr then ret 1%Z
  else if negb (code =? 0)%Z then ret code
  else
    st <- exec_text output ;;
    ret match st with
        | StatusFalse => if exec_sets_locals then 1%Z else 0%Z
        | _ => 0%Z
        end.
End Modulecmd.

(** ** The version for LMOD, 55-172 *)

Section Lmod.
(** [env_modules_python.module(...)] with its captured output: the texts, or an
    exception; it changes the environment of the process. *)
Variable lmod : list str -> environ -> res (str * str) * environ.
Variable is_name_error : exc -> bool.
(** The status of the commands [module is-loaded TEXT] and [[ -e TEXT ]] in a
    shell started by [os.system]; the text is pasted into the command line. *)
Variable is_loaded file_exists : str -> environ -> Z.

(** Exit statuses of [A && B || C], and of [true] and [false], in a shell. *)
Definition and_or (a b c : Z) : Z :=
  let ab := if (a =? 0)%Z then b else a in
  if (ab =? 0)%Z then ab else c.
Definition sh_true : Z := 0%Z.
Definition sh_false : Z := 1%Z.
(** [os.system] gives the wait status: 256 times the exit status. *)
Definition wait_status (z : Z) : Z := (256 * z)%Z.

(** The three commands, 137-139. *)
Inductive check := Loaded (t : str) | Unloaded (t : str) | File (t : str).
Definition os_system (c : check) (e : environ) : Z :=
  wait_status
    match c with
    | Loaded t => and_or (is_loaded t e) sh_true sh_false
    | Unloaded t => and_or (is_loaded t e) sh_false sh_true
    | File t => and_or (file_exists t e) sh_true sh_false
    end.

Definition nth_or_raise (n : nat) (l : list str) : SM environ str :=
  match nth_error l n with Some x => ret x | None => raise IndexError end.

(** Lines 134-149. *)
Definition checks (c : command) (args : list str) : SM environ (list check) :=
  match command_words c with
  | [] => raise IndexError
  | op :: more =>
      let a := more ++ args in
      if str_eqb op $"load" then x <- nth_or_raise 0 a ;; ret [Loaded x]
      else if str_eqb op $"unload" then x <- nth_or_raise 0 a ;; ret [Unloaded x]
      else if str_eqb op $"swap" then
        x <- nth_or_raise 0 a ;; y <- nth_or_raise 1 a ;; ret [Unloaded x; Loaded y]
      else if str_eqb op $"use" then x <- nth_or_raise 0 a ;; ret [File x]
      else ret []
  end.

(** Lines 154-162: the status of the first check that fails. *)
Fixpoint run_checks (l : list check) (e : environ) : Z :=
  match l with
  | [] => 0%Z
  | c :: l' => if (os_system c e =? 0)%Z then run_checks l' e else os_system c e
  end.

(** Lines 75-172. *)
Definition lmod_module (c : command) (args : list str) : SM environ Z :=
  e <- get ;;
  match dget $"LMOD_CMD" e with
  | None => raise TypeError                              (* len(None), 86-87 *)
  | Some [] => raise IOError                             (* FileNotFoundError *)
  | Some _ =>
      x <- (fun e0 => match lmod (command_words c ++ args) e0 with
                      | (Ok x, e1) => (Ok x, e1)
                      | (Err er, e1) => (Err (if is_name_error er then RuntimeError else er), e1)
                      end) ;;
      let stderr_ok := negb (contains $"error:" (lower (snd x))) in
      l <- checks c args ;;
      e1 <- get ;;
      let status := run_checks l e1 in
      if stderr_ok && negb (status =? 0)%Z then ret status
      else ret (if stderr_ok then 0%Z else 1%Z)
  end.
End Lmod.

(** The calls [module(...)] that [SetEnvironment] makes: a command and arguments,
    all texts. *)
Definition calls (module : command -> list str -> SM environ Z) (l : list str) : SM environ Z :=
  match l with
  | c :: args => module (inl c) args
  | [] => raise TypeError
  end.
