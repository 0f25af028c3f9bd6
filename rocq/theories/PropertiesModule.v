(** * C65 and C66: the function [module] of [ModuleHelper].

    Statements and examples only. *)
From Coq Require Import String NArith ZArith List Bool.
Import ListNotations.
From Verif Require Import PyBase PyFacts EnvVar SetEnv SpecEnv SpecSetEnv ModuleHelper SpecModule SetEnvProofs2 ModuleProofs.
Local Open Scope string_scope.
Local Open Scope list_scope.

(** ** C65: the version that runs [modulecmd] *)

(** 0 is returned only if the program was found, ended with 0 and did not write
    [ERROR:], and its output was executed without an exception; the environment is
    what that leaves. *)
Theorem C65_zero_means_done :
  forall on_path in_function exists_on_path run exec_text exec_sets_locals c args e e',
    module_cmd on_path in_function exists_on_path run exec_text exec_sets_locals c args e = (Ok 0%Z, e') ->
    exists p out err st,
      is_modulecmd on_path in_function exists_on_path e p /\
      run (command_line p c args) e = Ok (out, err, 0%Z) /\
      ~ occurs_in $"ERROR:" err /\ exec_text out e = (Ok st, e') /\
      (st = StatusFalse -> exec_sets_locals = false).
Proof. exact module_zero. Qed.
Print Assumptions C65_zero_means_done.

(** The environment changes only when the program succeeded. *)
Theorem C65_changes_only_after_success :
  forall on_path in_function exists_on_path run exec_text exec_sets_locals c args e r e',
    module_cmd on_path in_function exists_on_path run exec_text exec_sets_locals c args e = (r, e') -> e' <> e ->
    exists p out err st,
      is_modulecmd on_path in_function exists_on_path e p /\
      run (command_line p c args) e = Ok (out, err, 0%Z) /\
      ~ occurs_in $"ERROR:" err /\ exec_text out e = (st, e').
Proof. exact module_changes. Qed.
Print Assumptions C65_changes_only_after_success.

(** A number other than 0 means that nothing has changed, unless the executed text
    has set [_mlstatus] to [False]. *)
Theorem C65_failure :
  forall on_path in_function exists_on_path run exec_text exec_sets_locals c args e z e',
    module_cmd on_path in_function exists_on_path run exec_text exec_sets_locals c args e = (Ok z, e') ->
    z <> 0%Z ->
    e' = e \/ z = 1%Z /\ exec_sets_locals = true /\ exists out, exec_text out e = (Ok StatusFalse, e').
Proof. exact module_failed. Qed.
Print Assumptions C65_failure.

(** The ways to fail: no program; [ERROR:] in its error output, whatever its exit
    code; an exit code, which is returned. *)
Theorem C65_not_found :
  forall on_path in_function exists_on_path run exec_text exec_sets_locals c args e,
    (forall p, ~ is_modulecmd on_path in_function exists_on_path e p) ->
    module_cmd on_path in_function exists_on_path run exec_text exec_sets_locals c args e = (Err IOError, e).
Proof. exact module_not_found. Qed.
Print Assumptions C65_not_found.

Theorem C65_error_text :
  forall on_path in_function exists_on_path run exec_text exec_sets_locals c args e p out err code,
    is_modulecmd on_path in_function exists_on_path e p ->
    run (command_line p c args) e = Ok (out, err, code) -> occurs_in $"ERROR:" err ->
    module_cmd on_path in_function exists_on_path run exec_text exec_sets_locals c args e = (Ok 1%Z, e).
Proof. exact module_error_text. Qed.
Print Assumptions C65_error_text.

Theorem C65_exit_code :
  forall on_path in_function exists_on_path run exec_text exec_sets_locals c args e p out err code,
    is_modulecmd on_path in_function exists_on_path e p ->
    run (command_line p c args) e = Ok (out, err, code) -> ~ occurs_in $"ERROR:" err -> code <> 0%Z ->
    module_cmd on_path in_function exists_on_path run exec_text exec_sets_locals c args e = (Ok code, e).
Proof. exact module_exit_code. Qed.
Print Assumptions C65_exit_code.

(** The command line: words as separate arguments or as one text give the same
    one. *)
Theorem C65_command_line :
  forall p c args l,
    args = l \/ args = [join $" " l] -> Forall word_text l ->
    command_line p c args = p :: $"python" :: command_words c ++ l.
Proof. exact command_line_words. Qed.
Print Assumptions C65_command_line.

Theorem C65_one_argument_or_many :
  forall on_path in_function exists_on_path run exec_text exec_sets_locals c l e,
    Forall word_text l ->
    module_cmd on_path in_function exists_on_path run exec_text exec_sets_locals c [join $" " l] e =
    module_cmd on_path in_function exists_on_path run exec_text exec_sets_locals c l e.
Proof. exact module_argument_words. Qed.
Print Assumptions C65_one_argument_or_many.

(** What it means for an action of [SetEnvironment] to be done (C48). *)
Theorem C65_load_action :
  forall on_path in_function exists_on_path run exec_text exec_sets_locals which n v e e',
    word_text n -> word_text v ->
    performs which (calls (module_cmd on_path in_function exists_on_path run exec_text exec_sets_locals))
      (AMod $"module_load" (Some n) (Some v)) e (Ok 0%Z) e' ->
    exists p out err st,
      is_modulecmd on_path in_function exists_on_path e p /\
      run [p; $"python"; $"load"; n ++ $"/" ++ v] e = Ok (out, err, 0%Z) /\
      ~ occurs_in $"ERROR:" err /\ exec_text out e = (Ok st, e').
Proof. exact load_done. Qed.
Print Assumptions C65_load_action.

(** A program that answers every command line with the given texts and code; its
    output, once executed, sets M. *)
Definition installed (_ : environ) : option str := Some $"/usr/bin/modulecmd".
Definition answers (err : str) (code : Z) (l : list str) (_ : environ) : res (str * str * Z) :=
  Ok (join $" " l, err, code).
Definition sets_m (st : mlstatus) (t : str) (e : environ) : res mlstatus * environ := (Ok st, dset $"M" t e).
Definition call1 (err : str) (code : Z) (st : mlstatus) (locals : bool) : list str -> environ -> res Z * environ :=
  fun args => module_cmd installed (fun _ => []) (fun _ _ => true) (answers err code) (sets_m st) locals
                (inl $"load") args.

(** 1 is returned, and the environment has changed. *)
Theorem C65_failure_changes_nothing_refuted :
  call1 [] 0 StatusFalse true [$"gcc"] [] = (Ok 1%Z, [($"M", $"/usr/bin/modulecmd python load gcc")]).
Proof. vm_compute. reflexivity. Qed.
Print Assumptions C65_failure_changes_nothing_refuted.

(** Where [exec] does not set the variables of the function (CPython 3.13), the
    same failure is returned as 0. *)
Theorem C65_status_false_is_failure_refuted :
  call1 [] 0 StatusFalse false [$"gcc"] [] = (Ok 0%Z, [($"M", $"/usr/bin/modulecmd python load gcc")]).
Proof. vm_compute. reflexivity. Qed.
Print Assumptions C65_status_false_is_failure_refuted.

Example C65_ex :
  call1 [] 0 StatusOther true [$" gcc  mpi "] [] = (Ok 0%Z, [($"M", $"/usr/bin/modulecmd python load gcc mpi")]) /\
  call1 [] 0 NoStatus true [$"a b"; $"c"] [] = (Ok 0%Z, [($"M", $"/usr/bin/modulecmd python load a b c")]) /\
  call1 $"ERROR: no" 0 NoStatus true [$"gcc"] [] = (Ok 1%Z, []) /\
  call1 $"error: no" 3 NoStatus true [$"gcc"] [] = (Ok 3%Z, []).
Proof. vm_compute. repeat split. Qed.
Example C65_ex_words : word_text $"gcc/9" /\ py_split $"a b" = [$"a"; $"b"].
Proof. split; [split; [discriminate|repeat constructor]|reflexivity]. Qed.

(** ** C66: the version for LMOD *)

(** 0 is returned exactly if LMOD_CMD is set and not empty, the command raised
    nothing and wrote no [error:] in any case, and the checks hold. *)
Theorem C66_zero_iff :
  forall lmod is_name_error is_loaded file_exists c args e e',
    lmod_module lmod is_name_error is_loaded file_exists c args e = (Ok 0%Z, e') <->
    (exists x, x <> [] /\ dget $"LMOD_CMD" e = Some x) /\
    exists out err, lmod (command_words c ++ args) e = (Ok (out, err), e') /\
      ~ occurs_in $"error:" (lower err) /\ checked is_loaded file_exists c args e'.
Proof. exact lmod_zero. Qed.
Print Assumptions C66_zero_iff.

(** All results; the environment is the one that the command leaves. *)
Theorem C66_results :
  forall lmod is_name_error is_loaded file_exists c args e r e',
    lmod_module lmod is_name_error is_loaded file_exists c args e = (r, e') ->
    (dget $"LMOD_CMD" e = None /\ r = Err TypeError /\ e' = e) \/
    (dget $"LMOD_CMD" e = Some [] /\ r = Err IOError /\ e' = e) \/
    (exists x, x <> [] /\ dget $"LMOD_CMD" e = Some x) /\
    match lmod (command_words c ++ args) e with
    | (Err x, e1) => r = Err (if is_name_error x then RuntimeError else x) /\ e' = e1
    | (Ok (_, err), e1) => e' = e1 /\
        ((r = Err IndexError /\ ~ checked is_loaded file_exists c args e1) \/
         (occurs_in $"error:" (lower err) /\ r = Ok 1%Z) \/
         (~ occurs_in $"error:" (lower err) /\ ~ checked is_loaded file_exists c args e1 /\ r = Ok 256%Z) \/
         (~ occurs_in $"error:" (lower err) /\ checked is_loaded file_exists c args e1 /\ r = Ok 0%Z))
    end.
Proof. exact lmod_cases. Qed.
Print Assumptions C66_results.

(** Modules are listed in M, one letter each; [load] adds its argument, everything
    else does nothing. *)
Definition with_lmod (m : str) : environ := [($"LMOD_CMD", $"/lmod"); ($"M", m)].
Definition adding (l : list str) (e : environ) : res (str * str) * environ :=
  match l, dget $"M" e with
  | [op; m], Some l => (Ok ([], []), if str_eqb op $"load" then dset $"M" (l ++ m) e else e)
  | _, _ => (Ok ([], $"Lmod has detected the following error: no"), e)
  end.
Definition listed (m : str) (e : environ) : Z :=
  match dget $"M" e with Some l => if contains m l then 0%Z else 1%Z | None => 1%Z end.
Definition call2 (c : command) (args : list str) (e : environ) : res Z * environ :=
  lmod_module adding (fun _ => false) listed (fun _ _ => 1%Z) c args e.

(** 0 from [unload] does not mean that the module is no longer loaded. *)
Theorem C66_unload_means_unloaded_refuted :
  call2 (inl $"unload") [$"a"] (with_lmod $"a") = (Ok 0%Z, with_lmod $"a") /\
  listed $"a" (with_lmod $"a") = 0%Z.
Proof. vm_compute. auto. Qed.
Print Assumptions C66_unload_means_unloaded_refuted.

Example C66_ex :
  call2 (inl $"load") [$"b"] (with_lmod $"a") = (Ok 0%Z, with_lmod $"ab") /\
  call2 (inr [$"load"; $"b"]) [] (with_lmod $"a") = (Ok 0%Z, with_lmod $"ab") /\
  call2 (inl $"use") [$"/x"] (with_lmod $"a") = (Ok 256%Z, with_lmod $"a") /\
  call2 (inl $"swap") [$"a"; $"b"] (with_lmod $"a") = (Ok 1%Z, with_lmod $"a") /\
  call2 (inl $"load") [] (with_lmod $"a") = (Err IndexError, with_lmod $"a") /\
  call2 (inl $"load") [$"b"] [] = (Err TypeError, []).
Proof. vm_compute. repeat split. Qed.
