(** * C41-C44: the operations on environment variables.

    Statements and examples only. *)
From Coq Require Import String NArith ZArith List Bool.
Import ListNotations.
From Verif Require Import PyBase PyFacts EnvVar SpecEnv EnvProofs Samples.
Local Open Scope string_scope.
Local Open Scope list_scope.

(** A small environment, and a system without programs. *)
Definition sample_env : environ :=
  [($"PATH", $"/bin:/usr/bin:/bin"); ($"HOME", $"/u/$PATH"); ($"EMPTY", $"")].
Definition no_programs : environ -> str -> option str := fun _ _ => None.

(** ** C41 *)

(** An operation does to its variable what [effect] says, changes no other
    variable, and returns 0; it raises only for [assert_not_empty] of a variable
    that is not set or empty, and for operations that do not exist. *)
Theorem C41_operation :
  forall which e name value op, valid_name name -> no_null value -> clean_env e -> clean_which which ->
    match envvar_op which op name value true e with
    | (Ok z, e') => z = 0%Z /\ effect which e name value op (dget name e') /\ same_but name e e' /\ clean_env e'
    | (Err x, e') => x = ValueError /\ e' = e /\
        ((op = $"assert_not_empty" /\ (dget name e = None \/ dget name e = Some [])) \/ ~ In op documented_ops)
    end.
Proof. exact op_effect. Qed.
Print Assumptions C41_operation.

(** [effect] allows one result. *)
Theorem C41_effect_is_unique :
  forall which e name value op new new',
    effect which e name value op new -> effect which e name value op new' -> new = new'.
Proof. exact effect_det. Qed.
Print Assumptions C41_effect_is_unique.

(** Whatever the arguments, an exception leaves the environment as it was. *)
Theorem C41_errors_change_nothing :
  forall which op name value allow_empty e x e',
    envvar_op which op name value allow_empty e = (Err x, e') -> e' = e.
Proof. exact op_errors_change_nothing. Qed.
Print Assumptions C41_errors_change_nothing.

Example C41_ex :
  valid_name $"PATH" /\ no_null $"/bin" /\ clean_env sample_env /\ clean_which no_programs /\
  envvar_op no_programs $"remove_path_entry" $"PATH" $"/bin" true sample_env =
    (Ok 0%Z, [($"PATH", $"/usr/bin"); ($"HOME", $"/u/$PATH"); ($"EMPTY", $"")]) /\
  envvar_op no_programs $"remove_substr" $"PATH" $"bin:" true sample_env =
    (Ok 0%Z, [($"PATH", $"//usr//bin"); ($"HOME", $"/u/$PATH"); ($"EMPTY", $"")]) /\
  envvar_op no_programs $"assert_not_empty" $"EMPTY" $"" true sample_env = (Err ValueError, sample_env).
Proof.
  assert (Z : forall s : str, char_mem 0%N s = false -> no_null s)
    by (intros s H X; apply char_mem_In in X; congruence).
  split; [split; [discriminate|]; split; intros X; apply char_mem_In in X; discriminate|].
  split; [apply Z; reflexivity|]. split.
  - intros n v D. unfold sample_env in D. cbn [dget] in D.
    repeat match type of D with context [if ?b then _ else _] => destruct b end; inversion D; apply Z; reflexivity.
  - split; [discriminate|]. computed.
Qed.

(** ** C42 *)

(** Every text has one expansion; [set] stores it. *)
Theorem C42_one_expansion : forall e s, exists! t, expands e s t.
Proof. exact one_expansion. Qed.
Print Assumptions C42_one_expansion.

Theorem C42_set_stores_the_expansion :
  forall which e name value t, valid_name name -> no_null value -> clean_env e -> clean_which which ->
    expands e value t ->
    exists e', envvar_op which $"set" name value true e = (Ok 0%Z, e') /\ dget name e' = Some t.
Proof. exact stored_expanded. Qed.
Print Assumptions C42_set_stores_the_expansion.

(** A reference gives the value of the variable itself: what looks like a
    reference in that value is not expanded again. *)
Theorem C42_references_in_values_stay :
  forall e n v, dget n e = Some v ->
    ((n <> [] /\ Forall word_char n) -> expands e ($"$" ++ n) v) /\
    (~ In 125%N n -> expands e ($"${" ++ n ++ $"}") v).
Proof. exact reference_once. Qed.
Print Assumptions C42_references_in_values_stay.

(** Text without ["$"] is its own expansion. *)
Theorem C42_plain_text : forall e s, ~ In 36%N s -> expands e s s.
Proof. exact expands_id. Qed.
Print Assumptions C42_plain_text.

Example C42_ex :
  fst (envvar_op no_programs $"set" $"X" $"$HOME/${EMPTY}$UNSET$/" true sample_env) = Ok 0%Z /\
  dget $"X" (snd (envvar_op no_programs $"set" $"X" $"$HOME/${EMPTY}$UNSET$/" true sample_env)) =
    Some $"/u/$PATH/$UNSET$/" /\
  expands sample_env $"$HOME/${EMPTY}$UNSET$/" $"/u/$PATH/$UNSET$/".
Proof. split; [computed|]. split; [computed|]. apply expandvars_spec. computed. Qed.

(** ** C43 *)

(** Adding an entry that is not in a path variable and removing it again
    restores the variable; one that was not set is left empty. *)
Theorem C43_add_then_remove :
  forall which e name v op, valid_name name -> no_null v -> clean_env e -> clean_which which ->
    ~ In 36%N v -> ~ In 58%N v -> op = $"append" \/ op = $"prepend" ->
    (forall old l, dget name e = Some old -> entries l old -> ~ In v l) ->
    exists e1 e2, envvar_op which op name v true e = (Ok 0%Z, e1) /\
      envvar_op which $"remove_path_entry" name v true e1 = (Ok 0%Z, e2) /\ same_but name e e2 /\
      dget name e2 = Some (match dget name e with Some old => old | None => [] end).
Proof. exact added_then_removed. Qed.
Print Assumptions C43_add_then_remove.

(** It is not so for entries that are there already, entries of several parts,
    and for a variable that was not set. *)
Theorem C43_undo_refuted :
  exists name v e, valid_name name /\ no_null v /\ ~ In 36%N v /\ ~ In 58%N v /\
    exists e1 e2, envvar_op no_programs $"prepend" name v true e = (Ok 0%Z, e1) /\
      envvar_op no_programs $"remove_path_entry" name v true e1 = (Ok 0%Z, e2) /\ dget name e2 <> dget name e.
Proof.
  exists $"PATH", $"/bin", sample_env.
  split; [split; [discriminate|]; split; intros X; apply char_mem_In in X; discriminate|].
  split; [intros X; apply char_mem_In in X; discriminate|].
  split; [intros X; apply char_mem_In in X; discriminate|].
  split; [intros X; apply char_mem_In in X; discriminate|].
  do 2 eexists. split; [vm_compute; reflexivity|]. split; [vm_compute; reflexivity|]. vm_compute. discriminate.
Qed.
Print Assumptions C43_undo_refuted.

Example C43_ex :
  (forall old l, dget $"PATH" sample_env = Some old -> entries l old -> ~ In $"/opt" l) /\
  envvar_op no_programs $"append" $"PATH" $"/opt" true sample_env =
    (Ok 0%Z, [($"PATH", $"/bin:/usr/bin:/bin:/opt"); ($"HOME", $"/u/$PATH"); ($"EMPTY", $"")]) /\
  envvar_op no_programs $"remove_path_entry" $"PATH" $"/opt" true
    [($"PATH", $"/bin:/usr/bin:/bin:/opt"); ($"HOME", $"/u/$PATH"); ($"EMPTY", $"")] = (Ok 0%Z, sample_env).
Proof.
  split; [|computed]. intros old l D E X. apply entries_det in E.
  assert (O : old = $"/bin:/usr/bin:/bin") by (vm_compute in D |- *; congruence). subst old l.
  apply str_mem_In in X. vm_compute in X. discriminate.
Qed.

(** ** C44 *)

(** With [allow_empty=False] no operation leaves its variable empty. *)
Theorem C44_never_empty :
  forall which op name value e z e',
    envvar_op which op name value false e = (Ok z, e') -> dget name e' <> Some [].
Proof. exact never_empty. Qed.
Print Assumptions C44_never_empty.

(** An empty value is refused for every operation, also those that use none. *)
Theorem C44_empty_value_refused :
  forall which op name e, envvar_op which op name [] false e = (Err ValueError, e).
Proof. exact empty_refused. Qed.
Print Assumptions C44_empty_value_refused.

Example C44_ex :
  envvar_op no_programs $"remove_path_entry" $"X" $"a" false [($"X", $"a:a")] = (Err ValueError, [($"X", $"a:a")]) /\
  envvar_op no_programs $"set" $"X" $"$EMPTY" false sample_env = (Err ValueError, sample_env) /\
  fst (envvar_op no_programs $"set" $"X" $"b" false sample_env) = Ok 0%Z /\
  envvar_op no_programs $"unset" $"X" $"" false sample_env = (Err ValueError, sample_env).
Proof. computed. Qed.
