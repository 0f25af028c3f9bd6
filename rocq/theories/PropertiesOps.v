(** * C18: known operations.

    Statements and examples only. [dashed], [bound_method], [identifiers],
    [only_methods] and [has_handler] are in [SpecOps.v]. *)
From Coq Require Import String NArith ZArith List Bool.
Import ListNotations.
From Verif Require Import PyBase PyFacts Shlex IniView IniRead ExcControl Cpe SpecText SpecFile SpecShell SpecWalk SpecRun SpecParse SpecOps Samples OpsProofs.
Local Open Scope string_scope.
Local Open Scope list_scope.

(** What is listed: the operations, other than the two hooks, that have a bound
    method under their public or private handler name. *)
Theorem C18_listed : forall Sh Us (K : pyclass Sh Us), identifiers K -> forall w,
  In (dashed w) (known_operations K) <->
  undash w <> $"initialize" /\ undash w <> $"finalize" /\
  (bound_method K (public_name (undash w)) \/ bound_method K (private_name (undash w))).
Proof. exact (@known_iff). Qed.
Print Assumptions C18_listed.
(** When every handler attribute is a method, these are the operations that
    have a handler. *)
Theorem C18_listed_iff_handled : forall Sh Us (K : pyclass Sh Us), identifiers K -> only_methods K -> forall w,
  undash w <> $"initialize" -> undash w <> $"finalize" ->
  (In (dashed w) (known_operations K) <-> has_handler K (undash w)).
Proof. exact (@known_handled). Qed.
Print Assumptions C18_listed_iff_handled.
(** So after a parse an option of a contributing section is missing from the
    data exactly if its operation is listed. *)
Theorem C18_listed_iff_not_stored :
  forall Sh Us (K : pyclass Sh Us) fs i, identifiers K -> only_methods K ->
  forall fuel s init fin (o : obj Sh Us) v o' t items k0 v0 key w ps,
  has_file fs o i -> level_ok o -> options_of o s = [] ->
  parse_section_str K fs fuel s init fin o = (Ok v, o') ->
  contributes K i (o_defname o) s init t -> section_shows i t items -> In (k0, Ok v0) items ->
  trimmed space k0 key -> words key (w :: ps) -> op_shaped (k_uniword K) w ->
  undash w <> $"initialize" -> undash w <> $"finalize" ->
  (In (dashed w) (known_operations K) <-> ~ In key (dkeys (options_of o' s))).
Proof. exact (@known_not_stored). Qed.
Print Assumptions C18_listed_iff_not_stored.

Lemma note_methods : identifiers note_class /\ only_methods note_class.
Proof.
  assert (H : forall n a, find_attr note_class n = Some a ->
    n = $"handler_note" \/ n = $"_handler_use" \/ n = $"handler_finalize" \/ n = $"handler_initialize").
  { intros n a. unfold find_attr, note_class, base_attrs. cbn [k_over dget].
    destruct (str_eqb_spec n $"handler_note"); auto. destruct (str_eqb_spec n $"_handler_use"); auto.
    destruct (str_eqb_spec n $"handler_finalize"); auto. destruct (str_eqb_spec n $"handler_initialize"); auto. discriminate. }
  split.
  - intros n E. destruct (find_attr note_class n) as [a|] eqn:A; [|congruence]. apply H in A.
    destruct A as [->|[->|[->| ->]]]; vm_compute; intuition discriminate.
  - intros op n _ E. unfold has_attr in E. destruct (find_attr note_class n) as [a|] eqn:A; [|congruence].
    apply H in A. destruct A as [->|[->|[->| ->]]]; unfold bound_method;
      ((left; reflexivity) || (right; eexists; left; reflexivity)).
Qed.
Example C18_ex :
  known_operations note_class = [$"use"; $"note"] /\
  (let o := snd (parse_section_str note_class (disk ["[A]"; "note 7 : x"; "no-te : y"; "use B"; "[B]"; "b"]) 9 $"A" true true (fresh tt)) in
   options_of o $"A" = [($"no-te", Some $"y"); ($"b", None)]) /\
  fst (get_known_operations note_class (disk ["[A]"]) (fresh tt)) = Ok [$"use"; $"note"].
Proof. cbv zeta. computed. Qed.

(** Without this hypothesis the list and the dispatch differ: a callable that
    is not a bound method is run though it is not listed, and an operation is
    listed though its attribute is not callable. *)
Theorem C18_every_attribute_refuted :
  exists (K : pyclass unit unit) d, identifiers K /\
    ~ In $"stat" (known_operations K) /\ In $"obj" (known_operations K) /\
    (exists o, parse_section_str K (disk d) 9 $"A" true true (fresh tt) = (Ok tt, o) /\ options_of o $"A" = []) /\
    fst (parse_section_str K (disk d) 9 $"B" true true (at_level 2 (fresh tt))) = Err TypeError.
Proof.
  exists (PyClass [($"handler_stat", AUser Static noop_body); ($"handler_obj", AObj);
                   ($"_handler_obj", AUser Decorated noop_body)] tt no_uni), ["[A]"; "stat x"; "[B]"; "obj"].
  split; [|split; [|split; [|split]]].
  - intros n. unfold find_attr, base_attrs. cbn [k_over dget].
    repeat match goal with |- context [str_eqb_spec ?a ?b] => fail | |- context [if str_eqb n ?b then _ else _] =>
      destruct (str_eqb_spec n b) as [->|]; [intros _; vm_compute; intuition discriminate|] end.
    intros X. congruence.
  - vm_compute. intuition discriminate.
  - vm_compute. intuition.
  - eexists. split; [vm_compute; reflexivity|]. vm_compute. reflexivity.
  - vm_compute. reflexivity.
Qed.
Print Assumptions C18_every_attribute_refuted.

(** The two hooks are never listed, although options with these operations are
    dispatched to them. *)
Theorem C18_hooks_not_listed : forall Sh Us (K : pyclass Sh Us),
  ~ In $"initialize" (known_operations K) /\ ~ In $"finalize" (known_operations K).
Proof. exact (@hooks_not_known). Qed.
Print Assumptions C18_hooks_not_listed.
Example C18_hooks_swallowed_ex :
  let o := snd (parse_section_str base (disk ["[A]"; "initialize x : 1"; "finalize"; "b"]) 9 $"A" true true (fresh tt : obj unit unit)) in
  options_of o $"A" = [($"b", None)].
Proof. cbv zeta. computed. Qed.

(** [get_known_operations] returns that list, whenever the file loads. *)
Theorem C18_returned : forall Sh Us (K : pyclass Sh Us) fs (o : obj Sh Us) r,
  fst (get_known_operations K fs o) = Ok r -> r = known_operations K.
Proof. exact (@known_returned). Qed.
Print Assumptions C18_returned.
Theorem C18_available : forall Sh Us (K : pyclass Sh Us) fs (o : obj Sh Us) i fl,
  has_file fs o i -> o_files o = Some fl -> fl <> [] ->
  fst (get_known_operations K fs o) = Ok (known_operations K).
Proof. exact (@known_available). Qed.
Print Assumptions C18_available.

(** The words that can be operations: letters, digits, underscores and dashes,
    at least one; a newline at the end is overlooked. *)
Theorem C18_operation_words : forall Sh Us (K : pyclass Sh Us) s, op_word K s = true <->
  exists x e, s = x ++ e /\ x <> [] /\ Forall (fun c => op_char K c = true) x /\ (e = [] \/ e = [10%N]).
Proof. exact (@op_word_spec). Qed.
Print Assumptions C18_operation_words.
Theorem C18_operation_characters : forall Sh Us (K : pyclass Sh Us) c, op_char K c = true <->
  (97 <= c <= 122 \/ 65 <= c <= 90 \/ 48 <= c <= 57 \/ c = 95 \/ c = 45)%N \/ (128 <= c)%N /\ k_uniword K c = true.
Proof. exact (@op_char_spec). Qed.
Print Assumptions C18_operation_characters.
Example C18_operation_words_ex :
  op_word base $"opt-set_2" = true /\ op_word base ($"use" ++ newline) = true /\ op_word base $"a.b" = false /\
  op_word base [] = false.
Proof. computed. Qed.
