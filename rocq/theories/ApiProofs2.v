(** * Histories of accessor calls. *)
From Coq Require Import String NArith ZArith List Bool Lia Arith ZifyBool.
Import ListNotations.
From Verif Require Import PyBase PyFacts Shlex IniView IniRead ExcControl Debuggable Cpe
  SpecBase SpecWalk SpecRun SpecParse SpecApi BaseProofs Refine RefineRoot RefineOk RunProofs Trace WalkProofs
  ParseProofs ParseProofs2 ParseProofs3 ApiProofs.
Local Open Scope sm_scope.

Section H.
Context {Sh Us : Type} (K : pyclass Sh Us) (fs : str -> option str) (i : ini) (dname : str) (fuel : nat).
Notation obj := (obj Sh Us).
Hypothesis WB : well_behaved K.
Hypothesis F : length (ini_sections i) + 3 <= fuel.
Hypothesis GP : all_parsable K i dname.
Let G (s : str) : Prop := ini_has_section i s = true.
Notation inv := (inv K fs i dname G True).
Notation goes := (goes K fs i dname G True).

Lemma parse_all_good files (o : obj) : inv files o ->
  exists o', parse_all_sections K fs fuel o = (Ok tt, o') /\ goes files o o'.
Proof.
  intros V. unfold parse_all_sections. rewrite bind_eq.
  destruct (sections_good K fs i dname fuel WB F G True GP (fun s H => H) _ (PBool true) _ V) as (o1 & E1 & G1).
  rewrite E1. exists o1. split; [reflexivity|auto].
Qed.

Lemma exec_op_good files c (o : obj) : inv files o -> in_file K i dname c ->
  answers K i dname (level_of o) c (fst (exec_op K fs fuel c o)) /\ inv files (snd (exec_op K fs fuel c o)) /\
  (match c with OLevel z => level_of (snd (exec_op K fs fuel c o)) = Z.min 5 (Z.max 0 z)
              | _ => level_of (snd (exec_op K fs fuel c o)) = level_of o end).
Proof.
  intros V IN.
  assert (Q : forall o', goes files o o' -> inv files o' /\ level_of o' = level_of o).
  { intros o' [A B _]. auto. }
  destruct c; cbn [exec_op in_file] in *; unfold fmap; rewrite bind_eq.
  - destruct (parse_good K fs i dname fuel WB F G True GP _ s _ V IN) as (v & o' & E & GO & _). rewrite E.
    cbn. split; [constructor|auto].
  - destruct (parse_all_good _ _ V) as (o' & E & GO). rewrite E. cbn. split; [constructor|auto].
  - destruct (expansion_exists K i dname s) as (d & X).
    destruct (getitem_good K fs i dname fuel WB F G True GP _ s _ d V IN X) as (o' & E & GO & _). rewrite E.
    cbn. split; [now constructor|auto].
  - destruct (expansion_exists K i dname s) as (d & X). unfold data_options.
    destruct (getitem_good K fs i dname fuel WB F G True GP _ s _ d V IN X) as (o' & E & GO & _). rewrite E.
    cbn. split; [now constructor|auto].
  - destruct (expansion_exists K i dname s) as (d & X).
    destruct (data_get_good K fs i dname fuel WB F G True GP _ s k _ d V IN X) as (o' & E & GO). rewrite E.
    destruct k as [k|]; [destruct (dget k d) eqn:D|]; cbn; (split; [|now apply Q]).
    + eapply a_get_opt; eauto.
    + eapply a_get_no_opt; eauto.
    + now constructor.
  - destruct (has_section_good K fs i dname fuel WB F G True GP _ s _ V IN) as (o' & E & GO & _). rewrite E.
    cbn. split; [constructor|auto].
  - destruct (expansion_exists K i dname s) as (d & X).
    destruct (has_option_good K fs i dname fuel WB F G True GP _ s k _ d V IN X) as (o' & E & GO & _). rewrite E.
    cbn. split; [now constructor|auto].
  - destruct (items_good K fs i dname fuel WB F G True GP (fun s H => H) I _ _ V) as (l & o' & E & GO & A & B & N).
    rewrite E. cbn. split; [now constructor|auto].
  - destruct (expansion_exists K i dname s) as (d & X).
    destruct (items_of_good K fs i dname fuel WB F G True GP _ s _ d V IN X) as (o' & E & GO). rewrite E.
    cbn. split; [now constructor|auto].
  - destruct (sections_good K fs i dname fuel WB F G True GP (fun s H => H) _ p _ V) as (o' & E & GO). rewrite E.
    destruct p as [b|x|]; [|destruct (str_eqb_spec (lower x) $"force")|]; cbn; (split; [now constructor|auto]).
  - destruct (data_keys_good K fs i dname G True _ _ V) as (o' & E & GO). rewrite E.
    cbn. split; [constructor|auto].
  - unfold data_len. rewrite bind_eq.
    destruct (data_keys_good K fs i dname G True _ _ V) as (o' & E & GO). rewrite E.
    cbn. split; [constructor|auto].
  - destruct (expansion_exists K i dname s) as (d & X).
    destruct (assert_section_good K fs i dname fuel WB F G True GP _ s do_raise _ d V IN X) as (r & o' & E & GO & A & B).
    rewrite E. destruct d as [|kv d].
    + rewrite A by auto. cbn. split; [now constructor|auto].
    + specialize (B ltac:(discriminate)). destruct (do_raise && (3 <=? level_of o)%Z) eqn:C.
      * subst r. apply andb_true_iff in C as [-> C]. cbn. split; [|auto].
        eapply a_unhandled_raise; eauto; [discriminate|lia].
      * destruct B as (m & -> & L). cbn. split; [|auto]. eapply a_unhandled; eauto; [discriminate|].
        apply andb_false_iff in C as [C|C]; auto. right. lia.
  - destruct (assert_file_good K fs i dname fuel WB F G True GP (fun s H => H) _ _ V) as (r & o' & E & GO & R).
    rewrite E. destruct R as [[A ->]|[(s & d & A & B & C) ->]].
    + cbn. split; [now constructor|auto].
    + destruct (3 <=? level_of o)%Z eqn:L; cbn; (split; [|auto]).
      * eapply a_file_raise; eauto. lia.
      * eapply a_file_unhandled; eauto. lia.
  - destruct (unroll_good K fs i dname fuel WB F G True GP _ s spaces _ V) as (t & o' & E & GO & R).
    { destruct s; auto. }
    rewrite E. destruct s as [s|].
    + destruct R as (d & X & ->). cbn. split; [now constructor|auto].
    + destruct R as (sd & A & B & ->). cbn. split; [now constructor|auto].
  - destruct (known_good K fs i dname G True _ _ V) as (o' & E & GO). rewrite E. cbn. split; [constructor|auto].
  - unfold set_level, modify, ret. cbn [fst snd]. split; [constructor|].
    replace (ec_set_level z (o_ec o)) with (ec_set_level (Z.min 5 (Z.max 0 z)) (o_ec o)).
    2:{ unfold ec_set_level. f_equal. lia. }
    split.
    + apply (inv_level K fs i dname fuel F G True); auto; [lia|]. destruct IN as [IN|IN]; [left; lia|right; auto].
    + unfold level_of, ec_set_level. cbn. lia.
  - unfold set_debug_level, modify, ret. cbn [fst snd]. split; [constructor|].
    split; [|reflexivity]. apply (inv_ext K fs i dname G True files o); auto.
    unfold has_file. rewrite <- (iv_file _ _ _ _ _ _ _ _ V). now apply get_cpd_fst_ext.
Qed.

Lemma opened_inv (o : obj) : opened K fs i dname o -> exists files, inv files o.
Proof.
  intros [A B C D E Fd]. unfold path_set_of in B. destruct (o_files o) as [files|] eqn:FI; [|discriminate].
  exists files.
  assert (DO : data_of o = []) by (unfold data_of; now rewrite Fd).
  constructor; auto.
  - intros s _. unfold checked_of. rewrite Fd. discriminate.
  - intros s _ _. unfold options_of, section_of. now rewrite DO.
  - intros _ _ s d _. unfold section_of. rewrite DO. discriminate.
  - rewrite DO. constructor.
Qed.

Lemma after_inv files h : forall o : obj, inv files o -> Forall (in_file K i dname) h ->
  inv files (after K fs fuel h o).
Proof.
  induction h as [|c h IH]; intros o V FA; cbn [after]; auto.
  inversion FA; subst. apply IH; auto. now apply exec_op_good.
Qed.

Theorem history_answers h c (o : obj) : opened K fs i dname o -> Forall (in_file K i dname) h ->
  in_file K i dname c ->
  answers K i dname (level_of (after K fs fuel h o)) c (fst (exec_op K fs fuel c (after K fs fuel h o))).
Proof.
  intros O FA IN. destruct (opened_inv o O) as (files & V).
  apply (exec_op_good files); auto. now apply after_inv.
Qed.

Lemma after_level files h : forall o : obj, inv files o -> Forall (in_file K i dname) h ->
  level_of (after K fs fuel h o) = last_level h (level_of o).
Proof.
  induction h as [|c h IH]; intros o V FA; cbn [after]; auto.
  inversion FA as [|? ? I1 I2]; subst. destruct (exec_op_good _ c _ V I1) as (_ & V1 & L).
  rewrite IH by auto. destruct c; cbn [last_level]; now rewrite L.
Qed.
Theorem history_level h (o : obj) : opened K fs i dname o -> Forall (in_file K i dname) h ->
  level_of (after K fs fuel h o) = last_level h (level_of o).
Proof. intros O FA. destruct (opened_inv o O) as (files & V). eapply after_level; eauto. Qed.

(** Same question, same answer. *)
Lemma answers_unique lvl c r r' : answers K i dname lvl c r -> answers K i dname lvl c r' ->
  same_answer i c r r'.
Proof.
  pose proof (expansion_unique K i dname) as U.
  intros A B. unfold same_answer. destruct A; inversion B; subst; auto;
    try (f_equal; f_equal; eauto; fail);
    try congruence;
    try (match goal with X : expansion _ _ _ ?s ?d, Y : expansion _ _ _ ?s ?d' |- _ =>
           assert (d = d') by eauto; subst end; (congruence || auto || lia)).
  - do 2 eexists. split; [reflexivity|]. split; [reflexivity|]. intros s HS.
    destruct (H s HS) as (d & X & ->). match goal with H : forall s, _ -> exists d, _ /\ dget s l0 = _ |- _ => destruct (H s HS) as (d' & X' & ->) end.
    f_equal. eauto.
  - exfalso. match goal with N : ?d <> [], X : expansion _ _ _ ?s ?d |- _ => apply N; eauto end.
  - exfalso. match goal with N : ?d <> [], X : expansion _ _ _ ?s ?d |- _ => apply N; eauto end.
  - exfalso. match goal with N : ?d <> [], X : expansion _ _ _ ?s ?d |- _ => apply N; eauto end.
  - lia.
  - exfalso. match goal with N : ?d <> [], X : expansion _ _ _ ?s ?d |- _ => apply N; eauto end.
  - lia.
  - assert (l = l0) as ->; auto. rename H into M1. rename H0 into F1.
    match goal with M2 : map fst l0 = _, F2 : Forall _ l0 |- _ => rename M2 into M2', F2 into F2' end.
    rewrite <- M2' in M1. clear - M1 F1 F2' U. revert l0 M1 F2'.
    induction l as [|[a x] l IH]; intros [|[b y] l0] M F2; try discriminate; auto.
    cbn in M. injection M as -> M. inversion F1; subst. inversion F2; subst. cbn [fst snd] in *.
    f_equal; [f_equal; eauto|]. apply IH; auto.
Qed.

Theorem history_irrelevant h h' c (o : obj) : opened K fs i dname o ->
  Forall (in_file K i dname) h -> Forall (in_file K i dname) h' -> in_file K i dname c ->
  last_level h (level_of o) = last_level h' (level_of o) ->
  let r := fst (exec_op K fs fuel c (after K fs fuel h o)) in
  let r' := fst (exec_op K fs fuel c (after K fs fuel h' o)) in
  same_answer i c r r'.
Proof.
  intros O FA FA' IN L r r'. apply (answers_unique (level_of (after K fs fuel h o))).
  - now apply history_answers.
  - rewrite history_level, L, <- (history_level h') by auto. now apply history_answers.
Qed.
End H.
