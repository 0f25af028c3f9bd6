(** * The options of a section do not depend on what its handlers are told. *)
From Coq Require Import String NArith ZArith List Bool Lia Arith.
Import ListNotations.
From Verif Require Import PyBase PyFacts Shlex IniView IniRead ExcControl Debuggable Cpe
  SpecText SpecFile SpecShell SpecWalk SpecRun SpecParse SpecApi BaseProofs Refine ReentrantProofs Reentrant SpecReentrant.

Section I.
Context {Sh Us : Type} (R : rclass (Sh := Sh)) (i : ini) (ex ex' : str -> dict (option str)).
Let K : pyclass Sh Us := told_class ex R.
Let K' : pyclass Sh Us := told_class ex' R.

Lemma has_told x : has_attr K x = None /\ has_attr K' x = None \/
  exists a, has_attr K x = Some (told_attr ex a) /\ has_attr K' x = Some (told_attr ex' a).
Proof.
  unfold has_attr, K, K'. rewrite !find_told.
  destruct (r_find_attr R x) as [a|]; [|left; auto].
  destruct a as [|k f| |]; cbn [option_map told_attr]; [right; exists RUse|right; exists (RUser k f)|left|right; exists RObj]; auto.
Qed.
Lemma handler_none_told op : handler_of K op None -> handler_of K' op None.
Proof.
  intros H. inversion H as [| | |A B]. destruct (has_told (public_name op)) as [[_ P]|(a & P & _)]; [|congruence].
  destruct (has_told (private_name op)) as [[_ Q]|(a & Q & _)]; [|congruence]. now apply ho_none.
Qed.
Lemma handler_told op name a amb : handler_of K op (Some (name, a, amb)) ->
  exists r, a = told_attr ex r /\ handler_of K' op (Some (name, told_attr ex' r, amb)).
Proof.
  intros H. inversion H as [a0 A B|a0 A B|a0 b0 A B|A B]; subst;
  destruct (has_told (public_name op)) as [[P P']|(p & P & P')]; try congruence;
  destruct (has_told (private_name op)) as [[Q Q']|(q & Q & Q')]; try congruence.
  - exists p. split; [congruence|]. now apply ho_public.
  - exists q. split; [congruence|]. now apply ho_private.
  - exists p. split; [congruence|]. eapply ho_both; eauto.
Qed.

Lemma meaning_told s item m : meaning K s item m -> exists m', meaning K' s item m' /\
  match m, m' with
  | MStep e, MStep e' => plain_of e' = plain_of e
  | MUse t h k v, MUse t' h' k' v' => t' = t /\ h' = h /\ k' = k /\ v' = v
  | _, _ => False
  end.
Proof.
  intros M. inversion M as [k0 e|k0 v0 k v T C W|k0 v0 k v T C W|k0 v0 k v w ps T C W O|k0 v0 k v w ps T C W O HO
    |k0 v0 k v w ps name kind f amb T C W O HO|k0 v0 k v w t ps name amb T C W O HO|k0 v0 k v w name amb T C W O HO|k0 v0 k v w ps name amb T C W O HO]; subst.
  - eexists. split; [apply m_value|reflexivity].
  - eexists. split; [apply m_key_err; eauto|reflexivity].
  - eexists. split; [eapply m_key_empty; eauto|reflexivity].
  - eexists. split; [exact (m_noword K' s k0 v0 k v w ps T C W O)|reflexivity].
  - eexists. split; [exact (m_plain K' s k0 v0 k v w ps T C W O (handler_none_told _ HO))|reflexivity].
  - destruct (handler_told _ _ _ _ HO) as ([|kd g| |] & E & H'); try discriminate E. cbn [told_attr] in *.
    eexists. split; [exact (m_user K' s k0 v0 k v w ps name kd _ amb T C W O H')|reflexivity].
  - destruct (handler_told _ _ _ _ HO) as ([|kd g| |] & E & H'); try discriminate E. cbn [told_attr] in *.
    eexists. split; [exact (m_use K' s k0 v0 k v w t ps name amb T C W O H')|cbn; auto].
  - destruct (handler_told _ _ _ _ HO) as ([|kd g| |] & E & H'); try discriminate E. cbn [told_attr] in *.
    eexists. split; [exact (m_use_bad K' s k0 v0 k v w name amb T C W O H')|reflexivity].
  - destruct (handler_told _ _ _ _ HO) as ([|kd g| |] & E & H'); try discriminate E. cbn [told_attr] in *.
    eexists. split; [exact (m_obj K' s k0 v0 k v w ps name amb T C W O H')|reflexivity].
Qed.

Ltac pl := unfold plains in *; repeat (cbn [flat_map plain_of app]; rewrite ?flat_map_app).
Lemma walk_told :
  (forall path s evs n, walk K i path s evs n -> exists evs', walk K' i path s evs' n /\ plains evs' = plains evs) /\
  (forall path s items evs n, walk_options K i path s items evs n ->
     exists evs', walk_options K' i path s items evs' n /\ plains evs' = plains evs).
Proof.
  apply walk_both_shown.
  - intros path s N. eexists. split; [now apply walk_missing|reflexivity].
  - intros path s items evs n SS _ (evs' & W & P). exists (Enter s :: evs' ++ [Leave s]).
    split; [eapply walk_section; eauto|]. pl. rewrite P. reflexivity.
  - intros path s. exists []. split; [constructor|reflexivity].
  - intros path s item rest e evs n M _ (evs' & W & P). destruct (meaning_told _ _ _ M) as (m' & M' & Q).
    destruct m' as [e'|]; [|contradiction]. exists (e' :: evs'). split; [eapply wo_step; eauto|]. pl. now rewrite Q, P.
  - intros path s item rest t h k v evs1 n1 evs2 n2 M N _ (e1 & W1 & P1) _ (e2 & W2 & P2).
    destruct (meaning_told _ _ _ M) as (m' & M' & Q). destruct m' as [|t' h' k' v']; [contradiction|]. destruct Q as (-> & -> & -> & ->).
    exists (UseIn s t h k v :: e1 ++ UseOut s t h k v :: e2). split; [eapply wo_use; eauto|].
    pl. now rewrite P1, P2.
  - intros path s item rest t h k v evs n M N _ (e1 & W1 & P1).
    destruct (meaning_told _ _ _ M) as (m' & M' & Q). destruct m' as [|t' h' k' v']; [contradiction|]. destruct Q as (-> & -> & -> & ->).
    exists (Cycle s t h k v :: e1). split; [eapply wo_cycle; eauto|]. pl. now rewrite P1.
Qed.
Lemma expansion_told_to dname s d : expansion K i dname s d -> expansion K' i dname s d.
Proof.
  intros (evs & n & W & ->).
  assert (DW : forall e0 n0, default_walk K i dname e0 n0 -> exists e0', default_walk K' i dname e0' n0 /\ plains e0' = plains e0).
  { intros e0 n0. unfold default_walk. destruct (ini_has_section i dname); [apply (proj1 walk_told)|].
    intros [-> ->]. exists []. auto. }
  inversion W as [e0 n0 D N|e0 n0 items e1 n1 D SS WO]; subst; destruct (DW _ _ D) as (e0' & D' & P0).
  - eexists _, _. split; [apply (pw_missing K' i dname s true true e0' n0); auto|]. f_equal.
    pl. now rewrite P0.
  - destruct (proj2 walk_told _ _ _ _ _ WO) as (e1' & WO' & P1).
    eexists _, _. split; [apply (pw_section K' i dname s true true e0' n0 items e1' n1); auto|]. f_equal.
    pl. now rewrite P0, P1.
Qed.
End I.
Lemma expansion_told {Sh Us} (R : rclass (Sh := Sh)) i (ex ex' : str -> dict (option str)) dname s d :
  expansion (told_class (Us := Us) ex R) i dname s d <-> expansion (told_class (Us := Us) ex' R) i dname s d.
Proof. split; apply expansion_told_to. Qed.
