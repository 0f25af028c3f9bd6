(** * Proofs about the top-level files (C69): outcomes. *)
From Coq Require Import String NArith ZArith List Bool Lia Arith.
Import ListNotations.
From Verif Require Import PyBase PyFacts EnvVar EnvProofs Shlex IniView IniRead ExcControl Debuggable Cpe
  SpecBase SpecWalk SpecRun SpecParse SpecApi BaseProofs Refine RefineRoot RefineOk RunProofs Trace WalkProofs
  ParseProofs ParseProofs2 ParseProofs3 ParseProofs4 ApiProofs ApiProofs2 ApiProofs3 ApiProofs4 ApiProofs5 ApiProofs6
  Samples TopLevel SpecTop TopProofs TopProofs2.
Local Open Scope sm_scope.

(** ** The keys of a section, one after the other *)
Section Keys.
Variables (ini : str) (root : str) (dir : list str) (name : str).
Hypothesis DI : denotes ini (Path root (dir ++ [name])).
Variable there : path -> bool.

Fixpoint ksteps (d : dict (option str)) (ks : list str) : res unit * dict (option str) :=
  match ks with
  | [] => (Ok tt, d)
  | k :: ks' =>
      match key_step ini d k with
      | (Ok _, d1) =>
          match dget k d1 with
          | Some (Some w) => if there (mk_path w) then ksteps d1 ks' else (Err ValueError, d1)
          | _ => (Err TypeError, d1)
          end
      | (Err e, d1) => (Err e, d1)
      end
  end.

(** What a value becomes. *)
Definition final (v : str) : str := if is_absolute (mk_path v) then v else path_str (place ini v).
Lemma final_path v : mk_path (final v) = place ini v.
Proof.
  unfold final. destruct (is_absolute (mk_path v)) eqn:E.
  - rewrite (place_eq ini root dir name DI), E. reflexivity.
  - now apply (place_denotes ini root dir name DI).
Qed.
Lemma key_step_value d k v : value_of d k v ->
  exists d1, key_step ini d k = (Ok tt, d1) /\ dkeys d1 = dkeys d /\
    (forall j, dget j d1 = if str_eqb j k then Some (Some (final v)) else dget j d).
Proof.
  intros [E N]. unfold key_step, final. rewrite E. destruct v as [|c v]; [congruence|].
  destruct (is_absolute (mk_path (c :: v))).
  - exists d. split; [reflexivity|]. split; [reflexivity|].
    intros j. destruct (str_eqb_spec j k) as [->|_]; auto.
  - eexists. split; [reflexivity|]. split; [|intros j; apply dget_dset].
    apply dkeys_dset_mem. apply dget_Some_In in E. now apply (in_map fst) in E.
Qed.
Lemma key_step_none d k : (forall v, ~ value_of d k v) -> key_step ini d k = (Err ValueError, d).
Proof.
  intros N. unfold key_step. destruct (dget k d) as [[[|c v]|]|] eqn:E; auto.
  exfalso. apply (N (c :: v)). split; auto. discriminate.
Qed.
Lemma value_dec d k : {v | value_of d k v} + {forall v, ~ value_of d k v}.
Proof.
  unfold value_of. destruct (dget k d) as [[[|c v]|]|].
  - right. intros v [E N]. congruence.
  - left. exists (c :: v). split; [reflexivity|discriminate].
  - right. intros v [E _]. discriminate.
  - right. intros v [E _]. discriminate.
Qed.
Lemma names_iff d k : names_a_file there ini d k <-> exists v, value_of d k v /\ there (place ini v) = true.
Proof.
  unfold names_a_file. split.
  - intros (v & p & A & B & C). apply (located_iff ini root dir name DI) in B. subst p. eauto.
  - intros (v & A & B). exists v, (place ini v). split; auto. split; auto. now apply (located_iff ini root dir name DI).
Qed.
Lemma value_same d d1 k : dget k d1 = dget k d -> forall v, value_of d1 k v -> value_of d k v.
Proof. intros E v. unfold value_of. now rewrite E. Qed.

Theorem ksteps_spec ks : NoDup ks -> forall d,
  let (r, d') := ksteps d ks in
  (r = Ok tt /\ (forall k, In k ks -> names_a_file there ini d k) /\ completed ini ks d d') \/
  (r = Err ValueError /\ exists k, In k ks /\ ~ names_a_file there ini d k).
Proof.
  induction 1 as [|k ks NI ND IH]; intros d; cbn [ksteps].
  - left. split; auto. split; [intros ? []|]. split; auto. split; auto. intros ? [].
  - destruct (value_dec d k) as [[v V]|NV].
    + destruct (key_step_value d k v V) as (d1 & E & KD & G). rewrite E, G, str_eqb_refl, final_path.
      destruct (there (place ini v)) eqn:T.
      * specialize (IH d1). destruct (ksteps d1 ks) as [r d'].
        assert (S : forall j, In j ks -> dget j d1 = dget j d).
        { intros j I. rewrite G. destruct (str_eqb_spec j k) as [->|_]; [contradiction|auto]. }
        destruct IH as [(-> & A & C)|(-> & j & I & A)].
        -- left. split; auto. split.
           { intros j [<-|I]; [apply names_iff; exists v; auto|]. specialize (A j I). rewrite names_iff in A. rewrite names_iff.
             destruct A as (w & A & B). exists w. split; auto. revert A. apply value_same. auto. }
           destruct C as (C1 & C2 & C3). split; [congruence|]. split.
           ++ intros j N. rewrite C2 by (intros X; apply N; now right). rewrite G.
              destruct (str_eqb_spec j k) as [->|_]; auto. exfalso. apply N. now left.
           ++ intros j [<-|I].
              ** exists v, (final v), (place ini v). split; auto. split; [now apply (located_iff ini root dir name DI)|].
                 split; [rewrite C2 by auto; rewrite G, str_eqb_refl; reflexivity|].
                 split; [apply denotes_iff; symmetry; apply final_path|].
                 intros S'. unfold final. now rewrite (proj2 (absolute_iff v) S').
              ** destruct (C3 j I) as (w & x & p & X1 & X2). exists w, x, p. split; auto.
                 revert X1. apply value_same. auto.
        -- right. split; auto. exists j. split; [now right|]. intros X. apply A. rewrite names_iff in *.
           destruct X as (w & X & Y). exists w. split; auto. revert X. apply value_same. symmetry. auto.
      * right. split; auto. exists k. split; [now left|]. rewrite names_iff. intros (w & [W _] & Y).
        destruct V as [V _]. congruence.
    + rewrite key_step_none by auto. right. split; auto. exists k. split; [now left|].
      intros (v & p & V & _). exact (NV v V).
Qed.

(** Once completed from an absolute file name, nothing more happens. *)
Theorem ksteps_again ks d : root <> [] -> forall d',
  (forall k, In k ks -> names_a_file there ini d k) -> completed ini ks d d' -> ksteps d' ks = (Ok tt, d').
Proof.
  intros R d' A (_ & _ & C).
  assert (X : forall k, In k ks -> exists c w, dget k d' = Some (Some (c :: w)) /\
     is_absolute (mk_path (c :: w)) = true /\ there (mk_path (c :: w)) = true).
  { intros k I. destruct (C k I) as (v & w & p & V & L & G & D & _). apply denotes_iff in D.
    apply (located_iff ini root dir name DI) in L. subst p.
    assert (AB : is_absolute (mk_path w) = true) by (rewrite <- D; now apply (place_absolute ini root dir name DI)).
    destruct w as [|c w]; [discriminate|]. exists c, w. split; auto. split; auto.
    rewrite <- D. destruct (proj1 (names_iff _ _) (A k I)) as (v' & [V' _] & T). destruct V as [V _]. congruence. }
  clear C A. induction ks as [|k ks IH]; auto. cbn [ksteps]. unfold key_step.
  destruct (X k (or_introl eq_refl)) as (c & w & E & AB & T). rewrite E, AB, E, T.
  apply IH. intros j I. apply X. now right.
Qed.
End Keys.

(** With every file there, only the values count. *)
Lemma names_true ini root dir name d k : denotes ini (Path root (dir ++ [name])) ->
  names_a_file (fun _ => true) ini d k <-> exists v, value_of d k v.
Proof.
  intros DI. rewrite (names_iff ini root dir name DI). split; intros (v & V).
  - exists v. apply V.
  - exists v. auto.
Qed.
