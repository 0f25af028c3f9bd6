(** * Proofs about the top-level files (C69): checking and completing a section. *)
From Coq Require Import String NArith ZArith List Bool Lia Arith.
Import ListNotations.
From Verif Require Import PyBase PyFacts EnvVar EnvProofs Shlex IniView IniRead ExcControl Debuggable Cpe
  SpecBase SpecWalk SpecRun SpecParse SpecApi BaseProofs Refine RefineRoot RefineOk RunProofs Trace WalkProofs
  ParseProofs ParseProofs2 ParseProofs3 ParseProofs4 ApiProofs ApiProofs2 ApiProofs3 ApiProofs4 ApiProofs5 ApiProofs6
  TopLevel SpecTop TopProofs.
Local Open Scope sm_scope.

Section Run.
Variables (uniword : pychar -> bool) (fs : str -> option str) (fuel : nat) (i : ini).
Notation K := (base_class uniword).
Notation cpe := (obj unit unit).
Notation holds s d o := (holds fs i s d o).

(** Nothing that is known about a section is lost. *)
Definition same (o o' : cpe) : Prop := forall t dt, holds t dt o -> holds t dt o'.
Lemma same_trans o o1 o2 : same o o1 -> same o1 o2 -> same o o2.
Proof. intros A B t dt H. auto. Qed.

Lemma has_option_run s k d (o : cpe) : holds s d o ->
  exists o', has_option K fs fuel s k o = (Ok (dmem k d), o') /\ same o o'.
Proof.
  intros H. exists (snd (has_option K fs fuel s k o)). split.
  - rewrite (surjective_pairing (has_option K fs fuel s k o)) at 1. f_equal.
    destruct (holds_read K fs fuel i s d o H) as (_ & _ & X & _). apply X.
  - intros t dt X. exact (k_has_option K fs fuel _ _ _ (closed_holds K fs fuel i t dt) s k I o X).
Qed.
Lemma getitem_run s d (o : cpe) : holds s d o ->
  exists o', getitem K fs fuel s o = (Ok d, o') /\ same o o'.
Proof.
  intros H. exists (snd (getitem K fs fuel s o)). split.
  - rewrite (surjective_pairing (getitem K fs fuel s o)) at 1. f_equal.
    destruct (holds_read K fs fuel i s d o H) as (X & _). apply X.
  - intros t dt X. exact (k_getitem K fs fuel _ _ _ (closed_holds K fs fuel i t dt) s o X).
Qed.
Lemma has_section_run s d (o : cpe) : holds s d o ->
  exists o', has_section K fs fuel s o = (Ok true, o') /\ same o o'.
Proof.
  intros H. destruct (holds_section K fs fuel i s d o H) as (o' & E & _). exists o'. split; auto.
  intros t dt X. pose proof (k_has_section K fs fuel _ _ _ (closed_holds K fs fuel i t dt) s o X) as Y.
  now rewrite E in Y.
Qed.
Lemma get_item_run s k d (o : cpe) : holds s d o ->
  exists o', get_item uniword fs fuel s k o = (match dget k d with Some v => Ok v | None => Err KeyError end, o') /\ same o o'.
Proof.
  intros H. unfold get_item. rewrite bind_eq. destruct (getitem_run s d o H) as (o' & E & S). rewrite E.
  exists o'. split; auto. now destruct (dget k d).
Qed.
Lemma put_item_run s k v d (o : cpe) : holds s d o ->
  exists o', put_item uniword fs fuel s k v o = (Ok tt, o') /\ holds s (dset k (Some v) d) o' /\
    forall t dt, t <> s -> holds t dt o -> holds t dt o'.
Proof.
  intros H. unfold put_item. rewrite bind_eq. destruct (getitem_run s d o H) as (o1 & E & S1). rewrite E, bind_eq.
  pose proof (S1 s d H) as (A & B & C).
  destruct (get_edata_same o1) as (e & X1 & X2 & X3 & X4 & X5).
  destruct (get_edata o1) as [r o2] eqn:E2. cbn [fst snd] in *. subst r.
  unfold ed_put. unfold section_of in C. rewrite X2, C. unfold put_edata, modify.
  eexists. split; [reflexivity|].
  assert (HF : forall x, has_file fs (set_edata x o2) i).
  { intros x. subst o2. unfold has_file. rewrite <- A. now apply get_cpd_fst_ext. }
  assert (SEC : forall t, section_of (set_edata (Some (EData (dset s (dset k (Some v) d) (d_data e)) (d_checked e) (d_level e) (d_debug e))) o2) t
     = if str_eqb t s then Some (dset k (Some v) d) else section_of o1 t).
  { intros t. unfold section_of, data_of at 1. cbn. rewrite dget_dset. destruct (str_eqb t s); auto. now rewrite X2. }
  split.
  - split; [apply HF|]. split; [unfold checked_of; cbn; now rewrite X3|]. rewrite <- X2, SEC, str_eqb_refl. reflexivity.
  - intros t dt N Ht. destruct (S1 t dt Ht) as (A' & B' & C').
    split; [apply HF|]. split; [unfold checked_of; cbn; now rewrite X3|]. rewrite <- X2, SEC.
    apply str_eqb_neq in N. now rewrite N.
Qed.

Section Ini.
Variables (ini : str) (root : str) (dir : list str) (name : str).
Hypothesis DI : denotes ini (Path root (dir ++ [name])).

(** One key of a section at hand. *)
Definition key_step (d : dict (option str)) (k : str) : res unit * dict (option str) :=
  match dget k d with
  | Some (Some (c :: v)) =>
      if is_absolute (mk_path (c :: v)) then (Ok tt, d)
      else (Ok tt, dset k (Some (path_str (place ini (c :: v)))) d)
  | _ => (Err ValueError, d)
  end.
Lemma check_key_run s k d (o : cpe) : holds s d o ->
  exists o', check_key uniword fs fuel ini s k o = (fst (key_step d k), o') /\ holds s (snd (key_step d k)) o' /\
    forall t dt, t <> s -> holds t dt o -> holds t dt o'.
Proof.
  intros H. unfold check_key, key_step. rewrite bind_eq.
  destruct (has_option_run s k d o H) as (o1 & E1 & S1). rewrite E1. unfold dmem.
  destruct (dget k d) as [v|] eqn:D; cbn [negb].
  - rewrite bind_eq. destruct (get_item_run s k d o1 (S1 _ _ H)) as (o2 & E2 & S2). rewrite E2, D.
    assert (S : same o o2) by (eapply same_trans; eauto).
    destruct v as [[|c v]|].
    + exists o2. split; [reflexivity|]. split; [now apply S|]. auto.
    + destruct (is_absolute (mk_path (c :: v))).
      * exists o2. split; [reflexivity|]. split; [now apply S|]. auto.
      * destruct (put_item_run s k (path_str (place ini (c :: v))) d o2 (S _ _ H)) as (o3 & E3 & H3 & T3).
        exists o3. split; [exact E3|]. split; [exact H3|]. auto.
    + exists o2. split; [reflexivity|]. split; [now apply S|]. auto.
  - exists o1. split; [reflexivity|]. split; [now apply S1|]. auto.
Qed.
End Ini.
End Run.
