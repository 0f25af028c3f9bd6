(** * Proofs of C36: direct writes to the enhanced data. *)
From Coq Require Import String NArith ZArith List Bool Lia Arith ZifyBool.
Import ListNotations.
From Verif Require Import PyBase PyFacts Shlex IniView IniRead ExcControl Debuggable Cpe
  SpecBase SpecWalk SpecRun SpecParse SpecApi BaseProofs Refine RefineRoot RefineOk RunProofs Trace WalkProofs
  ParseProofs ParseProofs2 ParseProofs3 ParseProofs4 ApiProofs ApiProofs2 ApiProofs3 ApiProofs4 ApiProofs5.
Local Open Scope sm_scope.

Section P6.
Context {Sh Us : Type} (K : pyclass Sh Us) (fs : str -> option str) (fuel : nat).
Notation obj := (obj Sh Us).
Notation owner := (parse_owner (owner_parse K fs fuel)).
Notation parse s := (parse_section_str K fs fuel s true true).

Theorem add_section_law s force (o : obj) :
  let '(r, o') := data_add_section s force o in
  r = Ok tt /\ section_of o' s = Some (if force then [] else options_of o s) /\
  (forall t, t <> s -> section_of o' t = section_of o t) /\
  checked_of o' = checked_of o /\ conf o' = conf o /\ o_cpd o' = o_cpd o.
Proof.
  unfold data_add_section. rewrite bind_eq. destruct (get_edata_same o) as (d & X1 & X2 & X3 & X4 & X5).
  destruct (get_edata o) as [r o1]. cbn [fst snd] in *. subst r o1. unfold put_edata, modify.
  split; [reflexivity|].
  assert (S : forall t, section_of (set_edata (Some (ed_add_section s force d)) (set_edata (Some d) o)) t =
    if str_eqb t s then Some (if force then [] else options_of o s) else section_of o t).
  { intros t. unfold options_of, section_of, data_of at 1. cbn. rewrite <- X2. unfold ed_add_section, dmem.
    destruct force; cbn [orb].
    - cbn. rewrite dget_dset. destruct (str_eqb t s); auto.
    - destruct (dget s (d_data d)) as [x|] eqn:E; cbn.
      + destruct (str_eqb_spec t s) as [->|_]; auto.
      + rewrite dget_dset. destruct (str_eqb t s); auto. }
  split; [rewrite S, str_eqb_refl; reflexivity|]. split.
  { intros t N. rewrite S. apply str_eqb_neq in N. now rewrite N. }
  split; [|split; reflexivity]. unfold checked_of at 1. cbn. rewrite <- X3.
  unfold ed_add_section. destruct (force || negb (dmem s (d_data d))); reflexivity.
Qed.

Theorem has_section_no_parse_law s (o : obj) :
  let '(r, o') := has_section_no_parse s o in
  r = Ok (match section_of o s with Some _ => true | None => false end) /\
  data_of o' = data_of o /\ checked_of o' = checked_of o /\ conf o' = conf o /\ o_cpd o' = o_cpd o.
Proof.
  unfold has_section_no_parse. rewrite bind_eq. destruct (get_edata_same o) as (d & X1 & X2 & X3 & X4 & X5).
  destruct (get_edata o) as [r o1]. cbn [fst snd] in *. subst r o1.
  unfold ret. split; [unfold dmem, section_of; now rewrite X2|].
  split; [exact X2|]. split; [exact X3|]. split; reflexivity.
Qed.

Lemma has_section_state i s (o : obj) b o1 : has_file fs o i -> has_section K fs fuel s o = (Ok b, o1) ->
  has_file fs o1 i /\ (ini_has_section i s = true -> str_mem s (checked_of o1) = true) /\ b = dmem s (data_of o1).
Proof.
  intros H E. unfold has_section, data_has_section in E. rewrite bind_eq, (get_cpd_ready fs i o H) in E.
  set (o0 := set_cpd (Some i) o) in *. assert (H0 : has_file fs o0 i) by reflexivity. clearbody o0. clear H o.
  apply bind_Ok in E as ([] & o2 & E2 & E).
  assert (M : has_file fs o2 i /\ (ini_has_section i s = true -> str_mem s (checked_of o2) = true)).
  { destruct (ini_has_section i s); [|inversion E2; subst; split; [auto|discriminate]].
    apply bind_Ok in E2 as (d & o3 & E3 & E2). destruct (get_edata_same o0) as (d' & X1 & X2 & X3 & X4 & X5).
    rewrite E3 in *. cbn [fst snd] in *. inversion X1; subst d'. clear X1.
    assert (H3 : has_file fs o3 i) by (subst o3; unfold has_file; rewrite <- H0; now apply get_cpd_fst_ext).
    destruct (str_mem s (d_checked d)) eqn:M.
    - inversion E2; subst o2. split; auto. intros _. unfold checked_of. now rewrite X4.
    - pose proof (owner_mark K fs fuel i s s false (str_mem s (checked_of o3)) o3 (conj H3 eq_refl)) as [A B].
      rewrite E2 in *. cbn [snd] in *. split; auto. intros _. rewrite B, str_eqb_refl. apply orb_true_r. }
  destruct M as [M1 M2].
  apply bind_Ok in E as (d & o3 & E3 & E). destruct (get_edata_same o2) as (d' & X1 & X2 & X3 & X4 & X5).
  rewrite E3 in *. cbn [fst snd] in *. inversion X1; subst d'. inversion E; subst o1 b.
  split; [subst o3; unfold has_file; rewrite <- M1; now apply get_cpd_fst_ext|].
  split; [unfold checked_of at 1; rewrite X4, X3; auto|]. unfold data_of. now rewrite X4.
Qed.

Theorem set_law s k v (o : obj) :
  let '(r, o1) := has_section K fs fuel s o in
  match r with
  | Err e => data_set_user K fs fuel s k v o = (Err e, o1)
  | Ok _ => exists o2, data_set_user K fs fuel s k v o = (Ok tt, o2) /\
      section_of o2 s = Some (dset k v (options_of o1 s)) /\
      (forall t, t <> s -> section_of o2 t = section_of o1 t) /\
      (forall t j, lookup o2 t j = if str_eqb t s && str_eqb j k then Some v else lookup o1 t j) /\
      checked_of o2 = checked_of o1 /\ conf o2 = conf o1 /\ o_cpd o2 = o_cpd o1
  end.
Proof.
  unfold data_set_user, data_set. rewrite bind_eq. fold (has_section K fs fuel s).
  destruct (has_section K fs fuel s o) as [[b|e] o1] eqn:E; [|reflexivity].
  assert (B : b = dmem s (data_of o1)).
  { unfold has_section, data_has_section in E. apply bind_Ok in E as (i & o2 & E2 & E).
    apply bind_Ok in E as ([] & o3 & E3 & E). apply bind_Ok in E as (d & o4 & E4 & E).
    destruct (get_edata_same o3) as (d' & X1 & X2 & X3 & X4 & X5).
    rewrite E4 in *. cbn [fst snd] in *. inversion X1; subst d'. inversion E; subst.
    unfold data_of at 1. rewrite X4. reflexivity. }
  rewrite bind_eq.
  assert (A : exists o2, (if b then ret tt else data_add_section s false) o1 = (Ok tt, o2) /\
     section_of o2 s = Some (options_of o1 s) /\ (forall t, t <> s -> section_of o2 t = section_of o1 t) /\
     checked_of o2 = checked_of o1 /\ conf o2 = conf o1 /\ o_cpd o2 = o_cpd o1).
  { destruct b.
    - exists o1. split; [reflexivity|]. split; [|auto]. unfold options_of, section_of. unfold dmem in B.
      destruct (dget s (data_of o1)); [reflexivity|discriminate].
    - pose proof (add_section_law s false o1) as X. destruct (data_add_section s false o1) as [r o2].
      destruct X as (-> & X). exists o2. split; auto. }
  destruct A as (o2 & -> & S1 & S2 & C2 & F2 & P2). rewrite bind_eq.
  destruct (get_edata_same o2) as (d & X1 & X2 & X3 & X4 & X5).
  destruct (get_edata o2) as [r o3]. cbn [fst snd] in *. subst r o3.
  unfold ed_put. rewrite X2. unfold section_of in S1. rewrite S1. unfold put_edata, modify.
  eexists. split; [reflexivity|].
  match goal with |- context [section_of ?x s] => set (o4 := x) end.
  assert (SS : section_of o4 s = Some (dset k v (options_of o1 s))).
  { unfold section_of, data_of. cbn. now rewrite dget_dset, str_eqb_refl. }
  assert (SO : forall t, t <> s -> section_of o4 t = section_of o1 t).
  { intros t N. rewrite <- S2 by auto. unfold section_of, data_of at 1. cbn. rewrite dget_dset.
    apply str_eqb_neq in N. now rewrite N. }
  split; auto. split; auto. split; [|split; [|split]].
  - intros t j. unfold lookup. destruct (str_eqb_spec t s) as [->|N]; cbn [andb].
    + rewrite SS, dget_dset. destruct (str_eqb j k); auto.
      unfold options_of. now destruct (section_of o1 s).
    + now rewrite SO.
  - unfold checked_of at 1. cbn. now rewrite X3, C2.
  - rewrite <- F2. reflexivity.
  - rewrite <- P2. reflexivity.
Qed.

(** *** Nothing but another parse of the same section changes it *)
Section Kept.
Variables (i : ini) (s : str) (d : dict (option str)).
Definition holds (o : obj) : Prop :=
  has_file fs o i /\ str_mem s (checked_of o) = true /\ section_of o s = Some d.

Lemma data_after_kept root (es : list (ev Sh Us)) : root <> s -> forall l, dget s l = Some d ->
  dget s (data_after root es l) = Some d.
Proof.
  intros N. induction es as [|e es IH]; intros l H; cbn [data_after fold_left]; auto.
  apply IH. destruct e; cbn [data_step]; auto.
  - unfold ensure. destruct (dmem s0 l) eqn:E; auto. rewrite dget_dset.
    destruct (str_eqb_spec s s0) as [Q|_]; auto. subst s0. unfold dmem in E. rewrite H in E. discriminate.
  - unfold write. rewrite dget_dset. destruct (str_eqb_spec s root) as [Q|_]; auto. congruence.
Qed.
Lemma holds_ext (o o' : obj) : data_of o' = data_of o -> checked_of o' = checked_of o -> has_file fs o' i ->
  holds o -> holds o'.
Proof. intros D C H (A & B & E). split; auto. unfold section_of in *. now rewrite C, D. Qed.
Lemma holds_parse t (o : obj) : t <> s -> holds o -> holds (snd (parse t o)).
Proof.
  intros N (A & B & E). split; [now apply parse_section_keeps_file|].
  split; [rewrite parse_checked; auto|].
  pose proof (parse_section_any K fs fuel t true true o) as X.
  destruct (parse t o) as [r o']. destruct X as (es & D & _). cbn [snd].
  unfold section_of in *. rewrite D. now apply data_after_kept.
Qed.
Lemma holds_owner t force : force = false \/ t <> s -> keeps holds (owner t force).
Proof.
  intros Q o H. destruct (owner_eq K fs fuel t force o) as (o1 & D1 & C1 & F1 & _ & _ & E). rewrite E.
  destruct (negb (str_mem t (checked_of o)) || force) eqn:B.
  - assert (N : t <> s).
    { destruct Q as [->|Q]; auto. intros ->. destruct H as (_ & H & _). rewrite H in B. discriminate. }
    rewrite bind_eq. match goal with |- context [parse_section_str K fs fuel t true true ?x] => set (o2 := x) end.
    assert (H2 : holds o2).
    { destruct H as (X & Y & Z). split; [unfold has_file; rewrite <- X; now apply get_cpd_fst_ext|].
      split; [|exact Z]. change (str_mem s (sadd t (checked_of o)) = true). rewrite str_mem_sadd, Y. apply orb_true_r. }
    pose proof (holds_parse t o2 N H2) as R. destruct (parse t o2) as [[v|x] o3]; exact R.
  - apply (holds_ext o); auto. apply F1, H.
Qed.
Lemma closed_holds : closed K fs fuel holds (fun _ => True) (fun t => t <> s).
Proof.
  constructor; auto.
  - intros o H. rewrite (get_cpd_ready fs i o (proj1 H)). cbn [snd]. revert H. apply holds_ext; reflexivity.
  - intros o H. destruct (get_edata_same o) as (e & A & B & C & D & E). rewrite E.
    apply (holds_ext o); auto; [unfold has_file; rewrite <- (proj1 H); now apply get_cpd_fst_ext].
  - intros o l H. apply (holds_ext o); auto. unfold has_file; rewrite <- (proj1 H); now apply get_cpd_fst_ext.
  - intros t _. apply holds_owner. auto.
  - intros t N. apply holds_owner. auto.
  - intros t N o H. now apply holds_parse.
Qed.
Lemma holds_after h (o : obj) : holds o -> forallb (fun c => negb (reparses s c)) h = true ->
  holds (after K fs fuel h o).
Proof.
  intros H Q. apply (k_after K fs fuel holds _ _ closed_holds); auto.
  - intros x e (A & B). split; [|auto]. unfold has_file; rewrite <- A; now apply get_cpd_fst_ext.
  - intros x e (A & B). split; [|auto]. unfold has_file; rewrite <- A; now apply get_cpd_fst_ext.
  - apply Forall_forall. intros c I. rewrite forallb_forall in Q. specialize (Q c I). apply negb_true_iff in Q.
    destruct c as [t| | | |t k| |t k| | |p| | |t b| | | | |]; cbn in *; auto.
    + now apply str_eqb_neq.
    + destruct p; cbn; auto.
Qed.
Lemma holds_section (o : obj) : holds o -> exists o', has_section K fs fuel s o = (Ok true, o') /\ holds o'.
Proof.
  intros H. pose proof (k_has_section K fs fuel _ _ _ closed_holds s o H) as H'.
  destruct H as (A & B & C). unfold has_section, data_has_section in *. rewrite bind_eq, (get_cpd_ready fs i o A) in *.
  set (o0 := set_cpd (Some i) o) in *.
  assert (X : exists o2, (if ini_has_section i s then e <- get_edata ;; (if str_mem s (d_checked e) then ret tt else owner s false) else ret tt) o0
     = (Ok tt, o2) /\ data_of o2 = data_of o).
  { destruct (ini_has_section i s); [|exists o0; auto]. rewrite bind_eq.
    destruct (get_edata_same o0) as (e & X1 & X2 & X3 & X4 & X5).
    destruct (get_edata o0) as [r o1]. cbn [fst snd] in *. subst r. rewrite X3. change (checked_of o0) with (checked_of o).
    rewrite B. exists o1. split; [reflexivity|]. unfold data_of at 1. rewrite X4, X2. reflexivity. }
  destruct X as (o2 & X & D2). rewrite bind_eq, X in *. rewrite bind_eq in *.
  destruct (get_edata_same o2) as (e & X1 & X2 & X3 & X4 & X5).
  destruct (get_edata o2) as [r o3]. cbn [fst snd] in *. subst r. unfold ret in *. cbn [snd] in *.
  exists o3. split; auto. unfold section_of in C. unfold dmem. now rewrite X2, D2, C.
Qed.
Lemma holds_data (o : obj) : holds o -> exists o', data_section s o = (Ok d, o') /\ holds o'.
Proof.
  intros H. pose proof (k_data_section K fs fuel _ _ _ closed_holds s o H) as H'.
  unfold data_section in *. rewrite bind_eq in *.
  destruct (get_edata_same o) as (e & X1 & X2 & X3 & X4 & X5).
  destruct (get_edata o) as [r o3]. cbn [fst snd] in *. subst r. destruct H as (A & B & C).
  unfold section_of in C. rewrite X2, C in *. exists o3. auto.
Qed.
Lemma holds_read (o : obj) : holds o ->
  fst (getitem K fs fuel s o) = Ok d /\ fst (data_get K fs fuel s None o) = Ok (GotSection d) /\
  (forall k, fst (has_option K fs fuel s k o) = Ok (dmem k d)) /\
  (forall k, fst (data_get K fs fuel s (Some k) o) =
     match dget k d with Some v => Ok (GotValue v) | None => Err KeyError end).
Proof.
  intros H.
  assert (HO : forall k o, holds o -> exists o', has_option K fs fuel s k o = (Ok (dmem k d), o') /\ holds o').
  { intros k x Hx. pose proof (k_has_option K fs fuel _ _ _ closed_holds s k I x Hx) as H'.
    unfold has_option in *. destruct (owner_eq K fs fuel s false x) as (o1 & D1 & C1 & F1 & _ & _ & E).
    destruct Hx as (A & B & C). rewrite B in E. cbn [negb orb] in E. rewrite bind_eq, E in *. rewrite bind_eq in *.
    destruct (get_edata_same o1) as (e & X1 & X2 & X3 & X4 & X5).
    destruct (get_edata o1) as [r o3]. cbn [fst snd] in *. subst r. unfold ret in *. cbn [snd] in *.
    exists o3. split; auto. unfold section_of in C. now rewrite X2, D1, C. }
  assert (GP : forall o, holds o -> exists o', (e <- get_edata ;; (if str_mem s (d_checked e) then ret tt else owner s false)) o = (Ok tt, o') /\ holds o').
  { intros x Hx. rewrite bind_eq. pose proof (cl_edata _ _ _ _ _ _ closed_holds x Hx) as H'.
    destruct (get_edata_same x) as (e & X1 & X2 & X3 & X4 & X5).
    destruct (get_edata x) as [r o3]. cbn [fst snd] in *. subst r. rewrite X3, (proj1 (proj2 Hx)). exists o3. auto. }
  split; [|split; [|split]].
  - unfold getitem. rewrite bind_eq. destruct (holds_section o H) as (o1 & E1 & H1). rewrite E1.
    destruct (holds_data o1 H1) as (o2 & E2 & _). now rewrite E2.
  - unfold data_get. rewrite <- bind_assoc, bind_eq.
    destruct (GP o H) as (o1 & E1 & H1). rewrite E1, bind_eq.
    destruct (holds_section o1 H1) as (o2 & E2 & H2). rewrite E2, bind_eq.
    destruct (holds_data o2 H2) as (o3 & E3 & _). now rewrite E3.
  - intros k. destruct (HO k o H) as (o1 & E1 & _). now rewrite E1.
  - intros k. unfold data_get. rewrite <- bind_assoc, bind_eq.
    destruct (GP o H) as (o1 & E1 & H1). rewrite E1, bind_eq.
    destruct (holds_section o1 H1) as (o2 & E2 & H2). rewrite E2, bind_eq.
    destruct (HO k o2 H2) as (o3 & E3 & H3). rewrite E3. unfold dmem. destruct (dget k d) as [v|] eqn:DK; [|reflexivity].
    rewrite bind_eq. destruct (holds_data o3 H3) as (o4 & E4 & _). rewrite E4, DK. reflexivity.
Qed.
End Kept.

Theorem set_then_read i s k v h (o o2 : obj) : has_file fs o i -> ini_has_section i s = true ->
  data_set_user K fs fuel s k v o = (Ok tt, o2) -> forallb (fun c => negb (reparses s c)) h = true ->
  let o' := after K fs fuel h o2 in
  (exists d, fst (getitem K fs fuel s o') = Ok d /\ dget k d = Some v) /\
  fst (data_get K fs fuel s (Some k) o') = Ok (GotValue v) /\
  fst (has_option K fs fuel s k o') = Ok true.
Proof.
  intros H HS E Q o'. pose proof (set_law s k v o) as L.
  destruct (has_section K fs fuel s o) as [[b|e] o1] eqn:E1; [|congruence].
  destruct L as (o3 & E3 & S & _ & _ & C & CF & P). assert (o3 = o2) by congruence. subst o3.
  destruct (has_section_state i s o b o1 H E1) as (H1 & M1 & _).
  assert (H2 : has_file fs o2 i).
  { unfold has_file. rewrite <- H1. unfold conf in CF. apply get_cpd_fst_ext; congruence. }
  assert (HD : holds i s (dset k v (options_of o1 s)) o2).
  { split; auto. split; [rewrite C; auto|exact S]. }
  pose proof (holds_after i s _ h o2 HD Q) as HA. fold o' in HA.
  destruct (holds_read i s _ o' HA) as (A & B & D & F).
  assert (DK : dget k (dset k v (options_of o1 s)) = Some v) by now rewrite dget_dset, str_eqb_refl.
  split; [eauto|]. split; [rewrite F, DK; reflexivity|]. rewrite D. unfold dmem. now rewrite DK.
Qed.

Theorem set_new_section i s k v (o : obj) : has_file fs o i -> ini_has_section i s = false ->
  exists o2, data_set_user K fs fuel s k v o = (Ok tt, o2) /\
    section_of o2 s = Some (dset k v (options_of o s)) /\
    (forall t, t <> s -> section_of o2 t = section_of o t) /\
    fst (has_section K fs fuel s o2) = Ok true /\
    fst (getitem K fs fuel s o2) = Ok (dset k v (options_of o s)).
Proof.
  intros H N. pose proof (set_law s k v o) as L.
  destruct (has_section_missing K fs fuel i s o H N) as (o1 & E1 & D1 & H1). rewrite E1 in L.
  destruct L as (o2 & E2 & S2 & T2 & _ & C2 & CF & P2).
  assert (H2 : has_file fs o2 i).
  { unfold has_file. rewrite <- H1. unfold conf in CF. apply get_cpd_fst_ext; congruence. }
  assert (OE : options_of o1 s = options_of o s) by (unfold options_of, section_of; now rewrite D1).
  rewrite OE in S2. exists o2. split; auto. split; auto.
  split; [intros t NE; rewrite T2 by auto; unfold section_of; now rewrite D1|].
  destruct (has_section_missing K fs fuel i s o2 H2 N) as (o3 & E3 & D3 & H3).
  assert (M : dmem s (data_of o2) = true) by (unfold dmem; unfold section_of in S2; now rewrite S2).
  rewrite E3, M. split; [reflexivity|]. unfold getitem. rewrite bind_eq, E3, M.
  unfold data_section. rewrite bind_eq. destruct (get_edata_same o3) as (d & X1 & X2 & X3 & X4 & X5).
  destruct (get_edata o3) as [r o4]. cbn [fst snd] in *. subst r. unfold section_of in S2. rewrite X2, D3, S2. reflexivity.
Qed.
End P6.
