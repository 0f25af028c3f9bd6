(** * Proofs about the accessors: one invariant for all histories of calls. *)
From Coq Require Import String NArith ZArith List Bool Lia Arith ZifyBool.
Import ListNotations.
From Verif Require Import PyBase PyFacts Shlex IniView IniRead ExcControl Debuggable Cpe
  SpecBase SpecText SpecFile SpecShell ShellProofs FileProofs SpecWalk MeaningProofs SpecRun SpecParse SpecApi BaseProofs Refine RefineRoot RefineOk RunProofs Trace WalkProofs
  ParseProofs ParseProofs2 ParseProofs3.
Local Open Scope sm_scope.

Section P.
Context {Sh Us : Type} (K : pyclass Sh Us) (fs : str -> option str) (i : ini) (dname : str) (fuel : nat).
Notation ev := (ev Sh Us).
Notation obj := (obj Sh Us).
Hypothesis WB : well_behaved K.
Hypothesis F : length (ini_sections i) + 3 <= fuel.
(** The sections known to be parsable. *)
Variable G : str -> Prop.
(** Nothing else is in the data. *)
Variable Only : Prop.
Hypothesis GP : forall s, G s -> parsable K i dname s.
Definition safe (lvl : Z) : Prop := (lvl < 5)%Z \/ forall s, G s -> acyclic K i dname s.

Lemma expansion_unique s d d' : expansion K i dname s d -> expansion K i dname s d' -> d = d'.
Proof.
  intros (evs & n & W & ->) (evs' & n' & W' & ->).
  destruct (parse_walk_unique K i _ _ _ _ _ _ _ _ W W') as [-> _]. reflexivity.
Qed.
Lemma expansion_exists s : exists d, expansion K i dname s d.
Proof.
  destruct (parse_walk_exists K i dname s true true) as (evs & n & W & _).
  eexists. exists evs, n. eauto.
Qed.

(** ** The invariant *)
Record inv (files : list str) (o : obj) : Prop := {
  iv_file : has_file fs o i;
  iv_level : level_ok o;
  iv_safe : safe (level_of o);
  iv_files : o_files o = Some files;
  iv_def : o_defname o = dname;
  iv_parsed : forall s, G s -> str_mem s (checked_of o) = true ->
    exists d, expansion K i dname s d /\ section_of o s = Some d;
  iv_unparsed : forall s, G s -> str_mem s (checked_of o) = false -> options_of o s = [];
  iv_extra : Only -> (forall s, ini_has_section i s = true -> G s) ->
    forall s d, ini_has_section i s = false -> section_of o s = Some d -> d = [] /\ s = i_defname i;
  iv_nodup : NoDup (dkeys (data_of o))
}.

Lemma iv_path files o : inv files o -> path_set_of o = true.
Proof. intros V. unfold path_set_of. now rewrite (iv_files _ _ V). Qed.

(** Objects that differ in nothing the invariant mentions. *)
Lemma inv_ext files (o o' : obj) :
  data_of o' = data_of o -> checked_of o' = checked_of o -> o_files o' = o_files o ->
  o_ec o' = o_ec o -> o_defname o' = o_defname o -> has_file fs o' i -> inv files o -> inv files o'.
Proof.
  intros D C Fi E N H V.
  assert (S : forall s, section_of o' s = section_of o s) by (intros; unfold section_of; now rewrite D).
  assert (L : level_of o' = level_of o) by (unfold level_of; now rewrite E).
  destruct V as [v1 v2 v3 v4 v5 v6 v7 v8 v9]. constructor; auto; try congruence.
  - unfold level_ok in *. now rewrite L.
  - intros s g. rewrite C, S. apply v6; auto.
  - intros s g. unfold options_of. rewrite C, S. apply v7; auto.
  - intros On A s d. rewrite S. apply v8; auto.
Qed.

Lemma NoDup_data_after root (evs : list ev) : forall d, NoDup (dkeys d) -> NoDup (dkeys (data_after root evs d)).
Proof.
  induction evs as [|e evs IH]; intros d N; cbn [data_after fold_left]; auto.
  apply IH. destruct e; cbn [data_step]; auto.
  - unfold ensure. destruct (dmem s d); auto. now apply NoDup_dkeys_dset.
  - unfold write. now apply NoDup_dkeys_dset.
Qed.

(** What a call may change. *)
Record goes (files : list str) (o o' : obj) : Prop := {
  go_inv : inv files o';
  go_level : level_of o' = level_of o;
  go_checked : forall s, str_mem s (checked_of o) = true -> str_mem s (checked_of o') = true
}.
Lemma goes_refl files o : inv files o -> goes files o o.
Proof. split; auto. Qed.
Lemma goes_trans files o o1 o2 : goes files o o1 -> goes files o1 o2 -> goes files o o2.
Proof. intros [A B C] [A' B' C']. split; auto. congruence. Qed.

(** [o1]: like [o], but the section may already be marked as checked. *)
Record marked (s : str) (o o1 : obj) : Prop := {
  mk_data : data_of o1 = data_of o;
  mk_checked : forall t, t <> s -> str_mem t (checked_of o1) = str_mem t (checked_of o);
  mk_files : o_files o1 = o_files o;
  mk_ec : o_ec o1 = o_ec o;
  mk_def : o_defname o1 = o_defname o;
  mk_file : has_file fs o1 i
}.

Lemma parse_good_marked files s o o1 : inv files o -> G s -> marked s o o1 ->
  exists v o', parse_section_str K fs fuel s true true o1 = (Ok v, o') /\ goes files o o' /\
    str_mem s (checked_of o') = true.
Proof.
  intros V g [mD mC mF mE mN v1']. pose proof (GP s g) as (NE & HS & DO & CL).
  pose proof (iv_path _ _ V) as PS. destruct V as [v1 v2 v3 v4 v5 v6 v7 v8 v9].
  assert (LV : level_of o1 = level_of o) by (unfold level_of; now rewrite mE).
  assert (v2' : level_ok o1) by (unfold level_ok in *; now rewrite LV).
  assert (PS' : path_set_of o1 = true) by (unfold path_set_of in *; now rewrite mF).
  assert (v5' : o_defname o1 = dname) by congruence.
  rewrite <- v5' in DO.
  destruct (parse_outcome K fs i fuel s true true o1 NE v1' v2' DO F)
    as (evs & n & r & sh & us & done & o' & W & R & E & P & DN).
  assert (IT : ini_items i s <> None).
  { destruct (CL s) as (its & HI & _); [left; constructor|filed; congruence]. }
  assert (RO : r = Ok tt).
  { pose proof (cycle_policy K fs i fuel s true true o1 WB NE v1' v2' PS' DO F) as X. rewrite v5' in X.
    specialize (X CL). cbn zeta in X. destruct X as [_ X].
    destruct X as (v & X).
    - rewrite LV. destruct v3 as [v3|v3]; auto. right. intros (t & A & B). exact (v3 s g t A B).
    - rewrite E in X. destruct r as [[]|]; [auto|discriminate]. }
  subst r. specialize (DN eq_refl). subst done. exists sh, o'. split; [exact E|].
  pose proof (pa_data _ _ _ _ _ _ _ _ _ _ P) as PD. rewrite mD in PD.
  assert (PC : forall t, str_mem t (checked_of o') = str_eqb t s || str_mem t (checked_of o)).
  { intros t. rewrite (pa_checked _ _ _ _ _ _ _ _ _ _ P), str_mem_sadd.
    destruct (str_eqb_spec t s) as [->|N]; auto. cbn. now apply mC. }
  rewrite v5' in W.
  assert (EN : In (Enter s) evs).
  { destruct (parse_walk_parts K i _ _ _ _ _ _ W IT) as (? & ? & ? & ? & _ & _ & _ & _ & Q & I). auto. }
  assert (OPT : forall t, options_of o' t = if str_eqb t s then write_all (plains evs) (options_of o t) else options_of o t).
  { intros t. unfold options_of, section_of. rewrite PD.
    change (opts_in t (data_after s evs (data_of o)) =
      if str_eqb t s then write_all (plains evs) (opts_in t (data_of o)) else opts_in t (data_of o)).
    rewrite opts_data_after. destruct (str_eqb_spec t s) as [->|_]; auto. }
  assert (SECo : forall t, str_mem t (checked_of o) = true -> G t -> t <> s -> section_of o' t = section_of o t).
  { intros t M gt N. destruct (v6 t gt M) as (d & _ & Sd). rewrite Sd.
    unfold section_of in *. rewrite PD, dget_data_after.
    assert (M' : dmem t (data_after s evs (data_of o)) = true).
    { apply mem_data_after. left. unfold dmem. now rewrite Sd. }
    rewrite M'. f_equal. rewrite opts_data_after.
    apply str_eqb_neq in N. rewrite N. unfold opts_in. now rewrite Sd. }
  assert (SECs : section_of o' s = Some (write_all (plains evs) [])).
  { unfold section_of. rewrite PD, dget_data_after.
    assert (M' : dmem s (data_after s evs (data_of o)) = true) by (apply mem_data_after; auto).
    rewrite M'. f_equal. rewrite opts_data_after, str_eqb_refl.
    destruct (str_mem s (checked_of o)) eqn:C.
    - destruct (v6 s g C) as (d & (evs' & n' & W' & ->) & Sd).
      destruct (parse_walk_unique K i _ _ _ _ _ _ _ _ W W') as [-> _].
      unfold opts_in. unfold section_of in Sd. rewrite Sd. apply write_all_idem.
    - specialize (v7 s g C). unfold options_of, section_of in v7. unfold opts_in. now rewrite v7. }
  assert (MS : str_mem s (checked_of o') = true) by (rewrite PC, str_eqb_refl; auto).
  split; auto. split.
  - constructor.
    + exact (pa_file _ _ _ _ _ _ _ _ _ _ P).
    + unfold level_ok, level_of. rewrite (pa_ec _ _ _ _ _ _ _ _ _ _ P), mE. exact v2.
    + unfold level_of. rewrite (pa_ec _ _ _ _ _ _ _ _ _ _ P), mE. exact v3.
    + rewrite (pa_files _ _ _ _ _ _ _ _ _ _ P), mF. exact v4.
    + rewrite (pa_defname _ _ _ _ _ _ _ _ _ _ P). exact v5'.
    + intros t gt M. destruct (str_eqb_spec t s) as [->|N].
      * eexists. split; [|exact SECs]. exists evs, n. auto.
      * rewrite PC in M. apply str_eqb_neq in N. rewrite N in M. cbn in M.
        rewrite SECo; auto. apply str_eqb_neq in N. auto.
    + intros t gt M. rewrite PC in M. apply orb_false_iff in M as [M1 M2].
      rewrite OPT, M1. auto.
    + intros On A t d HT Sd. assert (N : t <> s) by (intros ->; congruence).
      apply str_eqb_neq in N. assert (OT := OPT t). rewrite N in OT.
      destruct (section_of o t) as [d0|] eqn:S0.
      * destruct (v8 On A t d0 HT S0) as [-> E']. split; auto.
        unfold options_of in OT. rewrite Sd, S0 in OT. auto.
      * unfold options_of in OT. rewrite Sd, S0 in OT. split; auto.
        unfold section_of in Sd. rewrite PD in Sd.
        assert (M : dmem t (data_after s evs (data_of o)) = true) by (unfold dmem; now rewrite Sd).
        apply mem_data_after in M as [M|[M|[-> _]]]; [unfold section_of in S0; unfold dmem in M; now rewrite S0 in M| |now rewrite str_eqb_refl in N].
        assert (C : contributes K i dname s true t).
        { destruct (parse_walk_origin K i _ _ _ _ _ _ _ W M) as [(nm & Q)|[O|(_ & H & O)]]; [discriminate| |];
          [left|right; split; [auto|split; [auto|]]]; destruct O; auto. }
        destruct (CL t C) as (its & HI & _). filed. unfold ini_items, own_options in HI.
        destruct (str_eqb_spec t (i_defname i)) as [->|_]; auto.
        unfold ini_has_section, dmem in HT. destruct (dget t (i_secs i)); discriminate.
    + rewrite PD. now apply NoDup_data_after.
  - unfold level_of. now rewrite (pa_ec _ _ _ _ _ _ _ _ _ _ P), mE.
  - intros t M. rewrite PC, M. apply orb_true_r.
Qed.
Lemma parse_good files s o : inv files o -> G s ->
  exists v o', parse_section_str K fs fuel s true true o = (Ok v, o') /\ goes files o o' /\
    str_mem s (checked_of o') = true.
Proof. intros V g. apply parse_good_marked; auto. constructor; auto. exact (iv_file _ _ V). Qed.

(** ** Primitives *)
Lemma get_cpd_inv files o : inv files o ->
  exists o', get_cpd fs o = (Ok i, o') /\ goes files o o' /\ data_of o' = data_of o /\ checked_of o' = checked_of o.
Proof.
  intros V. exists (set_cpd (Some i) o). split; [apply get_cpd_ready, (iv_file _ _ V)|].
  split; [|split; reflexivity]. split; auto.
  apply (inv_ext _ o); auto. reflexivity.
Qed.

Definition edata_of (o : obj) (d : edata) : Prop := d_data d = data_of o /\ d_checked d = checked_of o.

Lemma get_edata_inv files o : inv files o ->
  exists d o', get_edata o = (Ok d, o') /\ goes files o o' /\ edata_of o d /\
    o_edata o' = Some d /\ data_of o' = data_of o /\ checked_of o' = checked_of o.
Proof.
  intros V. unfold get_edata. unfold edata_of, data_of, checked_of. destruct (o_edata o) as [d|] eqn:E.
  - exists d, o. split; [reflexivity|]. split; [now apply goes_refl|]. rewrite E. auto 6.
  - eexists. eexists. split; [reflexivity|]. cbn. split; [|auto]. split; auto.
    + apply (inv_ext _ o); auto; try (unfold data_of, checked_of; now rewrite E).
      unfold has_file. rewrite <- (iv_file _ _ V). now apply get_cpd_fst_ext.
    + intros s. unfold checked_of. now rewrite E.
Qed.

Lemma parse_owner_good files s force o : inv files o -> G s ->
  exists o', parse_owner (owner_parse K fs fuel) s force o = (Ok tt, o') /\ goes files o o' /\
    str_mem s (checked_of o') = true.
Proof.
  intros V g. unfold parse_owner. rewrite bind_eq.
  destruct (get_edata_inv _ _ V) as (d & o1 & E & G1 & [ED EC] & EO & D1 & C1). rewrite E.
  destruct (negb (str_mem s (d_checked d)) || force) eqn:B.
  - unfold set_owner_options, bind, get_edata, put_edata, modify, owner_parse. rewrite EO. cbn [o_edata set_edata].
    rewrite bind_eq.
    match goal with |- context [parse_section_str K fs fuel s true true ?x] => set (o2 := x) end.
    assert (M : marked s o o2).
    { destruct G1 as [V1 L1 _]. constructor; try reflexivity.
      - unfold o2, data_of at 1. cbn. exact ED.
      - intros t N. change (str_mem t (sadd s (d_checked d)) = str_mem t (checked_of o)). rewrite str_mem_sadd.
        apply str_eqb_neq in N. rewrite N. cbn. now rewrite EC.
      - cbn. now rewrite (iv_files _ _ V1), (iv_files _ _ V).
      - cbn. unfold get_edata in E. destruct (o_edata o); inversion E; reflexivity.
      - cbn. now rewrite (iv_def _ _ V1), (iv_def _ _ V).
      - unfold has_file. rewrite <- (iv_file _ _ V1). now apply get_cpd_fst_ext. }
    destruct (parse_good_marked _ _ _ _ V g M) as (v & o' & P & GO & CH).
    rewrite P. exists o'. auto.
  - exists o1. split; [reflexivity|]. split; [exact G1|]. apply orb_false_iff in B as [B _].
    apply negb_false_iff in B. rewrite C1, <- EC. exact B.
Qed.

Lemma has_section_good files s o : inv files o -> G s ->
  exists o', has_section K fs fuel s o = (Ok true, o') /\ goes files o o' /\ str_mem s (checked_of o') = true.
Proof.
  intros V g. pose proof (GP s g) as (_ & HS & _). unfold has_section, data_has_section. rewrite bind_eq.
  destruct (get_cpd_inv _ _ V) as (o1 & E1 & G1 & D1 & C1). rewrite E1, HS, bind_eq.
  pose proof (go_inv _ _ _ G1) as V1.
  assert (X : exists o2, (d <- get_edata ;; (if str_mem s (d_checked d) then ret tt else parse_owner (owner_parse K fs fuel) s false)) o1
     = (Ok tt, o2) /\ goes files o1 o2 /\ str_mem s (checked_of o2) = true).
  { rewrite bind_eq. destruct (get_edata_inv _ _ V1) as (d & o2 & E2 & G2 & [_ EC] & _ & _ & C2). rewrite E2.
    destruct (str_mem s (d_checked d)) eqn:M.
    - exists o2. split; [reflexivity|]. split; auto. rewrite C2, <- EC. exact M.
    - destruct (parse_owner_good _ s false _ (go_inv _ _ _ G2) g) as (o3 & E3 & G3 & C3).
      exists o3. split; auto. split; auto. eapply goes_trans; eauto. }
  destruct X as (o2 & E2 & G2 & C2). rewrite E2. rewrite bind_eq.
  destruct (get_edata_inv _ _ (go_inv _ _ _ G2)) as (d & o3 & E3 & G3 & [ED _] & _ & D3 & C3). rewrite E3.
  unfold ret. exists o3. split; [|split].
  - destruct (iv_parsed _ _ (go_inv _ _ _ G2) s g C2) as (x & _ & Sx). unfold dmem. rewrite ED.
    unfold section_of in Sx. now rewrite Sx.
  - eapply goes_trans; eauto. eapply goes_trans; eauto.
  - now rewrite C3.
Qed.

Lemma data_section_good files s o d : inv files o -> G s -> str_mem s (checked_of o) = true ->
  expansion K i dname s d ->
  exists o', data_section s o = (Ok d, o') /\ goes files o o'.
Proof.
  intros V g C X. unfold data_section. rewrite bind_eq.
  destruct (get_edata_inv _ _ V) as (e & o1 & E & G1 & [ED _] & _). rewrite E.
  destruct (iv_parsed _ _ V s g C) as (d' & X' & S). unfold section_of in S. rewrite ED, S.
  rewrite (expansion_unique _ _ _ X X'). exists o1. auto.
Qed.

Lemma getitem_good files s o d : inv files o -> G s -> expansion K i dname s d ->
  exists o', getitem K fs fuel s o = (Ok d, o') /\ goes files o o' /\ str_mem s (checked_of o') = true.
Proof.
  intros V g X. unfold getitem. rewrite bind_eq.
  destruct (has_section_good _ s _ V g) as (o1 & E1 & G1 & C1). rewrite E1.
  destruct (data_section_good _ s _ d (go_inv _ _ _ G1) g C1 X) as (o2 & E2 & G2).
  exists o2. split; auto. split; [eapply goes_trans; eauto|]. apply (go_checked _ _ _ G2); auto.
Qed.

Lemma has_option_good files s k o d : inv files o -> G s -> expansion K i dname s d ->
  exists o', has_option K fs fuel s k o = (Ok (dmem k d), o') /\ goes files o o' /\ str_mem s (checked_of o') = true.
Proof.
  intros V g X. unfold has_option. rewrite bind_eq.
  destruct (parse_owner_good _ s false _ V g) as (o1 & E1 & G1 & C1). rewrite E1, bind_eq.
  destruct (get_edata_inv _ _ (go_inv _ _ _ G1)) as (e & o2 & E2 & G2 & [ED _] & _ & _ & C2). rewrite E2.
  destruct (iv_parsed _ _ (go_inv _ _ _ G1) s g C1) as (d' & X' & S). unfold section_of in S. rewrite ED, S.
  rewrite (expansion_unique _ _ _ X X'). exists o2. split; [reflexivity|].
  split; [eapply goes_trans; eauto|]. now rewrite C2.
Qed.

Lemma data_get_good files s k o d : inv files o -> G s -> expansion K i dname s d ->
  exists o', data_get K fs fuel s k o =
    (match k with
     | None => Ok (GotSection d)
     | Some k => match dget k d with Some v => Ok (GotValue v) | None => Err KeyError end
     end, o') /\ goes files o o'.
Proof.
  intros V g X. unfold data_get. rewrite bind_eq.
  destruct (get_edata_inv _ _ V) as (e & o1 & E1 & G1 & [_ EC] & _ & _ & C1). rewrite E1, bind_eq.
  assert (Y : exists o2, (if str_mem s (d_checked e) then ret tt else parse_owner (owner_parse K fs fuel) s false) o1
     = (Ok tt, o2) /\ goes files o1 o2).
  { destruct (str_mem s (d_checked e)).
    - exists o1. split; [reflexivity|]. apply goes_refl, (go_inv _ _ _ G1).
    - destruct (parse_owner_good _ s false _ (go_inv _ _ _ G1) g) as (o3 & E3 & G3 & C3). eauto. }
  destruct Y as (o2 & E2 & G2). rewrite E2, bind_eq.
  destruct (has_section_good _ s _ (go_inv _ _ _ G2) g) as (o3 & E3 & G3 & C3). rewrite E3.
  assert (G03 : goes files o o3) by (eapply goes_trans; [eapply goes_trans|]; eauto).
  destruct k as [k|].
  - rewrite bind_eq. destruct (has_option_good _ s k _ d (go_inv _ _ _ G3) g X) as (o4 & E4 & G4 & C4).
    rewrite E4. unfold dmem. destruct (dget k d) as [v|] eqn:D.
    + rewrite bind_eq. destruct (data_section_good _ s _ d (go_inv _ _ _ G4) g C4 X) as (o5 & E5 & G5).
      rewrite E5, D. exists o5. split; [reflexivity|]. eapply goes_trans; eauto. eapply goes_trans; eauto.
    + exists o4. split; [reflexivity|]. eapply goes_trans; eauto.
  - rewrite bind_eq. destruct (data_section_good _ s _ d (go_inv _ _ _ G3) g C3 X) as (o5 & E5 & G5).
    rewrite E5. exists o5. split; [reflexivity|]. eapply goes_trans; eauto.
Qed.

Lemma data_keys_good files o : inv files o ->
  exists o', data_keys fs o = (Ok (ini_sections i), o') /\ goes files o o'.
Proof.
  intros V. unfold data_keys. rewrite bind_eq.
  destruct (get_cpd_inv _ _ V) as (o1 & E1 & G1 & _). rewrite E1. exists o1. split; [reflexivity|auto].
Qed.

Lemma for_each_good files force l : (forall s, In s l -> G s) -> forall o, inv files o ->
  exists o', for_each (fun s => parse_owner (owner_parse K fs fuel) s force) l o = (Ok tt, o') /\ goes files o o' /\
    forall s, In s l -> str_mem s (checked_of o') = true.
Proof.
  induction l as [|s l IH]; intros A o V; cbn [for_each].
  - exists o. split; [reflexivity|]. split; [now apply goes_refl|]. intros s [].
  - rewrite bind_eq. destruct (parse_owner_good _ s force _ V (A s (or_introl eq_refl))) as (o1 & E1 & G1 & C1).
    rewrite E1. destruct (IH (fun x H => A x (or_intror H)) o1 (go_inv _ _ _ G1)) as (o2 & E2 & G2 & C2).
    exists o2. split; auto. split; [eapply goes_trans; eauto|].
    intros x [<-|H]; [apply (go_checked _ _ _ G2); auto|auto].
Qed.

Lemma in_sections s : In s (ini_sections i) <-> ini_has_section i s = true.
Proof. symmetry. apply dmem_keys. Qed.

(** All sections are parsable. *)
Section All.
Hypothesis ALL : forall s, ini_has_section i s = true -> G s.
Hypothesis ON : Only.

Lemma sections_good files p o : inv files o ->
  exists o', data_sections K fs fuel p o =
    (match p with
     | PBad => Err TypeError
     | PBool _ => Ok (ini_sections i)
     | PStr x => if str_eqb (lower x) $"force" then Ok (ini_sections i) else Err ValueError
     end, o') /\ goes files o o'.
Proof.
  intros V.
  assert (GO : forall force, exists o', (l <- data_keys fs ;;
      for_each (fun s => parse_owner (owner_parse K fs fuel) s force) l ;; data_keys fs) o = (Ok (ini_sections i), o') /\ goes files o o').
  { intros force. rewrite bind_eq. destruct (data_keys_good _ _ V) as (o1 & E1 & G1). rewrite E1, bind_eq.
    destruct (for_each_good _ force (ini_sections i) (fun s H => ALL s (proj1 (in_sections s) H)) _ (go_inv _ _ _ G1))
      as (o2 & E2 & G2 & _). rewrite E2.
    destruct (data_keys_good _ _ (go_inv _ _ _ G2)) as (o3 & E3 & G3). exists o3. split; auto.
    eapply goes_trans; eauto. eapply goes_trans; eauto. }
  unfold data_sections. destruct p as [[]|x|].
  - apply GO.
  - now apply data_keys_good.
  - destruct (str_eqb (lower x) $"force"); [apply GO|]. exists o. split; [reflexivity|now apply goes_refl].
  - exists o. split; [reflexivity|now apply goes_refl].
Qed.

Lemma items_good files o : inv files o ->
  exists l o', data_items_all K fs fuel o = (Ok l, o') /\ goes files o o' /\
    (forall s, ini_has_section i s = true -> exists d, expansion K i dname s d /\ dget s l = Some d) /\
    (forall s d, ini_has_section i s = false -> dget s l = Some d -> d = [] /\ s = i_defname i) /\
    NoDup (dkeys l).
Proof.
  intros V. unfold data_items_all. rewrite bind_eq.
  destruct (data_keys_good _ _ V) as (o1 & E1 & G1). rewrite E1, bind_eq.
  destruct (for_each_good _ false (ini_sections i) (fun s H => ALL s (proj1 (in_sections s) H)) _ (go_inv _ _ _ G1))
    as (o2 & E2 & G2 & C2). rewrite E2, bind_eq.
  pose proof (go_inv _ _ _ G2) as V2.
  destruct (get_edata_inv _ _ V2) as (e & o3 & E3 & G3 & [ED _] & _). rewrite E3.
  exists (d_data e), o3. rewrite ED. split; [reflexivity|]. split; [|split; [|split]].
  - eapply goes_trans; eauto. eapply goes_trans; eauto.
  - intros s HS. apply (iv_parsed _ _ V2 s (ALL s HS)). apply C2. now apply in_sections.
  - apply (iv_extra _ _ V2 ON ALL).
  - apply (iv_nodup _ _ V2).
Qed.
End All.

(** ** Validation, unrolling, levels *)
Lemma event_serious files e o : inv files o ->
  exists o', event $"SERIOUS" e o = (if (3 <=? level_of o)%Z then Err e else Ok tt, o') /\ goes files o o'.
Proof.
  intros V. pose proof (event_raise_iff (o_ec o) $"SERIOUS" 3 e true th_serious) as H.
  unfold event, level_of. destruct (ec_event (o_ec o) $"SERIOUS" (XClass e) true) as [r out]. cbn in H. subst r.
  eexists. split; [reflexivity|]. split; auto. apply (inv_ext _ o); auto.
  unfold has_file. rewrite <- (iv_file _ _ V). now apply get_cpd_fst_ext.
Qed.

Lemma print_good files x o : inv files o -> exists o', print_line x o = (Ok tt, o') /\ goes files o o'.
Proof.
  intros V. eexists. split; [reflexivity|]. split; auto. apply (inv_ext _ o); auto.
  unfold has_file. rewrite <- (iv_file _ _ V). now apply get_cpd_fst_ext.
Qed.

Lemma known_good files o : inv files o ->
  exists o', get_known_operations K fs o = (Ok (known_operations K), o') /\ goes files o o'.
Proof.
  intros V. unfold get_known_operations. rewrite bind_eq.
  destruct (get_cpd_inv _ _ V) as (o1 & E1 & G1 & _). rewrite E1, bind_eq.
  destruct (get_edata_inv _ _ (go_inv _ _ _ G1)) as (e & o2 & E2 & G2 & _). rewrite E2, bind_eq.
  pose proof (go_inv _ _ _ G2) as V2. unfold get_files. rewrite (iv_files _ _ V2).
  exists o2. split; [reflexivity|]. eapply goes_trans; eauto.
Qed.

Lemma known_message_good files o : inv files o ->
  exists m o', get_known_operations_message K fs o = (Ok m, o') /\ goes files o o'.
Proof.
  intros V. unfold get_known_operations_message. rewrite bind_eq.
  destruct (known_good _ _ V) as (o1 & E1 & G1). rewrite E1. eexists. exists o1. split; [reflexivity|auto].
Qed.

Lemma rstrip_keeps p x c b : p c = false -> exists y, rstrip p (x ++ c :: b) = x ++ c :: y.
Proof.
  intros H. induction b as [|d b IH] using rev_ind.
  - exists []. rewrite rstrip_last, H. reflexivity.
  - replace (x ++ c :: b ++ [d]) with ((x ++ c :: b) ++ [d]) by (rewrite <- app_assoc; reflexivity).
    rewrite rstrip_last. destruct (p d); auto. exists (b ++ [d]). now rewrite <- app_assoc.
Qed.

(** The message lists every key. *)
Definition lists (m : str) (keys : list str) : Prop :=
  forall k, In k keys -> exists x y, m = x ++ ($"|- '" ++ k ++ $"'") ++ y.

Lemma message_lists s keys tail : lists (rstrip_ws (unhandled_message s keys ++ tail)) keys.
Proof.
  intros k I. unfold unhandled_message. apply in_split in I as (l1 & l2 & ->).
  rewrite flat_map_app. cbn [flat_map].
  match goal with |- exists x y, rstrip_ws ((?a ++ ?b ++ ?c ++ ?d ++ ?e ++ ?f ++ ?g ++ ?h ++ (?p ++ k ++ ?q ++ ?nl) ++ ?r) ++ ?t) = _ =>
    set (X := (a ++ b ++ c ++ d ++ e ++ f ++ g ++ h)); set (Y := (nl ++ r) ++ t) end.
  assert (N : is_space 39%N = false) by reflexivity.
  destruct (rstrip_keeps is_space (X ++ $"|- '" ++ k) 39%N Y N) as (y & E).
  exists X, y. unfold rstrip_ws. etransitivity; [|etransitivity; [exact E|]].
  - f_equal. unfold X, Y. change (39%N :: ?z) with ($"'" ++ z). rewrite <- !app_assoc. reflexivity.
  - change (39%N :: y) with ($"'" ++ y). now rewrite <- !app_assoc.
Qed.

Lemma assert_section_good files s b o d : inv files o -> G s -> expansion K i dname s d ->
  exists r o', assert_section K fs fuel s b o = (r, o') /\ goes files o o' /\
    (d = [] -> r = Ok None) /\
    (d <> [] -> if b && (3 <=? level_of o)%Z then r = Err ValueError
                else exists m, r = Ok (Some m) /\ lists m (dkeys d)).
Proof.
  intros V g X. unfold assert_section. rewrite bind_eq.
  destruct (data_get_good _ s None _ d V g X) as (o1 & E1 & G1). rewrite E1.
  destruct d as [|kv d0]; [exists (Ok None), o1; split; [reflexivity|split; [exact G1|split; [auto|congruence]]]|].
  set (d := kv :: d0) in *. destruct b.
  - pose proof (go_inv _ _ _ G1) as V1. rewrite bind_eq. unfold get_files at 1. rewrite (iv_files _ _ V1), bind_eq.
    destruct (known_message_good _ _ V1) as (m & o2 & E2 & G2). rewrite E2. cbn zeta. rewrite bind_eq.
    destruct (event_serious _ ValueError _ (go_inv _ _ _ G2)) as (o3 & E3 & G3). rewrite E3.
    assert (L : level_of o2 = level_of o) by (rewrite (go_level _ _ _ G2); apply (go_level _ _ _ G1)).
    rewrite L. assert (G03 : goes files o o3) by (eapply goes_trans; [eapply goes_trans|]; eauto).
    cbn [andb]. destruct (3 <=? level_of o)%Z.
    + eexists. exists o3. split; [reflexivity|]. split; [exact G03|]. split; [discriminate|reflexivity].
    + eexists. exists o3. split; [reflexivity|]. split; [exact G03|]. split; [discriminate|].
      intros _. eexists. split; [reflexivity|]. apply message_lists.
  - eexists. exists o1. split; [reflexivity|]. split; [exact G1|]. split; [discriminate|].
    intros _. cbn [andb]. eexists. split; [reflexivity|].
    intros k Hk. rewrite <- (app_nil_r (unhandled_message s (dkeys d))). revert k Hk. apply message_lists.
Qed.

Lemma generate_section_good files delim s o d : inv files o -> G s -> expansion K i dname s d ->
  exists o', generate_section K fs fuel delim s o = (Ok (unrolled_section delim s d), o') /\ goes files o o'.
Proof.
  intros V g X. unfold generate_section. rewrite bind_eq.
  destruct (has_section_good _ s _ V g) as (o1 & E1 & G1 & C1). rewrite E1, bind_eq.
  unfold data_items, data_options. rewrite bind_eq.
  destruct (data_keys_good _ _ (go_inv _ _ _ G1)) as (o2 & E2 & G2). rewrite E2.
  destruct (getitem_good _ s _ d (go_inv _ _ _ G2) g X) as (o3 & E3 & G3 & C3). rewrite E3.
  exists o3. split; [reflexivity|]. eapply goes_trans; [|exact G3]. eapply goes_trans; eauto.
Qed.

Lemma items_of_good files s o d : inv files o -> G s -> expansion K i dname s d ->
  exists o', data_items K fs fuel s o = (Ok d, o') /\ goes files o o'.
Proof.
  intros V g X. unfold data_items, data_options. rewrite bind_eq.
  destruct (data_keys_good _ _ V) as (o2 & E2 & G2). rewrite E2.
  destruct (getitem_good _ s _ d (go_inv _ _ _ G2) g X) as (o3 & E3 & G3 & C3). rewrite E3.
  exists o3. split; [reflexivity|]. eapply goes_trans; eauto.
Qed.

Lemma inv_level files z o : inv files o -> (0 <= z <= 5)%Z -> safe z -> inv files (set_ec (ec_set_level z (o_ec o)) o).
Proof.
  intros V R S.
  assert (L : level_of (set_ec (ec_set_level z (o_ec o)) o) = z).
  { unfold level_of, ec_set_level. cbn. lia. }
  destruct V as [v1 v2 v3 v4 v5 v6 v7 v8 v9]. constructor; auto.
  - unfold has_file. rewrite <- v1. now apply get_cpd_fst_ext.
  - unfold level_ok. rewrite L. exact R.
  - now rewrite L.
Qed.

Lemma safe_0 : safe 0. Proof. left. lia. Qed.

Section All2.
Hypothesis ALL : forall s, ini_has_section i s = true -> G s.

Lemma assert_sections_good files l : (forall s, In s l -> G s) -> forall out o, inv files o ->
  exists o' b, assert_sections K fs fuel l out o = (Ok b, o') /\ goes files o o' /\
    (b = true <-> out = true \/ exists s d, In s l /\ expansion K i dname s d /\ d <> []).
Proof.
  induction l as [|s l IH]; intros A out o V; cbn [assert_sections].
  - exists o, out. split; [reflexivity|]. split; [now apply goes_refl|]. split; auto.
    intros [H|(s & d & [] & _)]; auto.
  - rewrite bind_eq. destruct (expansion_exists s) as (d & X).
    destruct (assert_section_good _ s false _ d V (A s (or_introl eq_refl)) X) as (r & o1 & E1 & G1 & R1 & R2).
    rewrite E1. destruct d as [|kv d0].
    + rewrite R1 by auto.
      destruct (IH (fun x H => A x (or_intror H)) out o1 (go_inv _ _ _ G1)) as (o2 & b & E2 & G2 & B2).
      exists o2, b. split; auto. split; [eapply goes_trans; eauto|]. rewrite B2. split; intros [H|(t & d & I & Y & N)]; auto.
      * right. exists t, d. split; [now right|auto].
      * destruct I as [<-|I]; [exfalso; apply N, (expansion_unique _ _ _ Y X)|right; eauto].
    + destruct (R2 ltac:(discriminate)) as (m & -> & _). rewrite bind_eq.
      destruct (print_good _ m _ (go_inv _ _ _ G1)) as (o2 & E2 & G2). rewrite E2.
      destruct (IH (fun x H => A x (or_intror H)) true o2 (go_inv _ _ _ G2)) as (o3 & b & E3 & G3 & B3).
      exists o3, b. split; auto. split; [eapply goes_trans; [eapply goes_trans|]; eauto|].
      rewrite B3. split; intros _; auto. right. exists s, (kv :: d0). split; [now left|]. split; auto. discriminate.
Qed.

Lemma assert_file_good files o : inv files o ->
  exists r o', assert_file K fs fuel o = (r, o') /\ goes files o o' /\
    ((forall s, ini_has_section i s = true -> expansion K i dname s []) /\ r = Ok 0%Z \/
     (exists s d, ini_has_section i s = true /\ expansion K i dname s d /\ d <> []) /\
       r = if (3 <=? level_of o)%Z then Err ValueError else Ok 1%Z).
Proof.
  intros V. unfold assert_file. rewrite bind_eq.
  destruct (sections_good ALL _ (PBool false) _ V) as (o1 & E1 & G1). rewrite E1, bind_eq.
  destruct (assert_sections_good _ (ini_sections i) (fun s H => ALL s (proj1 (in_sections s) H)) false _ (go_inv _ _ _ G1))
    as (o2 & b & E2 & G2 & B). rewrite E2. pose proof (go_inv _ _ _ G2) as V2.
  assert (G02 : goes files o o2) by (eapply goes_trans; eauto).
  destruct b.
  - destruct (proj1 B eq_refl) as [H|(s & d & I & X & N)]; [discriminate|].
    rewrite bind_eq. unfold get_files at 1. rewrite (iv_files _ _ V2), bind_eq.
    destruct (known_message_good _ _ V2) as (m & o3 & E3 & G3). rewrite E3, bind_eq.
    destruct (print_good _ (m ++ files_message files) _ (go_inv _ _ _ G3)) as (o4 & E4 & G4). rewrite E4, bind_eq.
    destruct (event_serious _ ValueError _ (go_inv _ _ _ G4)) as (o5 & E5 & G5). rewrite E5.
    assert (G04 : goes files o o4) by (eapply goes_trans; [eapply goes_trans|]; eauto).
    rewrite (go_level _ _ _ G04).
    exists (if (3 <=? level_of o)%Z then Err ValueError else Ok 1%Z), o5.
    split; [destruct (3 <=? level_of o)%Z; reflexivity|]. split; [eapply goes_trans; eauto|].
    right. split; auto. exists s, d. split; auto. now apply in_sections.
  - exists (Ok 0%Z), o2. split; [reflexivity|]. split; auto. left. split; auto.
    intros s HS. destruct (expansion_exists s) as (d & X). destruct d as [|kv d]; auto.
    exfalso. assert (Q : false = true); [|discriminate]. apply B. right. exists s, (kv :: d).
    split; [now apply in_sections|]. split; auto. discriminate.
Qed.

Lemma generate_all_good files delim l : (forall s, In s l -> G s) -> forall o, inv files o ->
  exists sd o', generate_all K fs fuel delim l o = (Ok (unrolled delim sd), o') /\ goes files o o' /\
    map fst sd = l /\ Forall (fun x => expansion K i dname (fst x) (snd x)) sd.
Proof.
  induction l as [|s l IH]; intros A o V; cbn [generate_all].
  - exists [], o. split; [reflexivity|]. split; [now apply goes_refl|]. auto.
  - rewrite bind_eq. destruct (expansion_exists s) as (d & X).
    destruct (generate_section_good _ delim s _ d V (A s (or_introl eq_refl)) X) as (o1 & E1 & G1).
    rewrite E1, bind_eq.
    destruct (IH (fun x H => A x (or_intror H)) o1 (go_inv _ _ _ G1)) as (sd & o2 & E2 & G2 & M & FA). rewrite E2.
    exists ((s, d) :: sd), o2. split; [|split; [eapply goes_trans; eauto|split; [cbn; now rewrite M|constructor; auto]]].
    unfold ret. f_equal. f_equal. unfold unrolled. cbn [flat_map fst snd]. now rewrite <- app_assoc.
Qed.
End All2.

Lemma unroll_good files section b o : inv files o ->
  match section with Some s => G s | None => forall s, ini_has_section i s = true -> G s end ->
  exists t o', unroll_to_str K fs fuel section b false o = (Ok (strip_ws t ++ newline), o') /\ goes files o o' /\
    match section with
    | Some s => exists d, expansion K i dname s d /\ t = unrolled_section (if b then $" : " else $":") s d
    | None => exists sd, map fst sd = ini_sections i /\
                Forall (fun x => expansion K i dname (fst x) (snd x)) sd /\ t = unrolled (if b then $" : " else $":") sd
    end.
Proof.
  intros V g. unfold unroll_to_str, unroll_self. rewrite bind_eq. unfold get at 1.
  rewrite bind_eq. unfold set_level at 1, modify at 1. cbn zeta.
  assert (R0 : (0 <= 0 <= 5)%Z) by lia. pose proof (inv_level _ _ _ V R0 safe_0) as V0.
  set (o0 := set_ec (ec_set_level 0 (o_ec o)) o) in *.
  rewrite bind_eq. unfold data_sections.
  destruct (data_keys_good _ _ V0) as (o1 & E1 & G1). rewrite E1, bind_eq.
  assert (X : exists t o2, match section with
      | None => generate_all K fs fuel (if b then $" : " else $":") (ini_sections i)
      | Some s => generate_section K fs fuel (if b then $" : " else $":") s
      end o1 = (Ok t, o2) /\ goes files o1 o2 /\
      match section with
      | Some s => exists d, expansion K i dname s d /\ t = unrolled_section (if b then $" : " else $":") s d
      | None => exists sd, map fst sd = ini_sections i /\
                Forall (fun x => expansion K i dname (fst x) (snd x)) sd /\ t = unrolled (if b then $" : " else $":") sd
      end).
  { destruct section as [s|].
    - destruct (expansion_exists s) as (d & X).
      destruct (generate_section_good _ (if b then $" : " else $":") s _ d (go_inv _ _ _ G1) g X) as (o2 & E2 & G2).
      eexists. exists o2. split; [exact E2|]. split; auto. eauto.
    - destruct (generate_all_good _ (if b then $" : " else $":") (ini_sections i) (fun s H => g s (proj1 (in_sections s) H)) _ (go_inv _ _ _ G1))
        as (sd & o2 & E2 & G2 & M & FA). eexists. exists o2. split; [exact E2|]. split; auto. eauto. }
  destruct X as (t & o2 & E2 & G2 & Q). rewrite E2, bind_eq. unfold set_level, modify, ret.
  exists t. eexists. split; [reflexivity|]. split; [|exact Q].
  pose proof (iv_level _ _ V) as LO. pose proof (go_inv _ _ _ G2) as V2. split.
  - apply inv_level; auto. apply (iv_safe _ _ V).
  - unfold level_of, ec_set_level. cbn. unfold level_ok, level_of in LO. lia.
  - intros s H. assert (C0 : str_mem s (checked_of o0) = true) by exact H.
    apply (go_checked _ _ _ G1) in C0. apply (go_checked _ _ _ G2) in C0. exact C0.
Qed.
End P.
