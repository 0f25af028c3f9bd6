(** * Proofs about handlers that read other sections: what a parse may change, and the
    simulation by a class whose handlers are told the answers. *)
From Coq Require Import String NArith ZArith List Bool Lia Arith.
Import ListNotations.
From Verif Require Import PyBase PyFacts Shlex IniView IniRead ExcControl Debuggable Cpe
  SpecFile SpecShell SpecWalk SpecRun SpecParse SpecApi BaseProofs ShellProofs FileProofs MeaningProofs Refine RefineRoot Trace ApiProofs Reentrant SpecReentrant.
Local Open Scope sm_scope.

Section P.
Context {Sh Us : Type} (R : rclass (Sh := Sh)) (fs : str -> option str) (i : ini) (dname : str) (fuel : nat).
Variable ex : str -> dict (option str).
Variable rank : str -> nat.
Notation obj := (obj Sh Us).
Notation ctx := (ctx Sh Us).
Let K : pyclass Sh Us := told_class ex R.
Hypothesis WB : well_behaved K.
Hypothesis F : length (ini_sections i) + 3 <= fuel.
Hypothesis AP : all_parsable K i dname.
Hypothesis EX : forall s, ini_has_section i s = true -> expansion K i dname s (ex s).
Hypothesis DOWN : reads_down (Us := Us) i dname ex rank R.

Definition lower_than (n : nat) (s : str) : Prop := ini_has_section i s = true /\ rank s < n.
Notation good n := (inv K fs i dname (lower_than n) False).

Lemma inv_weaken (G G' : str -> Prop) files (o : obj) : (forall s, G' s -> G s) ->
  inv K fs i dname G False files o -> inv K fs i dname G' False files o.
Proof.
  intros W [v1 v2 v3 v4 v5 v6 v7 v8 v9]. constructor; auto; try tauto.
  destruct v3 as [v3|v3]; [left; auto|right; auto].
Qed.

(** What may have changed: the sections in [X] only. *)
Record frame (X : str -> Prop) (o o1 : obj) : Prop := {
  fr_files : o_files o1 = o_files o;
  fr_ec : o_ec o1 = o_ec o;
  fr_def : o_defname o1 = o_defname o;
  fr_checked : forall s, ~ X s -> str_mem s (checked_of o1) = str_mem s (checked_of o);
  fr_some : forall s d, ~ X s -> section_of o s = Some d -> section_of o1 s = Some d;
  fr_opts : forall s, ~ X s -> options_of o1 s = options_of o s
}.
Lemma frame_trans (X : str -> Prop) o o1 o2 : frame X o o1 -> frame X o1 o2 -> frame X o o2.
Proof.
  intros [a b c d e f] [a' b' c' d' e' f']. constructor; try congruence.
  - intros s N. rewrite d', d; auto.
  - intros s x N. auto.
  - intros s N. rewrite f', f; auto.
Qed.
Lemma frame_mono (X Y : str -> Prop) o o1 : (forall s, X s -> Y s) -> frame X o o1 -> frame Y o o1.
Proof. intros W [a b c d e f]. constructor; auto. Qed.
(** Nothing of interest changed. *)
Record same (o o1 : obj) : Prop := {
  sm_files : o_files o1 = o_files o;
  sm_ec : o_ec o1 = o_ec o;
  sm_def : o_defname o1 = o_defname o;
  sm_data : data_of o1 = data_of o;
  sm_checked : checked_of o1 = checked_of o;
  sm_has : has_file fs o i -> has_file fs o1 i
}.
Lemma same_frame X o o1 : same o o1 -> frame X o o1.
Proof.
  intros [a b c d e f]. constructor; auto; intros; unfold options_of, section_of in *; rewrite ?d, ?e; auto.
Qed.
Lemma same_refl o : same o o.
Proof. constructor; auto. Qed.
Lemma same_inv G files o o1 : same o o1 -> inv K fs i dname G False files o -> inv K fs i dname G False files o1.
Proof. intros [a b c d e f] V. apply (inv_ext K fs i dname G False files o); auto. apply f, (iv_file _ _ _ _ _ _ _ _ V). Qed.

Lemma same_log e (o : obj) : same o (snd (log e o)).
Proof. constructor; try reflexivity. intros H. unfold has_file in *. rewrite <- H. apply get_cpd_fst_ext; reflexivity. Qed.
Lemma same_event ev e (o : obj) : same o (snd (event ev e o)).
Proof.
  unfold event. destruct (ec_event _ _ _ _) as [r out]. constructor; try reflexivity.
  intros H. unfold has_file in *. rewrite <- H. apply get_cpd_fst_ext; reflexivity.
Qed.
Lemma same_get_files (o : obj) : same o (snd (get_files o)).
Proof. unfold get_files. destruct (o_files o); apply same_refl. Qed.
Lemma same_cpd (o : obj) : same o (set_cpd (Some i) o).
Proof. constructor; reflexivity. Qed.
Lemma same_edata (o : obj) : same o (snd (get_edata o)).
Proof.
  unfold get_edata. destruct (o_edata o) as [d|] eqn:E; [apply same_refl|].
  constructor; try reflexivity; try (unfold data_of, checked_of; cbn; now rewrite E).
  intros H. unfold has_file in *. rewrite <- H. apply get_cpd_fst_ext; reflexivity.
Qed.
Lemma edata_val (o : obj) : exists d, fst (get_edata o) = Ok d /\ d_data d = data_of o /\ d_checked d = checked_of o
  /\ o_edata (snd (get_edata o)) = Some d.
Proof.
  unfold get_edata, data_of, checked_of. destruct (o_edata o) as [d|] eqn:E; [exists d; auto|].
  eexists. split; [reflexivity|]. auto.
Qed.

(** A parse of [t], or a read of it, is over. *)
Record did (files : list str) (t : str) (o o1 : obj) : Prop := {
  di_frame : frame (fun s => s = t \/ lower_than (rank t) s) o o1;
  di_inv : good (rank t) files o1;
  di_checked : str_mem t (checked_of o1) = true;
  di_section : section_of o1 t = Some (ex t)
}.
Lemma did_inv (G : str -> Prop) files t o o1 : (forall s, G s -> ini_has_section i s = true) ->
  inv K fs i dname G False files o -> did files t o o1 ->
  ini_has_section i t = true -> inv K fs i dname G False files o1.
Proof.
  intros GI [v1 v2 v3 v4 v5 v6 v7 v8 v9] [[a b c d e f] [w1 w2 w3 w4 w5 w6 w7 w8 w9] C S] HT.
  constructor; auto; try tauto.
  - unfold level_of in *. now rewrite b.
  - intros s g M. destruct (str_eqb_spec s t) as [E|N].
    + subst s. exists (ex t). auto.
    + destruct (lt_dec (rank s) (rank t)) as [L|L]; [apply w6; auto; split; auto|].
      assert (NX : ~ (s = t \/ lower_than (rank t) s)) by (intros [Q|[_ Q]]; auto).
      rewrite d in M by auto. destruct (v6 s g M) as (x & A & B). exists x. auto.
  - intros s g M. destruct (str_eqb_spec s t) as [E|N]; [congruence|].
    destruct (lt_dec (rank s) (rank t)) as [L|L]; [apply w7; auto; split; auto|].
    assert (NX : ~ (s = t \/ lower_than (rank t) s)) by (intros [Q|[_ Q]]; auto).
    rewrite d in M by auto. rewrite f; auto.
Qed.

(** ** One parse *)
Section Root.
Variable files : list str.
Variable root : str.
Hypothesis RI : ini_has_section i root = true.
Variable o0 : obj.
Let n := rank root.
Variable read : str -> SM obj (dict (option str)).
Hypothesis READ : forall t (o : obj), ini_has_section i t = true -> rank t < n -> good n files o ->
  exists o1, read t o = (Ok (ex t), o1) /\ did files t o o1.
Definition mine (s : str) : Prop := s = root \/ lower_than n s.

Lemma root_out : ~ lower_than n root.
Proof. intros [_ H]. unfold n in H. lia. Qed.

Record relo (o o' : obj) : Prop := {
  ro_inv : good n files o;
  ro_frame : frame mine o0 o;
  ro_has : has_file fs o' i;
  ro_files : o_files o = o_files o';
  ro_ec : o_ec o = o_ec o';
  ro_def : o_defname o = o_defname o';
  ro_checked : str_mem root (checked_of o) = true;
  ro_checked' : str_mem root (checked_of o') = true;
  ro_opts : options_of o root = options_of o' root;
  ro_some : forall d, section_of o' root = Some d -> section_of o root = Some d
}.
Lemma relo_same o o' o1 o1' : relo o o' -> same o o1 -> same o' o1' -> relo o1 o1'.
Proof.
  intros [a b c d e f g h j k] S S'. constructor.
  - eapply same_inv; eauto.
  - eapply frame_trans; [exact b|]. now apply same_frame.
  - now apply S'.
  - rewrite (sm_files _ _ S), (sm_files _ _ S'). auto.
  - rewrite (sm_ec _ _ S), (sm_ec _ _ S'). auto.
  - rewrite (sm_def _ _ S), (sm_def _ _ S'). auto.
  - now rewrite (sm_checked _ _ S).
  - now rewrite (sm_checked _ _ S').
  - unfold options_of, section_of in *. now rewrite (sm_data _ _ S), (sm_data _ _ S').
  - unfold section_of in *. now rewrite (sm_data _ _ S), (sm_data _ _ S').
Qed.

Record rel (c c' : ctx) : Prop := {
  re_obj : relo (x_obj c) (x_obj c');
  re_sh : x_sh c = x_sh c';
  re_proc : x_proc c = x_proc c'
}.
Definition sim {A} (P : A -> Prop) (h m : SM ctx A) : Prop := forall c c', rel c c' ->
  fst (h c) = fst (m c') /\ rel (snd (h c)) (snd (m c')) /\ forall a, fst (h c) = Ok a -> P a.
Definition simo {A} (h m : SM obj A) : Prop := forall o o', relo o o' ->
  fst (h o) = fst (m o') /\ relo (snd (h o)) (snd (m o')).

Lemma sim_ret {A} (P : A -> Prop) a : P a -> sim P (ret a) (ret a).
Proof. intros H c c' E. cbn. split; auto. split; auto. intros x Q. inversion Q; subst. auto. Qed.
Lemma sim_raise {A} (P : A -> Prop) e : sim P (raise e) (raise e).
Proof. intros c c' E. cbn. split; auto. split; auto. discriminate. Qed.
Lemma sim_of_res {A} (P : A -> Prop) (r : res A) : (forall a, r = Ok a -> P a) -> sim P (of_res r) (of_res r).
Proof. intros H c c' E. unfold of_res. cbn. auto. Qed.
Lemma sim_bind {A B} (P : A -> Prop) (Q : B -> Prop) h m k k' : sim P h m -> (forall a, P a -> sim Q (k a) (k' a)) ->
  sim Q (bind h k) (bind m k').
Proof.
  intros H H' c c' E. rewrite !bind_eq. destruct (H c c' E) as (A1 & A2 & A3).
  destruct (h c) as [r c1], (m c') as [r' c1']. cbn [fst snd] in *. subst r'. destruct r as [a|e].
  - apply H'; auto.
  - cbn. split; auto. split; auto. discriminate.
Qed.
Lemma sim_lift {A} (h m : SM obj A) : simo h m -> sim (fun _ => True) (lift h) (lift m).
Proof.
  intros H c c' [a b d]. unfold lift. destruct (H _ _ a) as (A1 & A2).
  destruct (h (x_obj c)) as [r o], (m (x_obj c')) as [r' o']. cbn [fst snd] in *. split; auto.
  split; auto. constructor; auto.
Qed.
Lemma sim_weak {A} (P Q : A -> Prop) h m : (forall a, P a -> Q a) -> sim P h m -> sim Q h m.
Proof. intros W H c c' E. destruct (H c c' E) as (a & b & d). split; auto. Qed.

Lemma simo_log e : simo (log e) (log e).
Proof. intros o o' H. split; [reflexivity|]. apply (relo_same _ _ _ _ H); apply same_log. Qed.
Lemma simo_event ev e : simo (event ev e) (event ev e).
Proof.
  intros o o' H. split; [|apply (relo_same _ _ _ _ H); apply same_event].
  unfold event. rewrite (ro_ec _ _ H). now destruct (ec_event _ _ _ _).
Qed.
Lemma simo_get_files : simo get_files get_files.
Proof.
  intros o o' H. split; [|apply (relo_same _ _ _ _ H); apply same_get_files].
  unfold get_files. rewrite (ro_files _ _ H). now destruct (o_files o').
Qed.
Lemma simo_get_cpd : simo (get_cpd fs) (get_cpd fs).
Proof.
  intros o o' H. rewrite (get_cpd_ready fs i o (iv_file _ _ _ _ _ _ _ _ (ro_inv _ _ H))), (get_cpd_ready fs i o' (ro_has _ _ H)).
  split; [reflexivity|]. cbn [snd]. apply (relo_same _ _ _ _ H); apply same_cpd.
Qed.
Lemma simo_ret {A} (a : A) : simo (ret a) (ret a).
Proof. intros o o' H. auto. Qed.
Lemma simo_bind {A B} (h m : SM obj A) (k k' : A -> SM obj B) : simo h m -> (forall a, simo (k a) (k' a)) ->
  simo (bind h k) (bind m k').
Proof.
  intros H H' o o' E. rewrite !bind_eq. destruct (H o o' E) as (A1 & A2).
  destruct (h o) as [r c1], (m o') as [r' c1']. cbn [fst snd] in *. subst r'. destruct r as [a|e]; auto.
  apply H'; auto.
Qed.
Lemma simo_check r : simo (check_rval r) (check_rval r).
Proof.
  unfold check_rval. destruct r as [z|]; [|apply simo_event].
  destruct (z =? 0)%Z; [apply simo_ret|]. destruct (z <=? 10)%Z; apply simo_event.
Qed.

(** *** Writes *)
Definition with_data (d : sections_data) (o o1 : obj) : Prop :=
  o_files o1 = o_files o /\ o_ec o1 = o_ec o /\ o_defname o1 = o_defname o /\ data_of o1 = d /\
  checked_of o1 = checked_of o /\ (has_file fs o i -> has_file fs o1 i).
Lemma put_with (o : obj) d : with_data (d_data d) o (set_edata (Some d) o) \/ d_checked d <> checked_of o.
Proof.
  destruct (list_eq_dec str_eq_dec (d_checked d) (checked_of o)) as [E|N]; auto.
  left. repeat (split; [try reflexivity; exact E|]). intros H. unfold has_file in *. rewrite <- H. apply get_cpd_fst_ext; reflexivity.
Qed.
Lemma add_with (o : obj) s : exists o1, data_add_section s false o = (Ok tt, o1) /\
  with_data (if dmem s (data_of o) then data_of o else dset s [] (data_of o)) o o1.
Proof.
  unfold data_add_section. rewrite bind_eq. pose proof (same_edata o) as S. destruct (edata_val o) as (d & E & D & C & _).
  destruct (get_edata o) as [r o1]. cbn [fst snd] in *. subst r. unfold put_edata, modify.
  eexists. split; [reflexivity|]. unfold ed_add_section. cbn [orb]. rewrite D.
  repeat (split; [apply S|]). destruct (dmem s (data_of o)) eqn:M; cbn [negb].
  - split; [exact D|]. split; [exact C|]. intros H. apply S in H. unfold has_file in *. rewrite <- H. apply get_cpd_fst_ext; reflexivity.
  - split; [reflexivity|]. split; [exact C|]. intros H. apply S in H. unfold has_file in *. rewrite <- H. apply get_cpd_fst_ext; reflexivity.
Qed.

(** A section that is not there is added. *)
Lemma inv_added s files' (o o1 : obj) :
  with_data (if dmem s (data_of o) then data_of o else dset s [] (data_of o)) o o1 ->
  (forall X, frame X o o1) /\ (good n files' o -> good n files' o1).
Proof.
  intros (a & b & c & d & e & f).
  assert (SS : forall t x, section_of o t = Some x -> section_of o1 t = Some x).
  { intros t x. unfold section_of. rewrite d. unfold dmem. destruct (dget s (data_of o)) eqn:M; auto.
    rewrite dget_dset. destruct (str_eqb_spec t s) as [E|_]; auto. subst t. congruence. }
  assert (OO : forall t, options_of o1 t = options_of o t).
  { intros t. unfold options_of. destruct (section_of o t) as [x|] eqn:E; [now rewrite (SS _ _ E)|].
    unfold section_of in *. rewrite d. unfold dmem. destruct (dget s (data_of o)) eqn:M; [now rewrite E|].
    rewrite dget_dset. destruct (str_eqb t s); [auto|now rewrite E]. }
  split.
  - intros X. constructor; auto. intros t _. now rewrite e.
  - intros [v1 v2 v3 v4 v5 v6 v7 v8 v9]. constructor; auto; try tauto; try congruence.
    + unfold level_ok, level_of in *. now rewrite b.
    + unfold level_of in *. now rewrite b.
    + intros t g M. rewrite e in M. destruct (v6 t g M) as (x & A & B). exists x. auto.
    + intros t g M. rewrite e in M. rewrite OO. auto.
    + rewrite d. destruct (dmem s (data_of o)); auto. now apply NoDup_dkeys_dset.
Qed.

Lemma simo_add s : simo (data_add_section s false) (data_add_section s false).
Proof.
  intros o o' H. destruct (add_with o s) as (o1 & E & W), (add_with o' s) as (o1' & E' & W'). rewrite E, E'. cbn [fst snd].
  split; auto. destruct (inv_added _ files _ _ W) as [FR IV], (inv_added _ files _ _ W') as [FR' _].
  destruct H as [a b c d e f g h j k].
  destruct W as (w1 & w2 & w3 & w4 & w5 & w6), W' as (x1 & x2 & x3 & x4 & x5 & x6).
  constructor; auto; try congruence.
  - eapply frame_trans; eauto.
  - rewrite (fr_opts _ _ _ (FR (fun _ => False))), (fr_opts _ _ _ (FR' (fun _ => False))) by auto. auto.
  - intros y Q. unfold section_of in *. rewrite x4 in Q. rewrite w4. unfold dmem in *.
    unfold options_of, section_of in j.
    destruct (str_eqb_spec root s) as [N|N].
    + subst s. destruct (dget root (data_of o')) as [q|] eqn:D'.
      * rewrite (k _ eq_refl). rewrite D' in Q. inversion Q; subst. now apply k.
      * rewrite dget_dset_same in Q. inversion Q; subst y.
        destruct (dget root (data_of o)) as [q|] eqn:D; [rewrite D; congruence|apply dget_dset_same].
    + assert (Q' : dget root (data_of o') = Some y).
      { destruct (dget s (data_of o')); auto. rewrite dget_dset_other in Q; auto. }
      apply k in Q'. destruct (dget s (data_of o)); auto. rewrite dget_dset_other; auto.
Qed.

(** *** The root's option is written *)
Lemma set_with reparse (o : obj) k v : has_file fs o i -> str_mem root (checked_of o) = true ->
  exists o1, data_set fs reparse root k v o = (Ok tt, o1) /\
   o_files o1 = o_files o /\ o_ec o1 = o_ec o /\ o_defname o1 = o_defname o /\ has_file fs o1 i /\
   checked_of o1 = checked_of o /\ data_of o1 = dset root (dset k v (options_of o root)) (if dmem root (data_of o) then data_of o else dset root [] (data_of o)).
Proof.
  intros H C. unfold data_set, data_has_section. rewrite !bind_eq, (get_cpd_ready fs i o H), RI.
  pose proof (same_cpd o) as S0. set (oa := set_cpd (Some i) o) in *.
  rewrite !bind_eq. pose proof (same_edata oa) as S1. destruct (edata_val oa) as (d & E & D & C1 & _).
  destruct (get_edata oa) as [r ob]. cbn [fst snd] in *. subst r.
  assert (M : str_mem root (d_checked d) = true) by (rewrite C1; exact C). rewrite M. cbn [ret].
  rewrite !bind_eq. pose proof (same_edata ob) as S2. destruct (edata_val ob) as (d2 & E2 & D2 & C2 & _).
  destruct (get_edata ob) as [r oc]. cbn [fst snd] in *. subst r. unfold ret at 1.
  assert (DD : data_of oc = data_of o) by (rewrite (sm_data _ _ S2), (sm_data _ _ S1); reflexivity).
  assert (CC : checked_of oc = checked_of o) by (rewrite (sm_checked _ _ S2), (sm_checked _ _ S1); reflexivity).
  assert (DD2 : d_data d2 = data_of o) by (rewrite D2, (sm_data _ _ S1); reflexivity).
  assert (HC : has_file fs oc i) by (apply S2, S1, S0, H).
  assert (B1 : o_files oc = o_files o) by (rewrite (sm_files _ _ S2), (sm_files _ _ S1); reflexivity).
  assert (B2 : o_ec oc = o_ec o) by (rewrite (sm_ec _ _ S2), (sm_ec _ _ S1); reflexivity).
  assert (B3 : o_defname oc = o_defname o) by (rewrite (sm_def _ _ S2), (sm_def _ _ S1); reflexivity).
  rewrite DD2.
  assert (X : exists od, (if dmem root (data_of o) then ret tt else data_add_section root false) oc = (Ok tt, od) /\
    with_data (if dmem root (data_of o) then data_of o else dset root [] (data_of o)) oc od).
  { destruct (dmem root (data_of o)) eqn:Q.
    - exists oc. split; [reflexivity|]. repeat (split; auto).
    - destruct (add_with oc root) as (od & A & B). exists od. rewrite DD, Q in B. auto. }
  destruct X as (od & A & (a1 & a2 & a3 & a4 & a5 & a6)). rewrite !bind_eq, A, bind_eq.
  pose proof (same_edata od) as S3. destruct (edata_val od) as (d3 & E3 & D3 & C3 & _).
  destruct (get_edata od) as [r oe]. cbn [fst snd] in *. subst r. unfold ed_put. rewrite D3, a4.
  assert (Y : dget root (if dmem root (data_of o) then data_of o else dset root [] (data_of o)) = Some (options_of o root)).
  { unfold options_of, section_of, dmem. destruct (dget root (data_of o)) eqn:Q; [exact Q|apply dget_dset_same]. }
  unfold sections_data, str in *. rewrite Y. unfold put_edata, modify. eexists. split; [reflexivity|].
  split; [cbn; rewrite (sm_files _ _ S3); congruence|]. split; [cbn; rewrite (sm_ec _ _ S3); congruence|].
  split; [cbn; rewrite (sm_def _ _ S3); congruence|].
  split; [|split; [cbn; rewrite C3; congruence|reflexivity]].
  assert (HE : has_file fs oe i) by (apply S3, a6, HC). unfold has_file in *. rewrite <- HE. apply get_cpd_fst_ext; reflexivity.
Qed.

Lemma simo_set reparse reparse' k v : simo (data_set fs reparse root k v) (data_set fs reparse' root k v).
Proof.
  intros o o' [a b c d e f g h j kk].
  destruct (set_with reparse o k v (iv_file _ _ _ _ _ _ _ _ a) g) as (o1 & E & x1 & x2 & x3 & x4 & x5 & x6).
  destruct (set_with reparse' o' k v c h) as (o1' & E' & y1 & y2 & y3 & y4 & y5 & y6).
  rewrite E, E'. cbn [fst snd]. split; auto.
  assert (OT : forall t, t <> root -> section_of o1 t = section_of o t).
  { intros t N. unfold section_of. rewrite x6, dget_dset_other by auto.
    destruct (dmem root (data_of o)); auto. now rewrite dget_dset_other. }
  constructor; auto; try congruence.
  - destruct a as [v1 v2 v3 v4 v5 v6 v7 v8 v9].
    assert (NR : forall t, lower_than n t -> t <> root) by (intros t A B; subst t; exact (root_out A)).
    constructor; auto; try tauto; try congruence.
    + unfold level_ok, level_of in *. now rewrite x2.
    + unfold level_of in *. now rewrite x2.
    + intros t l M. rewrite x5 in M. rewrite OT by auto. auto.
    + intros t l M. rewrite x5 in M. unfold options_of. rewrite OT by auto. apply v7; auto.
    + rewrite x6. apply NoDup_dkeys_dset. destruct (dmem root (data_of o)); auto. now apply NoDup_dkeys_dset.
  - eapply frame_trans; [exact b|]. assert (NR : forall t, ~ mine t -> t <> root) by (intros t A B; apply A; left; auto).
    constructor; auto.
    + intros t _. now rewrite x5.
    + intros t q N. rewrite OT; auto.
    + intros t N. unfold options_of. rewrite OT; auto.
  - unfold options_of at 1 2. unfold section_of. now rewrite x6, y6, !dget_dset_same, j.
  - intros q. unfold section_of. rewrite x6, y6, !dget_dset_same, j. auto.
Qed.

(** *** Handlers *)
Lemma run_sim p : reads_below i ex rank n p -> forall c c', rel c c' ->
  exists o1, run_prog read p c = (fst (told ex p), Ctx o1 (snd (told ex p)) (x_proc c)) /\ relo o1 (x_obj c').
Proof.
  induction 1 as [r sh|s k HS HR HB IH]; intros c c' E; cbn [run_prog told].
  - exists (x_obj c). split; [reflexivity|]. apply E.
  - destruct E as [[a b cc d e f g h j kk] es ep].
    destruct (READ s (x_obj c) HS HR a) as (o1 & RE & DI). rewrite RE.
    assert (NX : ~ (root = s \/ lower_than (rank s) root)).
    { intros [Q|[_ Q]]; [subst s; unfold n in HR; lia|unfold n in HR; lia]. }
    assert (RL : rel (Ctx o1 (x_sh c) (x_proc c)) c').
    { constructor; auto. cbn [x_obj]. pose proof (di_frame _ _ _ _ DI) as FR. constructor; auto.
      - eapply did_inv; eauto. intros t [A _]. exact A.
      - eapply frame_trans; [exact b|]. eapply frame_mono; [|exact FR]. intros t [A|[A B]]; right; split; auto; subst; auto. lia.
      - rewrite (fr_files _ _ _ FR). auto.
      - rewrite (fr_ec _ _ _ FR). auto.
      - rewrite (fr_def _ _ _ FR). auto.
      - rewrite (fr_checked _ _ _ FR); auto.
      - rewrite (fr_opts _ _ _ FR); auto.
      - intros q Q. apply (fr_some _ _ _ FR); auto. }
    destruct (IH _ _ RL) as (o2 & A & B). exists o2. auto.
Qed.
Lemma sim_user f sec hp : (forall sh, reads_below i ex rank n (f sec hp sh)) ->
  sim (fun _ => True) (r_user_body read f sec hp) (user_body (told_body ex f) sec hp).
Proof.
  intros B c c' E. unfold r_user_body, user_body, told_body.
  destruct (run_sim _ (B (x_sh c)) c c' E) as (o1 & A & RL). rewrite A, <- (re_sh _ _ E).
  destruct (told ex (f sec hp (x_sh c))) as [r sh']. cbn [fst snd]. split; auto. split; auto.
  constructor; cbn [x_obj x_sh x_proc]; auto; [|apply E].
  apply (relo_same _ _ _ _ RL); [apply same_refl|]. constructor; try reflexivity.
  intros H. unfold has_file in *. rewrite <- H. apply get_cpd_fst_ext; reflexivity.
Qed.

Lemma dget_told name (l : dict (rattr (Sh := Sh))) :
  dget name (map (fun na => (fst na, told_attr (Us := Us) ex (snd na))) l) = option_map (told_attr ex) (dget name l).
Proof. induction l as [|[k v] l IH]; cbn; auto. destruct (str_eqb name k); auto. Qed.
Lemma find_told name : find_attr K name = option_map (told_attr ex) (r_find_attr R name).
Proof.
  unfold find_attr, r_find_attr, K, told_class. cbn [k_over]. rewrite dget_told.
  destruct (dget name (rk_over R)); auto. cbn [option_map].
  exact (dget_told name base_rattrs).
Qed.
Lemma base_reads name k (f : rbody (Sh := Sh)) sec hp sh m : dget name base_rattrs = Some (RUser k f) ->
  reads_below i ex rank m (f sec hp sh).
Proof.
  unfold base_rattrs. cbn [dget]. 
  destruct (str_eqb name _); [discriminate|]. destruct (str_eqb name _); [intros E; inversion E; constructor|].
  destruct (str_eqb name _); [intros E; inversion E; constructor|discriminate].
Qed.
Definition con (s : str) : Prop := contributes K i dname root true s.
Lemma find_reads name k (f : rbody (Sh := Sh)) sec hp sh : r_find_attr R name = Some (RUser k f) ->
  calls K i dname root name sec hp -> reads_below i ex rank n (f sec hp sh).
Proof.
  unfold r_find_attr. intros E H. unfold n. destruct (dget name (rk_over R)) as [a|] eqn:D.
  - inversion E; subst. eapply DOWN; eauto.
  - eapply base_reads; eauto.
Qed.

Lemma sim_decorated hp h m : sim (fun _ => True) h m -> sim (fun _ => True) (decorated hp h) (decorated hp m).
Proof.
  intros H. unfold decorated. eapply sim_bind; [apply sim_lift, simo_log|intros _ _].
  eapply sim_bind; [exact H|intros r _]. eapply sim_bind; [apply sim_lift, simo_log|intros _ _].
  apply sim_lift, simo_check.
Qed.

Section Rec.
Variable rec rec' : str -> bool -> bool -> SM ctx unit.
Variable reparse reparse' : str -> SM obj unit.
Hypothesis REC : forall s a b, con s -> sim (fun _ => True) (rec s a b) (rec' s a b).

Lemma sim_use sec hp : (forall t ps, hp_params hp = t :: ps -> con t) -> sim (fun _ => True) (use_body rec sec hp) (use_body rec' sec hp).
Proof.
  intros CO. unfold use_body. destruct (hp_params hp) as [|t ps]; [apply sim_raise|].
  intros c c' E. rewrite !bind_eq. unfold get. rewrite (re_proc _ _ E).
  destruct (negb (str_mem t (x_proc c'))).
  - apply (sim_bind (fun _ => True) (fun _ => True)); [apply REC, (CO t ps eq_refl)| |exact E]. intros; now apply sim_ret.
  - revert c c' E. change (sim (fun _ => True) (lift (log (LCycle sec (hp_op hp))) ;; lift (log (LHExit (hp_name hp) (hp_raw hp))) ;; lift get_files ;; lift (event $"WARNING" ValueError) ;; ret (Some 0%Z))
      (lift (log (LCycle sec (hp_op hp))) ;; lift (log (LHExit (hp_name hp) (hp_raw hp))) ;; lift get_files ;; lift (event $"WARNING" ValueError) ;; ret (Some 0%Z))).
    eapply sim_bind; [apply sim_lift, simo_log|intros _ _]. eapply sim_bind; [apply sim_lift, simo_log|intros _ _].
    eapply sim_bind; [apply sim_lift, simo_get_files|intros _ _]. eapply sim_bind; [apply sim_lift, simo_event|intros _ _].
    now apply sim_ret.
Qed.
Lemma sim_call name a sec hp : r_find_attr R name = Some a ->
  (forall k f, a = RUser k f -> calls K i dname root name sec hp) ->
  (a = RUse -> forall t ps, hp_params hp = t :: ps -> con t) ->
  sim (fun _ => True) (r_call_attr read rec a sec hp) (call_attr rec' (told_attr ex a) sec hp).
Proof.
  intros E H H'. destruct a as [|k f| |]; cbn [r_call_attr told_attr call_attr]; try apply sim_raise.
  - apply sim_decorated, sim_use. exact (H' eq_refl).
  - assert (X : sim (fun _ => True) (r_user_body read f sec hp) (user_body (told_body ex f) sec hp)).
    { apply sim_user. intros sh. eapply find_reads; eauto. }
    destruct k; [now apply sim_decorated| |];
    (eapply sim_bind; [exact X|intros; now apply sim_ret]).
Qed.
Lemma sim_named name sec hp : calls K i dname root name sec hp -> hp_params hp = [] ->
  sim (fun _ => True) (r_call_named R read rec name sec hp) (call_named K rec' name sec hp).
Proof.
  intros H HP. unfold r_call_named, call_named. rewrite find_told.
  destruct (r_find_attr R name) as [a|] eqn:E; [|apply sim_raise]. apply (sim_call name); auto.
  intros _ t ps Q. rewrite HP in Q. discriminate.
Qed.

Lemma sim_generic hp k v : hp_root hp = root ->
  sim (fun h => hp_root h = root) (launch_generic fs reparse hp k v) (launch_generic fs reparse' hp k v).
Proof.
  intros H. unfold launch_generic. rewrite H. eapply sim_bind; [apply sim_lift, simo_set|intros _ _].
  eapply sim_bind; [apply sim_decorated; now apply sim_ret|intros _ _]. now apply sim_ret.
Qed.
Lemma normalize_twice w : normalize_op (normalize_op w) = normalize_op w.
Proof.
  unfold normalize_op, replace_char. rewrite map_map. apply map_ext. intros c. destruct (N.eqb c 45) eqn:E; [reflexivity|now rewrite E].
Qed.
Lemma locate_told op : exists (pre : SM obj unit) h,
  simo pre pre /\ (forall o, r_locate_handler R op o = (pre ;; ret h) o) /\
  (forall o, locate_handler K op o = (pre ;; ret (option_map (fun na => (fst na, told_attr ex (snd na))) h)) o) /\
  forall name a, h = Some (name, a) -> r_find_attr R name = Some a /\
    exists amb, handler_of K (normalize_op op) (Some (name, told_attr ex a, amb)).
Proof.
  unfold r_locate_handler, locate_handler, r_locate_class_method, locate_class_method. rewrite !find_told.
  assert (HA : forall x, has_attr K x = match option_map (told_attr ex) (r_find_attr R x) with Some ANone => None | y => y end)
    by (intros x; unfold has_attr; now rewrite find_told).
  pose proof (HA (public_name (normalize_op op))) as H1. pose proof (HA (private_name (normalize_op op))) as H2. clear HA.
  unfold public_name, private_name in H1, H2.
  set (pu := $"handler_" ++ normalize_op op) in *. set (pr := $"_handler_" ++ normalize_op op) in *.
  destruct (r_find_attr R pu) as [[|? ?| |]|] eqn:E1, (r_find_attr R pr) as [[|? ?| |]|] eqn:E2; cbn [option_map told_attr] in *;
  first [
    exists (event $"SERIOUS" AmbiguousHandlerError); eexists; split; [apply simo_event|];
      split; [intros; reflexivity|]; split; [intros; reflexivity|]; intros ? ? Q; inversion Q; subst; (split; [first [exact E1|exact E2]|]); first [eexists; apply ho_both with (1 := H1) (2 := H2)|eexists; apply ho_public; [exact H1|exact H2]|eexists; apply ho_private; [exact H1|exact H2]]
  | exists (ret tt); eexists; split; [apply simo_ret|];
      split; [intros; reflexivity|]; split; [intros; reflexivity|]; intros ? ? Q; inversion Q; subst; (split; [first [exact E1|exact E2]|]); first [eexists; apply ho_both with (1 := H1) (2 := H2)|eexists; apply ho_public; [exact H1|exact H2]|eexists; apply ho_private; [exact H1|exact H2]] ].
Qed.

Lemma sim_ext {A} (P : A -> Prop) h h' m m' : (forall c, h c = h' c) -> (forall c, m c = m' c) -> sim P h' m' -> sim P h m.
Proof. intros A1 A2 H c c' E. rewrite A1, A2. auto. Qed.

Lemma sim_item sec hp kv items : ini_items i sec = Some items -> In kv items -> con sec -> hp_root hp = root ->
  sim (fun h => hp_root h = root) (r_process_item R fs read rec reparse sec hp kv) (process_item K fs rec' reparse' sec hp kv).
Proof.
  intros IT IK CS H. unfold r_process_item, process_item.
  eapply (sim_bind (fun v => snd kv = Ok v)); [now apply sim_of_res|intros v0 HV].
  eapply sim_bind; [apply sim_lift, simo_log|intros _ _].
  eapply (sim_bind (fun l => shlex_split (strip_ws (strip_ws (fst kv))) = Ok l)); [now apply sim_of_res|intros toks HW].
  destruct toks as [|t0 ps]; [apply sim_raise|].
  change (op_word (bare R) t0) with (op_word K t0). destruct (op_word K t0) eqn:OW; cbn [negb]; [|now apply sim_generic].
  eapply sim_bind; [apply sim_lift, simo_log|intros _ _].
  destruct (locate_told (normalize_op t0)) as (pre & h & SP & A & B & FA).
  intros c c' E. rewrite !bind_eq. unfold lift. rewrite A, B. rewrite !bind_eq.
  destruct (SP _ _ (re_obj _ _ E)) as [Q1 Q2].
  destruct (pre (x_obj c)) as [r o], (pre (x_obj c')) as [r' o']. cbn [fst snd] in *. subst r'.
  assert (RL : rel (Ctx o (x_sh c) (x_proc c)) (Ctx o' (x_sh c') (x_proc c'))) by (constructor; auto; apply E).
  destruct r as [[]|e]; [|cbn; split; auto; split; auto; discriminate].
  unfold ret at 1 3. destruct h as [[name a]|]; cbn [option_map fst snd].
  - match goal with |- context [r_call_attr read rec a sec ?h] => set (hp3 := h) end.
    assert (X : sim (fun h => hp_root h = root) (r_call_attr read rec a sec hp3 ;; ret hp3) (call_attr rec' (told_attr ex a) sec hp3 ;; ret hp3)).
    { destruct (FA _ _ eq_refl) as (FN & amb & HO). rewrite normalize_twice, <- undash_normalize in HO. assert (SI : forall x, strip_ws (strip_ws x) = strip_ws x) by (intros; apply strip_idem). rewrite SI in HW.
      destruct kv as [k0 rv]. cbn [fst snd] in *. subst rv.
      eapply sim_bind; [apply (sim_call name a sec hp3 FN)|intros; now apply sim_ret].
      - intros kd f Q. subst a. pose proof (c_user K sec k0 v0 t0 ps name kd (told_body ex f) amb HW OW HO) as M.
        apply meaning_iff in M. rewrite undash_normalize in M.
        unfold hp3. rewrite H. exact (call_option K i dname root sec items _ _ _ _ _ _ CS (proj2 (shows_iff _ _ _) IT) IK M).
      - intros Q t ps' Q'. subst a. change (ps = t :: ps') in Q'. subst ps.
        pose proof (c_use K sec k0 v0 t0 t ps' name amb HW OW HO) as M. apply meaning_iff in M.
        assert (U : uses K i sec t) by (eexists _, _, _, _, _; split; [exact (proj2 (shows_iff _ _ _) IT)|split; [exact IK|exact M]]).
        destruct CS as [C|(C1 & C2 & C)]; [left|right; split; [exact C1|split; [exact C2|]]];
        (eapply reaches_trans; [exact C|]; eapply reach_step; [exact U|constructor]). }
    exact (X _ _ RL).
  - refine (sim_generic _ _ _ _ _ _ RL). exact H.
Qed.
Lemma sim_items sec items l : ini_items i sec = Some items -> con sec -> incl l items -> forall hp, hp_root hp = root ->
  sim (fun _ => True) (r_run_items R fs read rec reparse sec hp l) (run_items K fs rec' reparse' sec hp l).
Proof.
  intros IT CS. induction l as [|kv l IH]; intros IL hp H; cbn [r_run_items run_items]; [now apply sim_ret|].
  eapply sim_bind; [apply (sim_item sec hp kv items); auto; apply IL; left; auto|].
  intros hp' H'. apply IH; auto. intros x Hx. apply IL. right. exact Hx.
Qed.
Lemma sim_add s : sim (fun _ => True) (proc_add s) (proc_add s).
Proof. intros c c' E. cbn. split; auto. split; auto. constructor; cbn; try apply E. now rewrite (re_proc _ _ E). Qed.
Lemma sim_remove s : sim (fun _ => True) (proc_remove s) (proc_remove s).
Proof.
  intros c c' E. unfold proc_remove. rewrite (re_proc _ _ E). destruct (str_mem s (x_proc c')); cbn; split; auto; split; auto.
  constructor; cbn; try apply E. reflexivity.
Qed.
Lemma sim_cpd : sim (fun j => j = i) (lift (get_cpd fs)) (lift (get_cpd fs)).
Proof.
  intros c c' E. destruct (sim_lift _ _ simo_get_cpd c c' E) as (A & B & _). split; auto. split; auto.
  intros j. unfold lift. rewrite (get_cpd_ready fs i _ (iv_file _ _ _ _ _ _ _ _ (ro_inv _ _ (re_obj _ _ E)))). cbn. congruence.
Qed.
Lemma sim_body sec a b : con sec ->
  sim (fun _ => True) (r_psr_body R fs read rec reparse root sec a b) (psr_body K fs rec' reparse' root sec a b).
Proof.
  intros CS. unfold r_psr_body, psr_body. eapply (sim_bind (fun _ => True)).
  - destruct (a && str_eqb sec root) eqn:AB; [|now apply sim_ret].
    apply andb_prop in AB as [_ AB]. apply str_eqb_eq in AB. subst sec.
    eapply sim_bind; [apply sim_named; [apply call_initialize|reflexivity]|intros _ _]. eapply sim_bind; [apply sim_cpd|intros j ->].
    intros c c' E. rewrite !bind_eq. unfold get. rewrite (ro_def _ _ (re_obj _ _ E)).
    rewrite <- (ro_def _ _ (re_obj _ _ E)), (iv_def _ _ _ _ _ _ _ _ (ro_inv _ _ (re_obj _ _ E))).
    destruct (ini_has_section i dname) eqn:DN; [|now apply sim_ret]. apply REC; auto.
    right. split; [reflexivity|]. split; [exact DN|constructor].
  - intros _ _. eapply sim_bind; [apply sim_lift, simo_log|intros _ _].
    eapply sim_bind; [apply sim_cpd|intros j ->].
    destruct (ini_items i sec) as [items|] eqn:IT.
    + eapply sim_bind; [apply sim_lift, simo_add|intros _ _]. eapply sim_bind; [apply sim_add|intros _ _].
      eapply sim_bind; [apply (sim_items sec items); auto; apply incl_refl|intros _ _].
      eapply (sim_bind (fun _ => True)); [|intros _ _].
      { destruct (b && str_eqb sec root) eqn:AB; [|now apply sim_ret].
        apply andb_prop in AB as [_ AB]. apply str_eqb_eq in AB. subst sec. apply sim_named; [apply call_finalize|reflexivity]. }
      eapply sim_bind; [apply sim_remove|intros _ _]. apply sim_lift, simo_log.
    + eapply sim_bind; [apply sim_lift, simo_get_files|intros _ _]. apply sim_raise.
Qed.
End Rec.

Lemma sim_psr f : forall sec a b, con sec -> sim (fun _ => True) (r_psr R fs read f root sec a b) (psr K fs f root sec a b).
Proof.
  induction f as [|f IH]; intros sec a b C; cbn [r_psr psr]; [apply sim_raise|]. now apply sim_body.
Qed.
End Root.
End P.
