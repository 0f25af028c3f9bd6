(** * Proofs of C30 (base class), C35 and C36. *)
From Coq Require Import String NArith ZArith List Bool Lia Arith ZifyBool.
Import ListNotations.
From Verif Require Import PyBase PyFacts Shlex IniView IniRead ExcControl Debuggable Cpe
  SpecBase SpecText SpecFile SpecShell ShellProofs FileProofs SpecWalk MeaningProofs SpecRun SpecParse SpecApi BaseProofs Refine RefineRoot RefineOk RunProofs Trace WalkProofs
  ParseProofs ParseProofs2 ParseProofs3 ParseProofs4 ApiProofs ApiProofs2 ApiProofs3 ApiProofs4 Samples.
Local Open Scope sm_scope.

Theorem unroll_base_text {Sh Us} (K : pyclass Sh Us) fs fuel i section b fl (o : obj Sh Us) :
  o_files o = Some fl -> has_file fs (set_files (Some fl) (new_obj tt) : obj unit unit) i ->
  all_parsable (base_class (k_uniword K)) i $"DEFAULT" ->
  match section with Some s => ini_has_section i s = true | None => True end ->
  length (ini_sections i) + 3 <= fuel ->
  exists t, fst (unroll_to_str K fs fuel section b true o) = Ok t /\
    answers (base_class (k_uniword K)) i $"DEFAULT" 0 (OUnroll section b) (Ok (RText t)).
Proof.
  intros Fi H A IN F. set (B := base_class (k_uniword K)) in *.
  set (p0 := set_files (Some fl) (new_obj tt) : obj unit unit) in *.
  assert (O : opened B fs i $"DEFAULT" p0).
  { constructor; auto; try reflexivity; [split; cbn; lia|left; reflexivity]. }
  assert (IN' : in_file B i $"DEFAULT" (OUnroll section b)) by (destruct section; exact IN).
  pose proof (history_answers B fs i $"DEFAULT" fuel (base_well_behaved _) F A [] (OUnroll section b) p0 O (Forall_nil _) IN') as X.
  cbn [after exec_op] in X. unfold fmap in X. rewrite bind_eq in X.
  unfold unroll_to_str in *. rewrite Fi. fold B p0.
  destruct (unroll_self B fs fuel section b p0) as [[t|e] p]; cbn [fst] in *; [|inversion X].
  exists t. split; auto. unfold ret in X. cbn [fst] in X. inversion X; subst; now constructor.
Qed.

Section P5.
Context {Sh Us : Type} (K : pyclass Sh Us) (fs : str -> option str) (fuel : nat).
Notation obj := (obj Sh Us).
Notation ctx := (ctx Sh Us).
Notation owner := (parse_owner (owner_parse K fs fuel)).
Notation parse s := (parse_section_str K fs fuel s true true).

(** ** C35 *)
Lemma hook_good root s : well_behaved K -> forall c : ctx, exists c', exec_hook K root s $"handler_initialize" c = (Ok tt, c').
Proof.
  intros WB c. destruct (wb_initialize K WB) as (kind & f & E). unfold exec_hook. rewrite E.
  assert (U : forall c : ctx, exists c', user_body f s (hp_named root $"handler_initialize") c = (Ok (Some 0%Z), c')).
  { intros c1. unfold user_body.
    destruct (wb_handlers K WB _ _ _ E s (hp_named root $"handler_initialize") (x_sh c1) (o_user (x_obj c1))) as (a & b & ->).
    eauto. }
  destruct kind.
  - unfold decorated. rewrite bind_log, bind_eq.
    match goal with |- context [user_body f s ?hp ?x] => destruct (U x) as (c1 & ->) end.
    rewrite bind_log. eexists. reflexivity.
  - rewrite bind_eq. destruct (U c) as (c1 & ->). eexists. reflexivity.
  - rewrite bind_eq. destruct (U c) as (c1 & ->). eexists. reflexivity.
Qed.

Lemma parse_missing_error i s (o : obj) : well_behaved K -> s <> [] -> 0 < fuel -> path_set_of o = true ->
  has_file fs o i -> ini_items i s = None -> ini_has_section i (o_defname o) = false ->
  fst (parse s o) = Err KeyError.
Proof.
  intros WB NE FU PS H N D. rewrite parse_section_start by auto.
  assert (X : fst (psr K fs fuel s s true true (start K o s)) = Err KeyError).
  2:{ destruct (psr K fs fuel s s true true (start K o s)) as [[u|e] c']; cbn in *; congruence. }
  set (c := start K o s). pose proof (start_ready K fs i o s H) as [R _]. fold c in R.
  assert (DN : o_defname (x_obj c) = o_defname o) by reflexivity.
  assert (PC : path_set_of (x_obj c) = true) by exact PS. clearbody c.
  destruct fuel as [|f]; [lia|]. cbn [psr].
  set (reparse := fun s : str => _). rewrite psr_body_split, str_eqb_refl. cbn [andb]. rewrite bind_assoc.
  rewrite (bind_first _ _ _ _ (call_named_hook K (psr K fs f s) $"handler_initialize" s s c)).
  pose proof (conf_exec_hook K s s $"handler_initialize" c) as H2.
  assert (ST : stable (fun o : obj => fst (get_cpd fs o) = Ok i)).
  { repeat split; intros x l Q; rewrite <- Q; now apply get_cpd_fst_ext. }
  pose proof (stable_hook K _ s s $"handler_initialize" ST c R) as H3.
  rewrite bind_eq. destruct (hook_good s s WB c) as (c1 & E). rewrite E in *. cbn [snd] in *.
  assert (PC1 : path_set_of (x_obj c1) = true).
  { unfold path_set_of in *. unfold conf in H2. replace (o_files (x_obj c1)) with (o_files (x_obj c)) by congruence. auto. }
  apply conf_defname in H2.
  assert (E1 : forall A (k : ini -> SM ctx A) c2, fst (get_cpd fs (x_obj c2)) = Ok i ->
     bind (lift (get_cpd fs)) k c2 = k i (loaded i c2)).
  { intros A k c2 Q. unfold bind, lift. now rewrite (get_cpd_ready fs i _ Q). }
  rewrite bind_assoc, E1 by exact H3. rewrite bind_assoc, bind_get.
  change (o_defname (x_obj (loaded i c1))) with (o_defname (x_obj c1)). rewrite H2, DN, D. sm.
  unfold section_part. sm. rewrite E1 by reflexivity. rewrite N. sm.
  unfold bind, lift, get_files. unfold path_set_of in PC1. cbn. destruct (o_files (x_obj c1)); [reflexivity|discriminate].
Qed.

Section Missing.
Variables (i : ini) (dname t : str).
Hypothesis NT : ini_has_section i t = false.
Hypothesis NC : t <> i_defname i.
Lemma no_items : ini_items i t = None.
Proof.
  unfold ini_items, own_options. apply str_eqb_neq in NC. rewrite NC.
  unfold ini_has_section, dmem in NT. destruct (dget t (i_secs i)); [discriminate|reflexivity].
Qed.

Definition never (o : obj) : Prop :=
  has_file fs o i /\ o_defname o = dname /\ o_files o <> None /\ section_of o t = None.
Definition harmless (s : str) : Prop := s <> t \/ ini_has_section i dname = false.

Lemma never_ext (o o' : obj) : data_of o' = data_of o -> conf o' = conf o -> has_file fs o' i -> never o -> never o'.
Proof.
  intros D C H (A & B & E & S). split; auto. unfold conf in C.
  split; [congruence|]. split; [congruence|]. unfold section_of in *. now rewrite D.
Qed.

Lemma never_parse s (o : obj) : harmless s -> never o -> never (snd (parse s o)).
Proof.
  intros HM (A & B & E & S). split; [now apply parse_section_keeps_file|].
  split; [now rewrite parse_defname|]. split; [now rewrite parse_files|].
  destruct (str_eqb_spec t s) as [EQ|NE].
  - subst s. destruct HM as [HM|HM]; [congruence|]. unfold section_of in *.
    rewrite (parse_missing K fs fuel i); auto; [apply no_items|now rewrite B].
  - rewrite (parse_other K fs fuel i); auto. apply no_items.
Qed.

Lemma never_owner s force : harmless s -> keeps never (owner s force).
Proof.
  intros HM o H. destruct (owner_eq K fs fuel s force o) as (o1 & D1 & C1 & F1 & CF & _ & E). rewrite E.
  destruct (negb _ || force).
  - rewrite bind_eq.
    match goal with |- context [parse_section_str K fs fuel s true true ?x] =>
      assert (N2 : never (snd (parse s x))) end.
    { apply never_parse; auto. apply (never_ext o); auto. unfold has_file.
      rewrite <- (proj1 H). now apply get_cpd_fst_ext. }
    destruct (parse s _) as [[v|x] o2]; exact N2.
  - cbn [snd]. apply (never_ext o); auto. apply F1, H.
Qed.

Lemma closed_never : closed K fs fuel never harmless harmless.
Proof.
  constructor.
  - intros o H. rewrite (get_cpd_ready fs i o (proj1 H)). cbn [snd]. revert H. apply never_ext; reflexivity.
  - intros o H. destruct (get_edata_same o) as (d & A & B & C & D & E). rewrite E.
    apply (never_ext o); auto; [unfold has_file; rewrite <- (proj1 H); now apply get_cpd_fst_ext].
  - intros o l H. apply (never_ext o); auto. unfold has_file; rewrite <- (proj1 H); now apply get_cpd_fst_ext.
  - intros s HM. now apply never_owner.
  - intros s HM. now apply never_owner.
  - intros s HM o H. now apply never_parse.
  - intros o j s (A & _) E HS. left. intros ->. unfold has_file in A. congruence.
Qed.

Lemma never_after h (o : obj) : never o ->
  ini_has_section i dname = false \/ forallb (fun c => negb (asks t c)) h = true ->
  never (after K fs fuel h o).
Proof.
  intros H Q. apply (k_after K fs fuel never harmless harmless closed_never); auto.
  - intros x e (A & B & C & D). split; [|auto]. unfold has_file; rewrite <- A; now apply get_cpd_fst_ext.
  - intros x e (A & B & C & D). split; [|auto]. unfold has_file; rewrite <- A; now apply get_cpd_fst_ext.
  - apply Forall_forall. intros c I.
    assert (Q' : ini_has_section i dname = false \/ asks t c = false).
    { destruct Q as [Q|Q]; auto. right. rewrite forallb_forall in Q. apply negb_true_iff, Q, I. }
    unfold harmless. destruct c as [s| | | |s k| |s k| | |p| | |s b| | | | |]; cbn in *; auto;
      try (destruct Q' as [Q'|Q']; [auto|left; now apply str_eqb_neq]).
    destruct p; cbn; auto.
Qed.

(** *** The section counts as parsed once a call has asked for it *)
Definition mark (b : bool) (o : obj) : Prop := has_file fs o i /\ str_mem t (checked_of o) = b.

Lemma mark_ext b (o o' : obj) : checked_of o' = checked_of o -> has_file fs o' i -> mark b o -> mark b o'.
Proof. intros C H [A B]. split; auto. now rewrite C. Qed.

Lemma owner_mark s force b (o : obj) : mark b o -> mark (b || str_eqb t s) (snd (owner s force o)).
Proof.
  intros [H M]. destruct (owner_eq K fs fuel s force o) as (o1 & D1 & C1 & F1 & CF & _ & E). rewrite E.
  destruct (negb (str_mem s (checked_of o)) || force) eqn:B.
  - rewrite bind_eq.
    match goal with |- context [parse_section_str K fs fuel s true true ?x] => set (o2 := x);
      idtac end.
    assert (N2 : mark (b || str_eqb t s) (snd (parse s o2))).
    { split; [apply parse_section_keeps_file; unfold has_file; rewrite <- H; now apply get_cpd_fst_ext|].
      pose proof (parse_section_any K fs fuel s true true o2) as X.
      destruct (parse s o2) as [r o3]. destruct X as (es & _ & C & _). cbn [snd]. rewrite C.
      assert (C2 : str_mem t (checked_of o2) = b || str_eqb t s).
      { change (str_mem t (sadd s (checked_of o)) = b || str_eqb t s). rewrite str_mem_sadd, M. apply orb_comm. }
      destruct (str_eqb s []); auto. rewrite str_mem_sadd, C2. destruct b, (str_eqb t s); auto. }
    destruct (parse s o2) as [[v|x] o3]; exact N2.
  - cbn [snd]. split; [apply F1, H|]. rewrite C1, M. apply orb_false_iff in B as [B _]. apply negb_false_iff in B.
    destruct (str_eqb_spec t s) as [EQ|NE]; [subst s; rewrite <- M, B; reflexivity|now rewrite orb_false_r].
Qed.
Lemma parse_mark s b (o : obj) : s <> t \/ b = true -> mark b o -> mark b (snd (parse s o)).
Proof.
  intros HM [H M]. split; [now apply parse_section_keeps_file|].
  pose proof (parse_section_any K fs fuel s true true o) as X.
  destruct (parse s o) as [r o3]. destruct X as (es & _ & C & _). cbn [snd]. rewrite C.
  destruct (str_eqb s []); auto. rewrite str_mem_sadd, M. destruct HM as [HM| ->]; [|apply orb_true_r].
  assert (NE : t <> s) by auto. apply str_eqb_neq in NE. now rewrite NE.
Qed.
Lemma closed_mark b : closed K fs fuel (mark b) (fun s => s <> t \/ b = true) (fun s => s <> t \/ b = true).
Proof.
  assert (OW : forall s force, s <> t \/ b = true -> keeps (mark b) (owner s force)).
  { intros s force HM o H. pose proof (owner_mark s force b o H) as Q.
    replace (b || str_eqb t s) with b in Q; auto. destruct HM as [HM| ->]; auto.
    assert (NE : t <> s) by auto. apply str_eqb_neq in NE. now rewrite NE, orb_false_r. }
  constructor; auto.
  - intros o H. rewrite (get_cpd_ready fs i o (proj1 H)). cbn [snd]. revert H. apply mark_ext; reflexivity.
  - intros o H. destruct (get_edata_same o) as (d & A & B & C & D & E). rewrite E.
    apply (mark_ext b o); auto; [unfold has_file; rewrite <- (proj1 H); now apply get_cpd_fst_ext].
  - intros o l H. apply (mark_ext b o); auto. unfold has_file; rewrite <- (proj1 H); now apply get_cpd_fst_ext.
  - intros s HM o H. now apply parse_mark.
  - intros o j s (A & _) E HS. left. intros ->. unfold has_file in A. congruence.
Qed.

Lemma get_edata_mark b : keeps (mark b) get_edata.
Proof. apply (cl_edata _ _ _ _ _ _ (closed_mark b)). Qed.

Lemma get_asks k (o : obj) : has_file fs o i -> mark true (snd (data_get K fs fuel t k o)).
Proof.
  intros H. unfold data_get.
  destruct (get_edata_same o) as (d & A & B & C & D & E).
  assert (M : mark (str_mem t (checked_of o)) o) by (split; auto).
  pose proof (get_edata_mark _ o M) as M1.
  rewrite bind_eq. destruct (get_edata o) as [r o1]. cbn [fst snd] in *. subst r.
  rewrite bind_eq, C.
  assert (X : mark true (snd ((if str_mem t (checked_of o) then ret tt else owner t false) o1))).
  { destruct (str_mem t (checked_of o)); [exact M1|].
    pose proof (owner_mark t false false o1 M1) as Q. now rewrite str_eqb_refl in Q. }
  destruct ((if str_mem t (checked_of o) then ret tt else owner t false) o1) as [[[]|e] o2]; cbn [snd] in X; auto.
  pose proof (closed_mark true) as CL.
  apply keeps_bind with (P := mark true); auto; [now apply (k_has_section _ _ _ _ _ _ CL)|].
  intros [].
  - destruct k as [k|].
    + apply keeps_bind; [apply (k_has_option _ _ _ _ _ _ CL); now right|]. intros []; [|intros x Hx; exact Hx].
      apply keeps_bind; [apply (k_data_section _ _ _ _ _ _ CL)|]. intros x. destruct (dget k x); intros y Hy; exact Hy.
    + apply keeps_bind; [apply (k_data_section _ _ _ _ _ _ CL)|]. intros x y Hy; exact Hy.
  - intros x Hx. exact Hx.
Qed.

Lemma exec_asks c (o : obj) b : t <> [] -> mark b o -> mark (b || asks t c) (snd (exec_op K fs fuel c o)).
Proof.
  intros NE M. pose proof (closed_mark true) as CL.
  assert (SE : forall b x (e : ecs), mark b x -> mark b (set_ec e x)).
  { intros b0 x e [A B]. split; auto. unfold has_file; rewrite <- A; now apply get_cpd_fst_ext. }
  assert (SD : forall b x d, mark b x -> mark b (set_debug d x)).
  { intros b0 x e [A B]. split; auto. unfold has_file; rewrite <- A; now apply get_cpd_fst_ext. }
  destruct (asks t c) eqn:AS.
  - rewrite orb_true_r.
    destruct c as [s| | | |s k| |s k| | |p| | |s d| | | | |]; cbn [asks] in AS; try discriminate;
      apply str_eqb_eq in AS; subst s; cbn [exec_op]; unfold fmap; rewrite bind_eq.
    + assert (X : mark true (snd (parse t o))).
      { split; [apply parse_section_keeps_file, M|now apply parse_checks]. }
      destruct (parse t o) as [[v|x] o3]; exact X.
    + assert (X := get_asks k o (proj1 M)).
      destruct (data_get K fs fuel t k o) as [[v|x] o3]; exact X.
    + assert (X : mark true (snd (has_option K fs fuel t k o))).
      { unfold has_option. rewrite bind_eq. pose proof (owner_mark t false b o M) as Q.
        rewrite str_eqb_refl, orb_true_r in Q.
        destruct (owner t false o) as [[[]|x] o3]; auto. cbn [snd] in Q.
        apply keeps_bind with (P := mark true); auto; [apply get_edata_mark|intros d x Hx; exact Hx]. }
      destruct (has_option K fs fuel t k o) as [[v|x] o3]; exact X.
    + assert (X : mark true (snd (assert_section K fs fuel t d o))).
      { unfold assert_section. rewrite bind_eq. assert (Q := get_asks None o (proj1 M)).
        destruct (data_get K fs fuel t None o) as [[g|x] o3]; auto. cbn [snd] in Q.
        destruct g as [[|kv d0]|v]; try exact Q. cbn zeta. destruct d; [|exact Q].
        apply keeps_bind with (P := mark true); auto; [apply keeps_get_files|]. intros files.
        apply keeps_bind; [apply (k_known_message _ _ _ _ _ _ CL)|]. intros m.
        apply keeps_bind; [apply (k_event _ _ _ _ _ _ CL)|intros ? x Hx; exact Hx]. }
      destruct (assert_section K fs fuel t d o) as [[v|x] o3]; exact X.
  - rewrite orb_false_r.
    apply (k_exec K fs fuel _ _ _ (closed_mark b)); auto.
    destruct c as [s| | | |s k| |s k| | |p| | |s d| | | | |]; cbn in *; auto;
      try (left; now apply str_eqb_neq).
    destruct p; cbn; auto.
Qed.
Lemma after_asks h : t <> [] -> forall (o : obj) b, mark b o -> mark (b || existsb (asks t) h) (after K fs fuel h o).
Proof.
  intros NE. induction h as [|c h IH]; intros o b M; cbn [after existsb].
  - now rewrite orb_false_r.
  - rewrite orb_assoc. apply IH. now apply exec_asks.
Qed.

Theorem never_invented h (o : obj) : has_file fs o i -> o_defname o = dname -> o_files o <> None -> section_of o t = None ->
  ini_has_section i dname = false \/ forallb (fun c => negb (asks t c)) h = true ->
  let o' := after K fs fuel h o in
  fst (has_section K fs fuel t o') = Ok false /\ fst (getitem K fs fuel t o') = Err KeyError /\
  fst (data_items K fs fuel t o') = Err KeyError /\
  (forall b, fst (unroll_to_str K fs fuel (Some t) b false o') = Err KeyError) /\ section_of o' t = None.
Proof.
  intros A B C D Q o'.
  assert (N : never o') by (apply never_after; auto; split; auto). destruct N as (A' & B' & C' & D').
  destruct (getitem_missing K fs fuel i t o' A' NT D') as (X & Y & Z).
  split; auto. split; auto. split; auto. split; auto. intros b. eapply unroll_missing; eauto.
Qed.

Theorem never_invented_get h (o : obj) : well_behaved K -> t <> [] -> 0 < fuel ->
  has_file fs o i -> o_defname o = dname -> o_files o <> None -> section_of o t = None ->
  str_mem t (checked_of o) = false -> ini_has_section i dname = false ->
  let o' := after K fs fuel h o in
  (forall k, fst (data_get K fs fuel t k o') = Err KeyError) /\
  (forall k, fst (has_option K fs fuel t k o') = if existsb (asks t) h then Ok false else Err KeyError).
Proof.
  intros WB NE FU A B C D M NDF o'.
  assert (N : never o') by (apply never_after; auto; split; auto). destruct N as (A' & B' & C' & D').
  assert (MK : mark (existsb (asks t) h) o') by (apply (after_asks h NE o false); split; auto).
  destruct MK as [_ MK].
  assert (OW : forall x : obj, has_file fs x i -> o_defname x = dname -> o_files x <> None ->
     str_mem t (checked_of x) = false -> fst (owner t false x) = Err KeyError).
  { intros x H1 H2 H3 H4. destruct (owner_eq K fs fuel t false x) as (o1 & _ & _ & _ & _ & _ & E). rewrite E, H4.
    cbn [negb orb]. rewrite bind_eq.
    match goal with |- context [parse_section_str K fs fuel t true true ?y] =>
      assert (Q : fst (parse t y) = Err KeyError) end.
    { apply (parse_missing_error i); auto.
      - unfold path_set_of. cbn. destruct (o_files x); [reflexivity|congruence].
      - unfold has_file; rewrite <- H1; now apply get_cpd_fst_ext.
      - apply no_items.
      - cbn. now rewrite H2. }
    destruct (parse t _) as [[v|e] o2]; cbn in *; congruence. }
  assert (OW1 : forall x : obj, str_mem t (checked_of x) = true -> exists o1, owner t false x = (Ok tt, o1) /\ data_of o1 = data_of x).
  { intros x H4. destruct (owner_eq K fs fuel t false x) as (o1 & D1 & _ & _ & _ & _ & E). exists o1.
    rewrite E, H4. cbn. auto. }
  split; intros k.
  - unfold data_get. rewrite bind_eq. destruct (get_edata_same o') as (d & X1 & X2 & X3 & X4 & X5).
    destruct (get_edata o') as [r o1]. cbn [fst snd] in *. subst r. rewrite X3, bind_eq.
    destruct (str_mem t (checked_of o')) eqn:CH.
    + unfold ret at 1. rewrite bind_eq.
      destruct (has_section_missing K fs fuel i t o1) as (o2 & E2 & _); auto.
      { subst o1. unfold has_file; rewrite <- A'; now apply get_cpd_fst_ext. }
      rewrite E2. replace (data_of o1) with (data_of o').
      * unfold section_of in D'. unfold dmem. rewrite D'. reflexivity.
      * subst o1. unfold data_of at 2. cbn. now rewrite X2.
    + assert (Q : fst (owner t false o1) = Err KeyError).
      { subst o1. apply OW; auto.
        - unfold has_file; rewrite <- A'; now apply get_cpd_fst_ext.
        - unfold checked_of. cbn. now rewrite X3. }
      destruct (owner t false o1) as [[v|e] o2]; cbn in *; congruence.
  - unfold has_option. rewrite bind_eq. rewrite <- MK. destruct (str_mem t (checked_of o')) eqn:CH.
    + destruct (OW1 o' CH) as (o1 & E1 & D1). rewrite E1, bind_eq.
      destruct (get_edata_same o1) as (d & X1 & X2 & X3 & X4 & X5).
      destruct (get_edata o1) as [r o2]. cbn [fst snd] in *. subst r. rewrite X2, D1.
      unfold section_of in D'. rewrite D'. reflexivity.
    + specialize (OW o' A' B' C' CH). destruct (owner t false o') as [[v|e] o1]; cbn in *; congruence.
Qed.
End Missing.
End P5.
