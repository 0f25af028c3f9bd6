(** * Proofs: parses and reads do not run out of recursion. *)
From Coq Require Import String NArith ZArith List Bool Lia Arith.
Import ListNotations.
From Verif Require Import PyBase PyFacts Shlex IniView IniRead ExcControl Debuggable Cpe
  SpecFile SpecShell SpecWalk SpecRun SpecParse BaseProofs ShellProofs FileProofs MeaningProofs Refine RefineRoot
  ParseProofs2 ApiProofs Reentrant ReentrantProofs SpecNested NestedProofs SpecSound SpecQuiet.
Local Open Scope sm_scope.

Section P.
Context {Sh Us : Type} (R : rclass (Sh := Sh)) (fs : str -> option str) (i : ini) (dname : str).
Notation obj := (obj Sh Us).
Notation ctx := (ctx Sh Us).
Let K : pyclass Sh unit := unread_class R.
Hypothesis QUIET : quiet_class R.
Notation any := (fun _ => True).
Notation RecE := (Err RecursionError).

Definition later (o o1 : obj) : Prop := grows fs i o o1 /\ o_defname o1 = o_defname o.
Definition Inv (n : nat) (C : list str) (o : obj) : Prop :=
  fit fs i n o /\ o_defname o = dname /\ forall s, In s C -> str_mem s (checked_of o) = true.
Lemma later_refl o : later o o.
Proof. split; [apply grows_refl|reflexivity]. Qed.
Lemma later_trans a b c : later a b -> later b c -> later a c.
Proof. intros [G D] [G' D']. split; [eapply grows_trans; eauto|congruence]. Qed.
Lemma later_inv n C o o1 : later o o1 -> Inv n C o -> Inv n C o1.
Proof.
  intros [G D] (F & E & H). split; [eapply grows_fit; eauto|]. split; [congruence|]. intros s I. apply (proj2 G), H, I.
Qed.
Lemma later_ext o o1 : o_cpd o1 = o_cpd o -> o_files o1 = o_files o -> o_delims o1 = o_delims o -> o_intname o1 = o_intname o ->
  o_defname o1 = o_defname o -> (forall s, str_mem s (checked_of o) = true -> str_mem s (checked_of o1) = true) -> later o o1.
Proof. intros. split; [now apply grows_ext|assumption]. Qed.

Definition calmo {A} (n : nat) (C : list str) (Q : A -> Prop) (m : SM obj A) : Prop := forall o, Inv n C o ->
  fst (m o) <> RecE /\ later o (snd (m o)) /\ forall a, fst (m o) = Ok a -> Q a.
(** [p] and [q]: the sections in progress before and after. *)
Definition calm {A} (n : nat) (C p q : list str) (Q : A -> Prop) (m : SM ctx A) : Prop := forall c, Inv n C (x_obj c) -> x_proc c = p ->
  fst (m c) <> RecE /\ later (x_obj c) (x_obj (snd (m c))) /\ forall a, fst (m c) = Ok a -> x_proc (snd (m c)) = q /\ Q a.

Lemma calmo_ret {A} n C (Q : A -> Prop) a : Q a -> calmo n C Q (ret a).
Proof. intros H o _. cbn. split; [discriminate|]. split; [apply later_refl|]. intros b E. inversion E; subst. exact H. Qed.
Lemma calmo_raise {A} n C (Q : A -> Prop) e : e <> RecursionError -> calmo n C Q (raise e).
Proof. intros H o _. cbn. split; [congruence|]. split; [apply later_refl|]. intros b E. discriminate E. Qed.
Lemma calmo_bind {A B} n C (Q : A -> Prop) (T : B -> Prop) m k : calmo n C Q m -> (forall a, Q a -> calmo n C T (k a)) -> calmo n C T (bind m k).
Proof.
  intros H HK o F. unfold bind. destruct (H o F) as (N1 & G1 & Q1). destruct (m o) as [[a|e] o1]; cbn [fst snd] in *.
  - destruct (HK a (Q1 a eq_refl) o1 (later_inv _ _ _ _ G1 F)) as (N2 & G2 & Q2). split; [exact N2|]. split; [eapply later_trans; eauto|exact Q2].
  - split; [congruence|]. split; [exact G1|]. intros b E. discriminate E.
Qed.
Lemma calm_ret {A} n C p (Q : A -> Prop) a : Q a -> calm n C p p Q (ret a).
Proof. intros H c _ E. cbn. split; [discriminate|]. split; [apply later_refl|]. intros b X. inversion X; subst. auto. Qed.
Lemma calm_raise {A} n C p q (Q : A -> Prop) e : e <> RecursionError -> calm n C p q Q (raise e).
Proof. intros H c _ _. cbn. split; [congruence|]. split; [apply later_refl|]. intros b E. discriminate E. Qed.
Lemma calm_of_res {A} n C p (Q : A -> Prop) r : r <> RecE -> (forall a, r = Ok a -> Q a) -> calm n C p p Q (of_res r).
Proof. intros H HQ c _ E. cbn. split; [exact H|]. split; [apply later_refl|]. auto. Qed.
Lemma calm_bind {A B} n C p q r (Q : A -> Prop) (T : B -> Prop) m k : calm n C p q Q m -> (forall a, Q a -> calm n C q r T (k a)) ->
  calm n C p r T (bind m k).
Proof.
  intros H HK c F E. unfold bind. destruct (H c F E) as (N1 & G1 & Q1). destruct (m c) as [[a|e] c1]; cbn [fst snd] in *.
  - destruct (Q1 a eq_refl) as [P1 QA].
    destruct (HK a QA c1 (later_inv _ _ _ _ G1 F) P1) as (N2 & G2 & Q2). split; [exact N2|]. split; [eapply later_trans; eauto|exact Q2].
  - split; [congruence|]. split; [exact G1|]. intros b X. discriminate X.
Qed.
Lemma calm_lift {A} n C p (Q : A -> Prop) m : calmo n C Q m -> calm n C p p Q (lift m).
Proof.
  intros H c F E. unfold lift. destruct (H _ F) as (N1 & G1 & Q1). destruct (m (x_obj c)) as [r o1]. cbn [fst snd x_obj x_proc] in *. auto.
Qed.
Lemma calmo_log n C e : calmo n C any (log e).
Proof. intros o _. cbn. split; [discriminate|]. split; auto. now apply later_ext. Qed.
Lemma calmo_event n C ev e : e <> RecursionError -> calmo n C any (event ev e).
Proof.
  intros H o _. unfold event. destruct (ec_event _ _ _ _) as [r out] eqn:E. cbn [fst snd]. split; [|split; auto; now apply later_ext].
  unfold ec_event in E. cbn [is_raisable negb raise_arg] in E.
  destruct (dget (upper ev) event_map); [|inversion E; discriminate].
  destruct (_ <=? _)%Z; [inversion E; congruence|]. destruct (_ <? _)%Z; [|inversion E; discriminate].
  destruct (_ && _); inversion E; discriminate.
Qed.
Lemma calmo_files n C : calmo n C any get_files.
Proof. intros o _. unfold get_files. destruct (o_files o); cbn; (split; [discriminate|]); split; auto; apply later_refl. Qed.
Lemma calmo_modify n C f : (forall o, later o (f o)) -> calmo n C any (modify f).
Proof. intros H o _. cbn. split; [discriminate|]. auto. Qed.
Lemma calmo_cpd n C : calmo n C (fun j => j = i) (get_cpd fs).
Proof.
  intros o (F & _). rewrite (get_cpd_ready fs i o (proj1 F)). cbn [fst snd]. split; [discriminate|]. split; [|intros a E; congruence].
  split; [split; [intros _; reflexivity|intros s Q; exact Q]|reflexivity].
Qed.
Lemma calmo_edata n C : calmo n C (fun d => forall s, In s C -> str_mem s (d_checked d) = true) get_edata.
Proof.
  intros o (F & D & H). unfold get_edata, checked_of in *. destruct (o_edata o) as [d|] eqn:E; cbn [fst snd] in *.
  - split; [discriminate|]. split; [apply later_refl|]. intros a X. inversion X; subst. exact H.
  - split; [discriminate|]. split; [apply later_ext; try reflexivity; unfold checked_of; rewrite E; auto|].
    intros a X. inversion X; subst. intros s I. specialize (H s I). discriminate H.
Qed.
Lemma calmo_add n C s b : calmo n C any (data_add_section s b).
Proof.
  intros o _. unfold data_add_section, bind, get_edata, put_edata, modify.
  destruct (o_edata o) as [d|] eqn:D; cbn; (split; [discriminate|]); (split; auto); (apply later_ext; try reflexivity); unfold checked_of; rewrite D; cbn; intros t T; [|discriminate T].
  unfold ed_add_section. destruct (_ || _); exact T.
Qed.
Lemma calmo_le {A} n m C (Q : A -> Prop) h : n <= m -> calmo m C Q h -> calmo n C Q h.
Proof. intros L H o (F & X). apply H. split; [now apply (fit_le fs i n m)|exact X]. Qed.
Lemma calmo_any {A} n C (Q : A -> Prop) h : calmo n [] Q h -> calmo n C Q h.
Proof. intros H o (F & D & _). apply H. split; [exact F|]. split; [exact D|]. intros s []. Qed.

Lemma calmo_owner n rp s : In s (ini_sections i) -> (forall m, m < n -> calmo m [] any (rp s)) -> calmo n [] any (parse_owner rp s false).
Proof.
  intros IS H o F.
  assert (X : forall r (o1 : obj), parse_owner r s false o1 =
    if str_mem s (checked_of o1) then (Ok tt, snd (get_edata o1))
    else r s (set_edata (Some (EData (match o_edata o1 with Some d => d_data d | None => [] end) (sadd s (checked_of o1)) (ec_level (o_ec o1)) (o_debug o1))) o1)).
  { intros r o1. unfold parse_owner, set_owner_options, put_edata, modify, bind, get_edata, checked_of, ret.
    destruct o1 as [a1 a2 a3 [d|] a5 a6 a7 a8 a9 a10 a11 a12]; cbn -[str_mem sadd]; [|reflexivity].
    destruct (str_mem s (d_checked d)); reflexivity. }
  rewrite !X. destruct (str_mem s (checked_of o)) eqn:C.
  - cbn [fst snd]. split; [discriminate|]. split; auto. apply (calmo_edata n [] o F).
  - set (om := set_edata _ o).
    assert (CM : checked_of om = s :: checked_of o) by (unfold om, checked_of at 1; cbn; unfold sadd; now rewrite C).
    assert (G : later o om).
    { apply later_ext; try reflexivity. intros t T. now rewrite CM, mem_cons, T, Bool.orb_true_r. }
    assert (U : unread i om < unread i o).
    { unfold unread. rewrite CM. apply filter_lt with (a := s); auto.
      - intros t T. rewrite mem_cons in T. destruct (str_mem t (checked_of o)); auto. rewrite Bool.orb_true_r in T. exact T.
      - now rewrite C.
      - rewrite mem_cons. now rewrite str_eqb_refl. }
    destruct F as ([FF FU] & FD & _). destruct (H (unread i om) ltac:(lia) om) as (N1 & G1 & _).
    { split; [split; [now apply (proj1 G)|lia]|]. split; [exact FD|]. intros t []. }
    split; [exact N1|]. split; auto. eapply later_trans; eauto.
Qed.
Lemma calmo_has n rp s : (forall m, m < n -> ini_has_section i s = true -> calmo m [] any (rp s)) -> calmo n [] any (data_has_section fs rp s).
Proof.
  intros H. unfold data_has_section. eapply calmo_bind; [apply calmo_cpd|]. intros j ->. eapply (calmo_bind n [] any).
  - destruct (ini_has_section i s) eqn:E; [|now apply calmo_ret]. eapply calmo_bind; [apply calmo_edata|]. intros d _.
    destruct (str_mem s (d_checked d)); [now apply calmo_ret|]. apply calmo_owner; [now apply (in_sections i)|]. intros m L. now apply H.
  - intros _ _. eapply calmo_bind; [apply calmo_edata|]. intros d _. now apply calmo_ret.
Qed.
(** The section that is being parsed is not parsed again. *)
Lemma calmo_data_set n C rp s k v : In s C -> calmo n C any (data_set fs rp s k v).
Proof.
  intros IC. unfold data_set. eapply (calmo_bind n C any).
  - unfold data_has_section. eapply calmo_bind; [apply calmo_cpd|]. intros j ->. eapply (calmo_bind n C any).
    + destruct (ini_has_section i s); [|now apply calmo_ret]. eapply calmo_bind; [apply calmo_edata|]. intros d D.
      cbv beta in D. rewrite (D s IC). now apply calmo_ret.
    + intros _ _. eapply calmo_bind; [apply calmo_edata|]. intros d _. now apply calmo_ret.
  - intros b _. eapply (calmo_bind n C any); [destruct b; [now apply calmo_ret|apply calmo_add]|].
    intros _ _ o F. unfold bind, get_edata, ed_put, put_edata, modify, raise.
    destruct (o_edata o) as [d|] eqn:D; cbn.
    + destruct (dget s (d_data d)); cbn; (split; [discriminate|]); split; auto; [|apply later_refl].
      apply later_ext; try reflexivity. unfold checked_of. rewrite D. auto.
    + split; [discriminate|]. split; auto. apply later_ext; try reflexivity. unfold checked_of. rewrite D. auto.
Qed.
Lemma calmo_check n C r : calmo n C any (check_rval r).
Proof.
  unfold check_rval. destruct r as [z|]; [|apply calmo_event; discriminate]. destruct (z =? 0)%Z; [now apply calmo_ret|].
  destruct (z <=? 10)%Z; apply calmo_event; discriminate.
Qed.
Lemma calm_decorated n C p hp m : calm n C p p any m -> calm n C p p any (decorated hp m).
Proof.
  intros H. unfold decorated. eapply calm_bind; [apply calm_lift, calmo_log|intros _ _]. eapply calm_bind; [exact H|intros r _].
  eapply calm_bind; [apply calm_lift, calmo_log|intros _ _]. apply calm_lift, calmo_check.
Qed.

Section Body.
Variable n : nat.
Variable root : str.
Let C := [root].
Variable read : str -> SM obj (dict (option str)).
Hypothesis READ : forall s, calmo n [] any (read s).

Lemma calm_prog h : quiet h -> forall p, calm n C p p any (run_prog read h).
Proof.
  intros H. induction H as [r sh H|s k H IH]; intros p c F E; cbn [run_prog].
  - cbn. split; [exact H|]. split; [apply later_refl|]. auto.
  - destruct (calmo_any n C _ _ (READ s) _ F) as (N1 & G1 & _). destruct (read s (x_obj c)) as [r o]. cbn [fst snd] in *.
    destruct (IH r N1 p (Ctx o (x_sh c) (x_proc c)) (later_inv _ _ _ _ G1 F) E) as (N2 & G2 & Q2).
    split; [exact N2|]. split; [eapply later_trans; eauto|exact Q2].
Qed.
Lemma find_quiet name k f sec hp sh : r_find_attr R name = Some (RUser k f) -> quiet (f sec hp sh).
Proof.
  unfold r_find_attr. intros E. destruct (dget name (rk_over R)) as [a|] eqn:D.
  - inversion E; subst. eapply QUIET; eauto.
  - unfold base_rattrs in E. cbn [dget] in E.
    destruct (str_eqb name _); [discriminate E|]. destruct (str_eqb name _); [inversion E; now constructor|].
    destruct (str_eqb name _); [inversion E; now constructor|discriminate E].
Qed.
Lemma calm_user p name k f sec hp : r_find_attr R name = Some (RUser k f) -> calm n C p p any (r_user_body read f sec hp).
Proof. intros E c F X. unfold r_user_body. apply calm_prog; auto. eapply find_quiet; eauto. Qed.

Variable rec : str -> bool -> bool -> SM ctx unit.
Variable rp : str -> SM obj unit.

Lemma calm_use p sec hp : (forall t ps, hp_params hp = t :: ps -> ~ In t p -> calm n C p p any (rec t true false)) ->
  calm n C p p any (use_body rec sec hp).
Proof.
  intros CO. unfold use_body. destruct (hp_params hp) as [|t ps]; [now apply calm_raise|].
  eapply (calm_bind n C p p p (fun c => x_proc c = p)).
  - intros c F E. cbn. split; [discriminate|]. split; [apply later_refl|]. intros a X. inversion X; subst. auto.
  - intros c ->. destruct (str_mem t p) eqn:M; cbn [negb].
    + eapply calm_bind; [apply calm_lift, calmo_log|intros _ _]. eapply calm_bind; [apply calm_lift, calmo_log|intros _ _].
      eapply calm_bind; [apply calm_lift, calmo_files|intros _ _].
      eapply calm_bind; [apply calm_lift, calmo_event; discriminate|intros _ _]. now apply calm_ret.
    + eapply calm_bind; [apply (CO t ps eq_refl)|intros; now apply calm_ret].
      intros I. apply str_mem_In in I. congruence.
Qed.
Lemma calm_call p name a sec hp : r_find_attr R name = Some a ->
  (a = RUse -> forall t ps, hp_params hp = t :: ps -> ~ In t p -> calm n C p p any (rec t true false)) ->
  calm n C p p any (r_call_attr read rec a sec hp).
Proof.
  intros E H. destruct a as [|k f| |]; cbn [r_call_attr]; try now apply calm_raise.
  - apply calm_decorated, calm_use. exact (H eq_refl).
  - pose proof (calm_user p name k f sec hp E) as X. destruct k; [now apply calm_decorated| |]; (eapply calm_bind; [exact X|intros; now apply calm_ret]).
Qed.
Lemma calm_named p name sec hp : hp_params hp = [] -> calm n C p p any (r_call_named R read rec name sec hp).
Proof.
  intros H. unfold r_call_named. destruct (r_find_attr R name) as [a|] eqn:E; [|now apply calm_raise]. apply (calm_call p name); auto.
  intros _ t ps Q. rewrite H in Q. discriminate Q.
Qed.
Lemma calm_generic p hp k v : hp_root hp = root -> calm n C p p (fun h => hp_root h = root) (launch_generic fs rp hp k v).
Proof.
  intros H. unfold launch_generic. rewrite H. eapply calm_bind; [apply calm_lift, calmo_data_set; left; reflexivity|intros _ _].
  eapply calm_bind; [apply calm_decorated; now apply calm_ret|intros _ _]. now apply calm_ret.
Qed.
Lemma calmo_locate op : calmo n C (fun h => match h with
    | Some (name, a) => r_find_attr R name = Some a /\ exists amb, handler_of K (normalize_op op) (Some (name, told_attr (fun _ => []) a, amb))
    | None => True
    end) (r_locate_handler R op).
Proof.
  unfold r_locate_handler, r_locate_class_method. cbv zeta.
  assert (HA : forall x, has_attr K x = match option_map (told_attr (fun _ => [])) (r_find_attr R x) with Some ANone => None | y => y end)
    by (intros x; unfold has_attr, K, unread_class; now rewrite find_told).
  pose proof (HA (public_name (normalize_op op))) as H1. pose proof (HA (private_name (normalize_op op))) as H2. clear HA.
  unfold public_name, private_name in H1, H2.
  destruct (r_find_attr R ($"handler_" ++ normalize_op op)) as [[|? ?| |]|] eqn:E1,
           (r_find_attr R ($"_handler_" ++ normalize_op op)) as [[|? ?| |]|] eqn:E2; cbn [option_map told_attr] in *;
  (eapply (calmo_bind n C any); [first [apply calmo_event; discriminate|now apply calmo_ret]|intros _ _; apply calmo_ret]);
  first [exact Logic.I|split; [first [exact E1|exact E2]|]; eexists; first [eapply ho_both; [exact H1|exact H2]|eapply ho_public; [exact H1|exact H2]|eapply ho_private; [exact H1|exact H2]]].
Qed.
Lemma calm_item p sec hp kv items : ini_items i sec = Some items -> In kv items -> hp_root hp = root ->
  (forall t, uses K i sec t -> ~ In t p -> calm n C p p any (rec t true false)) ->
  calm n C p p (fun h => hp_root h = root) (r_process_item R fs read rec rp sec hp kv).
Proof.
  intros IT IK H REC. unfold r_process_item. cbv zeta.
  eapply (calm_bind n C p p p (fun v => snd kv = Ok v)); [apply calm_of_res; auto|intros v0 HV].
  { destruct kv as [k0 rv]. cbn [snd]. intros ->. exact (ini_items_err i sec items k0 _ IT IK eq_refl). }
  eapply calm_bind; [apply calm_lift, calmo_log|intros _ _].
  eapply (calm_bind n C p p p (fun l => shlex_split (strip_ws (strip_ws (fst kv))) = Ok l)); [apply calm_of_res; auto|intros toks HW].
  { unfold shlex_split. intros Q. apply sh_run_err in Q. discriminate Q. }
  assert (SI : forall x, strip_ws (strip_ws x) = strip_ws x) by (intros; apply strip_idem). rewrite SI in HW.
  destruct toks as [|t0 ps]; [now apply calm_raise|]. destruct kv as [k0 rv]. cbn [fst snd] in *. subst rv.
  assert (SH : section_shows i sec items) by (apply shows_iff; exact IT).
  change (op_word (bare R) t0) with (op_word K t0). destruct (op_word K t0) eqn:OW; cbn [negb]; [|now apply calm_generic].
  eapply calm_bind; [apply calm_lift, calmo_log|intros _ _]. eapply calm_bind; [apply calm_lift, calmo_locate|].
  intros h HO. destruct h as [[name a]|]; [|now apply calm_generic].
  rewrite normalize_twice, <- undash_normalize in HO.
  destruct HO as (FN & amb & HO). eapply calm_bind; [apply (calm_call p name); [exact FN|]|intros; now apply calm_ret].
  intros -> t ps' Q. cbn [hp_params] in Q. subst ps. apply REC.
  pose proof (c_use K sec k0 v0 t0 t ps' name amb HW OW HO) as M. apply meaning_iff in M.
  eexists _, _, _, _, _. split; [exact SH|split; [exact IK|exact M]].
Qed.
Lemma calm_items p sec items l : ini_items i sec = Some items -> incl l items ->
  (forall t, uses K i sec t -> ~ In t p -> calm n C p p any (rec t true false)) -> forall hp, hp_root hp = root ->
  calm n C p p any (r_run_items R fs read rec rp sec hp l).
Proof.
  intros IT IL REC. induction l as [|kv l IH]; intros hp H; cbn [r_run_items]; [now apply calm_ret|].
  eapply calm_bind; [apply (calm_item p sec hp kv items); auto; apply IL; left; auto|].
  intros hp' H'. apply IH; auto. intros x Hx. apply IL. right. exact Hx.
Qed.
Lemma calm_body p sec a b : ~ In sec p ->
  (a = true -> sec = root -> ini_has_section i dname = true -> calm n C p p any (rec dname false false)) ->
  (ini_items i sec <> None -> forall t, uses K i sec t -> ~ In t (sec :: p) -> calm n C (sec :: p) (sec :: p) any (rec t true false)) ->
  calm n C p p any (r_psr_body R fs read rec rp root sec a b).
Proof.
  intros NI RD RU. unfold r_psr_body. eapply (calm_bind n C p p p any).
  - destruct a; cbn [andb]; [|now apply calm_ret]. destruct (str_eqb sec root) eqn:E; [|now apply calm_ret]. apply str_eqb_eq in E.
    eapply calm_bind; [now apply calm_named|intros _ _].
    eapply calm_bind; [apply calm_lift, calmo_cpd|intros j ->].
    eapply (calm_bind n C p p p (fun c => o_defname (x_obj c) = dname)).
    + intros c F X. cbn. split; [discriminate|]. split; [apply later_refl|]. intros y Y. inversion Y; subst. split; auto. apply F.
    + intros c D. rewrite D. destruct (ini_has_section i dname) eqn:DN; [|now apply calm_ret]. now apply RD.
  - intros _ _. eapply calm_bind; [apply calm_lift, calmo_log|intros _ _]. eapply calm_bind; [apply calm_lift, calmo_cpd|intros j ->].
    destruct (ini_items i sec) as [items|] eqn:IT.
    + eapply calm_bind; [apply calm_lift, calmo_add|intros _ _].
      assert (M : str_mem sec p = false). { destruct (str_mem sec p) eqn:M; auto. apply str_mem_In in M. contradiction. }
      eapply (calm_bind n C p (sec :: p) p any).
      { intros c F E. unfold proc_add, modify. cbn -[str_mem sadd]. split; [discriminate|]. split; [apply later_refl|].
        intros _ _. split; auto. rewrite E. unfold sadd. now rewrite M. }
      intros _ _. eapply calm_bind; [apply (calm_items (sec :: p) sec items); auto; [apply incl_refl|apply RU; discriminate]|intros _ _].
      eapply (calm_bind n C (sec :: p) (sec :: p) p any); [destruct (b && _); [now apply calm_named|now apply calm_ret]|intros _ _].
      eapply (calm_bind n C (sec :: p) p p any); [|intros _ _; apply calm_lift, calmo_log].
      intros c F E. unfold proc_remove. rewrite E, mem_cons, str_eqb_refl. cbn. split; [discriminate|]. split; [apply later_refl|].
      intros _ _. split; auto. rewrite ?E. cbn. rewrite str_eqb_refl. cbn. clear - NI. induction p as [|x p IH]; cbn; [reflexivity|].
      destruct (str_eqb_spec sec x) as [->|N]; cbn; [exfalso; apply NI; left; reflexivity|]. f_equal. apply IH. intros I. apply NI. right. exact I.
    + eapply calm_bind; [apply calm_lift, calmo_files|intros _ _]. now apply calm_raise.
Qed.
End Body.

Hypothesis DEF : forall s, ini_has_section i s = true -> default_ok K i dname s true.
Notation N := (length (ini_sections i)).

(** What can be parsed: the sections of the file and the default section of the reader. *)
Definition known : list str := i_defname i :: ini_sections i.
Lemma items_known sec : ini_items i sec <> None -> In sec known.
Proof.
  unfold ini_items, own_options, known. destruct (str_eqb_spec sec (i_defname i)) as [->|E]; [left; reflexivity|].
  destruct (ini_has_section i sec) eqn:H; [intros _; right; now apply (in_sections i)|].
  unfold ini_has_section, dmem in H. destruct (dget sec (i_secs i)); [discriminate H|]. intros X. contradiction.
Qed.

Section Psr.
Variable n : nat.
Variable root : str.
Hypothesis ROOT : ini_has_section i root = true.
Variable read : str -> SM obj (dict (option str)).
Hypothesis READ : forall s, calmo n [] any (read s).

(** Sections in progress are different, so that there is an end to them. *)
Lemma calm_psr f : forall sec a b p, NoDup p -> incl p known -> ~ In sec p -> N + 2 <= f + length p -> (a = true -> sec <> root) ->
  (In root (sec :: p) \/ (ini_has_section i dname = true /\ dname <> root /\ reaches K i dname sec)) ->
  calm n [root] p p any (r_psr R fs read f root sec a b).
Proof.
  induction f as [|f IH]; intros sec a b p ND IN NI L NR SC.
  - exfalso. pose proof (NoDup_incl_length ND IN) as X. unfold known in X. cbn [length] in X. lia.
  - cbn [r_psr]. apply calm_body; auto.
    + intros A E _. exfalso. now apply NR.
    + intros NN t U NT. apply IH.
      * now constructor.
      * intros x [<-|X]; [now apply items_known|now apply IN].
      * exact NT.
      * cbn [length]. lia.
      * intros _ ->. destruct SC as [SC|(D1 & D2 & D3)]; [contradiction|].
        apply (DEF root ROOT eq_refl D1 D2). eapply reaches_trans; [exact D3|]. eapply reach_step; [exact U|constructor].
      * destruct SC as [SC|(D1 & D2 & D3)]; [left; right; exact SC|]. right. split; [exact D1|]. split; [exact D2|].
        eapply reaches_trans; [exact D3|]. eapply reach_step; [exact U|constructor].
Qed.
Lemma calm_root f b : N + 3 <= f -> calm n [root] [] [] any (r_psr R fs read f root root true b).
Proof.
  intros L. destruct f as [|f]; [lia|]. cbn [r_psr]. apply calm_body; auto.
  - intros _ _ DN. apply calm_psr; [constructor|intros x []|intros []|cbn; lia|intros X; discriminate X|].
    destruct (str_eqb_spec dname root) as [->|E]; [left; left; reflexivity|]. right. split; [exact DN|]. split; [exact E|constructor].
  - intros NN t U NT. apply calm_psr; [constructor; [intros []|constructor]| |exact NT|cbn; lia| |].
    + intros x [<-|[]]. now apply items_known.
    + intros _ ->. apply NT. left. reflexivity.
    + left. right. left. reflexivity.
Qed.
End Psr.

Lemma calmo_parse n (p : str -> str -> bool -> bool -> SM ctx unit) s a b : calm n [s] [] [] any (p s s a b) ->
  calmo n [] any (parse_section_with (bare R) p s a b).
Proof.
  intros H. unfold parse_section_with. eapply calmo_bind; [apply calmo_modify; intros o; now apply later_ext|intros _ _].
  destruct (str_eqb s []); [apply calmo_raise; discriminate|]. eapply (calmo_bind n [] any).
  - unfold parse_root. intros o F. unfold put_edata, modify, bind.
    assert (exists d o1, get_edata o = (Ok d, o1) /\ later o (set_edata (Some (ed_check s d)) o1)) as (d & o1 & E & G).
    { unfold get_edata. destruct (o_edata o) as [d|] eqn:D; eexists; eexists; (split; [reflexivity|]); (apply later_ext; try reflexivity);
        unfold checked_of; rewrite D; cbn -[str_mem sadd]; intros t T; [|discriminate T]. rewrite str_mem_sadd, T. apply Bool.orb_true_r. }
    rewrite E. destruct (later_inv _ _ _ _ G F) as (F1 & F2 & _).
    destruct (H (Ctx (set_edata (Some (ed_check s d)) o1) (k_empty (bare (Us := Us) R)) [])) as (N1 & G1 & _); [|reflexivity|].
    { split; [exact F1|]. split; [exact F2|]. intros t [<-|[]]. cbn -[str_mem sadd]. now rewrite str_mem_sadd, str_eqb_refl. }
    cbn [x_obj] in G1. destruct (p s s a b _) as [[u|e] c1]; cbn [fst snd] in *.
    + split; [discriminate|]. split; auto. eapply later_trans; eauto.
    + split; [congruence|]. split; auto. eapply later_trans; eauto.
  - intros r _. eapply calmo_bind; [apply calmo_modify; intros o; now apply later_ext|intros _ _]. now apply calmo_ret.
Qed.
Lemma calmo_read fuel : N + 3 <= fuel -> forall n d s, n < d -> calmo n [] any (r_read R fs fuel d s).
Proof.
  intros FU. induction n as [n IH] using lt_wf_ind. intros d s L. destruct d as [|d]; [lia|]. cbn [r_read].
  eapply calmo_bind.
  - apply calmo_has. intros m M HS. eapply calmo_bind; [apply calmo_parse, calm_root; auto; intros t; apply IH; lia|].
    intros; now apply calmo_ret.
  - intros b _. destruct b; [|apply calmo_raise; discriminate]. unfold data_section. eapply calmo_bind; [apply calmo_edata|]. intros e _.
    destruct (dget s (d_data e)); [now apply calmo_ret|apply calmo_raise; discriminate].
Qed.
Lemma calmo_r_parse fuel n d s : N + 3 <= fuel -> n < d -> ini_has_section i s = true -> calmo n [] any (r_parse R fs fuel d s).
Proof. intros F L H. unfold r_parse. apply calmo_parse, calm_root; auto. intros t. now apply calmo_read. Qed.

Lemma whole_inv o : has_file fs o i -> o_defname o = dname -> Inv N [] o.
Proof. intros H D. split; [now apply whole_fit|]. split; [exact D|]. intros s []. Qed.
Lemma after_inv fuel d l : N + 3 <= fuel -> N < d -> parses_in i l -> forall o, Inv N [] o -> Inv N [] (r_after R fs fuel d l o).
Proof.
  intros F L. unfold r_after. induction l as [|c l IH]; intros PI o H; cbn [fold_left]; [exact H|].
  apply IH; [intros s I; apply PI; right; exact I|]. destruct c as [s|s]; cbn [r_after1]; (eapply later_inv; [|exact H]).
  - apply (calmo_r_parse fuel N d s F L (PI s (or_introl eq_refl)) o H).
  - apply (calmo_read fuel F N (S d) s ltac:(lia) o H).
Qed.
End P.

Section Q.
Context {Sh Us : Type} (R : rclass (Sh := Sh)) (fs : str -> option str) (i : ini) (dname : str).
Lemma reads_end fuel d l s (o : obj Sh Us) : quiet_class R -> has_file fs o i -> o_defname o = dname ->
  (forall t, ini_has_section i t = true -> default_ok (unread_class R) i dname t true) ->
  length (ini_sections i) + 3 <= fuel -> length (ini_sections i) < d -> parses_in i l ->
  fst (r_read R fs fuel d s (r_after R fs fuel d l o)) <> Err RecursionError.
Proof.
  intros Q H D DO F L PI.
  exact (proj1 (calmo_read R fs i dname Q DO fuel F _ d s L _ (after_inv R fs i dname Q DO fuel d l F L PI o (whole_inv fs i dname o H D)))).
Qed.
Lemma parses_end fuel d l s (o : obj Sh Us) : quiet_class R -> has_file fs o i -> o_defname o = dname ->
  (forall t, ini_has_section i t = true -> default_ok (unread_class R) i dname t true) ->
  length (ini_sections i) + 3 <= fuel -> length (ini_sections i) < d -> parses_in i l -> ini_has_section i s = true ->
  fst (r_parse R fs fuel d s (r_after R fs fuel d l o)) <> Err RecursionError.
Proof.
  intros Q H D DO F L PI HS.
  exact (proj1 (calmo_r_parse R fs i dname Q DO fuel _ d s F L HS _ (after_inv R fs i dname Q DO fuel d l F L PI o (whole_inv fs i dname o H D)))).
Qed.
End Q.
