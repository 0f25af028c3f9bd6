(** * Proofs: the options that handlers and callers are given come from the file. *)
From Coq Require Import String NArith ZArith List Bool Lia Arith.
Import ListNotations.
From Verif Require Import PyBase PyFacts Shlex IniView IniRead ExcControl Debuggable Cpe
  SpecFile SpecShell SpecWalk SpecRun SpecParse BaseProofs ShellProofs FileProofs MeaningProofs Refine RefineRoot Reentrant ReentrantProofs SpecSound.
Local Open Scope sm_scope.

Section P.
Context {Sh Us : Type} (R : rclass (Sh := Sh)) (fs : str -> option str) (i : ini) (dname : str).
Notation obj := (obj Sh Us).
Notation ctx := (ctx Sh Us).
Let K : pyclass Sh unit := unread_class R.
Variable P : Sh -> Prop.
Hypothesis EMPTY : P (rk_empty R).
Hypothesis SAFE : forall name k f, dget name (rk_over R) = Some (RUser k f) -> forall sec hp sh, P sh -> safe R i dname P (f sec hp sh).

Definition sound (o : obj) : Prop := forall s d x v, section_of o s = Some d -> In (x, v) d -> origin R i dname s x v.
Record good (o : obj) : Prop := { gd_file : has_file fs o i; gd_def : o_defname o = dname; gd_sound : sound o }.

(** Computations that keep it. *)
Definition keepo {A} (Q : A -> Prop) (m : SM obj A) : Prop := forall o, good o -> good (snd (m o)) /\ forall a, fst (m o) = Ok a -> Q a.
Definition keep {A} (Q : A -> Prop) (m : SM ctx A) : Prop := forall c, good (x_obj c) -> P (x_sh c) ->
  good (x_obj (snd (m c))) /\ forall a, fst (m c) = Ok a -> P (x_sh (snd (m c))) /\ Q a.
Notation any := (fun _ => True).

Lemma keepo_ret {A} (Q : A -> Prop) a : Q a -> keepo Q (ret a).
Proof. intros H o G. split; [exact G|]. cbn. intros b E. inversion E; subst. exact H. Qed.
Lemma keepo_raise {A} (Q : A -> Prop) e : keepo Q (raise e).
Proof. intros o G. split; [exact G|]. cbn. intros b E. discriminate E. Qed.
Lemma keepo_bind {A B} (Q : A -> Prop) (T : B -> Prop) m k : keepo Q m -> (forall a, Q a -> keepo T (k a)) -> keepo T (bind m k).
Proof.
  intros H HK o G. unfold bind. destruct (H o G) as [G1 Q1]. destruct (m o) as [[a|e] o1]; cbn [fst snd] in *.
  - apply (HK a (Q1 a eq_refl) o1 G1).
  - split; [exact G1|]. intros b E. discriminate E.
Qed.
Lemma keep_ret {A} (Q : A -> Prop) a : Q a -> keep Q (ret a).
Proof. intros H c G S. split; [exact G|]. cbn. intros b E. inversion E; subst. auto. Qed.
Lemma keep_raise {A} (Q : A -> Prop) e : keep Q (raise e).
Proof. intros c G S. split; [exact G|]. cbn. intros b E. discriminate E. Qed.
Lemma keep_of_res {A} (Q : A -> Prop) r : (forall a, r = Ok a -> Q a) -> keep Q (of_res r).
Proof. intros H c G S. split; [exact G|]. cbn. intros b E. auto. Qed.
Lemma keep_bind {A B} (Q : A -> Prop) (T : B -> Prop) m k : keep Q m -> (forall a, Q a -> keep T (k a)) -> keep T (bind m k).
Proof.
  intros H HK c G S. unfold bind. destruct (H c G S) as [G1 Q1]. destruct (m c) as [[a|e] c1]; cbn [fst snd] in *.
  - destruct (Q1 a eq_refl) as [S1 QA]. apply (HK a QA c1 G1 S1).
  - split; [exact G1|]. intros b E. discriminate E.
Qed.
Lemma keep_lift {A} (Q : A -> Prop) m : keepo Q m -> keep Q (lift m).
Proof.
  intros H c G S. unfold lift. destruct (H _ G) as [G1 Q1]. destruct (m (x_obj c)) as [r o1]. cbn [fst snd x_obj x_sh] in *. auto.
Qed.

Lemma good_ext o o1 : o_cpd o1 = o_cpd o -> o_files o1 = o_files o -> o_delims o1 = o_delims o -> o_intname o1 = o_intname o ->
  o_defname o1 = o_defname o -> data_of o1 = data_of o -> good o -> good o1.
Proof.
  intros A B C D E F [H1 H2 H3]. constructor; [|congruence|].
  - unfold has_file in *. rewrite <- H1. now apply get_cpd_fst_ext.
  - intros s d. unfold section_of. rewrite F. apply H3.
Qed.
Lemma keepo_log e : keepo any (log e).
Proof. intros o G. split; auto. now apply (good_ext o). Qed.
Lemma keepo_event ev e : keepo any (event ev e).
Proof. intros o G. split; auto. unfold event. destruct (ec_event _ _ _ _). now apply (good_ext o). Qed.
Lemma keepo_files : keepo any get_files.
Proof. intros o G. split; auto. unfold get_files. now destruct (o_files o). Qed.
Lemma keepo_modify f : (forall o, good o -> good (f o)) -> keepo any (modify f).
Proof. intros H o G. split; auto. now apply H. Qed.
Lemma keepo_cpd : keepo (fun j => j = i) (get_cpd fs).
Proof.
  intros o G. rewrite (get_cpd_ready fs i o (gd_file o G)). cbn [fst snd]. split; [|intros a E; congruence].
  destruct G as [H1 H2 H3]. constructor; [reflexivity|exact H2|exact H3].
Qed.
(** Options that may be in the data. *)
Definition pure (d : edata) : Prop := forall s o x v, dget s (d_data d) = Some o -> In (x, v) o -> origin R i dname s x v.
Lemma keepo_edata : keepo pure get_edata.
Proof.
  intros o G. unfold get_edata. destruct (o_edata o) as [d|] eqn:D; cbn [fst snd].
  - split; [exact G|]. intros a E. inversion E; subst a. intros s op x v. pose proof (gd_sound o G s op x v) as H.
    unfold section_of, data_of in H. rewrite D in H. exact H.
  - split; [apply (good_ext o); auto; unfold data_of; now rewrite D|]. intros a E. inversion E; subst a. intros s op x v Q. discriminate Q.
Qed.
Lemma keepo_put d : pure d -> keepo any (put_edata d).
Proof. intros H. apply keepo_modify. intros o [H1 H2 H3]. constructor; [|exact H2|exact H]. unfold has_file in *. rewrite <- H1. now apply get_cpd_fst_ext. Qed.
Lemma keepo_add s b : keepo any (data_add_section s b).
Proof.
  unfold data_add_section. eapply keepo_bind; [apply keepo_edata|]. intros d H. apply keepo_put. unfold ed_add_section.
  destruct (_ || _); [|exact H]. intros t o x v. cbn [d_data]. rewrite dget_dset. destruct (str_eqb _ _); [|apply H].
  intros E I. inversion E; subst. destruct I.
Qed.
Lemma keepo_owner_options : keepo any set_owner_options.
Proof.
  intros o G. split; auto. unfold set_owner_options. destruct (keepo_edata o G) as [G1 Q]. destruct (get_edata o) as [[d|e] o1]; cbn [fst snd] in *; [|exact G1].
  apply (keepo_put (EData (d_data d) (d_checked d) (ec_level (o_ec o1)) (o_debug o1))); auto. exact (Q d eq_refl).
Qed.
Lemma keepo_owner rp s b : keepo any (rp s) -> keepo any (parse_owner rp s b).
Proof.
  intros H. unfold parse_owner. eapply keepo_bind; [apply keepo_edata|]. intros d _. destruct (_ || _); [|now apply keepo_ret].
  eapply keepo_bind; [apply keepo_owner_options|]. intros _ _. eapply keepo_bind; [apply keepo_edata|]. intros d' D.
  eapply keepo_bind; [apply keepo_put; exact D|]. intros _ _. exact H.
Qed.
Lemma keepo_has rp s : keepo any (rp s) -> keepo any (data_has_section fs rp s).
Proof.
  intros H. unfold data_has_section. eapply keepo_bind; [apply keepo_cpd|]. intros j ->. eapply (keepo_bind any).
  - destruct (ini_has_section i s); [|now apply keepo_ret]. eapply keepo_bind; [apply keepo_edata|]. intros d _.
    destruct (str_mem _ _); [now apply keepo_ret|now apply keepo_owner].
  - intros _ _. eapply keepo_bind; [apply keepo_edata|]. intros d _. now apply keepo_ret.
Qed.
Lemma dset_In {V} k (v : V) d x y : In (x, y) (dset k v d) -> (x = k /\ y = v) \/ In (x, y) d.
Proof.
  induction d as [|[a b] d IH]; cbn.
  - intros [E|[]]. inversion E; auto.
  - destruct (str_eqb k a) eqn:E; cbn; intros [Q|Q].
    + inversion Q; subst. left. split; auto; now apply str_eqb_eq in E.
    + auto.
    + auto.
    + destruct (IH Q) as [X|X]; auto.
Qed.
Lemma keepo_data_set rp s k v : keepo any (rp s) -> origin R i dname s k v -> keepo any (data_set fs rp s k v).
Proof.
  intros H OR. unfold data_set. eapply keepo_bind; [now apply keepo_has|]. intros b _. eapply (keepo_bind any).
  - destruct b; [now apply keepo_ret|apply keepo_add].
  - intros _ _. eapply keepo_bind; [apply keepo_edata|]. intros d D. unfold ed_put. destruct (dget s (d_data d)) as [op|] eqn:E; [|apply keepo_raise].
    apply keepo_put. intros t o x y. cbn [d_data]. rewrite dget_dset. destruct (str_eqb_spec t s) as [->|N]; [|apply D].
    intros Q I. inversion Q; subst o. apply dset_In in I as [[-> ->]|I]; [exact OR|exact (D s op x y E I)].
Qed.
Lemma keepo_check r : keepo any (check_rval r).
Proof.
  unfold check_rval. destruct r as [z|]; [|apply keepo_event]. destruct (z =? 0)%Z; [now apply keepo_ret|]. destruct (z <=? 10)%Z; apply keepo_event.
Qed.
Lemma keep_decorated hp m : keep any m -> keep any (decorated hp m).
Proof.
  intros H. unfold decorated. eapply keep_bind; [apply keep_lift, keepo_log|intros _ _]. eapply keep_bind; [exact H|intros r _].
  eapply keep_bind; [apply keep_lift, keepo_log|intros _ _]. apply keep_lift, keepo_check.
Qed.

Section Body.
Variable read : str -> SM obj (dict (option str)).
Hypothesis READ : forall s, keepo (fun d => forall x v, In (x, v) d -> origin R i dname s x v) (read s).

Lemma keep_prog p : safe R i dname P p -> forall c, good (x_obj c) ->
  good (x_obj (snd (run_prog read p c))) /\ forall a, fst (run_prog read p c) = Ok a -> P (x_sh (snd (run_prog read p c))).
Proof.
  intros H. induction H as [z sh H|e sh|s k H1 IH1 H2 IH2]; intros c G; cbn [run_prog].
  - cbn. auto.
  - cbn. split; [exact G|]. intros a E. discriminate E.
  - destruct (READ s _ G) as [G1 Q]. destruct (read s (x_obj c)) as [[d|e] o]; cbn [fst snd] in *.
    + exact (IH1 d (Q d eq_refl) (Ctx o (x_sh c) (x_proc c)) G1).
    + exact (IH2 e (Ctx o (x_sh c) (x_proc c)) G1).
Qed.
Lemma base_safe name k f sec hp sh : dget name base_rattrs = Some (RUser k f) -> P sh -> safe R i dname P (f sec hp sh).
Proof.
  unfold base_rattrs. cbn [dget]. intros E H.
  destruct (str_eqb name _); [discriminate E|]. destruct (str_eqb name _); [inversion E; now constructor|].
  destruct (str_eqb name _); [inversion E; now constructor|discriminate E].
Qed.
Lemma find_safe name k f sec hp sh : r_find_attr R name = Some (RUser k f) -> P sh -> safe R i dname P (f sec hp sh).
Proof.
  unfold r_find_attr. intros E H. destruct (dget name (rk_over R)) as [a|] eqn:D.
  - inversion E; subst. eapply SAFE; eauto.
  - eapply base_safe; eauto.
Qed.
Lemma keep_user name k f sec hp : r_find_attr R name = Some (RUser k f) -> keep any (r_user_body read f sec hp).
Proof.
  intros E c G S. unfold r_user_body. destruct (keep_prog _ (find_safe name k f sec hp (x_sh c) E S) c G) as [A B]. split; [exact A|]. intros a Q. split; [exact (B a Q)|exact Logic.I].
Qed.

Variable root : str.
Definition feeds (s : str) : Prop := contributes K i dname root true s.
Variable rec : str -> bool -> bool -> SM ctx unit.
Hypothesis REC : forall s a b, feeds s -> keep any (rec s a b).
Variable rp : str -> SM obj unit.
Hypothesis RP : forall t, keepo any (rp t).

Lemma keep_get : keep (fun c => o_defname (x_obj c) = dname) get.
Proof. intros c G S. cbn. split; [exact G|]. intros a E. inversion E; subst. split; [exact S|apply G]. Qed.
Lemma keep_use sec hp : (forall t ps, hp_params hp = t :: ps -> feeds t) -> keep any (use_body rec sec hp).
Proof.
  intros CO. unfold use_body. destruct (hp_params hp) as [|t ps]; [apply keep_raise|]. eapply keep_bind; [apply keep_get|]. intros c _.
  destruct (negb _).
  - eapply keep_bind; [apply REC, (CO t ps eq_refl)|]. intros; now apply keep_ret.
  - eapply keep_bind; [apply keep_lift, keepo_log|intros _ _]. eapply keep_bind; [apply keep_lift, keepo_log|intros _ _].
    eapply keep_bind; [apply keep_lift, keepo_files|intros _ _]. eapply keep_bind; [apply keep_lift, keepo_event|intros _ _]. now apply keep_ret.
Qed.
Lemma keep_call name a sec hp : r_find_attr R name = Some a -> (a = RUse -> forall t ps, hp_params hp = t :: ps -> feeds t) ->
  keep any (r_call_attr read rec a sec hp).
Proof.
  intros E H. destruct a as [|k f| |]; cbn [r_call_attr]; try apply keep_raise.
  - apply keep_decorated, keep_use. exact (H eq_refl).
  - pose proof (keep_user name k f sec hp E) as X. destruct k; [now apply keep_decorated| |]; (eapply keep_bind; [exact X|intros; now apply keep_ret]).
Qed.
Lemma keep_named name sec hp : hp_params hp = [] -> keep any (r_call_named R read rec name sec hp).
Proof.
  intros H. unfold r_call_named. destruct (r_find_attr R name) as [a|] eqn:E; [|apply keep_raise]. apply (keep_call name); auto.
  intros _ t ps Q. rewrite H in Q. discriminate Q.
Qed.
Lemma keep_generic hp k v : hp_root hp = root -> origin R i dname root k v -> keep (fun h => hp_root h = root) (launch_generic fs rp hp k v).
Proof.
  intros H OR. unfold launch_generic. rewrite H. eapply keep_bind; [apply keep_lift, keepo_data_set; auto|intros _ _].
  eapply keep_bind; [apply keep_decorated; now apply keep_ret|intros _ _]. now apply keep_ret.
Qed.
Lemma keepo_locate op : keepo (fun h => match h with
    | Some (name, a) => r_find_attr R name = Some a /\ exists amb, handler_of K (normalize_op op) (Some (name, told_attr (fun _ => []) a, amb))
    | None => handler_of K (normalize_op op) None
    end) (r_locate_handler R op).
Proof.
  unfold r_locate_handler, r_locate_class_method. cbv zeta.
  assert (HA : forall x, has_attr K x = match option_map (told_attr (fun _ => [])) (r_find_attr R x) with Some ANone => None | y => y end)
    by (intros x; unfold has_attr, K, unread_class; now rewrite find_told).
  pose proof (HA (public_name (normalize_op op))) as H1. pose proof (HA (private_name (normalize_op op))) as H2. clear HA.
  unfold public_name, private_name in H1, H2.
  destruct (r_find_attr R ($"handler_" ++ normalize_op op)) as [[|? ?| |]|] eqn:E1,
           (r_find_attr R ($"_handler_" ++ normalize_op op)) as [[|? ?| |]|] eqn:E2; cbn [option_map told_attr] in *;
  (eapply (keepo_bind any); [first [apply keepo_event|now apply keepo_ret]|intros _ _; apply keepo_ret]);
  first [split; [first [exact E1|exact E2]|]; eexists; first [eapply ho_both; [exact H1|exact H2]|eapply ho_public; [exact H1|exact H2]|eapply ho_private; [exact H1|exact H2]]
        |apply ho_none; [exact H1|exact H2]].
Qed.
Lemma keep_item sec hp kv items : ini_items i sec = Some items -> In kv items -> feeds sec -> hp_root hp = root ->
  keep (fun h => hp_root h = root) (r_process_item R fs read rec rp sec hp kv).
Proof.
  intros IT IK CS H. unfold r_process_item. cbv zeta.
  eapply (keep_bind (fun v => snd kv = Ok v)); [now apply keep_of_res|intros v0 HV]. eapply keep_bind; [apply keep_lift, keepo_log|intros _ _].
  eapply (keep_bind (fun l => shlex_split (strip_ws (strip_ws (fst kv))) = Ok l)); [now apply keep_of_res|intros toks HW].
  assert (SI : forall x, strip_ws (strip_ws x) = strip_ws x) by (intros; apply strip_idem). rewrite SI in HW.
  destruct toks as [|t0 ps]; [apply keep_raise|]. destruct kv as [k0 rv]. cbn [fst snd] in *. subst rv.
  assert (SH : section_shows i sec items) by (apply shows_iff; exact IT).
  change (op_word (bare R) t0) with (op_word K t0). destruct (op_word K t0) eqn:OW; cbn [negb].
  - eapply keep_bind; [apply keep_lift, keepo_log|intros _ _]. eapply keep_bind; [apply keep_lift, keepo_locate|].
    intros h HO. rewrite normalize_twice, <- undash_normalize in HO. destruct h as [[name a]|].
    + destruct HO as (FN & amb & HO). eapply keep_bind; [apply (keep_call name); [exact FN|]|intros; now apply keep_ret].
      intros -> t ps' Q. cbn [hp_params] in Q. subst ps.
      pose proof (c_use K sec k0 v0 t0 t ps' name amb HW OW HO) as M. apply meaning_iff in M.
      assert (U : uses K i sec t) by (eexists _, _, _, _, _; split; [exact SH|split; [exact IK|exact M]]).
      destruct CS as [C|(C1 & C2 & C)]; [left|right; split; [exact C1|split; [exact C2|]]];
      (eapply reaches_trans; [exact C|]; eapply reach_step; [exact U|constructor]).
    + apply keep_generic; [exact H|]. pose proof (c_plain K sec k0 v0 t0 ps HW OW HO) as M. apply meaning_iff in M.
      exists sec, items, (k0, Ok v0). eexists. split; [exact CS|]. split; [exact SH|]. split; [exact IK|exact M].
  - apply keep_generic; [exact H|]. pose proof (c_noword K sec k0 v0 t0 ps HW OW) as M. apply meaning_iff in M.
    exists sec, items, (k0, Ok v0). eexists. split; [exact CS|]. split; [exact SH|]. split; [exact IK|exact M].
Qed.
Lemma keep_items sec items l : ini_items i sec = Some items -> feeds sec -> incl l items -> forall hp, hp_root hp = root ->
  keep any (r_run_items R fs read rec rp sec hp l).
Proof.
  intros IT CS. induction l as [|kv l IH]; intros IL hp H; cbn [r_run_items]; [now apply keep_ret|].
  eapply keep_bind; [apply (keep_item sec hp kv items); auto; apply IL; left; auto|].
  intros hp' H'. apply IH; auto. intros x Hx. apply IL. right. exact Hx.
Qed.
Lemma keep_body sec a b : feeds sec -> keep any (r_psr_body R fs read rec rp root sec a b).
Proof.
  intros CS. unfold r_psr_body. eapply (keep_bind any).
  - destruct (a && _); [|now apply keep_ret]. eapply keep_bind; [now apply keep_named|intros _ _].
    eapply keep_bind; [apply keep_lift, keepo_cpd|intros j ->]. eapply keep_bind; [apply keep_get|]. intros c D. rewrite D.
    destruct (ini_has_section i dname) eqn:DN; [|now apply keep_ret]. apply REC. right. split; [reflexivity|]. split; [exact DN|constructor].
  - intros _ _. eapply keep_bind; [apply keep_lift, keepo_log|intros _ _]. eapply keep_bind; [apply keep_lift, keepo_cpd|intros j ->].
    destruct (ini_items i sec) as [items|] eqn:IT.
    + eapply keep_bind; [apply keep_lift, keepo_add|intros _ _].
      eapply (keep_bind any); [intros c G S; cbn; auto|intros _ _].
      eapply keep_bind; [apply (keep_items sec items); auto; apply incl_refl|intros _ _].
      eapply (keep_bind any); [destruct (b && _); [now apply keep_named|now apply keep_ret]|intros _ _].
      eapply (keep_bind any); [intros c G S; unfold proc_remove; destruct (str_mem _ _); cbn; auto|intros _ _]. apply keep_lift, keepo_log.
    + eapply keep_bind; [apply keep_lift, keepo_files|intros _ _]. apply keep_raise.
Qed.
End Body.

Lemma keepo_parse (p : str -> str -> bool -> bool -> SM ctx unit) s a b : keep any (p s s a b) ->
  keepo P (parse_section_with (bare R) p s a b).
Proof.
  intros H. unfold parse_section_with. eapply keepo_bind; [apply keepo_modify; intros o G; now apply (good_ext o)|intros _ _].
  destruct (str_eqb s []); [apply keepo_raise|]. eapply (keepo_bind P).
  - unfold parse_root. eapply keepo_bind; [apply keepo_edata|]. intros d D. eapply keepo_bind; [apply keepo_put; exact D|intros _ _].
    intros o G. destruct (H (Ctx o (k_empty (bare (Us := Us) R)) []) G EMPTY) as [G1 Q]. destruct (p s s a b _) as [[u|e] c1]; cbn [fst snd] in *.
    + split; [exact G1|]. intros v E. inversion E; subst. apply (Q u eq_refl).
    + split; [exact G1|]. intros v E. discriminate E.
  - intros r PR. eapply keepo_bind; [apply keepo_modify; intros o G; now apply (good_ext o)|intros _ _]. now apply keepo_ret.
Qed.
Lemma keep_psr read (READ : forall s, keepo (fun d => forall x v, In (x, v) d -> origin R i dname s x v) (read s)) f : forall root sec a b,
  feeds root sec -> keep any (r_psr R fs read f root sec a b).
Proof.
  induction f as [|f IH]; intros root sec a b C; cbn [r_psr]; [apply keep_raise|]. apply keep_body; auto.
  intros t. eapply keepo_bind; [apply keepo_parse, IH; left; constructor|]. intros; now apply keepo_ret.
Qed.
Lemma keepo_read fuel depth : forall s, keepo (fun d => forall x v, In (x, v) d -> origin R i dname s x v) (r_read R fs fuel depth s).
Proof.
  induction depth as [|d IH]; intros s; cbn [r_read]; [apply keepo_raise|]. eapply keepo_bind.
  - apply keepo_has. eapply keepo_bind; [apply keepo_parse, keep_psr; [exact IH|left; constructor]|]. intros; now apply keepo_ret.
  - intros b _. destruct b; [|apply keepo_raise]. unfold data_section. eapply keepo_bind; [apply keepo_edata|]. intros e E.
    destruct (dget s (d_data e)) as [op|] eqn:D; [|apply keepo_raise]. apply keepo_ret. intros x v. exact (E s op x v D).
Qed.
Lemma keepo_r_parse fuel depth s : keepo P (r_parse R fs fuel depth s).
Proof. unfold r_parse. apply keepo_parse, keep_psr; [apply keepo_read|left; constructor]. Qed.
Lemma after_good fuel depth l : forall o, good o -> good (r_after R fs fuel depth l o).
Proof.
  unfold r_after. induction l as [|c l IH]; intros o G; cbn [fold_left]; [exact G|]. apply IH. destruct c as [s|s]; cbn [r_after1].
  - apply (keepo_r_parse fuel depth s o G).
  - apply (keepo_read fuel (S depth) s o G).
Qed.
Lemma new_good o : has_file fs o i -> o_defname o = dname -> o_edata o = None -> good o.
Proof. intros A B C. constructor; auto. intros s d x v. unfold section_of, data_of. rewrite C. discriminate. Qed.
End P.

Section Q.
Context {Sh Us : Type} (R : rclass (Sh := Sh)) (fs : str -> option str) (i : ini) (dname : str).
Lemma all_safe p : safe R i dname (fun _ => True) p.
Proof. induction p as [[z|e] sh|s k IH]; constructor; auto. Qed.
Lemma reads_sound fuel depth l s (o : obj Sh Us) d : has_file fs o i -> o_defname o = dname -> o_edata o = None ->
  fst (r_read R fs fuel depth s (r_after R fs fuel depth l o)) = Ok d -> forall x v, In (x, v) d -> origin R i dname s x v.
Proof.
  intros A B C. pose proof (fun name k f (_ : dget name (rk_over R) = Some (RUser k f)) sec hp sh (_ : True) => all_safe (f sec hp sh)) as SA.
  exact (proj2 (keepo_read R fs i dname (fun _ => True) Logic.I SA fuel depth s _
    (after_good R fs i dname (fun _ => True) Logic.I SA fuel depth l o (new_good R fs i dname o A B C))) d).
Qed.
Lemma parses_safe (P : Sh -> Prop) fuel depth l s (o : obj Sh Us) v : has_file fs o i -> o_defname o = dname -> o_edata o = None ->
  P (rk_empty R) -> (forall name k f, dget name (rk_over R) = Some (RUser k f) -> forall sec hp sh, P sh -> safe R i dname P (f sec hp sh)) ->
  fst (r_parse R fs fuel depth s (r_after R fs fuel depth l o)) = Ok v -> P v.
Proof.
  intros A B C E SA. exact (proj2 (keepo_r_parse R fs i dname P E SA fuel depth s _
    (after_good R fs i dname P E SA fuel depth l o (new_good R fs i dname o A B C))) v).
Qed.
End Q.
