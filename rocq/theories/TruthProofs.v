(** * Proofs: the options in answers come from the file, whatever happened before. *)
From Coq Require Import String NArith ZArith List Bool Lia Arith.
Import ListNotations.
From Verif Require Import PyBase PyFacts Shlex IniView IniRead ExcControl Debuggable Cpe
  SpecFile SpecShell SpecWalk SpecRun SpecParse BaseProofs ShellProofs FileProofs MeaningProofs Refine RefineRoot ApiProofs SpecApi SpecTruth.
Local Open Scope sm_scope.

Section P.
Context {Sh Us : Type} (K : pyclass Sh Us) (fs : str -> option str) (i : ini) (dname : str).
Notation obj := (obj Sh Us).
Notation ctx := (ctx Sh Us).
Definition sound (o : obj) : Prop := forall s d x v, section_of o s = Some d -> In (x, v) d -> written_for K i dname s x v.
Record good (o : obj) : Prop := { gd_file : has_file fs o i; gd_def : o_defname o = dname; gd_sound : sound o }.

(** Computations that keep it. *)
Definition keepo {A} (Q : A -> Prop) (m : SM obj A) : Prop := forall o, good o -> good (snd (m o)) /\ forall a, fst (m o) = Ok a -> Q a.
Definition keep {A} (Q : A -> Prop) (m : SM ctx A) : Prop := forall c, good (x_obj c) ->
  good (x_obj (snd (m c))) /\ forall a, fst (m c) = Ok a -> Q a.
Notation any := (fun _ => True).

Lemma keepo_ret {A} (Q : A -> Prop) a : Q a -> keepo Q (ret a).
Proof. intros H o G. split; [exact G|]. cbn. intros b E. inversion E; subst. exact H. Qed.
Lemma keepo_raise {A} (Q : A -> Prop) e : keepo Q (raise e).
Proof. intros o G. split; [exact G|]. cbn. intros b E. discriminate E. Qed.
Lemma keepo_bind {A B} (Q : A -> Prop) (T : B -> Prop) m k : keepo Q m -> (forall a, Q a -> keepo T (k a)) -> keepo T (bind m k).
Proof.
  intros H HK o G. unfold bind. destruct (H o G) as [G1 Q1]. destruct (m o) as [[a|e] o1]; cbn [fst snd] in *.
  - apply (HK a (Q1 a eq_refl) o1 G1).
  - split; [exact G1|]. intros b E. discriminate E.
Qed.
Lemma keep_ret {A} (Q : A -> Prop) a : Q a -> keep Q (ret a).
Proof. intros H c G. split; [exact G|]. cbn. intros b E. inversion E; subst. auto. Qed.
Lemma keep_raise {A} (Q : A -> Prop) e : keep Q (raise e).
Proof. intros c G. split; [exact G|]. cbn. intros b E. discriminate E. Qed.
Lemma keep_of_res {A} (Q : A -> Prop) r : (forall a, r = Ok a -> Q a) -> keep Q (of_res r).
Proof. intros H c G. split; [exact G|]. cbn. intros b E. auto. Qed.
Lemma keep_bind {A B} (Q : A -> Prop) (T : B -> Prop) m k : keep Q m -> (forall a, Q a -> keep T (k a)) -> keep T (bind m k).
Proof.
  intros H HK c G. unfold bind. destruct (H c G) as [G1 Q1]. destruct (m c) as [[a|e] c1]; cbn [fst snd] in *.
  - apply (HK a (Q1 a eq_refl) c1 G1).
  - split; [exact G1|]. intros b E. discriminate E.
Qed.
Lemma keep_lift {A} (Q : A -> Prop) m : keepo Q m -> keep Q (lift m).
Proof.
  intros H c G. unfold lift. destruct (H _ G) as [G1 Q1]. destruct (m (x_obj c)) as [r o1]. cbn [fst snd x_obj x_sh] in *. auto.
Qed.

Lemma good_ext o o1 : o_cpd o1 = o_cpd o -> o_files o1 = o_files o -> o_delims o1 = o_delims o -> o_intname o1 = o_intname o ->
  o_defname o1 = o_defname o -> data_of o1 = data_of o -> good o -> good o1.
Proof.
  intros A B C D E F [H1 H2 H3]. constructor; [|congruence|].
  - unfold has_file in *. rewrite <- H1. now apply get_cpd_fst_ext.
  - intros s d. unfold section_of. rewrite F. apply H3.
Qed.
Lemma keepo_log e : keepo any (log e).
Proof. intros o G. split; auto. now apply (good_ext o). Qed.
Lemma keepo_event ev e : keepo any (event ev e).
Proof. intros o G. split; auto. unfold event. destruct (ec_event _ _ _ _). now apply (good_ext o). Qed.
Lemma keepo_files : keepo any get_files.
Proof. intros o G. split; auto. unfold get_files. now destruct (o_files o). Qed.
Lemma keepo_modify f : (forall o, good o -> good (f o)) -> keepo any (modify f).
Proof. intros H o G. split; auto. now apply H. Qed.
Lemma keepo_cpd : keepo (fun j => j = i) (get_cpd fs).
Proof.
  intros o G. rewrite (get_cpd_ready fs i o (gd_file o G)). cbn [fst snd]. split; [|intros a E; congruence].
  destruct G as [H1 H2 H3]. constructor; [reflexivity|exact H2|exact H3].
Qed.
(** Options that may be in the data. *)
Definition pure (d : edata) : Prop := forall s o x v, dget s (d_data d) = Some o -> In (x, v) o -> written_for K i dname s x v.
Lemma keepo_edata : keepo pure get_edata.
Proof.
  intros o G. unfold get_edata. destruct (o_edata o) as [d|] eqn:D; cbn [fst snd].
  - split; [exact G|]. intros a E. inversion E; subst a. intros s op x v. pose proof (gd_sound o G s op x v) as H.
    unfold section_of, data_of in H. rewrite D in H. exact H.
  - split; [apply (good_ext o); auto; unfold data_of; now rewrite D|]. intros a E. inversion E; subst a. intros s op x v Q. discriminate Q.
Qed.
Lemma keepo_put d : pure d -> keepo any (put_edata d).
Proof. intros H. apply keepo_modify. intros o [H1 H2 H3]. constructor; [|exact H2|exact H]. unfold has_file in *. rewrite <- H1. now apply get_cpd_fst_ext. Qed.
Lemma keepo_add s b : keepo any (data_add_section s b).
Proof.
  unfold data_add_section. eapply keepo_bind; [apply keepo_edata|]. intros d H. apply keepo_put. unfold ed_add_section.
  destruct (_ || _); [|exact H]. intros t o x v. cbn [d_data]. rewrite dget_dset. destruct (str_eqb _ _); [|apply H].
  intros E I. inversion E; subst. destruct I.
Qed.
Lemma keepo_owner_options : keepo any set_owner_options.
Proof.
  intros o G. split; auto. unfold set_owner_options. destruct (keepo_edata o G) as [G1 Q]. destruct (get_edata o) as [[d|e] o1]; cbn [fst snd] in *; [|exact G1].
  apply (keepo_put (EData (d_data d) (d_checked d) (ec_level (o_ec o1)) (o_debug o1))); auto. exact (Q d eq_refl).
Qed.
Lemma keepo_owner rp s b : keepo any (rp s) -> keepo any (parse_owner rp s b).
Proof.
  intros H. unfold parse_owner. eapply keepo_bind; [apply keepo_edata|]. intros d _. destruct (_ || _); [|now apply keepo_ret].
  eapply keepo_bind; [apply keepo_owner_options|]. intros _ _. eapply keepo_bind; [apply keepo_edata|]. intros d' D.
  eapply keepo_bind; [apply keepo_put; exact D|]. intros _ _. exact H.
Qed.
Lemma keepo_has rp s : keepo any (rp s) -> keepo any (data_has_section fs rp s).
Proof.
  intros H. unfold data_has_section. eapply keepo_bind; [apply keepo_cpd|]. intros j ->. eapply (keepo_bind any).
  - destruct (ini_has_section i s); [|now apply keepo_ret]. eapply keepo_bind; [apply keepo_edata|]. intros d _.
    destruct (str_mem _ _); [now apply keepo_ret|now apply keepo_owner].
  - intros _ _. eapply keepo_bind; [apply keepo_edata|]. intros d _. now apply keepo_ret.
Qed.
Lemma dset_In {V} k (v : V) d x y : In (x, y) (dset k v d) -> (x = k /\ y = v) \/ In (x, y) d.
Proof.
  induction d as [|[a b] d IH]; cbn.
  - intros [E|[]]. inversion E; auto.
  - destruct (str_eqb k a) eqn:E; cbn; intros [Q|Q].
    + inversion Q; subst. left. split; auto; now apply str_eqb_eq in E.
    + auto.
    + auto.
    + destruct (IH Q) as [X|X]; auto.
Qed.
Lemma keepo_data_set rp s k v : keepo any (rp s) -> written_for K i dname s k v -> keepo any (data_set fs rp s k v).
Proof.
  intros H OR. unfold data_set. eapply keepo_bind; [now apply keepo_has|]. intros b _. eapply (keepo_bind any).
  - destruct b; [now apply keepo_ret|apply keepo_add].
  - intros _ _. eapply keepo_bind; [apply keepo_edata|]. intros d D. unfold ed_put. destruct (dget s (d_data d)) as [op|] eqn:E; [|apply keepo_raise].
    apply keepo_put. intros t o x y. cbn [d_data]. rewrite dget_dset. destruct (str_eqb_spec t s) as [->|N]; [|apply D].
    intros Q I. inversion Q; subst o. apply dset_In in I as [[-> ->]|I]; [exact OR|exact (D s op x y E I)].
Qed.
Lemma keepo_check r : keepo any (check_rval r).
Proof.
  unfold check_rval. destruct r as [z|]; [|apply keepo_event]. destruct (z =? 0)%Z; [now apply keepo_ret|]. destruct (z <=? 10)%Z; apply keepo_event.
Qed.
Lemma keep_decorated hp m : keep any m -> keep any (decorated hp m).
Proof.
  intros H. unfold decorated. eapply keep_bind; [apply keep_lift, keepo_log|intros _ _]. eapply keep_bind; [exact H|intros r _].
  eapply keep_bind; [apply keep_lift, keepo_log|intros _ _]. apply keep_lift, keepo_check.
Qed.

Section Body.
Lemma keep_user f sec hp : keep any (user_body f sec hp).
Proof.
  intros c G. unfold user_body. destruct (f sec hp (x_sh c) (o_user (x_obj c))) as [[r sh] us]. cbn. split; auto. now apply (good_ext (x_obj c)).
Qed.

Variable root : str.
Definition feeds (s : str) : Prop := contributes K i dname root true s.
Variable rec : str -> bool -> bool -> SM ctx unit.
Hypothesis REC : forall s a b, feeds s -> keep any (rec s a b).
Variable rp : str -> SM obj unit.
Hypothesis RP : forall t, keepo any (rp t).

Lemma keep_get : keep (fun c => o_defname (x_obj c) = dname) get.
Proof. intros c G. cbn. split; [exact G|]. intros a E. inversion E; subst. apply G. Qed.
Lemma keep_use sec hp : (forall t ps, hp_params hp = t :: ps -> feeds t) -> keep any (use_body rec sec hp).
Proof.
  intros CO. unfold use_body. destruct (hp_params hp) as [|t ps]; [apply keep_raise|]. eapply keep_bind; [apply keep_get|]. intros c _.
  destruct (negb _).
  - eapply keep_bind; [apply REC, (CO t ps eq_refl)|]. intros; now apply keep_ret.
  - eapply keep_bind; [apply keep_lift, keepo_log|intros _ _]. eapply keep_bind; [apply keep_lift, keepo_log|intros _ _].
    eapply keep_bind; [apply keep_lift, keepo_files|intros _ _]. eapply keep_bind; [apply keep_lift, keepo_event|intros _ _]. now apply keep_ret.
Qed.
Lemma keep_call a sec hp : (a = AUse -> forall t ps, hp_params hp = t :: ps -> feeds t) ->
  keep any (call_attr rec a sec hp).
Proof.
  intros H. destruct a as [|k f| |]; cbn [call_attr]; try apply keep_raise.
  - apply keep_decorated, keep_use. exact (H eq_refl).
  - pose proof (keep_user f sec hp) as X. destruct k; [now apply keep_decorated| |]; (eapply keep_bind; [exact X|intros; now apply keep_ret]).
Qed.
Lemma keep_named name sec hp : hp_params hp = [] -> keep any (call_named K rec name sec hp).
Proof.
  intros H. unfold call_named. destruct (find_attr K name) as [a|] eqn:E; [|apply keep_raise]. apply keep_call.
  intros _ t ps Q. rewrite H in Q. discriminate Q.
Qed.
Lemma keep_generic hp k v : hp_root hp = root -> written_for K i dname root k v -> keep (fun h => hp_root h = root) (launch_generic fs rp hp k v).
Proof.
  intros H OR. unfold launch_generic. rewrite H. eapply keep_bind; [apply keep_lift, keepo_data_set; auto|intros _ _].
  eapply keep_bind; [apply keep_decorated; now apply keep_ret|intros _ _]. now apply keep_ret.
Qed.
Lemma keepo_locate op : keepo (fun h => match h with
    | Some (name, a) => exists amb, handler_of K (normalize_op op) (Some (name, a, amb))
    | None => handler_of K (normalize_op op) None
    end) (locate_handler K op).
Proof.
  unfold locate_handler. cbv zeta.
  change (locate_class_method K ($"handler_" ++ normalize_op op)) with (has_attr K (public_name (normalize_op op))).
  change (locate_class_method K ($"_handler_" ++ normalize_op op)) with (has_attr K (private_name (normalize_op op))).
  destruct (has_attr K (public_name (normalize_op op))) as [a|] eqn:H1, (has_attr K (private_name (normalize_op op))) as [b|] eqn:H2;
  (eapply (keepo_bind any); [first [apply keepo_event|now apply keepo_ret]|intros _ _; apply keepo_ret]);
  [eexists; eapply ho_both; [exact H1|exact H2]|eexists; eapply ho_public; [exact H1|exact H2]
  |eexists; eapply ho_private; [exact H1|exact H2]|apply ho_none; [exact H1|exact H2]].
Qed.
Lemma keep_item sec hp kv items : ini_items i sec = Some items -> In kv items -> feeds sec -> hp_root hp = root ->
  keep (fun h => hp_root h = root) (process_item K fs rec rp sec hp kv).
Proof.
  intros IT IK CS H. unfold process_item. cbv zeta.
  eapply (keep_bind (fun v => snd kv = Ok v)); [now apply keep_of_res|intros v0 HV]. eapply keep_bind; [apply keep_lift, keepo_log|intros _ _].
  eapply (keep_bind (fun l => shlex_split (strip_ws (strip_ws (fst kv))) = Ok l)); [now apply keep_of_res|intros toks HW].
  assert (SI : forall x, strip_ws (strip_ws x) = strip_ws x) by (intros; apply strip_idem). rewrite SI in HW.
  destruct toks as [|t0 ps]; [apply keep_raise|]. destruct kv as [k0 rv]. cbn [fst snd] in *. subst rv.
  assert (SH : section_shows i sec items) by (apply shows_iff; exact IT).
  destruct (op_word K t0) eqn:OW; cbn [negb].
  - eapply keep_bind; [apply keep_lift, keepo_log|intros _ _]. eapply keep_bind; [apply keep_lift, keepo_locate|].
    intros h HO. rewrite normalize_idem, <- undash_normalize in HO. destruct h as [[name a]|].
    + destruct HO as (amb & HO). eapply keep_bind; [apply keep_call|intros; now apply keep_ret].
      intros -> t ps' Q. cbn [hp_params] in Q. subst ps.
      pose proof (c_use K sec k0 v0 t0 t ps' name amb HW OW HO) as M. apply meaning_iff in M.
      assert (U : uses K i sec t) by (eexists _, _, _, _, _; split; [exact SH|split; [exact IK|exact M]]).
      destruct CS as [C|(C1 & C2 & C)]; [left|right; split; [exact C1|split; [exact C2|]]];
      (eapply reaches_trans; [exact C|]; eapply reach_step; [exact U|constructor]).
    + apply keep_generic; [exact H|]. pose proof (c_plain K sec k0 v0 t0 ps HW OW HO) as M. apply meaning_iff in M.
      exists sec, items, (k0, Ok v0). eexists. split; [exact CS|]. split; [exact SH|]. split; [exact IK|exact M].
  - apply keep_generic; [exact H|]. pose proof (c_noword K sec k0 v0 t0 ps HW OW) as M. apply meaning_iff in M.
    exists sec, items, (k0, Ok v0). eexists. split; [exact CS|]. split; [exact SH|]. split; [exact IK|exact M].
Qed.
Lemma keep_items sec items l : ini_items i sec = Some items -> feeds sec -> incl l items -> forall hp, hp_root hp = root ->
  keep any (run_items K fs rec rp sec hp l).
Proof.
  intros IT CS. induction l as [|kv l IH]; intros IL hp H; cbn [run_items]; [now apply keep_ret|].
  eapply keep_bind; [apply (keep_item sec hp kv items); auto; apply IL; left; auto|].
  intros hp' H'. apply IH; auto. intros x Hx. apply IL. right. exact Hx.
Qed.
Lemma keep_body sec a b : feeds sec -> keep any (psr_body K fs rec rp root sec a b).
Proof.
  intros CS. unfold psr_body. eapply (keep_bind any).
  - destruct (a && _); [|now apply keep_ret]. eapply keep_bind; [now apply keep_named|intros _ _].
    eapply keep_bind; [apply keep_lift, keepo_cpd|intros j ->]. eapply keep_bind; [apply keep_get|]. intros c D. rewrite D.
    destruct (ini_has_section i dname) eqn:DN; [|now apply keep_ret]. apply REC. right. split; [reflexivity|]. split; [exact DN|constructor].
  - intros _ _. eapply keep_bind; [apply keep_lift, keepo_log|intros _ _]. eapply keep_bind; [apply keep_lift, keepo_cpd|intros j ->].
    destruct (ini_items i sec) as [items|] eqn:IT.
    + eapply keep_bind; [apply keep_lift, keepo_add|intros _ _].
      eapply (keep_bind any); [intros c G; cbn; auto|intros _ _].
      eapply keep_bind; [apply (keep_items sec items); auto; apply incl_refl|intros _ _].
      eapply (keep_bind any); [destruct (b && _); [now apply keep_named|now apply keep_ret]|intros _ _].
      eapply (keep_bind any); [intros c G; unfold proc_remove; destruct (str_mem _ _); cbn; auto|intros _ _]. apply keep_lift, keepo_log.
    + eapply keep_bind; [apply keep_lift, keepo_files|intros _ _]. apply keep_raise.
Qed.
End Body.

Lemma keepo_parse (p : str -> str -> bool -> bool -> SM ctx unit) s a b : keep any (p s s a b) ->
  keepo any (parse_section_with K p s a b).
Proof.
  intros H. unfold parse_section_with. eapply keepo_bind; [apply keepo_modify; intros o G; now apply (good_ext o)|intros _ _].
  destruct (str_eqb s []); [apply keepo_raise|]. eapply (keepo_bind any).
  - unfold parse_root. eapply keepo_bind; [apply keepo_edata|]. intros d D. eapply keepo_bind; [apply keepo_put; exact D|intros _ _].
    intros o G. destruct (H (Ctx o (k_empty K) []) G) as [G1 Q]. destruct (p s s a b _) as [[u|e] c1]; cbn [fst snd] in *; auto.
  - intros r PR. eapply keepo_bind; [apply keepo_modify; intros o G; now apply (good_ext o)|intros _ _]. now apply keepo_ret.
Qed.
Lemma keep_psr f : forall root sec a b, feeds root sec -> keep any (psr K fs f root sec a b).
Proof.
  induction f as [|f IH]; intros root sec a b C; cbn [psr]; [apply keep_raise|]. apply keep_body; auto.
  intros t. eapply keepo_bind; [apply keepo_parse, IH; left; constructor|]. intros; now apply keepo_ret.
Qed.
Lemma keepo_parse_str fuel s : keepo any (parse_section_str K fs fuel s true true).
Proof. unfold parse_section_str. apply keepo_parse, keep_psr. left. constructor. Qed.
Lemma keepo_owner_parse fuel s : keepo any (owner_parse K fs fuel s).
Proof. unfold owner_parse. eapply keepo_bind; [apply keepo_parse_str|]. intros; now apply keepo_ret. Qed.
Lemma keepo_po fuel s b : keepo any (parse_owner (owner_parse K fs fuel) s b).
Proof. apply keepo_owner, keepo_owner_parse. Qed.
Lemma keepo_has_section fuel s : keepo any (has_section K fs fuel s).
Proof. apply keepo_has, keepo_owner_parse. Qed.
Lemma keepo_section s : keepo (all_written K i dname s) (data_section s).
Proof.
  unfold data_section. eapply keepo_bind; [apply keepo_edata|]. intros e E.
  destruct (dget s (d_data e)) as [op|] eqn:D; [|apply keepo_raise]. apply keepo_ret. intros x v. exact (E s op x v D).
Qed.
Lemma keepo_getitem fuel s : keepo (all_written K i dname s) (getitem K fs fuel s).
Proof.
  unfold getitem. eapply keepo_bind; [apply keepo_has_section|]. intros b _. destruct b; [apply keepo_section|apply keepo_raise].
Qed.
Lemma In_of_dget {V} k (d : dict V) v : dget k d = Some v -> In (k, v) d.
Proof.
  induction d as [|[a b] d IH]; cbn; [discriminate|]. destruct (str_eqb k a) eqn:E; [|auto].
  intros Q. inversion Q; subst. apply str_eqb_eq in E. subst. auto.
Qed.
Lemma keepo_has_option fuel s k : keepo (fun b => b = true -> exists v, written_for K i dname s k v) (has_option K fs fuel s k).
Proof.
  unfold has_option. eapply keepo_bind; [apply keepo_po|intros _ _]. eapply keepo_bind; [apply keepo_edata|]. intros d D.
  apply keepo_ret. destruct (dget s (d_data d)) as [op|] eqn:E; [|discriminate]. unfold dmem. destruct (dget k op) as [v|] eqn:Q; [|discriminate].
  intros _. exists v. exact (D s op k v E (In_of_dget _ _ _ Q)).
Qed.
Lemma keepo_get fuel s k : keepo (fun g => match k, g with
    | None, GotSection d => all_written K i dname s d | Some k, GotValue v => written_for K i dname s k v | _, _ => False end) (data_get K fs fuel s k).
Proof.
  unfold data_get. eapply keepo_bind; [apply keepo_edata|intros d _].
  eapply (keepo_bind any); [destruct (str_mem _ _); [now apply keepo_ret|apply keepo_po]|intros _ _].
  eapply keepo_bind; [apply keepo_has_section|]. intros b _. destruct b; [|apply keepo_raise]. destruct k as [k|].
  - eapply keepo_bind; [apply keepo_has_option|]. intros b _. destruct b; [|apply keepo_raise]. eapply keepo_bind; [apply keepo_section|].
    intros o O. destruct (dget k o) as [v|] eqn:E; [|apply keepo_raise]. apply keepo_ret. exact (O k v (In_of_dget _ _ _ E)).
  - eapply keepo_bind; [apply keepo_section|]. intros o O. now apply keepo_ret.
Qed.
Lemma keepo_keys : keepo any (data_keys (Sh := Sh) (Us := Us) fs).
Proof. unfold data_keys. eapply keepo_bind; [apply keepo_cpd|]. intros; now apply keepo_ret. Qed.
Lemma keepo_each {A} (f : A -> SM obj unit) l : (forall x, keepo any (f x)) -> keepo any (for_each f l).
Proof. intros H. induction l as [|x l IH]; cbn [for_each]; [now apply keepo_ret|]. eapply keepo_bind; [apply H|]. intros _ _. exact IH. Qed.
Lemma keepo_items_all fuel : keepo (fun l => forall s d, dget s l = Some d -> all_written K i dname s d) (data_items_all K fs fuel).
Proof.
  unfold data_items_all. eapply keepo_bind; [apply keepo_keys|intros l _]. eapply keepo_bind; [apply keepo_each; intros; apply keepo_po|intros _ _].
  eapply keepo_bind; [apply keepo_edata|]. intros d D. apply keepo_ret. intros s op Q x v. exact (D s op x v Q).
Qed.
Lemma keepo_items fuel s : keepo (all_written K i dname s) (data_items K fs fuel s).
Proof. unfold data_items. eapply keepo_bind; [apply keepo_keys|intros l _]. apply keepo_getitem. Qed.
Lemma keepo_sections fuel p : keepo any (data_sections K fs fuel p).
Proof.
  assert (X : forall b, keepo any (l <- data_keys fs ;; for_each (fun s => parse_owner (owner_parse K fs fuel) s b) l ;; data_keys fs)).
  { intros b. eapply keepo_bind; [apply keepo_keys|intros l _]. eapply keepo_bind; [apply keepo_each; intros; apply keepo_po|intros _ _]. apply keepo_keys. }
  unfold data_sections. destruct p as [[]|s|]; [apply X|apply keepo_keys| |apply keepo_raise]. destruct (str_eqb _ _); [apply X|apply keepo_raise].
Qed.
Lemma keepo_known : keepo any (get_known_operations K fs).
Proof.
  unfold get_known_operations. eapply keepo_bind; [apply keepo_cpd|intros ? _]. eapply keepo_bind; [apply keepo_edata|intros ? _].
  eapply keepo_bind; [apply keepo_files|intros ? _]. now apply keepo_ret.
Qed.
Lemma keepo_known_message : keepo any (get_known_operations_message K fs).
Proof. unfold get_known_operations_message. eapply keepo_bind; [apply keepo_known|]. intros; now apply keepo_ret. Qed.
Lemma keepo_assert fuel s b : keepo any (assert_section K fs fuel s b).
Proof.
  unfold assert_section. eapply keepo_bind; [apply keepo_get|]. intros g _. destruct g as [[|kv o]|v]; [now apply keepo_ret| |apply keepo_raise].
  cbv zeta. destruct b; [|now apply keepo_ret]. eapply keepo_bind; [apply keepo_files|intros ? _]. eapply keepo_bind; [apply keepo_known_message|intros ? _].
  eapply keepo_bind; [apply keepo_event|intros ? _]. now apply keepo_ret.
Qed.
Lemma keepo_print x : keepo any (print_line x).
Proof. apply keepo_modify. intros o G. now apply (good_ext o). Qed.
Lemma keepo_asserts fuel l : forall b, keepo any (assert_sections K fs fuel l b).
Proof.
  induction l as [|s l IH]; intros b; cbn [assert_sections]; [now apply keepo_ret|]. eapply keepo_bind; [apply keepo_assert|]. intros [m|] _; [|apply IH].
  eapply keepo_bind; [apply keepo_print|intros _ _]. apply IH.
Qed.
Lemma keepo_assert_file fuel : keepo any (assert_file K fs fuel).
Proof.
  unfold assert_file. eapply keepo_bind; [apply keepo_sections|intros l _]. eapply keepo_bind; [apply keepo_asserts|]. intros b _.
  destruct b; [|now apply keepo_ret]. eapply keepo_bind; [apply keepo_files|intros ? _]. eapply keepo_bind; [apply keepo_known_message|intros ? _].
  eapply keepo_bind; [apply keepo_print|intros _ _]. eapply keepo_bind; [apply keepo_event|intros ? _]. now apply keepo_ret.
Qed.
Lemma keepo_generate fuel delim s : keepo any (generate_section K fs fuel delim s).
Proof.
  unfold generate_section. eapply keepo_bind; [apply keepo_has_section|]. intros b _. destruct b; [|apply keepo_raise].
  eapply keepo_bind; [apply keepo_items|]. intros; now apply keepo_ret.
Qed.
Lemma keepo_generate_all fuel delim l : keepo any (generate_all K fs fuel delim l).
Proof.
  induction l as [|s l IH]; cbn [generate_all]; [now apply keepo_ret|]. eapply keepo_bind; [apply keepo_generate|intros t _].
  eapply keepo_bind; [exact IH|]. intros; now apply keepo_ret.
Qed.
Lemma keepo_level z : keepo any (set_level z).
Proof. apply keepo_modify. intros o G. now apply (good_ext o). Qed.
Lemma keepo_unroll fuel s b : keepo any (unroll_self K fs fuel s b).
Proof.
  unfold unroll_self. cbv zeta. eapply (keepo_bind any); [intros o G; cbn; auto|intros o0 _]. eapply keepo_bind; [apply keepo_level|intros _ _].
  eapply keepo_bind; [apply keepo_sections|intros l _]. eapply (keepo_bind any); [destruct s; [apply keepo_generate|apply keepo_generate_all]|intros t _].
  eapply keepo_bind; [apply keepo_level|intros _ _]. now apply keepo_ret.
Qed.
Lemma keepo_fmap {A} (Q : A -> Prop) (T : answer -> Prop) f m : keepo Q m -> (forall a, Q a -> T (f a)) -> keepo T (fmap f m).
Proof. intros H HT. unfold fmap. eapply keepo_bind; [exact H|]. intros a QA. apply keepo_ret, HT, QA. Qed.
Lemma keepo_exec fuel c : keepo (truthful K i dname c) (exec_op K fs fuel c).
Proof.
  destruct c as [s| |s|s|s k|s|s k| |s|p| | |s b| |s b| |z|z]; cbn [exec_op].
  - eapply keepo_fmap; [apply keepo_parse_str|]. intros; exact Logic.I.
  - unfold parse_all_sections. eapply keepo_fmap; [eapply keepo_bind; [apply keepo_sections|intros _ _; now apply (keepo_ret any)]|]. intros; exact Logic.I.
  - eapply keepo_fmap; [apply keepo_getitem|]. intros a H. exact H.
  - eapply keepo_fmap; [apply keepo_getitem|]. intros a H. exact H.
  - eapply keepo_fmap; [apply keepo_get|]. intros a H. destruct k, a; cbn; auto; contradiction.
  - eapply keepo_fmap; [apply keepo_has_section|]. intros; exact Logic.I.
  - eapply keepo_fmap; [apply keepo_has_option|]. intros [] H; cbn; auto.
  - eapply keepo_fmap; [apply keepo_items_all|]. intros a H. exact H.
  - eapply keepo_fmap; [apply keepo_items|]. intros a H. exact H.
  - eapply keepo_fmap; [apply keepo_sections|]. intros; exact Logic.I.
  - eapply keepo_fmap; [apply keepo_keys|]. intros; exact Logic.I.
  - eapply keepo_fmap; [unfold data_len; eapply keepo_bind; [apply keepo_keys|intros l _; now apply (keepo_ret any)]|]. intros; exact Logic.I.
  - eapply keepo_fmap; [apply keepo_assert|]. intros; exact Logic.I.
  - eapply keepo_fmap; [apply keepo_assert_file|]. intros; exact Logic.I.
  - eapply keepo_fmap; [apply keepo_unroll|]. intros; exact Logic.I.
  - eapply keepo_fmap; [apply keepo_known|]. intros; exact Logic.I.
  - eapply keepo_fmap; [apply keepo_level|]. intros; exact Logic.I.
  - eapply (keepo_fmap any); [apply keepo_modify; intros o G; now apply (good_ext o)|]. intros; exact Logic.I.
Qed.
Lemma after_good fuel h : forall o, good o -> good (after K fs fuel h o).
Proof. induction h as [|c h IH]; intros o G; cbn [after]; [exact G|]. apply IH. apply (keepo_exec fuel c o G). Qed.
Lemma new_good o : has_file fs o i -> o_defname o = dname -> o_edata o = None -> good o.
Proof. intros A B C. constructor; auto. intros s d x v. unfold section_of, data_of. rewrite C. discriminate. Qed.
Lemma history_truthful fuel h c o a : has_file fs o i -> o_defname o = dname -> o_edata o = None ->
  fst (exec_op K fs fuel c (after K fs fuel h o)) = Ok a -> truthful K i dname c a.
Proof. intros A B C. exact (proj2 (keepo_exec fuel c _ (after_good fuel h o (new_good o A B C))) a). Qed.
End P.
