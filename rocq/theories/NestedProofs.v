(** * Proofs: reads of handlers are nested at most once for each section. *)
From Coq Require Import String NArith ZArith List Bool Lia Arith.
Import ListNotations.
From Verif Require Import PyBase PyFacts Shlex IniView IniRead ExcControl Debuggable Cpe
  SpecFile SpecRun RefineRoot ApiProofs Reentrant SpecNested.
Local Open Scope sm_scope.

Section P.
Context {Sh Us : Type} (R : rclass (Sh := Sh)) (fs : str -> option str) (i : ini).
Notation obj := (obj Sh Us).
Notation ctx := (ctx Sh Us).

(** The sections that have not been parsed. *)
Definition unread (o : obj) : nat := length (filter (fun s => negb (str_mem s (checked_of o))) (ini_sections i)).
Definition fit (n : nat) (o : obj) : Prop := has_file fs o i /\ unread o <= n.
Definition grows (o o1 : obj) : Prop := (has_file fs o i -> has_file fs o1 i) /\
  forall s, str_mem s (checked_of o) = true -> str_mem s (checked_of o1) = true.

Lemma mem_cons t a l : str_mem t (a :: l) = str_eqb t a || str_mem t l.
Proof. reflexivity. Qed.
Lemma grows_refl o : grows o o.
Proof. split; auto. Qed.
Lemma grows_trans a b c : grows a b -> grows b c -> grows a c.
Proof. intros [x y] [x' y']. split; auto. Qed.
Lemma filter_le (f g : str -> bool) l : (forall s, g s = true -> f s = true) -> length (filter g l) <= length (filter f l).
Proof.
  intros H. induction l as [|a l IH]; cbn; [lia|]. pose proof (H a) as Ha.
  destruct (g a), (f a); cbn; try lia; discriminate (Ha eq_refl).
Qed.
Lemma filter_lt (f g : str -> bool) l a : (forall s, g s = true -> f s = true) -> In a l -> f a = true -> g a = false ->
  length (filter g l) < length (filter f l).
Proof.
  intros H I Fa Ga. induction l as [|b l IH]; [destruct I|]. cbn. pose proof (filter_le f g l H) as L. pose proof (H b) as Hb.
  destruct I as [->|I].
  - rewrite Fa, Ga. cbn. lia.
  - specialize (IH I). destruct (g b), (f b); cbn; try lia; discriminate (Hb eq_refl).
Qed.
Lemma grows_unread o o1 : grows o o1 -> unread o1 <= unread o.
Proof.
  intros [_ C]. apply filter_le. intros s H. destruct (str_mem s (checked_of o)) eqn:E; auto. rewrite (C s E) in H. exact H.
Qed.
Lemma grows_fit n o o1 : grows o o1 -> fit n o -> fit n o1.
Proof. intros G [H U]. split; [now apply (proj1 G)|]. pose proof (grows_unread _ _ G). lia. Qed.
Lemma fit_le n m o : n <= m -> fit n o -> fit m o.
Proof. intros L [H U]. split; auto. lia. Qed.

(** Two computations that do the same while at most [n] sections have not been parsed. *)
Definition agreeo {A} (n : nat) (h m : SM obj A) : Prop := forall o, fit n o -> h o = m o /\ grows o (snd (h o)).
Definition agree {A} (n : nat) (h m : SM ctx A) : Prop := forall c, fit n (x_obj c) -> h c = m c /\ grows (x_obj c) (x_obj (snd (h c))).

Lemma agreeo_ret {A} n (a : A) : agreeo n (ret a) (ret a).
Proof. intros o _. split; [reflexivity|apply grows_refl]. Qed.
Lemma agreeo_raise {A} n e : agreeo n (raise (A := A) e) (raise e).
Proof. intros o _. split; [reflexivity|apply grows_refl]. Qed.
Lemma agreeo_bind {A B} n (h m : SM obj A) (k k' : A -> SM obj B) : agreeo n h m -> (forall a, agreeo n (k a) (k' a)) ->
  agreeo n (bind h k) (bind m k').
Proof.
  intros H HK o F. unfold bind. destruct (H o F) as [E G]. rewrite <- E. destruct (h o) as [[a|e] o1]; cbn in *.
  - destruct (HK a o1 (grows_fit _ _ _ G F)) as [E1 G1]. split; [exact E1|]. eapply grows_trans; eauto.
  - split; auto.
Qed.
Lemma agree_ret {A} n (a : A) : agree n (ret a) (ret a).
Proof. intros c _. split; [reflexivity|apply grows_refl]. Qed.
Lemma agree_raise {A} n e : agree n (raise (A := A) e) (raise e).
Proof. intros c _. split; [reflexivity|apply grows_refl]. Qed.
Lemma agree_of_res {A} n (r : res A) : agree n (of_res r) (of_res r).
Proof. intros c _. split; [reflexivity|apply grows_refl]. Qed.
Lemma agree_get n : agree n get get.
Proof. intros c _. split; [reflexivity|apply grows_refl]. Qed.
Lemma agree_bind {A B} n (h m : SM ctx A) (k k' : A -> SM ctx B) : agree n h m -> (forall a, agree n (k a) (k' a)) ->
  agree n (bind h k) (bind m k').
Proof.
  intros H HK c F. unfold bind. destruct (H c F) as [E G]. rewrite <- E. destruct (h c) as [[a|e] c1]; cbn in *.
  - destruct (HK a c1 (grows_fit _ _ _ G F)) as [E1 G1]. split; [exact E1|]. eapply grows_trans; eauto.
  - split; auto.
Qed.
Lemma agree_lift {A} n (h m : SM obj A) : agreeo n h m -> agree n (lift h) (lift m).
Proof.
  intros H c F. destruct (H (x_obj c) F) as [E G]. unfold lift. rewrite <- E. destruct (h (x_obj c)) as [r o1]. split; auto.
Qed.
Lemma agreeo_le {A} n m (h k : SM obj A) : n <= m -> agreeo m h k -> agreeo n h k.
Proof. intros L H o F. apply H. now apply (fit_le n m). Qed.
Lemma agree_le {A} n m (h k : SM ctx A) : n <= m -> agree m h k -> agree n h k.
Proof. intros L H o F. apply H. now apply (fit_le n m). Qed.

Lemma grows_ext o o1 : o_cpd o1 = o_cpd o -> o_files o1 = o_files o -> o_delims o1 = o_delims o -> o_intname o1 = o_intname o ->
  (forall s, str_mem s (checked_of o) = true -> str_mem s (checked_of o1) = true) -> grows o o1.
Proof.
  intros A B C D E. split; auto. intros H. unfold has_file in *. rewrite <- H. now apply get_cpd_fst_ext.
Qed.
Lemma agreeo_log n e : agreeo n (log e) (log e).
Proof. intros o _. split; [reflexivity|]. now apply grows_ext. Qed.
Lemma agreeo_event n ev e : agreeo n (event ev e) (event ev e).
Proof. intros o _. split; [reflexivity|]. unfold event. destruct (ec_event _ _ _ _). now apply grows_ext. Qed.
Lemma agreeo_files n : agreeo n get_files get_files.
Proof. intros o _. split; [reflexivity|]. unfold get_files. destruct (o_files o); apply grows_refl. Qed.
Lemma agreeo_edata n : agreeo n get_edata get_edata.
Proof.
  intros o _. split; [reflexivity|]. unfold get_edata. destruct (o_edata o) eqn:E; [apply grows_refl|].
  apply grows_ext; try reflexivity. unfold checked_of. rewrite E. intros s H. exact H.
Qed.
Lemma agreeo_set n (f : obj -> obj) : (forall o, grows o (f o)) -> agreeo n (modify f) (modify f).
Proof. intros H o _. split; [reflexivity|]. apply H. Qed.
Lemma agreeo_cpd {A} n (k k' : ini -> SM obj A) : agreeo n (k i) (k' i) -> agreeo n (bind (get_cpd fs) k) (bind (get_cpd fs) k').
Proof.
  intros H o F. unfold bind. rewrite (get_cpd_ready fs i o (proj1 F)).
  assert (G : grows o (set_cpd (Some i) o)) by (split; [intros _; reflexivity|intros s Q; exact Q]).
  destruct (H _ (grows_fit _ _ _ G F)) as [E G1]. split; [exact E|]. eapply grows_trans; eauto.
Qed.
Lemma agree_cpd {A} n (k k' : ini -> SM ctx A) : agree n (k i) (k' i) -> agree n (bind (lift (get_cpd fs)) k) (bind (lift (get_cpd fs)) k').
Proof.
  intros H c F. unfold bind, lift. rewrite (get_cpd_ready fs i _ (proj1 F)).
  assert (G : grows (x_obj c) (set_cpd (Some i) (x_obj c))) by (split; [intros _; reflexivity|intros s Q; exact Q]).
  destruct (H (Ctx (set_cpd (Some i) (x_obj c)) (x_sh c) (x_proc c)) (grows_fit _ _ _ G F)) as [E G1]. split; [exact E|].
  eapply grows_trans; [exact G|exact G1].
Qed.
(** Writing back data made from the data there. *)
Lemma agreeo_put {A} n (f : edata -> edata) (k k' : SM obj A) : (forall d, d_checked (f d) = d_checked d) -> agreeo n k k' ->
  agreeo n (d <- get_edata ;; put_edata (f d) ;; k) (d <- get_edata ;; put_edata (f d) ;; k').
Proof.
  intros FD H o F. unfold bind, get_edata, put_edata, modify. destruct (o_edata o) as [d|] eqn:D.
  - assert (G : grows o (set_edata (Some (f d)) o)).
    { apply grows_ext; try reflexivity. unfold checked_of. rewrite D. cbn. rewrite FD. auto. }
    destruct (H _ (grows_fit _ _ _ G F)) as [E G1]. split; [exact E|]. eapply grows_trans; eauto.
  - set (d := EData [] [] (ec_level (o_ec o)) (o_debug o)).
    assert (G : grows o (set_edata (Some (f d)) (set_edata (Some d) o))).
    { apply grows_ext; try reflexivity. unfold checked_of. rewrite D. cbn. rewrite FD. auto. }
    destruct (H _ (grows_fit _ _ _ G F)) as [E G1]. split; [exact E|]. eapply grows_trans; eauto.
Qed.
Lemma agreeo_add n s b : agreeo n (data_add_section s b) (data_add_section s b).
Proof.
  intros o F. split; [reflexivity|]. unfold data_add_section, bind, get_edata, put_edata, modify.
  destruct (o_edata o) as [d|] eqn:D; cbn; (apply grows_ext; try reflexivity); unfold checked_of; rewrite D; cbn; intros t T; [|discriminate T].
  unfold ed_add_section. destruct (_ || _); exact T.
Qed.

(** A section is marked and then parsed: while it is parsed there is one unparsed section
    less. *)
Lemma agreeo_owner n rp rp' s : In s (ini_sections i) -> (forall m, m < n -> agreeo m (rp s) (rp' s)) ->
  agreeo n (parse_owner rp s false) (parse_owner rp' s false).
Proof.
  intros IS H o F.
  assert (X : forall r (o1 : obj), parse_owner r s false o1 =
    if str_mem s (checked_of o1) then (Ok tt, snd (get_edata o1))
    else r s (set_edata (Some (EData (match o_edata o1 with Some d => d_data d | None => [] end) (sadd s (checked_of o1)) (ec_level (o_ec o1)) (o_debug o1))) o1)).
  { intros r o1. unfold parse_owner, set_owner_options, put_edata, modify, bind, get_edata, checked_of, ret.
    destruct o1 as [a1 a2 a3 [d|] a5 a6 a7 a8 a9 a10 a11 a12]; cbn -[str_mem sadd]; [|reflexivity].
    destruct (str_mem s (d_checked d)); reflexivity. }
  rewrite !X. destruct (str_mem s (checked_of o)) eqn:C.
  - split; [reflexivity|]. apply (agreeo_edata n o F).
  - set (om := set_edata _ o).
    assert (CM : checked_of om = s :: checked_of o) by (unfold om, checked_of at 1; cbn; unfold sadd; now rewrite C).
    assert (G : grows o om).
    { apply grows_ext; try reflexivity. intros t T. now rewrite CM, mem_cons, T, Bool.orb_true_r. }
    assert (U : unread om < unread o).
    { unfold unread. rewrite CM. apply filter_lt with (a := s); auto.
      - intros t T. rewrite mem_cons in T. destruct (str_mem t (checked_of o)); auto. rewrite Bool.orb_true_r in T. exact T.
      - now rewrite C.
      - rewrite mem_cons. now rewrite str_eqb_refl. }
    destruct F as [FF FU]. destruct (H (unread om) ltac:(lia) om) as [E G1]; [split; [now apply (proj1 G)|lia]|].
    split; [exact E|]. eapply grows_trans; eauto.
Qed.
Lemma agreeo_has n rp rp' s : (forall m, m < n -> forall t, agreeo m (rp t) (rp' t)) ->
  agreeo n (data_has_section fs rp s) (data_has_section fs rp' s).
Proof.
  intros H. unfold data_has_section. apply agreeo_cpd. apply agreeo_bind.
  - destruct (ini_has_section i s) eqn:E; [|apply agreeo_ret]. apply agreeo_bind; [apply agreeo_edata|]. intros d.
    destruct (str_mem s (d_checked d)); [apply agreeo_ret|]. apply agreeo_owner; [now apply (in_sections i)|]. intros m L. now apply H.
  - intros _. apply agreeo_bind; [apply agreeo_edata|]. intros d. apply agreeo_ret.
Qed.
Lemma agreeo_data_set n rp rp' s k v : (forall m, m < n -> forall t, agreeo m (rp t) (rp' t)) ->
  agreeo n (data_set fs rp s k v) (data_set fs rp' s k v).
Proof.
  intros H. unfold data_set. apply agreeo_bind; [now apply agreeo_has|]. intros b. apply agreeo_bind.
  - destruct b; [apply agreeo_ret|apply agreeo_add].
  - intros _ o F. split; [reflexivity|]. unfold bind, get_edata, ed_put, put_edata, modify, raise.
    destruct (o_edata o) as [d|] eqn:D; cbn.
    + destruct (dget s (d_data d)); cbn; [|apply grows_refl]. apply grows_ext; try reflexivity. unfold checked_of. rewrite D. auto.
    + apply grows_ext; try reflexivity. unfold checked_of. rewrite D. auto.
Qed.
Lemma agreeo_check n r : agreeo n (check_rval r) (check_rval r).
Proof.
  unfold check_rval. destruct r as [z|]; [|apply agreeo_event]. destruct (z =? 0)%Z; [apply agreeo_ret|].
  destruct (z <=? 10)%Z; apply agreeo_event.
Qed.
Lemma agree_decorated n hp h m : agree n h m -> agree n (decorated hp h) (decorated hp m).
Proof.
  intros H. unfold decorated. apply agree_bind; [apply agree_lift, agreeo_log|]. intros _. apply agree_bind; [exact H|]. intros r.
  apply agree_bind; [apply agree_lift, agreeo_log|]. intros _. apply agree_lift, agreeo_check.
Qed.

Section Body.
Variable n : nat.
Variables read read' : str -> SM obj (dict (option str)).
Hypothesis READ : forall s, agreeo n (read s) (read' s).

Lemma agree_prog p : agree n (run_prog read p) (run_prog read' p).
Proof.
  induction p as [r sh|s k IH]; intros c F.
  - cbn. split; [reflexivity|apply grows_refl].
  - cbn. destruct (READ s _ F) as [E G]. rewrite <- E. destruct (read s (x_obj c)) as [r o]. cbn in G.
    destruct (IH r (Ctx o (x_sh c) (x_proc c)) (grows_fit _ _ _ G F)) as [E1 G1]. split; [exact E1|]. eapply grows_trans; eauto.
Qed.
Lemma agree_user f sec hp : agree n (r_user_body read f sec hp) (r_user_body read' f sec hp).
Proof. intros c F. unfold r_user_body. now apply agree_prog. Qed.

Variables rec rec' : str -> bool -> bool -> SM ctx unit.
Hypothesis REC : forall s a b, agree n (rec s a b) (rec' s a b).
Variables rp rp' : str -> SM obj unit.
Hypothesis RP : forall m, m < n -> forall t, agreeo m (rp t) (rp' t).

Lemma agree_use sec hp : agree n (use_body rec sec hp) (use_body rec' sec hp).
Proof.
  unfold use_body. destruct (hp_params hp) as [|t ps]; [apply agree_raise|]. apply agree_bind; [apply agree_get|]. intros c.
  destruct (negb _).
  - apply agree_bind; [apply REC|]. intros _. apply agree_ret.
  - apply agree_bind; [apply agree_lift, agreeo_log|]. intros _. apply agree_bind; [apply agree_lift, agreeo_log|]. intros _.
    apply agree_bind; [apply agree_lift, agreeo_files|]. intros _. apply agree_bind; [apply agree_lift, agreeo_event|]. intros _.
    apply agree_ret.
Qed.
Lemma agree_call a sec hp : agree n (r_call_attr read rec a sec hp) (r_call_attr read' rec' a sec hp).
Proof.
  destruct a as [|k f| |]; cbn [r_call_attr]; try apply agree_raise.
  - apply agree_decorated, agree_use.
  - destruct k; try (apply agree_decorated, agree_user); (apply agree_bind; [apply agree_user|]; intros _; apply agree_ret).
Qed.
Lemma agree_named name sec hp : agree n (r_call_named R read rec name sec hp) (r_call_named R read' rec' name sec hp).
Proof. unfold r_call_named. destruct (r_find_attr R name); [apply agree_call|apply agree_raise]. Qed.
Lemma agree_generic hp k v : agree n (launch_generic fs rp hp k v) (launch_generic fs rp' hp k v).
Proof.
  unfold launch_generic. apply agree_bind; [apply agree_lift; now apply agreeo_data_set|]. intros _.
  apply agree_bind; [apply agree_decorated, agree_ret|]. intros _. apply agree_ret.
Qed.
Lemma agree_locate op : agreeo n (r_locate_handler R op) (r_locate_handler R op).
Proof.
  unfold r_locate_handler. cbv zeta. generalize (r_locate_class_method R ($"handler_" ++ normalize_op op)) (r_locate_class_method R ($"_handler_" ++ normalize_op op)).
  intros public private. apply agreeo_bind.
  - destruct private, public; try apply agreeo_ret. apply agreeo_event.
  - intros _. destruct public; [apply agreeo_ret|]. destruct private; apply agreeo_ret.
Qed.
Lemma agree_item sec hp kv : agree n (r_process_item R fs read rec rp sec hp kv) (r_process_item R fs read' rec' rp' sec hp kv).
Proof.
  unfold r_process_item. apply agree_bind; [apply agree_of_res|]. intros v0. cbv zeta.
  apply agree_bind; [apply agree_lift, agreeo_log|]. intros _. apply agree_bind; [apply agree_of_res|]. intros toks.
  destruct toks as [|t0 ps]; [apply agree_raise|]. destruct (negb _); [apply agree_generic|].
  apply agree_bind; [apply agree_lift, agreeo_log|]. intros _. apply agree_bind; [apply agree_lift, agree_locate|]. intros h.
  destruct h as [[name a]|]; [|apply agree_generic]. apply agree_bind; [apply agree_call|]. intros _. apply agree_ret.
Qed.
Lemma agree_items sec l : forall hp, agree n (r_run_items R fs read rec rp sec hp l) (r_run_items R fs read' rec' rp' sec hp l).
Proof.
  induction l as [|kv l IH]; intros hp; cbn [r_run_items]; [apply agree_ret|]. apply agree_bind; [apply agree_item|]. intros hp'. apply IH.
Qed.
Lemma agree_proc_add s : agree n (proc_add s) (proc_add s).
Proof. intros c _. split; [reflexivity|apply grows_refl]. Qed.
Lemma agree_proc_remove s : agree n (proc_remove s) (proc_remove s).
Proof. intros c _. split; [reflexivity|]. unfold proc_remove. destruct (str_mem _ _); apply grows_refl. Qed.
Lemma agree_body root sec a b : agree n (r_psr_body R fs read rec rp root sec a b) (r_psr_body R fs read' rec' rp' root sec a b).
Proof.
  unfold r_psr_body. apply agree_bind.
  - destruct (a && _); [|apply agree_ret]. apply agree_bind; [apply agree_named|]. intros _. apply agree_cpd.
    apply agree_bind; [apply agree_get|]. intros c. destruct (ini_has_section _ _); [apply REC|apply agree_ret].
  - intros _. apply agree_bind; [apply agree_lift, agreeo_log|]. intros _. apply agree_cpd. destruct (ini_items i sec) as [items|].
    + apply agree_bind; [apply agree_lift, agreeo_add|]. intros _. apply agree_bind; [apply agree_proc_add|]. intros _.
      apply agree_bind; [apply agree_items|]. intros _. apply agree_bind.
      * destruct (b && _); [apply agree_named|apply agree_ret].
      * intros _. apply agree_bind; [apply agree_proc_remove|]. intros _. apply agree_lift, agreeo_log.
    + apply agree_bind; [apply agree_lift, agreeo_files|]. intros _. apply agree_raise.
Qed.
End Body.

Lemma agreeo_parse n (p p' : str -> str -> bool -> bool -> SM ctx unit) s a b : (forall s a b, agree n (p s s a b) (p' s s a b)) ->
  agreeo n (parse_section_with (bare R) p s a b) (parse_section_with (bare R) p' s a b).
Proof.
  intros H. unfold parse_section_with. apply agreeo_bind.
  - apply agreeo_set. intros o. now apply grows_ext.
  - intros _. destruct (str_eqb s []); [apply agreeo_raise|]. apply agreeo_bind.
    + unfold parse_root. intros o F. unfold put_edata, modify, bind.
      assert (exists d o1, get_edata o = (Ok d, o1) /\ grows o (set_edata (Some (ed_check s d)) o1)) as (d & o1 & E & G).
      { unfold get_edata. destruct (o_edata o) as [d|] eqn:D; eexists; eexists; (split; [reflexivity|]); (apply grows_ext; try reflexivity);
          unfold checked_of; rewrite D; cbn -[str_mem sadd]; intros t T; [|discriminate T]. unfold sadd. destruct (str_mem s (d_checked d)); auto.
        now rewrite mem_cons, T, Bool.orb_true_r. }
      rewrite E.
      destruct (H s a b (Ctx (set_edata (Some (ed_check s d)) o1) (k_empty (bare (Us := Us) R)) []) (grows_fit _ _ _ G F)) as [E1 G1].
      rewrite <- E1. destruct (p s s a b _) as [[u|e] c1]; (split; [reflexivity|]); (eapply grows_trans; [exact G|exact G1]).
    + intros r. apply agreeo_bind; [|intros _; apply agreeo_ret]. apply agreeo_set. intros o. now apply grows_ext.
Qed.

Lemma agree_psr n read read' (READ : forall s, agreeo n (read s) (read' s)) f : forall root sec a b,
  agree n (r_psr R fs read f root sec a b) (r_psr R fs read' f root sec a b).
Proof.
  induction f as [|f IH]; intros root sec a b; cbn [r_psr]; [apply agree_raise|]. apply agree_body; auto.
  intros m L t. apply (agreeo_le m n); [lia|]. apply agreeo_bind; [|intros _; apply agreeo_ret]. apply agreeo_parse. intros s a' b'. apply IH.
Qed.

Lemma nested_agree bey bey' fuel : forall n l l' s, n < l -> n < l' ->
  agreeo n (nested_read R fs bey fuel l s) (nested_read R fs bey' fuel l' s).
Proof.
  induction n as [n IH] using lt_wf_ind. intros l l' s L L'. destruct l as [|l]; [lia|]. destruct l' as [|l']; [lia|]. cbn [nested_read].
  apply agreeo_bind.
  - apply agreeo_has. intros m M t. apply agreeo_bind; [|intros _; apply agreeo_ret]. apply agreeo_parse. intros s' a b. apply agree_psr.
    intros s2. apply IH; lia.
  - intros b. destruct b; [|apply agreeo_raise]. unfold data_section. apply agreeo_bind; [apply agreeo_edata|]. intros d.
    destruct (dget s (d_data d)); [apply agreeo_ret|apply agreeo_raise].
Qed.
Lemma parse_agree bey bey' fuel n l l' s : n < l -> n < l' ->
  agreeo n (nested_parse R fs bey fuel l s) (nested_parse R fs bey' fuel l' s).
Proof. intros L L'. unfold nested_parse. apply agreeo_parse. intros s' a b. apply agree_psr. intros t. now apply nested_agree. Qed.

Lemma unread_le o : unread o <= length (ini_sections i).
Proof. unfold unread. induction (ini_sections i) as [|a l IH]; cbn; [lia|]. destruct (negb _); cbn; lia. Qed.
End P.

(** [r_read] and [r_parse] are of this form. *)
Section Q.
Context {Sh Us : Type} (R : rclass (Sh := Sh)) (fs : str -> option str).
Definition stop : str -> SM (obj Sh Us) (dict (option str)) := fun _ => raise RecursionError.
Lemma read_nested fuel depth : r_read R fs fuel depth = nested_read R fs stop fuel depth.
Proof. induction depth as [|d IH]; [reflexivity|]. cbn [r_read nested_read]. rewrite IH. reflexivity. Qed.
Lemma read_bounded i fuel n beyond levels s (o : obj Sh Us) : has_file fs o i -> length (ini_sections i) < n -> length (ini_sections i) < levels ->
  nested_read R fs beyond fuel levels s o = r_read R fs fuel n s o.
Proof.
  intros H L L'. rewrite read_nested. apply (nested_agree R fs i beyond stop fuel (length (ini_sections i)) levels n s L' L o).
  split; [exact H|apply unread_le].
Qed.
Lemma parse_bounded i fuel n beyond levels s (o : obj Sh Us) : has_file fs o i -> length (ini_sections i) < n -> length (ini_sections i) < levels ->
  nested_parse R fs beyond fuel levels s o = r_parse R fs fuel n s o.
Proof.
  intros H L L'. unfold r_parse. rewrite read_nested.
  apply (parse_agree R fs i beyond stop fuel (length (ini_sections i)) levels n s L' L o). split; [exact H|apply unread_le].
Qed.
End Q.

Section H.
Context {Sh Us : Type} (R : rclass (Sh := Sh)) (fs : str -> option str) (i : ini) (fuel : nat).
Lemma whole_fit (o : obj Sh Us) : has_file fs o i -> fit fs i (length (ini_sections i)) o.
Proof. intros H. split; [exact H|apply unread_le]. Qed.
Lemma read_keeps n s (o : obj Sh Us) : has_file fs o i -> length (ini_sections i) < n -> has_file fs (snd (r_read R fs fuel n s o)) i.
Proof.
  intros H L. rewrite read_nested.
  apply (proj1 (proj2 (nested_agree R fs i stop stop fuel _ n n s L L o (whole_fit o H)))), H.
Qed.
Lemma parse_keeps n s (o : obj Sh Us) : has_file fs o i -> length (ini_sections i) < n -> has_file fs (snd (r_parse R fs fuel n s o)) i.
Proof.
  intros H L. unfold r_parse. rewrite read_nested.
  apply (proj1 (proj2 (parse_agree R fs i stop stop fuel _ n n s L L o (whole_fit o H)))), H.
Qed.
Lemma after_levels n m l : length (ini_sections i) < n -> length (ini_sections i) < m -> forall o : obj Sh Us, has_file fs o i ->
  r_after R fs fuel n l o = r_after R fs fuel m l o /\ has_file fs (r_after R fs fuel n l o) i.
Proof.
  intros L M. unfold r_after. induction l as [|c l IH]; intros o H; cbn [fold_left]; [now split|].
  assert (E : r_after1 R fs fuel n c o = r_after1 R fs fuel m c o /\ has_file fs (r_after1 R fs fuel n c o) i).
  { destruct c as [s|s]; cbn [r_after1].
    - split; [|now apply parse_keeps]. now rewrite <- (parse_bounded R fs i fuel n stop m s o H L M), (parse_bounded R fs i fuel m stop m s o H M M).
    - split; [|apply read_keeps; auto; lia].
      rewrite <- (read_bounded R fs i fuel (S n) stop m s o H ltac:(lia) M), (read_bounded R fs i fuel (S m) stop m s o H ltac:(lia) M). reflexivity. }
  destruct E as [E HF]. rewrite <- E. apply IH, HF.
Qed.
End H.
