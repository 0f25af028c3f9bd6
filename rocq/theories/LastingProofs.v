(** * Proofs: options that have been stored stay. *)
From Coq Require Import String NArith ZArith List Bool Lia Arith.
Import ListNotations.
From Verif Require Import PyBase PyFacts Shlex IniView IniRead ExcControl Debuggable Cpe
  SpecFile SpecRun BaseProofs RefineRoot ApiProofs SpecApi.
Local Open Scope sm_scope.

Section P.
Context {Sh Us : Type} (K : pyclass Sh Us) (fs : str -> option str) (i : ini).
Notation obj := (obj Sh Us).
Notation ctx := (ctx Sh Us).

Definition longer (d d' : dict (option str)) : Prop := exists more, dkeys d' = dkeys d ++ more.
Definition wider (d d' : edata) : Prop :=
  (forall s, str_mem s (d_checked d) = true -> str_mem s (d_checked d') = true) /\
  forall s x, dget s (d_data d) = Some x -> exists x', dget s (d_data d') = Some x' /\ longer x x'.
Definition up (o o1 : obj) : Prop := (has_file fs o i -> has_file fs o1 i) /\
  forall d, o_edata o = Some d -> exists d', o_edata o1 = Some d' /\ wider d d'.
Definition upo {A} (m : SM obj A) : Prop := forall o, up o (snd (m o)).
Definition upc {A} (m : SM ctx A) : Prop := forall c, up (x_obj c) (x_obj (snd (m c))).

Lemma longer_refl d : longer d d.
Proof. exists []. now rewrite app_nil_r. Qed.
Lemma wider_refl d : wider d d.
Proof. split; auto. intros s x H. exists x. split; [exact H|apply longer_refl]. Qed.
Lemma wider_trans a b c : wider a b -> wider b c -> wider a c.
Proof.
  intros [C1 D1] [C2 D2]. split; auto. intros s x H. destruct (D1 s x H) as (y & Y & m & M). destruct (D2 s y Y) as (z & Z & m' & M').
  exists z. split; [exact Z|]. exists (m ++ m'). rewrite M', M, app_assoc. reflexivity.
Qed.
Lemma up_refl o : up o o.
Proof. split; auto. intros d H. exists d. split; [exact H|apply wider_refl]. Qed.
Lemma up_trans a b c : up a b -> up b c -> up a c.
Proof.
  intros [F1 D1] [F2 D2]. split; auto. intros d H. destruct (D1 d H) as (d1 & H1 & W1). destruct (D2 d1 H1) as (d2 & H2 & W2).
  exists d2. split; [exact H2|]. eapply wider_trans; eauto.
Qed.
Lemma up_ext o o1 : o_cpd o1 = o_cpd o -> o_files o1 = o_files o -> o_delims o1 = o_delims o -> o_intname o1 = o_intname o ->
  (forall d, o_edata o = Some d -> exists d', o_edata o1 = Some d' /\ wider d d') -> up o o1.
Proof. intros A B C D E. split; auto. intros H. unfold has_file in *. rewrite <- H. now apply get_cpd_fst_ext. Qed.
Lemma up_same o o1 : o_cpd o1 = o_cpd o -> o_files o1 = o_files o -> o_delims o1 = o_delims o -> o_intname o1 = o_intname o ->
  o_edata o1 = o_edata o -> up o o1.
Proof. intros A B C D E. apply up_ext; auto. rewrite E. intros d H. exists d. split; [exact H|apply wider_refl]. Qed.

Lemma upo_ret {A} (a : A) : upo (ret a).
Proof. intros o. apply up_refl. Qed.
Lemma upo_raise {A} e : upo (raise (A := A) e).
Proof. intros o. apply up_refl. Qed.
Lemma upo_bind {A B} (m : SM obj A) (k : A -> SM obj B) : upo m -> (forall a, upo (k a)) -> upo (bind m k).
Proof.
  intros H HK o. unfold bind. specialize (H o). destruct (m o) as [[a|e] o1]; cbn [snd] in *; [|exact H].
  eapply up_trans; [exact H|apply HK].
Qed.
Lemma upc_ret {A} (a : A) : upc (ret a).
Proof. intros c. apply up_refl. Qed.
Lemma upc_raise {A} e : upc (raise (A := A) e).
Proof. intros c. apply up_refl. Qed.
Lemma upc_of_res {A} (r : res A) : upc (of_res r).
Proof. intros c. apply up_refl. Qed.
Lemma upc_get : upc get.
Proof. intros c. apply up_refl. Qed.
Lemma upc_bind {A B} (m : SM ctx A) (k : A -> SM ctx B) : upc m -> (forall a, upc (k a)) -> upc (bind m k).
Proof.
  intros H HK c. unfold bind. specialize (H c). destruct (m c) as [[a|e] c1]; cbn [snd] in *; [|exact H].
  eapply up_trans; [exact H|apply HK].
Qed.
Lemma upc_lift {A} (m : SM obj A) : upo m -> upc (lift m).
Proof. intros H c. unfold lift. specialize (H (x_obj c)). now destruct (m (x_obj c)). Qed.
Lemma upo_log e : upo (log e).
Proof. intros o. now apply up_same. Qed.
Lemma upo_event ev e : upo (event ev e).
Proof. intros o. unfold event. destruct (ec_event _ _ _ _). now apply up_same. Qed.
Lemma upo_files : upo get_files.
Proof. intros o. unfold get_files. destruct (o_files o); apply up_refl. Qed.
Lemma upo_modify f : (forall o, up o (f o)) -> upo (modify f).
Proof. intros H o. apply H. Qed.
Lemma upo_cpd : upo (get_cpd fs).
Proof.
  intros o. split.
  - intros H. rewrite (get_cpd_ready fs i o H). reflexivity.
  - intros d H. exists d. split; [|apply wider_refl]. unfold get_cpd. destruct (o_cpd o); [exact H|].
    destruct (o_files _) as [[|f fl]|]; try exact H. destruct (forallb _ _); [|exact H].
    destruct (read_files _ _ _) as [[u|e] j]; [exact H|]. destruct e; exact H.
Qed.
Lemma upo_edata : upo get_edata.
Proof.
  intros o. unfold get_edata. destruct (o_edata o) eqn:E; [apply up_refl|]. apply up_ext; try reflexivity. rewrite E. intros d H. discriminate H.
Qed.
(** Writing back data made from the data there. *)
Lemma up_write o d d' : fst (get_edata o) = Ok d -> wider d d' -> up o (set_edata (Some d') (snd (get_edata o))).
Proof.
  unfold get_edata. destruct (o_edata o) as [x|] eqn:E; cbn [fst snd]; intros Q W; (apply up_ext; try reflexivity); rewrite E.
  - intros y Y. inversion Y; subst. inversion Q; subst. exists d'. split; [reflexivity|exact W].
  - intros y Y. discriminate Y.
Qed.
Lemma upo_update {A} (f : edata -> edata) (k : SM obj A) : (forall d, wider d (f d)) -> upo k -> upo (d <- get_edata ;; put_edata (f d) ;; k).
Proof.
  intros W H o. unfold bind, put_edata, modify. pose proof (up_write o) as X. destruct (get_edata o) as [[d|e] o1] eqn:E.
  - cbn [fst snd] in X. eapply up_trans; [apply (X d (f d) eq_refl (W d))|apply H].
  - unfold get_edata in E. destruct (o_edata o); discriminate E.
Qed.
Lemma upo_update1 (f : edata -> edata) : (forall d, wider d (f d)) -> upo (d <- get_edata ;; put_edata (f d)).
Proof.
  intros W o. unfold bind, put_edata, modify. pose proof (up_write o) as X. destruct (get_edata o) as [[d|e] o1] eqn:E.
  - cbn [fst snd] in X. exact (X d (f d) eq_refl (W d)).
  - unfold get_edata in E. destruct (o_edata o); discriminate E.
Qed.
Lemma wider_check s d : wider d (ed_check s d).
Proof.
  split; [|intros t x H; exists x; split; [exact H|apply longer_refl]]. intros t T. unfold ed_check. cbn [d_checked]. now rewrite str_mem_sadd, T, Bool.orb_true_r.
Qed.
Lemma wider_add s d : wider d (ed_add_section s false d).
Proof.
  unfold ed_add_section. cbn [orb]. destruct (dmem s (d_data d)) eqn:M; cbn [negb]; [apply wider_refl|]. split; [auto|]. intros t x H. cbn [d_data].
  rewrite dget_dset. destruct (str_eqb_spec t s) as [->|N]; [unfold dmem in M; rewrite H in M; discriminate M|]. exists x. split; [exact H|apply longer_refl].
Qed.
Lemma wider_put s k v d d' : ed_put s k v d = Some d' -> wider d d'.
Proof.
  unfold ed_put. destruct (dget s (d_data d)) as [op|] eqn:E; [|discriminate]. intros Q. inversion Q; subst. split; [auto|]. intros t x H. cbn [d_data].
  rewrite dget_dset. destruct (str_eqb_spec t s) as [->|N]; [|exists x; split; [exact H|apply longer_refl]].
  rewrite H in E. inversion E; subst. eexists. split; [reflexivity|]. destruct (in_dec (list_eq_dec N.eq_dec) k (dkeys op)) as [I|I].
  - exists []. now rewrite dkeys_dset_mem, app_nil_r.
  - exists [k]. now rewrite dkeys_dset_new.
Qed.
Lemma upo_add s : upo (data_add_section s false).
Proof. apply upo_update1. apply wider_add. Qed.
Lemma upo_owner_options : upo set_owner_options.
Proof.
  intros o. unfold set_owner_options. pose proof (up_write o) as X. destruct (get_edata o) as [[d|e] o1] eqn:E; cbn [fst snd] in *.
  - apply (X d); [reflexivity|]. split; [auto|]. intros s x H. exists x. split; [exact H|apply longer_refl].
  - unfold get_edata in E. destruct (o_edata o); discriminate E.
Qed.
Lemma upo_owner rp s b : upo (rp s) -> upo (parse_owner rp s b).
Proof.
  intros H. unfold parse_owner. apply upo_bind; [apply upo_edata|]. intros d. destruct (_ || _); [|apply upo_ret].
  apply upo_bind; [apply upo_owner_options|]. intros _. apply upo_update; [apply wider_check|exact H].
Qed.
Lemma upo_has rp s : upo (rp s) -> upo (data_has_section fs rp s).
Proof.
  intros H. unfold data_has_section. apply upo_bind; [apply upo_cpd|]. intros j. apply upo_bind.
  - destruct (ini_has_section j s); [|apply upo_ret]. apply upo_bind; [apply upo_edata|]. intros d.
    destruct (str_mem _ _); [apply upo_ret|now apply upo_owner].
  - intros _. apply upo_bind; [apply upo_edata|]. intros d. apply upo_ret.
Qed.
Lemma upo_data_set rp s k v : upo (rp s) -> upo (data_set fs rp s k v).
Proof.
  intros H. unfold data_set. apply upo_bind; [now apply upo_has|]. intros b. apply upo_bind; [destruct b; [apply upo_ret|apply upo_add]|].
  intros _ o. unfold bind. pose proof (up_write o) as X. pose proof (upo_edata o) as Y. destruct (get_edata o) as [[d|e] o1]; cbn [fst snd] in *; [|exact Y].
  destruct (ed_put s k v d) as [d'|] eqn:E; [|exact Y]. exact (X d d' eq_refl (wider_put _ _ _ _ _ E)).
Qed.
Lemma upo_check r : upo (check_rval r).
Proof.
  unfold check_rval. destruct r as [z|]; [|apply upo_event]. destruct (z =? 0)%Z; [apply upo_ret|]. destruct (z <=? 10)%Z; apply upo_event.
Qed.
Lemma upc_decorated hp m : upc m -> upc (decorated hp m).
Proof.
  intros H. unfold decorated. apply upc_bind; [apply upc_lift, upo_log|intros _]. apply upc_bind; [exact H|intros r].
  apply upc_bind; [apply upc_lift, upo_log|intros _]. apply upc_lift, upo_check.
Qed.

Section Body.
Lemma upc_user f sec hp : upc (user_body f sec hp).
Proof. intros c. unfold user_body. destruct (f sec hp (x_sh c) (o_user (x_obj c))) as [[r sh] us]. cbn. now apply up_same. Qed.
Variable rec : str -> bool -> bool -> SM ctx unit.
Hypothesis REC : forall s a b, upc (rec s a b).
Variable rp : str -> SM obj unit.
Hypothesis RP : forall t, upo (rp t).
Lemma upc_use sec hp : upc (use_body rec sec hp).
Proof.
  unfold use_body. destruct (hp_params hp) as [|t ps]; [apply upc_raise|]. apply upc_bind; [apply upc_get|]. intros c.
  destruct (negb _).
  - apply upc_bind; [apply REC|]. intros; apply upc_ret.
  - apply upc_bind; [apply upc_lift, upo_log|intros _]. apply upc_bind; [apply upc_lift, upo_log|intros _].
    apply upc_bind; [apply upc_lift, upo_files|intros _]. apply upc_bind; [apply upc_lift, upo_event|intros _]. apply upc_ret.
Qed.
Lemma upc_call a sec hp : upc (call_attr rec a sec hp).
Proof.
  destruct a as [|k f| |]; cbn [call_attr]; try apply upc_raise.
  - apply upc_decorated, upc_use.
  - pose proof (upc_user f sec hp) as X. destruct k; [now apply upc_decorated| |]; (apply upc_bind; [exact X|intros; apply upc_ret]).
Qed.
Lemma upc_named name sec hp : upc (call_named K rec name sec hp).
Proof. unfold call_named. destruct (find_attr K name) as [a|]; [apply upc_call|apply upc_raise]. Qed.
Lemma upc_generic hp k v : upc (launch_generic fs rp hp k v).
Proof.
  unfold launch_generic. apply upc_bind; [apply upc_lift, upo_data_set, RP|intros _].
  apply upc_bind; [apply upc_decorated, upc_ret|intros _]. apply upc_ret.
Qed.
Lemma upo_locate op : upo (locate_handler K op).
Proof.
  unfold locate_handler. cbv zeta. generalize (locate_class_method K ($"handler_" ++ normalize_op op)) (locate_class_method K ($"_handler_" ++ normalize_op op)).
  intros public private. apply upo_bind.
  - destruct private, public; try apply upo_ret. apply upo_event.
  - intros _. destruct public; [apply upo_ret|]. destruct private; apply upo_ret.
Qed.
Lemma upc_item sec hp kv : upc (process_item K fs rec rp sec hp kv).
Proof.
  unfold process_item. cbv zeta. apply upc_bind; [apply upc_of_res|intros v0]. apply upc_bind; [apply upc_lift, upo_log|intros _].
  apply upc_bind; [apply upc_of_res|intros toks]. destruct toks as [|t0 ps]; [apply upc_raise|]. destruct (negb _); [apply upc_generic|].
  apply upc_bind; [apply upc_lift, upo_log|intros _]. apply upc_bind; [apply upc_lift, upo_locate|].
  intros [[name a]|]; [|apply upc_generic]. apply upc_bind; [apply upc_call|intros; apply upc_ret].
Qed.
Lemma upc_items sec l : forall hp, upc (run_items K fs rec rp sec hp l).
Proof. induction l as [|kv l IH]; intros hp; cbn [run_items]; [apply upc_ret|]. apply upc_bind; [apply upc_item|]. intros hp'. apply IH. Qed.
Lemma upc_body root sec a b : upc (psr_body K fs rec rp root sec a b).
Proof.
  unfold psr_body. apply upc_bind.
  - destruct (a && _); [|apply upc_ret]. apply upc_bind; [apply upc_named|intros _].
    apply upc_bind; [apply upc_lift, upo_cpd|intros j]. apply upc_bind; [apply upc_get|]. intros c.
    destruct (ini_has_section _ _); [apply REC|apply upc_ret].
  - intros _. apply upc_bind; [apply upc_lift, upo_log|intros _]. apply upc_bind; [apply upc_lift, upo_cpd|intros j].
    destruct (ini_items j sec) as [items|].
    + apply upc_bind; [apply upc_lift, upo_add|intros _]. apply upc_bind; [intros c; apply up_refl|intros _].
      apply upc_bind; [apply upc_items|intros _]. apply upc_bind; [destruct (b && _); [apply upc_named|apply upc_ret]|intros _].
      apply upc_bind; [intros c; unfold proc_remove; destruct (str_mem _ _); apply up_refl|intros _]. apply upc_lift, upo_log.
    + apply upc_bind; [apply upc_lift, upo_files|intros _]. apply upc_raise.
Qed.
End Body.

Lemma upo_parse (p : str -> str -> bool -> bool -> SM ctx unit) s a b : upc (p s s a b) -> upo (parse_section_with K p s a b).
Proof.
  intros H. unfold parse_section_with. apply upo_bind; [apply upo_modify; intros o; now apply up_same|intros _].
  destruct (str_eqb s []); [apply upo_raise|]. apply upo_bind.
  - unfold parse_root. apply upo_update; [apply wider_check|].
    intros o. specialize (H (Ctx o (k_empty K) [])). destruct (p s s a b _) as [[u|e] c1]; exact H.
  - intros r. apply upo_bind; [apply upo_modify; intros o; now apply up_same|intros _]. apply upo_ret.
Qed.
Lemma upc_psr f : forall root sec a b, upc (psr K fs f root sec a b).
Proof.
  induction f as [|f IH]; intros root sec a b; cbn [psr]; [apply upc_raise|]. apply upc_body; auto.
  intros t. apply upo_bind; [apply upo_parse, IH|]. intros; apply upo_ret.
Qed.
Lemma upo_parse_str fuel s : upo (parse_section_str K fs fuel s true true).
Proof. unfold parse_section_str. apply upo_parse, upc_psr. Qed.
Lemma upo_owner_parse fuel s : upo (owner_parse K fs fuel s).
Proof. unfold owner_parse. apply upo_bind; [apply upo_parse_str|]. intros; apply upo_ret. Qed.
Lemma upo_po fuel s b : upo (parse_owner (owner_parse K fs fuel) s b).
Proof. apply upo_owner, upo_owner_parse. Qed.
Lemma upo_has_section fuel s : upo (has_section K fs fuel s).
Proof. apply upo_has, upo_owner_parse. Qed.
Lemma upo_section s : upo (data_section s).
Proof. unfold data_section. apply upo_bind; [apply upo_edata|]. intros e. destruct (dget s (d_data e)); [apply upo_ret|apply upo_raise]. Qed.
Lemma upo_getitem fuel s : upo (getitem K fs fuel s).
Proof. unfold getitem. apply upo_bind; [apply upo_has_section|]. intros b. destruct b; [apply upo_section|apply upo_raise]. Qed.
Lemma upo_has_option fuel s k : upo (has_option K fs fuel s k).
Proof. unfold has_option. apply upo_bind; [apply upo_po|intros _]. apply upo_bind; [apply upo_edata|]. intros d. apply upo_ret. Qed.
Lemma upo_get fuel s k : upo (data_get K fs fuel s k).
Proof.
  unfold data_get. apply upo_bind; [apply upo_edata|intros d]. apply upo_bind; [destruct (str_mem _ _); [apply upo_ret|apply upo_po]|intros _].
  apply upo_bind; [apply upo_has_section|]. intros b. destruct b; [|apply upo_raise]. destruct k as [k|].
  - apply upo_bind; [apply upo_has_option|]. intros b. destruct b; [|apply upo_raise]. apply upo_bind; [apply upo_section|].
    intros o. destruct (dget k o); [apply upo_ret|apply upo_raise].
  - apply upo_bind; [apply upo_section|]. intros o. apply upo_ret.
Qed.
Lemma upo_keys : upo (data_keys (Sh := Sh) (Us := Us) fs).
Proof. unfold data_keys. apply upo_bind; [apply upo_cpd|]. intros; apply upo_ret. Qed.
Lemma upo_each {A} (f : A -> SM obj unit) l : (forall x, upo (f x)) -> upo (for_each f l).
Proof. intros H. induction l as [|x l IH]; cbn [for_each]; [apply upo_ret|]. apply upo_bind; [apply H|]. intros _. exact IH. Qed.
Lemma upo_items_all fuel : upo (data_items_all K fs fuel).
Proof.
  unfold data_items_all. apply upo_bind; [apply upo_keys|intros l]. apply upo_bind; [apply upo_each; intros; apply upo_po|intros _].
  apply upo_bind; [apply upo_edata|]. intros d. apply upo_ret.
Qed.
Lemma upo_items fuel s : upo (data_items K fs fuel s).
Proof. unfold data_items. apply upo_bind; [apply upo_keys|intros l]. apply upo_getitem. Qed.
Lemma upo_sections fuel p : upo (data_sections K fs fuel p).
Proof.
  assert (X : forall b, upo (l <- data_keys fs ;; for_each (fun s => parse_owner (owner_parse K fs fuel) s b) l ;; data_keys fs)).
  { intros b. apply upo_bind; [apply upo_keys|intros l]. apply upo_bind; [apply upo_each; intros; apply upo_po|intros _]. apply upo_keys. }
  unfold data_sections. destruct p as [[]|s|]; [apply X|apply upo_keys| |apply upo_raise]. destruct (str_eqb _ _); [apply X|apply upo_raise].
Qed.
Lemma upo_known : upo (get_known_operations K fs).
Proof.
  unfold get_known_operations. apply upo_bind; [apply upo_cpd|intros ?]. apply upo_bind; [apply upo_edata|intros ?].
  apply upo_bind; [apply upo_files|intros ?]. apply upo_ret.
Qed.
Lemma upo_known_message : upo (get_known_operations_message K fs).
Proof. unfold get_known_operations_message. apply upo_bind; [apply upo_known|]. intros; apply upo_ret. Qed.
Lemma upo_assert fuel s b : upo (assert_section K fs fuel s b).
Proof.
  unfold assert_section. apply upo_bind; [apply upo_get|]. intros g. destruct g as [[|kv o]|v]; [apply upo_ret| |apply upo_raise].
  cbv zeta. destruct b; [|apply upo_ret]. apply upo_bind; [apply upo_files|intros ?]. apply upo_bind; [apply upo_known_message|intros ?].
  apply upo_bind; [apply upo_event|intros ?]. apply upo_ret.
Qed.
Lemma upo_print x : upo (print_line x).
Proof. apply upo_modify. intros o. now apply up_same. Qed.
Lemma upo_asserts fuel l : forall b, upo (assert_sections K fs fuel l b).
Proof.
  induction l as [|s l IH]; intros b; cbn [assert_sections]; [apply upo_ret|]. apply upo_bind; [apply upo_assert|]. intros [m|]; [|apply IH].
  apply upo_bind; [apply upo_print|intros _]. apply IH.
Qed.
Lemma upo_assert_file fuel : upo (assert_file K fs fuel).
Proof.
  unfold assert_file. apply upo_bind; [apply upo_sections|intros l]. apply upo_bind; [apply upo_asserts|]. intros b.
  destruct b; [|apply upo_ret]. apply upo_bind; [apply upo_files|intros ?]. apply upo_bind; [apply upo_known_message|intros ?].
  apply upo_bind; [apply upo_print|intros _]. apply upo_bind; [apply upo_event|intros ?]. apply upo_ret.
Qed.
Lemma upo_generate fuel delim s : upo (generate_section K fs fuel delim s).
Proof.
  unfold generate_section. apply upo_bind; [apply upo_has_section|]. intros b. destruct b; [|apply upo_raise].
  apply upo_bind; [apply upo_items|]. intros; apply upo_ret.
Qed.
Lemma upo_generate_all fuel delim l : upo (generate_all K fs fuel delim l).
Proof.
  induction l as [|s l IH]; cbn [generate_all]; [apply upo_ret|]. apply upo_bind; [apply upo_generate|intros t].
  apply upo_bind; [exact IH|]. intros; apply upo_ret.
Qed.
Lemma upo_level z : upo (set_level z).
Proof. apply upo_modify. intros o. now apply up_same. Qed.
Lemma upo_unroll fuel s b : upo (unroll_self K fs fuel s b).
Proof.
  unfold unroll_self. cbv zeta. apply upo_bind; [intros o; apply up_refl|intros o0]. apply upo_bind; [apply upo_level|intros _].
  apply upo_bind; [apply upo_sections|intros l]. apply upo_bind; [destruct s; [apply upo_generate|apply upo_generate_all]|intros t].
  apply upo_bind; [apply upo_level|intros _]. apply upo_ret.
Qed.
Lemma upo_fmap {A} (f : A -> answer) m : upo m -> upo (fmap f m).
Proof. intros H. unfold fmap. apply upo_bind; [exact H|]. intros a. apply upo_ret. Qed.
Lemma upo_exec fuel c : upo (exec_op K fs fuel c).
Proof.
  destruct c as [s| |s|s|s k|s|s k| |s|p| | |s b| |s b| |z|z]; cbn [exec_op]; apply upo_fmap.
  - apply upo_parse_str.
  - unfold parse_all_sections. apply upo_bind; [apply upo_sections|intros _; apply upo_ret].
  - apply upo_getitem.
  - apply upo_getitem.
  - apply upo_get.
  - apply upo_has_section.
  - apply upo_has_option.
  - apply upo_items_all.
  - apply upo_items.
  - apply upo_sections.
  - apply upo_keys.
  - unfold data_len. apply upo_bind; [apply upo_keys|intros l; apply upo_ret].
  - apply upo_assert.
  - apply upo_assert_file.
  - apply upo_unroll.
  - apply upo_known.
  - apply upo_level.
  - apply upo_modify. intros o. now apply up_same.
Qed.
Lemma up_after fuel h : forall o, up o (after K fs fuel h o).
Proof. induction h as [|c h IH]; intros o; cbn [after]; [apply up_refl|]. eapply up_trans; [apply (upo_exec fuel c o)|apply IH]. Qed.

(** A section that is marked, or not in the file, is answered from the data. *)
Definition settled (s : str) (o : obj) : Prop := ini_has_section i s = true -> str_mem s (checked_of o) = true.
Lemma getitem_settled fuel s o d x : has_file fs o i -> settled s o -> o_edata o = Some d -> dget s (d_data d) = Some x ->
  fst (getitem K fs fuel s o) = Ok x.
Proof.
  intros H S E D. unfold getitem, has_section, data_has_section, data_section, bind. rewrite (get_cpd_ready fs i o H).
  assert (G : get_edata (set_cpd (Some i) o) = (Ok d, set_cpd (Some i) o)) by (unfold get_edata; cbn; now rewrite E).
  assert (DM : dmem s (d_data d) = true) by (unfold dmem; now rewrite D).
  unfold settled, checked_of in S. rewrite E in S.
  destruct (ini_has_section i s); [rewrite G, (S eq_refl)|]; cbn [ret]; rewrite G; cbn [ret]; rewrite DM; cbn; rewrite G; cbn; rewrite D; reflexivity.
Qed.
Lemma po_marks fuel s b o : fst (parse_owner (owner_parse K fs fuel) s b o) = Ok tt ->
  str_mem s (checked_of (snd (parse_owner (owner_parse K fs fuel) s b o))) = true.
Proof.
  unfold parse_owner, bind. destruct (get_edata o) as [[d|e] o1] eqn:E; [|discriminate]. 
  destruct (negb (str_mem s (d_checked d)) || b) eqn:B.
  - destruct (set_owner_options o1) as [[u|e] o2]; [|discriminate]. destruct (get_edata o2) as [[d2|e] o3]; [|discriminate].
    cbn [put_edata modify]. intros _. destruct (upo_owner_parse fuel s (set_edata (Some (ed_check s d2)) o3)) as [_ X].
    destruct (X _ eq_refl) as (d4 & E4 & W & _). unfold checked_of. rewrite E4. apply W. cbn -[str_mem sadd]. now rewrite str_mem_sadd, str_eqb_refl.
  - intros _. cbn. apply Bool.orb_false_iff in B as [B _]. apply Bool.negb_false_iff in B. unfold get_edata in E. unfold checked_of.
    destruct (o_edata o) as [d0|] eqn:E0; inversion E; subst; [now rewrite E0|discriminate B].
Qed.
Definition lookup (s : str) : SM obj (dict (option str)) :=
  bind (bind get_edata (fun d => ret (dmem s (d_data d)))) (fun b : bool => if b then data_section s else raise KeyError).
Lemma getitem_lookup fuel s o : has_file fs o i -> getitem K fs fuel s o =
  match (if ini_has_section i s then d <- get_edata ;; if str_mem s (d_checked d) then ret tt else parse_owner (owner_parse K fs fuel) s false else ret tt)
    (set_cpd (Some i) o) with
  | (Ok _, o2) => lookup s o2
  | (Err e, o2) => (Err e, o2)
  end.
Proof.
  intros H. unfold getitem, has_section, data_has_section, lookup, bind. rewrite (get_cpd_ready fs i o H).
  match goal with |- context [match ?m (set_cpd (Some i) o) with _ => _ end] => destruct (m (set_cpd (Some i) o)) as [[u|e] o2] end; reflexivity.
Qed.
Lemma edata_made (o2 : obj) : exists d o3, get_edata o2 = (Ok d, o3) /\ o_edata o3 = Some d /\ get_edata o3 = (Ok d, o3) /\ checked_of o3 = checked_of o2.
Proof. unfold get_edata, checked_of. destruct (o_edata o2) as [d|] eqn:E; eexists; eexists; (split; [reflexivity|]); cbn; rewrite ?E; auto. Qed.
Lemma lookup_settles s o2 x : settled s o2 -> fst (lookup s o2) = Ok x ->
  settled s (snd (lookup s o2)) /\ exists d, o_edata (snd (lookup s o2)) = Some d /\ dget s (d_data d) = Some x.
Proof.
  intros S2. unfold lookup, data_section, bind. destruct (edata_made o2) as (d & o3 & E1 & E2 & E3 & E4). rewrite E1. cbn [ret].
  destruct (dmem s (d_data d)); [|discriminate]. rewrite E3. destruct (dget s (d_data d)) as [y|] eqn:D; [|discriminate].
  cbn. intros Z. inversion Z; subst. split.
  - intros I. rewrite E4. now apply S2.
  - exists d. auto.
Qed.
Lemma getitem_settles fuel s o x : has_file fs o i -> fst (getitem K fs fuel s o) = Ok x ->
  let o1 := snd (getitem K fs fuel s o) in has_file fs o1 i /\ settled s o1 /\ exists d, o_edata o1 = Some d /\ dget s (d_data d) = Some x.
Proof.
  intros H. cbv zeta. intros Q. split; [now apply (proj1 (upo_getitem fuel s o))|].
  rewrite (getitem_lookup fuel s o H) in *. set (o0 := set_cpd (Some i) o) in *.
  destruct (ini_has_section i s) eqn:I.
  - unfold bind in *. destruct (edata_made o0) as (d & o3 & E1 & E2 & E3 & E4). rewrite E1 in *. destruct (str_mem s (d_checked d)) eqn:M.
    + cbn [ret] in *. apply lookup_settles; [|exact Q]. intros _. unfold checked_of. now rewrite E2.
    + pose proof (po_marks fuel s false o3) as PM. destruct (parse_owner (owner_parse K fs fuel) s false o3) as [[[]|e] o4]; [|discriminate Q].
      apply lookup_settles; [|exact Q]. intros _. now apply PM.
  - cbn [ret] in *. apply lookup_settles; [|exact Q]. intros J. congruence.
Qed.
Lemma item_lasting fuel s h o x : has_file fs o i -> fst (getitem K fs fuel s o) = Ok x ->
  exists x' more, fst (getitem K fs fuel s (after K fs fuel h (snd (getitem K fs fuel s o)))) = Ok x' /\ dkeys x' = dkeys x ++ more.
Proof.
  intros H Q. destruct (getitem_settles fuel s o x H Q) as (H1 & S1 & d & E & D).
  destruct (up_after fuel h (snd (getitem K fs fuel s o))) as [F U]. destruct (U d E) as (d' & E' & W & G). destruct (G s x D) as (x' & D' & more & M).
  exists x', more. split; [|exact M]. apply (getitem_settled fuel s _ d'); auto. intros I. specialize (S1 I). unfold checked_of in *. rewrite E in S1. rewrite E'. now apply W.
Qed.
End P.

Lemma answers_last {Sh Us} (K : pyclass Sh Us) fs i fuel h s (o : obj Sh Us) d : has_file fs o i ->
  fst (exec_op K fs fuel (OItem s) o) = Ok (RDict d) ->
  exists d' more, fst (exec_op K fs fuel (OItem s) (after K fs fuel h (snd (exec_op K fs fuel (OItem s) o)))) = Ok (RDict d') /\
    map fst d' = map fst d ++ more.
Proof.
  intros H. cbn [exec_op]. unfold fmap, bind. intros Q.
  destruct (fst (getitem K fs fuel s o)) as [x|e] eqn:E.
  - destruct (item_lasting K fs i fuel s h o x H E) as (x' & more & E' & M).
    destruct (getitem K fs fuel s o) as [r o1]. cbn [fst snd] in *. subst r. cbn [ret fst snd] in *. inversion Q; subst.
    exists x', more. split; [|exact M]. destruct (getitem K fs fuel s (after K fs fuel h o1)) as [r' o2]. cbn [fst] in E'. now subst r'.
  - destruct (getitem K fs fuel s o) as [r o1]. cbn [fst] in E. subst r. discriminate Q.
Qed.
