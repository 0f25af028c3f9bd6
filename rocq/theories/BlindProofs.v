(** * Nothing an object does depends on what has been printed before. *)
From Coq Require Import String NArith ZArith List Bool.
Import ListNotations.
From Verif Require Import PyBase PyFacts Shlex IniView IniRead ExcControl Debuggable Cpe SpecApi Trace.
Local Open Scope sm_scope.

Section P.
Context {Sh Us : Type} (K : pyclass Sh Us) (fs : str -> option str).
Notation obj := (obj Sh Us).
Notation ctx := (ctx Sh Us).

(** The object with [l] printed before. *)
Definition pre (l : list outline) (o : obj) : obj :=
  Obj (o_files o) (o_cpd o) (o_delims o) (o_edata o) (o_last o) (o_ec o) (o_debug o) (o_log o) (o_defname o)
      (o_intname o) (o_user o) (l ++ o_out o).
Definition prec (l : list outline) (c : ctx) : ctx := Ctx (pre l (x_obj c)) (x_sh c) (x_proc c).

Definition blind {A} (m : SM obj A) : Prop := forall l o, m (pre l o) = (fst (m o), pre l (snd (m o))).
Definition blindc {A} (m : SM ctx A) : Prop := forall l c, m (prec l c) = (fst (m c), prec l (snd (m c))).

Lemma b_ret {A} (a : A) : blind (ret a). Proof. intros l o. reflexivity. Qed.
Lemma b_raise {A} e : blind (@raise obj A e). Proof. intros l o. reflexivity. Qed.
Lemma b_bind {A B} (m : SM obj A) (k : A -> SM obj B) : blind m -> (forall a, blind (k a)) -> blind (bind m k).
Proof.
  intros H1 H2 l o. unfold bind. rewrite H1. destruct (m o) as [[a|e] o1]; cbn [fst snd]; [apply H2|reflexivity].
Qed.
Lemma c_ret {A} (a : A) : blindc (ret a). Proof. intros l o. reflexivity. Qed.
Lemma c_raise {A} e : blindc (@raise ctx A e). Proof. intros l o. reflexivity. Qed.
Lemma c_bind {A B} (m : SM ctx A) (k : A -> SM ctx B) : blindc m -> (forall a, blindc (k a)) -> blindc (bind m k).
Proof.
  intros H1 H2 l o. unfold bind. rewrite H1. destruct (m o) as [[a|e] o1]; cbn [fst snd]; [apply H2|reflexivity].
Qed.
Lemma c_get {A} (k : ctx -> SM ctx A) : (forall l c, k (prec l c) = k c) -> (forall c, blindc (k c)) -> blindc (bind get k).
Proof. intros H1 H2 l c. unfold bind, get. cbn. rewrite H1. apply H2. Qed.
Lemma b_get_state {A} (k : obj -> SM obj A) : (forall l o, k (pre l o) = k o) -> (forall o, blind (k o)) -> blind (bind get k).
Proof. intros H1 H2 l c. unfold bind, get. cbn. rewrite H1. apply H2. Qed.
Lemma c_lift {A} (m : SM obj A) : blind m -> blindc (lift m).
Proof. intros H l c. unfold lift. cbn [x_obj prec]. rewrite H. now destruct (m (x_obj c)). Qed.
Lemma c_of_res {A} (r : res A) : blindc (of_res r).
Proof. intros l c. now destruct r. Qed.

Lemma b_modify (f : obj -> obj) : (forall l o, f (pre l o) = pre l (f o)) -> blind (modify f).
Proof. intros H l o. unfold modify. cbn. now rewrite H. Qed.
Lemma b_log e : blind (log e). Proof. intros l o. reflexivity. Qed.
Lemma b_event n e : blind (event n e).
Proof.
  intros l o. unfold event. cbn [o_ec pre]. destruct (ec_event _ _ _ _) as [r out]. cbn. unfold add_out, pre. cbn.
  now rewrite app_assoc.
Qed.
Lemma b_print s : blind (print_line s).
Proof. apply b_modify. intros l o. unfold add_out, pre. cbn. now rewrite app_assoc. Qed.
Lemma b_files : blind get_files.
Proof. intros l o. unfold get_files. cbn. now destruct (o_files o). Qed.
Lemma b_cpd : blind (get_cpd fs).
Proof.
  intros l o. unfold get_cpd. cbn [o_cpd pre]. destruct (o_cpd o); [reflexivity|]. cbn zeta.
  cbn [o_files o_delims o_intname set_cpd pre]. destruct (o_files o) as [[|p ps]|]; try reflexivity.
  destruct (forallb _ _); [|reflexivity].
  destruct (read_files _ _ _) as [[u|[]] j]; try reflexivity.
  cbn. unfold add_out, set_cpd, pre. cbn. now rewrite app_assoc.
Qed.
Lemma b_edata : blind get_edata.
Proof. intros l o. unfold get_edata. cbn. now destruct (o_edata o). Qed.
Lemma b_put d : blind (put_edata d). Proof. intros l o. reflexivity. Qed.
Lemma b_add s f : blind (data_add_section s f).
Proof. apply b_bind; [apply b_edata|intros; apply b_put]. Qed.
Lemma b_owner_options : blind set_owner_options.
Proof. intros l o. unfold set_owner_options, get_edata. cbn. now destruct (o_edata o). Qed.
Lemma b_set_level z : blind (set_level z). Proof. intros l o. reflexivity. Qed.
Lemma b_set_debug z : blind (set_debug_level z). Proof. intros l o. reflexivity. Qed.
Local Hint Resolve b_ret b_raise b_log b_event b_print b_files b_cpd b_edata b_put b_add b_owner_options b_set_level b_set_debug
  c_ret c_raise c_of_res : core.

Section Reparse.
Variable reparse : str -> SM obj unit.
Hypothesis R : forall s, blind (reparse s).
Lemma b_owner s f : blind (parse_owner reparse s f).
Proof.
  unfold parse_owner. apply b_bind; auto. intros d. destruct (_ || _); auto.
  apply b_bind; auto. intros _. apply b_bind; auto. intros e. apply b_bind; auto.
Qed.
Lemma b_has_section s : blind (data_has_section fs reparse s).
Proof.
  unfold data_has_section. apply b_bind; auto. intros i. apply b_bind.
  - destruct (ini_has_section i s); auto. apply b_bind; auto. intros d.
    destruct (str_mem s (d_checked d)); auto. apply b_owner.
  - intros _. apply b_bind; auto.
Qed.
Lemma b_set s k v : blind (data_set fs reparse s k v).
Proof.
  unfold data_set. apply b_bind; [apply b_has_section|]. intros b. apply b_bind; [destruct b; auto|].
  intros _. apply b_bind; auto. intros d. destruct (ed_put s k v d); auto.
Qed.

Variable rec : str -> bool -> bool -> SM ctx unit.
Hypothesis RC : forall s a b, blindc (rec s a b).
Lemma c_check r : blindc (lift (check_rval r)).
Proof.
  apply c_lift. unfold check_rval. destruct r as [z|]; auto. destruct (z =? 0)%Z; auto. destruct (z <=? 10)%Z; auto.
Qed.
Lemma c_decorated hp (m : SM ctx (option Z)) : blindc m -> blindc (decorated hp m).
Proof.
  intros H. unfold decorated. apply c_bind; [now apply c_lift|]. intros _. apply c_bind; auto. intros r.
  apply c_bind; [now apply c_lift|]. intros _. apply c_check.
Qed.
Lemma c_user f sec hp : blindc (user_body f sec hp).
Proof. intros l c. unfold user_body. cbn. now destruct (f sec hp (x_sh c) (o_user (x_obj c))) as [[r sh] us]. Qed.
Lemma c_use sec hp : blindc (use_body rec sec hp).
Proof.
  unfold use_body. destruct (hp_params hp) as [|t ts]; auto. apply c_get; [reflexivity|]. intros c.
  destruct (negb (str_mem t (x_proc c))).
  - apply c_bind; auto.
  - apply c_bind; [now apply c_lift|]. intros _. apply c_bind; [now apply c_lift|]. intros _.
    apply c_bind; [now apply c_lift|]. intros _. apply c_bind; [now apply c_lift|]. auto.
Qed.
Lemma c_attr a sec hp : blindc (call_attr rec a sec hp).
Proof.
  destruct a as [|[] f| |]; cbn [call_attr]; auto.
  - apply c_decorated, c_use.
  - apply c_decorated, c_user.
  - apply c_bind; auto. apply c_user.
  - apply c_bind; auto. apply c_user.
Qed.
Lemma c_named n sec hp : blindc (call_named K rec n sec hp).
Proof. unfold call_named. destruct (find_attr K n); auto. apply c_attr. Qed.
Lemma b_locate op : blind (locate_handler K op).
Proof.
  unfold locate_handler. apply b_bind.
  - destruct (locate_class_method K ($"_handler_" ++ normalize_op op)); auto.
    destruct (locate_class_method K ($"handler_" ++ normalize_op op)); auto.
  - intros _. destruct (locate_class_method K ($"handler_" ++ normalize_op op)); auto.
    destruct (locate_class_method K ($"_handler_" ++ normalize_op op)); auto.
Qed.
Lemma c_generic hp k v : blindc (launch_generic fs reparse hp k v).
Proof.
  unfold launch_generic. apply c_bind; [apply c_lift, b_set|]. intros _. cbn zeta.
  apply c_bind; [now apply c_decorated|auto].
Qed.
Lemma c_item sec hp kv : blindc (process_item K fs rec reparse sec hp kv).
Proof.
  unfold process_item. apply c_bind; auto. intros v. cbn zeta. apply c_bind; [now apply c_lift|]. intros _.
  apply c_bind; auto. intros toks. destruct toks as [|t ts]; auto. destruct (negb (op_word K t)); [apply c_generic|].
  apply c_bind; [now apply c_lift|]. intros _. apply c_bind; [apply c_lift, b_locate|]. intros [[n a]|]; [|apply c_generic].
  apply c_bind; [apply c_attr|auto].
Qed.
Lemma c_items sec l : forall hp, blindc (run_items K fs rec reparse sec hp l).
Proof.
  induction l as [|kv l IH]; intros hp; cbn [run_items]; auto. apply c_bind; [apply c_item|]. auto.
Qed.
Lemma c_body root sec init fin : blindc (psr_body K fs rec reparse root sec init fin).
Proof.
  unfold psr_body. apply c_bind.
  - destruct (init && str_eqb sec root); auto. apply c_bind; [apply c_named|]. intros _.
    apply c_bind; [now apply c_lift|]. intros i. apply c_get; [reflexivity|]. intros c.
    destruct (ini_has_section i (o_defname (x_obj c))); auto.
  - intros _. apply c_bind; [now apply c_lift|]. intros _. apply c_bind; [now apply c_lift|]. intros i.
    destruct (ini_items i sec) as [items|].
    + apply c_bind; [now apply c_lift|]. intros _. apply c_bind; [intros l c; reflexivity|]. intros _.
      apply c_bind; [apply c_items|]. intros _.
      apply c_bind; [destruct (fin && str_eqb sec root); auto; apply c_named|]. intros _.
      apply c_bind; [|intros _; now apply c_lift]. intros l c. unfold proc_remove. cbn [prec x_proc].
      destruct (str_mem sec (x_proc c)); reflexivity.
    + apply c_bind; [now apply c_lift|auto].
Qed.
End Reparse.

Lemma b_parse_with p s init fin : (forall r t a b, blindc (p r t a b)) -> blind (parse_section_with K p s init fin).
Proof.
  intros P. unfold parse_section_with. apply b_bind; [now apply b_modify|]. intros _. destruct (str_eqb s []); auto.
  apply b_bind; [|intros r; apply b_bind; [now apply b_modify|auto]].
  unfold parse_root. apply b_bind; auto. intros d. apply b_bind; auto. intros _ l o.
  change (Ctx (pre l o) (k_empty K) []) with (prec l (Ctx o (k_empty K) [])). rewrite P.
  now destruct (p s s init fin (Ctx o (k_empty K) [])) as [[u|e] c].
Qed.
Lemma c_psr fuel : forall root sec init fin, blindc (psr K fs fuel root sec init fin).
Proof.
  induction fuel as [|f IH]; intros root sec init fin; cbn [psr]; [auto|].
  apply c_body; auto. intros s. apply b_bind; [|auto]. apply b_parse_with. auto.
Qed.
Lemma b_parse fuel s init fin : blind (parse_section_str K fs fuel s init fin).
Proof. apply b_parse_with. intros. apply c_psr. Qed.

Variable fuel : nat.
Lemma b_owner_parse s : blind (owner_parse K fs fuel s).
Proof. apply b_bind; [apply b_parse|auto]. Qed.
Lemma b_hs s : blind (has_section K fs fuel s).
Proof. apply b_has_section. apply b_owner_parse. Qed.
Lemma b_ow s f : blind (parse_owner (owner_parse K fs fuel) s f).
Proof. apply b_owner. apply b_owner_parse. Qed.
Lemma b_data_section s : blind (data_section s).
Proof. apply b_bind; auto. intros d. destruct (dget s (d_data d)); auto. Qed.
Lemma b_getitem s : blind (getitem K fs fuel s).
Proof. apply b_bind; [apply b_hs|]. intros []; auto. apply b_data_section. Qed.
Lemma b_has_option s k : blind (has_option K fs fuel s k).
Proof. apply b_bind; [apply b_ow|]. intros _. apply b_bind; auto. Qed.
Lemma b_get s k : blind (data_get K fs fuel s k).
Proof.
  apply b_bind; auto. intros d. apply b_bind; [destruct (str_mem s (d_checked d)); auto; apply b_ow|]. intros _.
  apply b_bind; [apply b_hs|]. intros []; auto. destruct k as [k|].
  - apply b_bind; [apply b_has_option|]. intros []; auto. apply b_bind; [apply b_data_section|].
    intros x. destruct (dget k x); auto.
  - apply b_bind; [apply b_data_section|auto].
Qed.
Lemma b_keys : blind (data_keys fs).
Proof. apply b_bind; auto. Qed.
Lemma b_for_each (f : str -> SM obj unit) l : (forall s, blind (f s)) -> blind (for_each f l).
Proof. intros H. induction l as [|s l IH]; cbn [for_each]; auto. apply b_bind; auto. Qed.
Lemma b_sections p : blind (data_sections K fs fuel p).
Proof.
  assert (GO : forall force, blind (l <- data_keys fs ;;
    for_each (fun s => parse_owner (owner_parse K fs fuel) s force) l ;; data_keys fs)).
  { intros force. apply b_bind; [apply b_keys|]. intros l. apply b_bind; [apply b_for_each; intros; apply b_ow|].
    intros _. apply b_keys. }
  unfold data_sections. destruct p as [[]|x|]; [apply GO|apply b_keys| |auto]. destruct (str_eqb (lower x) $"force"); auto.
Qed.
Lemma b_items_of s : blind (data_items K fs fuel s).
Proof. apply b_bind; [apply b_keys|]. intros _. apply b_getitem. Qed.
Lemma b_items : blind (data_items_all K fs fuel).
Proof.
  apply b_bind; [apply b_keys|]. intros l. apply b_bind; [apply b_for_each; intros; apply b_ow|].
  intros _. apply b_bind; auto.
Qed.
Lemma b_known : blind (get_known_operations K fs).
Proof. apply b_bind; auto. intros _. apply b_bind; auto. intros _. apply b_bind; auto. Qed.
Lemma b_message : blind (get_known_operations_message K fs).
Proof. apply b_bind; [apply b_known|auto]. Qed.
Lemma b_assert s b : blind (assert_section K fs fuel s b).
Proof.
  apply b_bind; [apply b_get|]. intros [[|kv d]|v]; auto. cbn zeta. destruct b; auto.
  apply b_bind; auto. intros files. apply b_bind; [apply b_message|]. intros m. apply b_bind; auto.
Qed.
Lemma b_asserts l : forall b, blind (assert_sections K fs fuel l b).
Proof.
  induction l as [|s l IH]; intros b; cbn [assert_sections]; auto. apply b_bind; [apply b_assert|].
  intros [m|]; auto. apply b_bind; auto.
Qed.
Lemma b_assert_file : blind (assert_file K fs fuel).
Proof.
  apply b_bind; [apply b_sections|]. intros l. apply b_bind; [apply b_asserts|]. intros []; auto.
  apply b_bind; auto. intros files. apply b_bind; [apply b_message|]. intros m. apply b_bind; auto.
  intros _. apply b_bind; auto.
Qed.
Lemma b_generate delim s : blind (generate_section K fs fuel delim s).
Proof. apply b_bind; [apply b_hs|]. intros []; auto. apply b_bind; [apply b_items_of|auto]. Qed.
Lemma b_generate_all delim l : blind (generate_all K fs fuel delim l).
Proof.
  induction l as [|s l IH]; cbn [generate_all]; auto. apply b_bind; [apply b_generate|]. intros t. apply b_bind; auto.
Qed.
Lemma b_unroll section b : blind (unroll_self K fs fuel section b).
Proof.
  unfold unroll_self. apply b_get_state; [reflexivity|]. intros o. cbn zeta.
  apply b_bind; auto. intros _. apply b_bind; [apply b_sections|]. intros l. apply b_bind.
  - destruct section; [apply b_generate|apply b_generate_all].
  - intros t. apply b_bind; auto.
Qed.
Theorem b_exec c : blind (exec_op K fs fuel c).
Proof.
  destruct c; cbn [exec_op]; unfold fmap; apply b_bind; auto.
  - apply b_parse.
  - apply b_bind; [apply b_sections|auto].
  - apply b_getitem.
  - apply b_getitem.
  - apply b_get.
  - apply b_hs.
  - apply b_has_option.
  - apply b_items.
  - apply b_items_of.
  - apply b_sections.
  - apply b_keys.
  - apply b_bind; [apply b_keys|auto].
  - apply b_assert.
  - apply b_assert_file.
  - apply b_unroll.
  - apply b_known.
Qed.
Theorem after_pre h l : forall o, after K fs fuel h (pre l o) = pre l (after K fs fuel h o).
Proof.
  induction h as [|c h IH]; intros o; cbn [after]; auto. rewrite b_exec. cbn [snd]. apply IH.
Qed.
End P.
