(** * Proofs of C83 and C84. *)
From Coq Require Import String NArith ZArith List Bool Lia.
Import ListNotations.
From Verif Require Import PyBase Shlex IniView IniRead ExcControl Debuggable Cpe SpecRun SpecApi SpecLevels.

(** The events of [ConfigParserEnhanced.py]. *)
Definition used (ev : str) : Prop :=
  ev = $"CATASTROPHIC" \/ ev = $"WARNING" \/ ev = $"SERIOUS".
Ltac in_use := first [left; reflexivity | right; left; reflexivity | right; right; reflexivity].

Section Generic.
Context {Sh Us : Type} (K : pyclass Sh Us) (fs : str -> option str).
Notation obj := (obj Sh Us).
Notation ctx := (ctx Sh Us).

(** Two runs side by side. [R] relates the objects; [raised = true] when only
    the first run's successes matter; [mu] is a measure that never shrinks, and
    only first runs that keep it at most [n0] matter. *)
Variable R : obj -> obj -> Prop.
Variable raised : bool.
Variable mu : obj -> nat.
Variable n0 : nat.

Hypothesis R_same : forall o o', R o o' -> same_contents o o'.
Hypothesis R_cong : forall o o' o1 o1', R o o' -> same_contents o1 o1' ->
  o_ec o1 = o_ec o -> o_ec o1' = o_ec o' ->
  (exists v, o_out o1 = o_out o ++ v /\ o_out o1' = o_out o' ++ v) ->
  R o1 o1'.
Hypothesis mu_cong : forall o o1 v, o_out o1 = o_out o ++ v -> mu o <= mu o1.

Definition lost {A} (r : res A) (o : obj) : Prop :=
  (raised = true /\ exists e, r = Err e) \/ n0 < mu o.

Definition grows {A} (m : SM obj A) : Prop := forall o, mu o <= mu (snd (m o)).
Definition simo {A} (m m' : SM obj A) : Prop := grows m /\ forall o o', R o o' ->
  let (r, o1) := m o in
  let (r', o1') := m' o' in
  lost r o1 \/ (r' = r /\ R o1 o1').

Hypothesis R_event : forall ev e, used ev -> simo (@event Sh Us ev e) (event ev e).
Hypothesis R_restore : forall o o' o1 o1', R o o' -> R o1 o1' ->
  R (set_ec (ec_set_level (ec_level (o_ec o)) (o_ec o1)) o1)
    (set_ec (ec_set_level (ec_level (o_ec o')) (o_ec o1')) o1').
Hypothesis R_level : forall o o' z, R o o' ->
  R (set_ec (ec_set_level z (o_ec o)) o) (set_ec (ec_set_level z (o_ec o')) o').
Hypothesis mu_ec : forall o v, mu (set_ec v o) = mu o.

Local Open Scope sm_scope.

Lemma mu_out : forall o o1, o_out o1 = o_out o -> mu o <= mu o1.
Proof. intros o o1 H. apply (mu_cong o o1 []). rewrite H, app_nil_r. reflexivity. Qed.
Ltac no_output := exists []; cbn; rewrite !app_nil_r; auto.

(** ** Rules *)
Lemma simo_ret {A} (a : A) : simo (ret a) (ret a).
Proof. split; [intros o; cbn; lia|]. intros o o' H. cbn. auto. Qed.
Lemma simo_raise {A} e : simo (A := A) (raise e) (raise e).
Proof. split; [intros o; cbn; lia|]. intros o o' H. cbn. auto. Qed.
Lemma simo_of_res {A} (r : res A) : simo (of_res r) (of_res r).
Proof. split; [intros o; cbn; lia|]. intros o o' H. cbn. auto. Qed.
Lemma simo_bind {A B} (m m' : SM obj A) (k k' : A -> SM obj B) :
  simo m m' -> (forall a, simo (k a) (k' a)) -> simo (bind m k) (bind m' k').
Proof.
  intros [Gm Hm] Hk. split.
  - intros o. specialize (Gm o). unfold bind. destruct (m o) as [[a|e] o1]; cbn [snd] in *; [|exact Gm].
    destruct (Hk a) as [Gk _]. specialize (Gk o1). lia.
  - intros o o' HR. specialize (Hm o o' HR). unfold bind.
    destruct (m o) as [[a|e] o1], (m' o') as [r' o1'].
    + destruct Hm as [[[_ [e X]]|L]|[-> R1]]; [discriminate| |].
      * destruct (Hk a) as [Gk _]. specialize (Gk o1). destruct (k a o1) as [q o2]. cbn [snd] in Gk.
        destruct r' as [a'|e']; [destruct (k' a' o1')|]; left; right; lia.
      * destruct (Hk a) as [_ Hk']. exact (Hk' o1 o1' R1).
    + destruct Hm as [[[X _]|L]|[-> R1]].
      * destruct r' as [a'|e']; [destruct (k' a' o1')|]; left; left; eauto.
      * destruct r' as [a'|e']; [destruct (k' a' o1')|]; left; right; exact L.
      * right. auto.
Qed.

(** Updates that say nothing of settings and output. *)
Lemma simo_modify f f' :
  (forall o, o_out (f o) = o_out o) -> (forall o, o_ec (f o) = o_ec o) ->
  (forall o, o_out (f' o) = o_out o) -> (forall o, o_ec (f' o) = o_ec o) ->
  (forall o o', same_contents o o' -> same_contents (f o) (f' o')) ->
  simo (modify f) (modify f').
Proof.
  intros O1 E1 O2 E2 S. split.
  - intros o. cbn. apply mu_out, O1.
  - intros o o' HR. cbn. right. split; [reflexivity|].
    apply (R_cong o o'); auto. rewrite O1, O2. no_output.
Qed.

(** ** Primitives *)
Lemma simo_log e : simo (@log Sh Us e) (log e).
Proof.
  split.
  - intros o. cbn. apply mu_out. reflexivity.
  - intros o o' HR. cbn. right. split; [reflexivity|].
    apply (R_cong o o'); auto; [|no_output].
    destruct (R_same _ _ HR). split; assumption.
Qed.

Lemma simo_print s : simo (@print_line Sh Us s) (print_line s).
Proof.
  split.
  - intros o. cbn. apply (mu_cong o _ [OutText s]). reflexivity.
  - intros o o' HR. cbn. right. split; [reflexivity|].
    apply (R_cong o o'); auto.
    + destruct (R_same _ _ HR). split; assumption.
    + exists [OutText s]. auto.
Qed.

Lemma simo_files : simo (@get_files Sh Us) get_files.
Proof.
  split.
  - intros o. unfold get_files. destruct (o_files o); cbn; lia.
  - intros o o' HR. unfold get_files. rewrite (sm_files _ _ (R_same _ _ HR)).
    destruct (o_files o); auto.
Qed.

Lemma simo_cpd : simo (@get_cpd Sh Us fs) (get_cpd fs).
Proof.
  split.
  - intros o. unfold get_cpd. destruct (o_cpd o); [cbn; lia|].
    destruct (o_files (set_cpd (Some (Ini [] [] (o_intname o))) o)) as [[|f fl]|];
      try (cbn [snd]; apply mu_out; reflexivity).
    destruct (forallb _ _); [|cbn [snd]; apply mu_out; reflexivity].
    destruct (read_files _ _ _) as [[u|[]] i]; cbn [snd];
      try (apply mu_out; reflexivity).
    eapply mu_cong. reflexivity.
  - intros o o' HR. pose proof (R_same _ _ HR) as S. destruct S as [Sf Sc Sd Sh' Sl Sn Si Su].
    unfold get_cpd. rewrite Sc. destruct (o_cpd o) as [i|] eqn:Ec; [right; auto|].
    rewrite Si. cbn [o_files o_delims set_cpd]. rewrite Sf, Sd.
    assert (X : forall v, R (set_cpd v o) (set_cpd v o')).
    { intros v. apply (R_cong o o'); auto; [|no_output]. split; auto. }
    assert (Y : forall v t, R (add_out t (set_cpd v o)) (add_out t (set_cpd v o'))).
    { intros v t. apply (R_cong o o'); auto; [|exists t; auto]. split; auto. }
    destruct (o_files o) as [[|f fl]|]; try (right; split; [reflexivity|apply X]).
    destruct (forallb _ _); [|right; split; [reflexivity|apply X]].
    destruct (read_files _ _ _) as [[u|[]] i]; right; split; try reflexivity;
      first [ exact (X (Some i)) | exact (Y None _) ].
Qed.

(** The data object: what it holds is the same, its copies of the settings need
    not be. *)
Definition simd {A} (k k' : edata -> SM obj A) : Prop :=
  forall d d', d_data d' = d_data d -> d_checked d' = d_checked d -> simo (k d) (k' d').

Lemma simo_edata {A} (k k' : edata -> SM obj A) :
  simd k k' -> simo (bind get_edata k) (bind get_edata k').
Proof.
  intros H. assert (HG : forall o d o1, get_edata o = (Ok d, o1) -> mu o <= mu o1).
  { intros o d o1. unfold get_edata. destruct (o_edata o); intros E; inversion E; subst; [lia|].
    apply mu_out. reflexivity. }
  split.
  - intros o. unfold bind. destruct (get_edata o) as [[d|e] o1] eqn:E.
    + destruct (H d d eq_refl eq_refl) as [G _]. specialize (G o1). specialize (HG _ _ _ E). lia.
    + exfalso. unfold get_edata in E. destruct (o_edata o); inversion E.
  - intros o o' HR. pose proof (R_same _ _ HR) as S. destruct S as [Sf Sc Sd Sh' Sl Sn Si Su].
    unfold bind, get_edata. unfold held in Sh'.
    destruct (o_edata o) as [d|] eqn:E1, (o_edata o') as [d'|] eqn:E2; try discriminate Sh'.
    + injection Sh' as D1 D2. destruct (H d d' D1 D2) as [_ G]. exact (G o o' HR).
    + match goal with |- context[k ?d ?o1] => match goal with |- context[k' ?d' ?o1'] =>
        destruct (H d d' eq_refl eq_refl) as [_ G]; apply (G o1 o1')
      end end.
      apply (R_cong o o'); auto; [|no_output]. split; auto.
Qed.

Lemma simo_put d d' :
  d_data d' = d_data d -> d_checked d' = d_checked d ->
  simo (@put_edata Sh Us d) (put_edata d').
Proof.
  intros D1 D2. apply simo_modify; auto.
  intros o o' S. destruct S as [Sf Sc Sd Sh' Sl Sn Si Su]. split; auto.
  cbn. unfold held. cbn. rewrite D1, D2. reflexivity.
Qed.

Lemma simo_owner_options : simo (@set_owner_options Sh Us) set_owner_options.
Proof.
  assert (E : forall o, @set_owner_options Sh Us o =
    (Ok tt, set_edata (Some (EData (match o_edata o with Some d => d_data d | None => [] end)
                                   (match o_edata o with Some d => d_checked d | None => [] end)
                                   (ec_level (o_ec o)) (o_debug o))) o)).
  { intros o. unfold set_owner_options, get_edata. destruct (o_edata o); reflexivity. }
  split.
  - intros o. rewrite E. cbn. apply mu_out. reflexivity.
  - intros o o' HR. rewrite !E. right. split; [reflexivity|].
    pose proof (R_same _ _ HR) as S. destruct S as [Sf Sc Sd Sh' Sl Sn Si Su].
    apply (R_cong o o'); auto; [|no_output]. split; auto.
    unfold held in *. cbn. destruct (o_edata o), (o_edata o'); try discriminate Sh'; cbn in *; congruence.
Qed.

Lemma simo_add_section s force : simo (@data_add_section Sh Us s force) (data_add_section s force).
Proof.
  unfold data_add_section. apply simo_edata. intros d d' D1 D2.
  unfold ed_add_section. rewrite D1.
  destruct (force || negb (dmem s (d_data d))); apply simo_put; cbn; congruence.
Qed.

Section Reparse.
Variable reparse : str -> SM obj unit.
Hypothesis reparse_sim : forall s, simo (reparse s) (reparse s).

Lemma simo_parse_owner s force : simo (parse_owner reparse s force) (parse_owner reparse s force).
Proof.
  unfold parse_owner. apply simo_edata. intros d d' D1 D2. rewrite D2.
  destruct (negb (str_mem s (d_checked d)) || force); [|apply simo_ret].
  apply simo_bind; [apply simo_owner_options|]. intros _.
  apply simo_edata. intros e e' E1 E2.
  apply simo_bind; [|intros _; apply reparse_sim].
  apply simo_put; cbn; congruence.
Qed.

Lemma simo_has_section s : simo (data_has_section fs reparse s) (data_has_section fs reparse s).
Proof.
  unfold data_has_section. apply simo_bind; [apply simo_cpd|]. intros i.
  apply simo_bind.
  - destruct (ini_has_section i s); [|apply simo_ret].
    apply simo_edata. intros d d' D1 D2. rewrite D2.
    destruct (str_mem s (d_checked d)); [apply simo_ret|apply simo_parse_owner].
  - intros _. apply simo_edata. intros d d' D1 D2. rewrite D1. apply simo_ret.
Qed.

Lemma simo_data_set s k v : simo (data_set fs reparse s k v) (data_set fs reparse s k v).
Proof.
  unfold data_set. apply simo_bind; [apply simo_has_section|]. intros b.
  apply simo_bind; [destruct b; [apply simo_ret|apply simo_add_section]|]. intros _.
  apply simo_edata. intros d d' D1 D2. unfold ed_put. rewrite D1.
  destruct (dget s (d_data d)); [|apply simo_raise].
  apply simo_put; cbn; congruence.
Qed.
End Reparse.

(** ** Inside a parse *)
Definition simc {A} (m : SM ctx A) : Prop :=
  (forall c, mu (x_obj c) <= mu (x_obj (snd (m c)))) /\
  forall o o' sh p, R o o' ->
    let (r, c1) := m (Ctx o sh p) in
    let (r', c1') := m (Ctx o' sh p) in
    lost r (x_obj c1) \/
    (r' = r /\ R (x_obj c1) (x_obj c1') /\ x_sh c1' = x_sh c1 /\ x_proc c1' = x_proc c1).

Lemma simc_lift {A} (m : SM obj A) : simo m m -> simc (lift m).
Proof.
  intros [G H]. split.
  - intros [o sh p]. unfold lift. cbn [x_obj]. specialize (G o). destruct (m o). exact G.
  - intros o o' sh p HR. unfold lift. cbn [x_obj x_sh x_proc]. specialize (H o o' HR).
    destruct (m o), (m o'). cbn. destruct H as [L|[E1 E2]]; auto.
Qed.
Lemma simc_ret {A} (a : A) : simc (ret a).
Proof. split; [intros c; cbn; lia|]. intros o o' sh p H. cbn. auto. Qed.
Lemma simc_raise {A} e : simc (A := A) (raise e).
Proof. split; [intros c; cbn; lia|]. intros o o' sh p H. cbn. auto. Qed.
Lemma simc_of_res {A} (r : res A) : simc (of_res r).
Proof. split; [intros c; cbn; lia|]. intros o o' sh p H. cbn. auto. Qed.
Lemma simc_bind {A B} (m : SM ctx A) (k : A -> SM ctx B) :
  simc m -> (forall a, simc (k a)) -> simc (bind m k).
Proof.
  intros [Gm Hm] Hk. split.
  - intros c. specialize (Gm c). unfold bind. destruct (m c) as [[a|e] c1]; cbn [snd] in *; [|exact Gm].
    destruct (Hk a) as [Gk _]. specialize (Gk c1). lia.
  - intros o o' sh p HR. specialize (Hm o o' sh p HR). unfold bind.
    destruct (m (Ctx o sh p)) as [[a|e] [o1 sh1 p1]], (m (Ctx o' sh p)) as [r' [o1' sh1' p1']].
    + cbn [x_obj x_sh x_proc] in Hm. destruct Hm as [[[_ [e X]]|L]|[-> [R1 [-> ->]]]]; [discriminate| |].
      * destruct (Hk a) as [Gk _]. specialize (Gk (Ctx o1 sh1 p1)).
        destruct (k a (Ctx o1 sh1 p1)) as [q c2]. cbn [snd x_obj] in Gk.
        destruct r' as [a'|e']; [destruct (k a' _)|]; left; right; lia.
      * destruct (Hk a) as [_ Hk']. exact (Hk' o1 o1' sh1 p1 R1).
    + destruct Hm as [[[X _]|L]|[-> R1]].
      * destruct r' as [a'|e']; [destruct (k a' _)|]; left; left; eauto.
      * destruct r' as [a'|e']; [destruct (k a' _)|]; left; right; exact L.
      * right. auto.
Qed.

(** [get] in the parser is used for [data_internal], the default section's name
    and nothing else. *)
Lemma simc_proc {A} (f : list str -> SM ctx A) :
  (forall p, simc (f p)) -> simc (bind get (fun c => f (x_proc c))).
Proof.
  intros H. split.
  - intros c. unfold bind, get. apply H.
  - intros o o' sh p HR. unfold bind, get. cbn [x_proc]. apply H, HR.
Qed.
Lemma simc_defname {A} (f : str -> SM ctx A) :
  (forall n, simc (f n)) -> simc (bind get (fun c => f (o_defname (x_obj c)))).
Proof.
  intros H. split.
  - intros c. unfold bind, get. apply H.
  - intros o o' sh p HR. unfold bind, get. cbn [x_obj].
    rewrite (sm_defname _ _ (R_same _ _ HR)). apply H, HR.
Qed.

Lemma simo_check_rval r : simo (@check_rval Sh Us r) (check_rval r).
Proof.
  unfold check_rval. destruct r as [z|]; [|(apply R_event; in_use)].
  destruct (z =? 0)%Z; [apply simo_ret|]. destruct (z <=? 10)%Z; (apply R_event; in_use).
Qed.

Lemma simc_decorated hp body : simc body -> simc (decorated hp body).
Proof.
  intros H. unfold decorated.
  apply simc_bind; [apply simc_lift, simo_log|]. intros _.
  apply simc_bind; [exact H|]. intros r.
  apply simc_bind; [apply simc_lift, simo_log|]. intros _.
  apply simc_lift, simo_check_rval.
Qed.

Lemma simc_user (f : hbody Sh Us) sec hp : simc (user_body f sec hp).
Proof.
  split.
  - intros [o sh p]. unfold user_body. cbn [x_obj x_sh x_proc].
    destruct (f sec hp sh (o_user o)) as [[r sh1] us1]. cbn. apply mu_out. reflexivity.
  - intros o o' sh p HR. unfold user_body. cbn [x_obj x_sh x_proc].
    pose proof (R_same _ _ HR) as S. rewrite (sm_user _ _ S).
    destruct (f sec hp sh (o_user o)) as [[r sh1] us1]. right. cbn.
    split; [reflexivity|]. split; [|auto].
    apply (R_cong o o'); auto; [|no_output]. destruct S. split; auto.
Qed.

Section Recursion.
Variable rec : str -> bool -> bool -> SM ctx unit.
Variable reparse : str -> SM obj unit.
Hypothesis rec_sim : forall s i f, simc (rec s i f).
Hypothesis reparse_sim : forall s, simo (reparse s) (reparse s).

Lemma simc_use sec hp : simc (use_body rec sec hp).
Proof.
  unfold use_body. destruct (hp_params hp) as [|t l]; [apply simc_raise|].
  apply simc_proc with (f := fun p => if negb (str_mem t p) then rec t true false ;; ret (Some 0%Z) else _).
  intros p. destruct (negb (str_mem t p)).
  - apply simc_bind; [apply rec_sim|]. intros _. apply simc_ret.
  - apply simc_bind; [apply simc_lift, simo_log|]. intros _.
    apply simc_bind; [apply simc_lift, simo_log|]. intros _.
    apply simc_bind; [apply simc_lift, simo_files|]. intros _.
    apply simc_bind; [apply simc_lift, R_event; in_use|]. intros _. apply simc_ret.
Qed.

Lemma simc_call_attr a sec hp : simc (call_attr rec a sec hp).
Proof.
  unfold call_attr. destruct a as [|[] f| |]; try apply simc_raise.
  - apply simc_decorated, simc_use.
  - apply simc_decorated, simc_user.
  - apply simc_bind; [apply simc_user|]. intros _. apply simc_ret.
  - apply simc_bind; [apply simc_user|]. intros _. apply simc_ret.
Qed.

Lemma simc_call_named n sec hp : simc (call_named K rec n sec hp).
Proof. unfold call_named. destruct (find_attr K n); [apply simc_call_attr|apply simc_raise]. Qed.

Lemma simo_locate op : simo (locate_handler K op) (locate_handler K op).
Proof.
  unfold locate_handler. apply simo_bind.
  - destruct (locate_class_method K ($"_handler_" ++ normalize_op op)),
             (locate_class_method K ($"handler_" ++ normalize_op op));
      first [(apply R_event; in_use) | apply simo_ret].
  - intros _. destruct (locate_class_method K ($"handler_" ++ normalize_op op)); [apply simo_ret|].
    destruct (locate_class_method K ($"_handler_" ++ normalize_op op)); apply simo_ret.
Qed.

Lemma simc_generic hp k v : simc (launch_generic fs reparse hp k v).
Proof.
  unfold launch_generic.
  apply simc_bind; [apply simc_lift, simo_data_set, reparse_sim|]. intros _.
  apply simc_bind; [apply simc_decorated, simc_ret|]. intros _. apply simc_ret.
Qed.

Lemma simc_item sec hp kv : simc (process_item K fs rec reparse sec hp kv).
Proof.
  unfold process_item. apply simc_bind; [apply simc_of_res|]. intros v0.
  apply simc_bind; [apply simc_lift, simo_log|]. intros _.
  apply simc_bind; [apply simc_of_res|]. intros [|t0 l]; [apply simc_raise|].
  destruct (negb (op_word K t0)); [apply simc_generic|].
  apply simc_bind; [apply simc_lift, simo_log|]. intros _.
  apply simc_bind; [apply simc_lift, simo_locate|]. intros [[n a]|]; [|apply simc_generic].
  apply simc_bind; [apply simc_call_attr|]. intros _. apply simc_ret.
Qed.

Lemma simc_items sec l : forall hp, simc (run_items K fs rec reparse sec hp l).
Proof.
  induction l as [|kv l IH]; intros hp; [apply simc_ret|].
  cbn [run_items]. apply simc_bind; [apply simc_item|]. intros hp'. apply IH.
Qed.

Lemma simc_add s : simc (@proc_add Sh Us s).
Proof.
  split; [intros c; cbn; lia|]. intros o o' sh p H. cbn. auto.
Qed.
Lemma simc_remove s : simc (@proc_remove Sh Us s).
Proof.
  split.
  - intros [o sh p]. unfold proc_remove. cbn [x_proc]. destruct (str_mem s p); cbn; lia.
  - intros o o' sh p H. unfold proc_remove. cbn [x_proc]. destruct (str_mem s p); cbn; auto.
Qed.

Lemma simc_body root sec i f : simc (psr_body K fs rec reparse root sec i f).
Proof.
  unfold psr_body. apply simc_bind.
  { destruct (i && str_eqb sec root); [|apply simc_ret].
    apply simc_bind; [apply simc_call_named|]. intros _.
    apply simc_bind; [apply simc_lift, simo_cpd|]. intros c.
    apply simc_defname with (f := fun n => if ini_has_section c n then rec n false false else ret tt).
    intros n. destruct (ini_has_section c n); [apply rec_sim|apply simc_ret]. }
  intros _. apply simc_bind; [apply simc_lift, simo_log|]. intros _.
  apply simc_bind; [apply simc_lift, simo_cpd|]. intros c.
  destruct (ini_items c sec) as [items|].
  - apply simc_bind; [apply simc_lift, simo_add_section|]. intros _.
    apply simc_bind; [apply simc_add|]. intros _.
    apply simc_bind; [apply simc_items|]. intros _.
    apply simc_bind; [destruct (f && str_eqb sec root); [apply simc_call_named|apply simc_ret]|]. intros _.
    apply simc_bind; [apply simc_remove|]. intros _.
    apply simc_lift, simo_log.
  - apply simc_bind; [apply simc_lift, simo_files|]. intros _. apply simc_raise.
Qed.
End Recursion.

Lemma simo_parse_with (p : str -> str -> bool -> bool -> SM ctx unit) :
  (forall r s i f, simc (p r s i f)) ->
  forall s i f, simo (parse_section_with K p s i f) (parse_section_with K p s i f).
Proof.
  intros H s i f. unfold parse_section_with.
  apply simo_bind.
  { apply simo_modify; auto. intros o o' [Sf Sc Sd Sh' Sl Sn Si Su]. split; auto. }
  intros _. destruct (str_eqb s []); [apply simo_raise|].
  apply simo_bind.
  - unfold parse_root. apply simo_edata. intros d d' D1 D2.
    apply simo_bind; [apply simo_put; cbn; congruence|]. intros _.
    destruct (H s s i f) as [G HH]. split.
    + intros o. specialize (G (Ctx o (k_empty K) [])).
      destruct (p s s i f (Ctx o (k_empty K) [])) as [[u|e] c]; exact G.
    + intros o o' HR. specialize (HH o o' (k_empty K) [] HR).
      destruct (p s s i f (Ctx o (k_empty K) [])) as [[u|e] c], (p s s i f (Ctx o' (k_empty K) [])) as [[u'|e'] c'];
        destruct HH as [[[X [e0 Y]]|L]|[E [R1 [E1 E2]]]]; try discriminate;
        try (left; right; exact L); try (left; left; eauto; fail);
        right; (split; [congruence|exact R1]).
  - intros r. apply simo_bind.
    + apply simo_modify; auto. intros o o' [Sf Sc Sd Sh' Sl Sn Si Su]. split; auto.
    + intros _. apply simo_ret.
Qed.

Lemma simc_psr fuel : forall root sec i f, simc (psr K fs fuel root sec i f).
Proof.
  induction fuel as [|n IH]; intros root sec i f; [apply simc_raise|].
  cbn [psr]. apply simc_body; [intros; apply IH|].
  intros s. apply simo_bind; [|intros _; apply simo_ret].
  apply simo_parse_with. intros; apply IH.
Qed.

Variable fuel : nat.

Lemma simo_parse_str s i f : simo (parse_section_str K fs fuel s i f) (parse_section_str K fs fuel s i f).
Proof. unfold parse_section_str. apply simo_parse_with. intros. apply simc_psr. Qed.

Lemma simo_parse s i f : simo (parse_section K fs fuel s i f) (parse_section K fs fuel s i f).
Proof.
  unfold parse_section. destruct s as [s|]; [apply simo_parse_str|].
  apply simo_bind.
  { apply simo_modify; auto. intros o o' [Sf Sc Sd Sh' Sl Sn Si Su]. split; auto. }
  intros _. apply simo_bind; [(apply R_event; in_use)|]. intros _. apply simo_raise.
Qed.

(** ** The accessors *)
Lemma simo_owner s : simo (owner_parse K fs fuel s) (owner_parse K fs fuel s).
Proof. unfold owner_parse. apply simo_bind; [apply simo_parse_str|]. intros _. apply simo_ret. Qed.
Lemma simo_has s : simo (has_section K fs fuel s) (has_section K fs fuel s).
Proof. apply simo_has_section. intros. apply simo_owner. Qed.
Lemma simo_po s force : simo (parse_owner (owner_parse K fs fuel) s force) (parse_owner (owner_parse K fs fuel) s force).
Proof. apply simo_parse_owner. intros. apply simo_owner. Qed.
Lemma simo_section s : simo (@data_section Sh Us s) (data_section s).
Proof.
  unfold data_section. apply simo_edata. intros d d' D1 D2. rewrite D1.
  destruct (dget s (d_data d)); [apply simo_ret|apply simo_raise].
Qed.
Lemma simo_getitem s : simo (getitem K fs fuel s) (getitem K fs fuel s).
Proof.
  unfold getitem. apply simo_bind; [apply simo_has|]. intros [|]; [apply simo_section|apply simo_raise].
Qed.
Lemma simo_has_option s k : simo (has_option K fs fuel s k) (has_option K fs fuel s k).
Proof.
  unfold has_option. apply simo_bind; [apply simo_po|]. intros _.
  apply simo_edata. intros d d' D1 D2. rewrite D1. apply simo_ret.
Qed.
Lemma simo_get s k : simo (data_get K fs fuel s k) (data_get K fs fuel s k).
Proof.
  unfold data_get. apply simo_edata. intros d d' D1 D2. rewrite D2.
  apply simo_bind; [destruct (str_mem s (d_checked d)); [apply simo_ret|apply simo_po]|]. intros _.
  apply simo_bind; [apply simo_has|]. intros [|]; [|apply simo_raise].
  destruct k as [k|].
  - apply simo_bind; [apply simo_has_option|]. intros [|]; [|apply simo_raise].
    apply simo_bind; [apply simo_section|]. intros o. destruct (dget k o); [apply simo_ret|apply simo_raise].
  - apply simo_bind; [apply simo_section|]. intros o. apply simo_ret.
Qed.
Lemma simo_keys : simo (@data_keys Sh Us fs) (data_keys fs).
Proof. unfold data_keys. apply simo_bind; [apply simo_cpd|]. intros i. apply simo_ret. Qed.
Lemma simo_for_each {A} (f : A -> SM obj unit) l : (forall a, simo (f a) (f a)) -> simo (for_each f l) (for_each f l).
Proof.
  intros H. induction l as [|a l IH]; [apply simo_ret|]. cbn [for_each].
  apply simo_bind; [apply H|]. intros _. exact IH.
Qed.
Lemma simo_items_all : simo (data_items_all K fs fuel) (data_items_all K fs fuel).
Proof.
  unfold data_items_all. apply simo_bind; [apply simo_keys|]. intros l.
  apply simo_bind; [apply simo_for_each; intros; apply simo_po|]. intros _.
  apply simo_edata. intros d d' D1 D2. rewrite D1. apply simo_ret.
Qed.
Lemma simo_items s : simo (data_items K fs fuel s) (data_items K fs fuel s).
Proof. unfold data_items. apply simo_bind; [apply simo_keys|]. intros _. apply simo_getitem. Qed.
Lemma simo_sections p : simo (data_sections K fs fuel p) (data_sections K fs fuel p).
Proof.
  assert (G : forall force, simo (l <- data_keys fs ;; for_each (fun s => parse_owner (owner_parse K fs fuel) s force) l ;; data_keys fs)
                                 (l <- data_keys fs ;; for_each (fun s => parse_owner (owner_parse K fs fuel) s force) l ;; data_keys fs)).
  { intros force. apply simo_bind; [apply simo_keys|]. intros l.
    apply simo_bind; [apply simo_for_each; intros; apply simo_po|]. intros _. apply simo_keys. }
  unfold data_sections. destruct p as [[|]|s|]; [apply G|apply simo_keys| |apply simo_raise].
  destruct (str_eqb (lower s) $"force"); [apply G|apply simo_raise].
Qed.
Lemma simo_known : simo (get_known_operations K fs) (get_known_operations K fs).
Proof.
  unfold get_known_operations. apply simo_bind; [apply simo_cpd|]. intros _.
  apply simo_edata. intros d d' _ _. apply simo_bind; [apply simo_files|]. intros _. apply simo_ret.
Qed.
Lemma simo_known_message : simo (get_known_operations_message K fs) (get_known_operations_message K fs).
Proof. unfold get_known_operations_message. apply simo_bind; [apply simo_known|]. intros l. apply simo_ret. Qed.
Lemma simo_assert_section s b : simo (assert_section K fs fuel s b) (assert_section K fs fuel s b).
Proof.
  unfold assert_section. apply simo_bind; [apply simo_get|]. intros [[|x d]|v].
  - apply simo_ret.
  - destruct b; [|apply simo_ret].
    apply simo_bind; [apply simo_files|]. intros l.
    apply simo_bind; [apply simo_known_message|]. intros m.
    apply simo_bind; [(apply R_event; in_use)|]. intros _. apply simo_ret.
  - apply simo_raise.
Qed.
Lemma simo_assert_sections l : forall b, simo (assert_sections K fs fuel l b) (assert_sections K fs fuel l b).
Proof.
  induction l as [|s l IH]; intros b; [apply simo_ret|]. cbn [assert_sections].
  apply simo_bind; [apply simo_assert_section|]. intros [m|]; [|apply IH].
  apply simo_bind; [apply simo_print|]. intros _. apply IH.
Qed.
Lemma simo_assert_file : simo (assert_file K fs fuel) (assert_file K fs fuel).
Proof.
  unfold assert_file. apply simo_bind; [apply simo_sections|]. intros l.
  apply simo_bind; [apply simo_assert_sections|]. intros [|]; [|apply simo_ret].
  apply simo_bind; [apply simo_files|]. intros fl.
  apply simo_bind; [apply simo_known_message|]. intros m.
  apply simo_bind; [apply simo_print|]. intros _.
  apply simo_bind; [(apply R_event; in_use)|]. intros _. apply simo_ret.
Qed.
Lemma simo_generate delim s : simo (generate_section K fs fuel delim s) (generate_section K fs fuel delim s).
Proof.
  unfold generate_section. apply simo_bind; [apply simo_has|]. intros [|]; [|apply simo_raise].
  apply simo_bind; [apply simo_items|]. intros o. apply simo_ret.
Qed.
Lemma simo_generate_all delim l : simo (generate_all K fs fuel delim l) (generate_all K fs fuel delim l).
Proof.
  induction l as [|s l IH]; [apply simo_ret|]. cbn [generate_all].
  apply simo_bind; [apply simo_generate|]. intros t.
  apply simo_bind; [exact IH|]. intros u. apply simo_ret.
Qed.
Lemma simo_level z : simo (@set_level Sh Us z) (set_level z).
Proof.
  split.
  - intros o. cbn. rewrite mu_ec. lia.
  - intros o o' HR. cbn. right. split; [reflexivity|]. apply R_level, HR.
Qed.

Lemma simo_unroll_self s b : simo (unroll_self K fs fuel s b) (unroll_self K fs fuel s b).
Proof.
  set (m := (l <- data_sections K fs fuel (PBool false) ;;
             match s with
             | None => generate_all K fs fuel (if b then $" : " else $":") l
             | Some s => generate_section K fs fuel (if b then $" : " else $":") s
             end)).
  assert (M : simo (set_level 0 ;; m) (set_level 0 ;; m)).
  { apply simo_bind; [apply simo_level|]. intros _. unfold m.
    apply simo_bind; [apply simo_sections|]. intros l.
    destruct s; [apply simo_generate|apply simo_generate_all]. }
  assert (E : forall o, unroll_self K fs fuel s b o =
    match (set_level 0 ;; m) o with
    | (Ok t, o1) => (Ok (strip_ws t ++ newline), set_ec (ec_set_level (ec_level (o_ec o)) (o_ec o1)) o1)
    | (Err e, o1) => (Err e, o1)
    end).
  { intros o. unfold unroll_self, m, bind, get. destruct (set_level 0 o) as [[u|e] o1]; [|reflexivity].
    destruct (data_sections K fs fuel (PBool false) o1) as [[l|e] o2]; [|reflexivity].
    destruct s; match goal with |- context[match ?x with _ => _ end] => destruct x as [[t|e] o3] end; reflexivity. }
  destruct M as [G H]. split.
  - intros o. rewrite E. specialize (G o). destruct ((set_level 0 ;; m) o) as [[t|e] o1]; cbn [snd] in *; [|exact G].
    rewrite mu_ec. exact G.
  - intros o o' HR. rewrite !E. specialize (H o o' HR).
    destruct ((set_level 0 ;; m) o) as [[t|e] o1], ((set_level 0 ;; m) o') as [[t'|e'] o1'];
      destruct H as [[[X [e0 Y]]|L]|[E1 R1]]; try discriminate;
      try (left; right; rewrite ?mu_ec; exact L); try (left; left; eauto; fail); try (right; auto; fail).
    right. injection E1 as ->. split; [reflexivity|]. apply R_restore; assumption.
Qed.

Lemma simo_unroll_base s b : simo (unroll_to_str K fs fuel s b true) (unroll_to_str K fs fuel s b true).
Proof.
  unfold unroll_to_str. split.
  - intros o. destruct (o_files o) as [fl|]; [|cbn; lia].
    destruct (unroll_self _ _ _ _ _ _) as [r p]. cbn. eapply mu_cong. reflexivity.
  - intros o o' HR. pose proof (R_same _ _ HR) as S. rewrite (sm_files _ _ S).
    destruct (o_files o) as [fl|]; [|right; auto].
    destruct (unroll_self _ _ _ _ _ _) as [r p]. right. split; [reflexivity|].
    apply (R_cong o o'); auto; [|eexists; split; reflexivity].
    destruct S. split; auto.
Qed.

Lemma simo_debug z z' : simo (@set_debug_level Sh Us z) (set_debug_level z').
Proof. apply simo_modify; auto. intros o o' [Sf Sc Sd Sh' Sl Sn Si Su]. split; auto. Qed.

Lemma simo_fmap {A} (f : A -> answer) (m : SM obj A) : simo m m -> simo (fmap f m) (fmap f m).
Proof. intros H. unfold fmap. apply simo_bind; [exact H|]. intros a. apply simo_ret. Qed.

Lemma simo_op c : simo (exec_op K fs fuel c) (exec_op K fs fuel c).
Proof.
  destruct c; cbn [exec_op]; apply simo_fmap.
  - apply simo_parse_str.
  - unfold parse_all_sections. apply simo_bind; [apply simo_sections|]. intros _. apply simo_ret.
  - apply simo_getitem.
  - apply simo_getitem.
  - apply simo_get.
  - apply simo_has.
  - apply simo_has_option.
  - apply simo_items_all.
  - apply simo_items.
  - apply simo_sections.
  - apply simo_keys.
  - unfold data_len. apply simo_bind; [apply simo_keys|]. intros l. apply simo_ret.
  - apply simo_assert_section.
  - apply simo_assert_file.
  - apply simo_unroll_self.
  - apply simo_known.
  - apply simo_level.
  - apply simo_debug.
Qed.

Lemma simo_append l : simo (@append_paths Sh Us l) (append_paths l).
Proof.
  induction l as [|[p|] l IH]; [apply simo_ret| |]; cbn [append_paths].
  - apply simo_bind; [|intros _; exact IH].
    apply simo_modify; auto. intros o o' [Sf Sc Sd Sh' Sl Sn Si Su]. split; auto. cbn. rewrite Sf. reflexivity.
  - apply simo_bind; [apply simo_print|]. intros _. apply simo_raise.
Qed.

Lemma simo_inifilepath a : simo (@set_inifilepath Sh Us a) (set_inifilepath a).
Proof.
  unfold set_inifilepath. destruct a as [p|l|]; [| |(apply R_event; in_use)].
  all: apply simo_bind; [|intros _; apply simo_bind; [|intros _; apply simo_append]].
  all: apply simo_modify; auto;
    try (intros o; destruct (o_files o); reflexivity);
    intros o o' [Sf Sc Sd Sh' Sl Sn Si Su]; rewrite ?Sf; try destruct (o_files o) eqn:Ef;
    split; first [assumption | reflexivity | cbn; congruence].
Qed.

Lemma simo_delims v : simo (@set_configparser_delimiters Sh Us v) (set_configparser_delimiters v).
Proof.
  unfold set_configparser_delimiters. destruct v as [ds|]; [|(apply R_event; in_use)].
  apply simo_bind; [|intros _]; apply simo_modify; auto;
    intros o o' [Sf Sc Sd Sh' Sl Sn Si Su]; split; auto.
Qed.

Lemma simo_call c : simo (exec_call K fs fuel c) (exec_call K fs fuel c).
Proof.
  assert (P : forall A (f : A -> reply Sh) m, simo m m -> simo (pmap f m) (pmap f m)).
  { intros A f m H. unfold pmap. apply simo_bind; [exact H|]. intros a. apply simo_ret. }
  destruct c; cbn [exec_call]; apply P.
  - apply simo_op.
  - apply simo_parse.
  - apply simo_unroll_base.
  - unfold has_section_no_parse. apply simo_edata. intros d d' D1 D2. rewrite D1. apply simo_ret.
  - apply simo_add_section.
  - unfold data_set_user. apply simo_data_set. intros; apply simo_owner.
  - apply simo_inifilepath.
  - apply simo_delims.
  - unfold set_default_section_name. destruct v as [n|]; [|apply simo_raise].
    apply simo_modify; auto. intros o o' [Sf Sc Sd Sh' Sl Sn Si Su]. split; auto.
Qed.

Lemma replies_grow h : forall o, mu o <= mu (snd (replies K fs fuel h o)).
Proof.
  induction h as [|c h IH]; intros o; cbn [replies]; [cbn; lia|].
  destruct (simo_call c) as [G _]. specialize (G o). destruct (exec_call K fs fuel c o) as [r o1].
  specialize (IH o1). destruct (replies K fs fuel h o1) as [l o2]. cbn [snd] in *. lia.
Qed.

(** A whole history. *)
Lemma replies_sim h : forall o o', R o o' ->
  (raised = true -> succeeded (fst (replies K fs fuel h o))) ->
  mu (snd (replies K fs fuel h o)) <= n0 ->
  fst (replies K fs fuel h o') = fst (replies K fs fuel h o) /\
  R (snd (replies K fs fuel h o)) (snd (replies K fs fuel h o')).
Proof.
  induction h as [|c h IH]; intros o o' HR HS HM; cbn [replies] in *; [auto|].
  destruct (simo_call c) as [_ H]. specialize (H o o' HR).
  destruct (exec_call K fs fuel c o) as [r o1], (exec_call K fs fuel c o') as [r' o1'].
  pose proof (replies_grow h o1) as G.
  destruct (replies K fs fuel h o1) as [l o2] eqn:E2. cbn [fst snd] in *.
  destruct H as [[[X [e Y]]|L]|[-> R1]].
  - exfalso. destruct (HS X r (or_introl eq_refl)) as [a Ea]. congruence.
  - exfalso. lia.
  - specialize (IH o1 o1' R1). rewrite E2 in IH. cbn [fst snd] in IH.
    destruct (replies K fs fuel h o1') as [l' o2']. cbn [fst snd] in *.
    destruct IH as [-> R2]; auto.
    intros X q Hq. apply (HS X). right. exact Hq.
Qed.
End Generic.

(** ** The debug level *)
Section Debug.
Context {Sh Us : Type} (K : pyclass Sh Us) (fs : str -> option str) (fuel : nat).
Notation obj := (obj Sh Us).

Lemma debug_sim h (o o' : obj) : same_but_debug o o' ->
  fst (replies K fs fuel h o') = fst (replies K fs fuel h o) /\
  same_but_debug (snd (replies K fs fuel h o)) (snd (replies K fs fuel h o')).
Proof.
  intros H.
  apply (replies_sim K fs same_but_debug false (fun _ => 0) 0); auto; try discriminate.
  - intros x x' [S _]. exact S.
  - intros x x' y y' [S [E O]] S' E1 E2 [v [O1 O2]]. split; [exact S'|]. split; congruence.
  - intros ev e _. split; [intros x; cbn; lia|]. intros x x' [S [E O]]. unfold event.
    rewrite E. destruct (ec_event (o_ec x) ev (XClass e) true) as [r out]. right. split; [reflexivity|].
    split; [destruct S; split; auto|]. split; [exact E|]. cbn. congruence.
  - intros x x' y y' [S [E O]] [S' [E' O']]. split; [destruct S'; split; auto|].
    split; [cbn; congruence|exact O'].
  - intros x x' z [S [E O]]. split; [destruct S; split; auto|]. split; [cbn; congruence|exact O].
Qed.

Lemma same_debug_refl (o : obj) : same_but_debug o o.
Proof. repeat split. Qed.
Lemma same_debug_trans (a b c : obj) : same_but_debug a b -> same_but_debug b c -> same_but_debug a c.
Proof.
  intros [[? ? ? ? ? ? ? ?] [? ?]] [[? ? ? ? ? ? ? ?] [? ?]].
  split; [split; etransitivity; eassumption|split; etransitivity; eassumption].
Qed.

Lemma undebugged_sim h : forall (o o' : obj), same_but_debug o o' ->
  fst (replies K fs fuel (undebugged h) o') = replies_to h (fst (replies K fs fuel h o)) /\
  same_but_debug (snd (replies K fs fuel h o)) (snd (replies K fs fuel (undebugged h) o')).
Proof.
  induction h as [|c h IH]; intros o o' H; cbn [replies undebugged filter]; [auto|].
  pose proof (debug_sim [c] o o' H) as D. cbn [replies] in D.
  destruct (no_debug c) eqn:Ec.
  - cbn [replies]. destruct (exec_call K fs fuel c o) as [r o1], (exec_call K fs fuel c o') as [r' o1'].
    cbn [fst snd] in D. destruct D as [D1 D2]. injection D1 as ->. specialize (IH o1 o1' D2).
    unfold undebugged in IH. destruct (replies K fs fuel h o1) as [l o2], (replies K fs fuel (filter no_debug h) o1') as [l' o2'].
    cbn [fst snd replies_to] in *. rewrite Ec. destruct IH as [-> IH]. auto.
  - assert (H1 : same_but_debug (snd (exec_call K fs fuel c o)) o').
    { destruct c as [[]| | | | | | | |]; try discriminate Ec. cbn.
      destruct H as [[? ? ? ? ? ? ? ?] [? ?]]. repeat split; assumption. }
    destruct (exec_call K fs fuel c o) as [r o1]. cbn [snd] in H1. specialize (IH o1 o' H1).
    unfold undebugged in IH. destruct (replies K fs fuel h o1) as [l o2].
    cbn [fst snd replies_to] in *. rewrite Ec. exact IH.
Qed.
End Debug.

(** ** The exception control level *)
Section Level.
Context {Sh Us : Type} (K : pyclass Sh Us) (fs : str -> option str) (fuel : nat).
Notation obj := (obj Sh Us).
Local Open Scope Z_scope.

(** Levels are in range, and the second object raises at most what the first one
    raises. *)
Definition laxer (o o' : obj) : Prop :=
  same_contents o o' /\ level_ok o /\ level_ok o' /\ level_of o' <= level_of o.

Lemma event_levels (s s' : ecs) ev e : ec_level s' <= ec_level s ->
  fst (ec_event s ev (XClass e) true) = Ok tt -> fst (ec_event s' ev (XClass e) true) = Ok tt.
Proof.
  intros L. unfold ec_event. cbn [is_raisable negb].
  destruct (dget (upper ev) event_map) as [req|]; [|discriminate].
  destruct (Z.leb_spec req (ec_level s)); [discriminate|]. intros _.
  destruct (Z.leb_spec req (ec_level s')); [lia|].
  destruct (0 <? ec_level s'); [|reflexivity].
  destruct (negb (ec_silent s') && negb (str_eqb (upper ev) $"SILENT")); reflexivity.
Qed.

Lemma lax_sim h (o o' : obj) : laxer o o' ->
  succeeded (fst (replies K fs fuel h o)) ->
  fst (replies K fs fuel h o') = fst (replies K fs fuel h o) /\
  laxer (snd (replies K fs fuel h o)) (snd (replies K fs fuel h o')).
Proof.
  intros H HS.
  apply (replies_sim K fs laxer true (fun _ => 0%nat) 0%nat); auto.
  - intros x x' [S _]. exact S.
  - intros x x' y y' [S [L1 [L2 L]]] S' E1 E2 _. unfold laxer, level_ok, level_of in *.
    rewrite E1, E2. auto.
  - intros ev e _. split; [intros x; cbn; lia|]. intros x x' [S [L1 [L2 L]]]. unfold event.
    pose proof (event_levels (o_ec x) (o_ec x') ev e L) as EV.
    destruct (ec_event (o_ec x) ev (XClass e) true) as [r out].
    destruct (ec_event (o_ec x') ev (XClass e) true) as [r' out']. cbn [fst] in EV.
    destruct r as [[]|e0]; [|left; left; eauto]. rewrite (EV eq_refl).
    right. split; [reflexivity|]. split; [destruct S; split; auto|]. auto.
  - intros x x' y y' [S [L1 [L2 L]]] [S' _]. split; [destruct S'; split; auto|].
    unfold level_ok, level_of in *. cbn. lia.
  - intros x x' z [S _]. split; [destruct S; split; auto|].
    unfold level_ok, level_of in *. cbn. lia.
Qed.

(** Levels are in range, warnings are not silenced, and at the first object's
    level they are printed, or else it raises whatever the second one raises. *)
Definition watched (o o' : obj) : Prop :=
  same_contents o o' /\ level_ok o /\ level_ok o' /\ ec_silent (o_ec o) = false /\
  (1 <= level_of o \/ level_of o' <= level_of o).

Lemma warnings_app (o o1 : obj) v : o_out o1 = o_out o ++ v ->
  (length (warnings o) <= length (warnings o1))%nat.
Proof. intros E. unfold warnings. rewrite E, flat_map_app, app_length. lia. Qed.

Lemma event_printed (s s' : ecs) ev e : used ev -> 0 <= ec_level s -> ec_silent s = false ->
  1 <= ec_level s \/ ec_level s' <= ec_level s ->
  fst (ec_event s ev (XClass e) true) = Ok tt ->
  fst (ec_event s' ev (XClass e) true) = Ok tt \/
  exists w, snd (ec_event s ev (XClass e) true) = [w].
Proof.
  intros U L0 Q L E. destruct (Z.le_gt_cases (ec_level s') (ec_level s)) as [L'|L'].
  { left. exact (event_levels s s' ev e L' E). }
  right. destruct L as [L|L]; [|lia]. revert E. unfold ec_event. cbn [is_raisable negb].
  destruct (dget (upper ev) event_map) as [req|]; [|discriminate].
  destruct (Z.leb_spec req (ec_level s)); [discriminate|]. intros _.
  destruct (Z.ltb_spec 0 (ec_level s)); [|lia]. rewrite Q.
  assert (X : str_eqb (upper ev) $"SILENT" = false) by (destruct U as [-> | [-> | ->]]; reflexivity).
  rewrite X. cbn. eauto.
Qed.

Lemma strict_sim h (o o' : obj) : watched o o' ->
  succeeded (fst (replies K fs fuel h o)) ->
  warnings (snd (replies K fs fuel h o)) = warnings o ->
  fst (replies K fs fuel h o') = fst (replies K fs fuel h o) /\
  watched (snd (replies K fs fuel h o)) (snd (replies K fs fuel h o')).
Proof.
  intros H HS HW.
  set (n := length (warnings o)).
  enough (X : fst (replies K fs fuel h o') = fst (replies K fs fuel h o) /\
    (watched (snd (replies K fs fuel h o)) (snd (replies K fs fuel h o')) /\
     (n <= length (warnings (snd (replies K fs fuel h o))))%nat)) by tauto.
  apply (replies_sim K fs (fun x x' => watched x x' /\ (n <= length (warnings x))%nat)
           true (fun x => length (warnings x)) n); auto.
  - intros x x' [[S _] _]. exact S.
  - intros x x' y y' [[S [L1 [L2 [Q L]]]] N] S' E1 E2 [v [O1 O2]]. pose proof (warnings_app _ _ _ O1).
    split; [|lia]. unfold watched, level_ok, level_of in *. rewrite E1, E2. auto.
  - apply warnings_app.
  - intros ev e U. split.
    + intros x. unfold event. destruct (ec_event (o_ec x) ev (XClass e) true) as [r out]. cbn [snd].
      eapply warnings_app. reflexivity.
    + intros x x' [[S [L1 [L2 [Q L]]]] N]. unfold event.
      pose proof (event_printed (o_ec x) (o_ec x') ev e U (proj1 L1) Q L) as EV.
      destruct (ec_event (o_ec x) ev (XClass e) true) as [r out].
      destruct (ec_event (o_ec x') ev (XClass e) true) as [r' out']. cbn [fst snd] in EV.
      destruct r as [[]|e0]; [|left; left; eauto].
      destruct (EV eq_refl) as [-> | [w ->]].
      * right. split; [reflexivity|]. split.
        -- split; [destruct S; split; auto|]. auto.
        -- pose proof (warnings_app x (add_out (map OutWarn out) x) (map OutWarn out) eq_refl). lia.
      * left. right. unfold warnings in *. cbn. rewrite flat_map_app, app_length. cbn. lia.
  - intros x x' y y' [[S [L1 [L2 [Q L]]]] N] [[S' [_ [_ [Q' _]]]] N']. split; [|exact N'].
    split; [destruct S'; split; auto|].
    unfold level_ok, level_of in *. cbn. split; [lia|]. split; [lia|]. split; [exact Q'|lia].
  - intros x x' z [[S [L1 [L2 [Q L]]]] N]. split; [|exact N].
    split; [destruct S; split; auto|].
    unfold level_ok, level_of in *. cbn. split; [lia|]. split; [lia|]. split; [exact Q|lia].
  - rewrite HW. reflexivity.
Qed.
End Level.

Section Final.
Context {Sh Us : Type} (K : pyclass Sh Us) (fs : str -> option str) (fuel : nat).
Notation obj := (obj Sh Us).
Local Open Scope Z_scope.

Lemma lenient_all h (o o' : obj) :
  same_contents o o' -> level_ok o -> level_ok o' -> level_of o' <= level_of o ->
  succeeded (fst (replies K fs fuel h o)) ->
  fst (replies K fs fuel h o') = fst (replies K fs fuel h o) /\
  same_contents (snd (replies K fs fuel h o)) (snd (replies K fs fuel h o')).
Proof.
  intros S L L' LE HS. destruct (lax_sim K fs fuel h o o') as [E [S' _]]; auto.
  unfold laxer. auto.
Qed.

Lemma strict_all h (o o' : obj) :
  same_contents o o' -> level_ok o -> level_ok o' ->
  1 <= level_of o -> ec_silent (o_ec o) = false ->
  succeeded (fst (replies K fs fuel h o)) -> warnings (snd (replies K fs fuel h o)) = warnings o ->
  fst (replies K fs fuel h o') = fst (replies K fs fuel h o) /\
  same_contents (snd (replies K fs fuel h o)) (snd (replies K fs fuel h o')).
Proof.
  intros S L L' LE Q HS HW. destruct (strict_sim K fs fuel h o o') as [E [S' _]]; auto.
  unfold watched. auto 6.
Qed.
End Final.
