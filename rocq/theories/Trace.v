(** * Every parse is a sequence of steps, whatever its outcome.

    Complements [psr_parse]: without hypotheses about recursion limit or default
    section, a call of the parser performs some list of steps of the file and
    possibly ends at the recursion limit. *)
From Coq Require Import String NArith ZArith List Bool Lia Arith.
Import ListNotations.
From Verif Require Import PyBase PyFacts Shlex IniView IniRead ExcControl Debuggable Cpe
  SpecText SpecFile SpecShell ShellProofs FileProofs SpecWalk MeaningProofs SpecRun Refine RefineRoot RefineOk RunProofs.
Local Open Scope sm_scope.

Section Trace.
Context {Sh Us : Type} (K : pyclass Sh Us) (fs : str -> option str) (i : ini).
Notation ev := (ev Sh Us).
Notation obj := (obj Sh Us).
Notation ctx := (ctx Sh Us).

(** Steps that come from an option do come from an option of the file. *)
Definition from_file (e : ev) : Prop :=
  exists s items item, ini_items i s = Some items /\ In item items /\ meaning K s item (MStep e).
Definition legit (e : ev) : Prop :=
  match e with
  | SpecWalk.Plain _ _ _ _ | Call _ _ _ _ _ _ | Stop _ _ => from_file e
  | Enter s => ini_items i s <> None
  | _ => True
  end.

Definition tail (t : bool) : SM ctx unit := if t then raise RecursionError else ret tt.

Definition T (root : str) (m : SM ctx unit) (c : ctx) : Prop :=
  exists evs t, Forall legit evs /\ m c = (exec K fs root evs ;; tail t) c.

Lemma T_ext root m m' c : m' c = m c -> T root m c -> T root m' c.
Proof. intros E (evs & t & L & H). exists evs, t. split; auto. congruence. Qed.

Lemma T_ret root c : T root (ret tt) c.
Proof. exists [], false. split; auto. Qed.

Lemma T_exec root evs c : Forall legit evs -> T root (exec K fs root evs) c.
Proof.
  intros L. exists evs, false. split; auto. unfold tail, bind.
  destruct (exec K fs root evs c) as [[[]|e] c1]; reflexivity.
Qed.

Lemma T_ev root e c : legit e -> T root (exec_ev K fs root e) c.
Proof.
  intros L. apply T_ext with (m := exec K fs root [e]).
  - cbn [exec]. unfold bind. destruct (exec_ev K fs root e c) as [[[]|x] c1]; reflexivity.
  - apply T_exec. repeat constructor; auto.
Qed.

Lemma T_bind root (m k : SM ctx unit) c :
  T root m c -> (forall c1, m c = (Ok tt, c1) -> T root k c1) -> T root (m ;; k) c.
Proof.
  intros (evs & t & L & E) H. destruct (m c) as [[[]|x] c1] eqn:M.
  - destruct (H c1 eq_refl) as (evs2 & t2 & L2 & E2).
    symmetry in E. apply bind_Ok in E as (u & c2 & E1 & E0).
    destruct t; [discriminate|]. inversion E0; subst. destruct u.
    exists (evs ++ evs2), t2. split; [apply Forall_app; auto|].
    unfold bind at 1. rewrite M, E2. unfold bind at 1 2. rewrite exec_app. unfold bind.
    now rewrite E1.
  - exists evs, t. split; auto. unfold bind at 1. rewrite M. exact E.
Qed.

Lemma run_items_trace D root rec reparse s its :
  (forall s init fin, keeps (goodd i D root) (rec s init fin)) ->
  (forall s init fin c, goodd i D root c -> T root (rec s init fin) c) ->
  ini_items i s = Some its ->
  forall items hp c, (forall x, In x items -> In x its) -> hp_root hp = root -> goodd i D root c ->
  T root (run_items K fs rec reparse s hp items ;; ret tt) c.
Proof.
  intros HK H HI items. induction items as [|item items IH]; intros hp c IN R G; [apply T_ret|].
  cbn [run_items].
  assert (IN' : forall x, In x items -> In x its) by (intros; apply IN; now right).
  destruct (meaning_total K s item) as [[e|t h k v] M].
  - destruct (process_step K fs i rec reparse root s hp item e c M (proj1 G) R) as (hp' & R' & E).
    eapply T_ext.
    { rewrite !bind_assoc. rewrite (bind_first _ _ _ c E), bind_assoc. reflexivity. }
    apply T_bind.
    { apply T_ev. assert (from_file e) by (exists s, its, item; split; [|split]; auto; apply IN; now left).
      destruct e; auto; (exact I || inversion M). }
    intros c1 E1. eapply T_ext; [rewrite bind_ret; reflexivity|].
    apply IH; auto. eapply goodd_Ok; [apply goodd_ev|exact G|exact E1].
  - destruct (process_use K fs rec reparse root s hp item t h k v c M R) as (hp' & R' & E).
    destruct (str_mem t (x_proc c)).
    + eapply T_ext.
      { rewrite !bind_assoc. rewrite (bind_first _ _ _ c E), bind_assoc. reflexivity. }
      apply T_bind; [apply T_ev; exact I|].
      intros c1 E1. eapply T_ext; [rewrite bind_ret; reflexivity|].
      apply IH; auto. eapply goodd_Ok; [apply goodd_ev|exact G|exact E1].
    + eapply T_ext.
      { rewrite !bind_assoc. rewrite (bind_first _ _ _ c E), !bind_assoc. reflexivity. }
      apply T_bind; [apply T_ev; exact I|]. intros c1 E1.
      assert (G1 : goodd i D root c1) by (eapply goodd_Ok; [apply goodd_ev|exact G|exact E1]).
      eapply T_ext; [rewrite !bind_assoc; reflexivity|].
      apply T_bind; [now apply H|]. intros c2 E2.
      assert (G2 : goodd i D root c2) by (eapply goodd_Ok; [apply HK|exact G1|exact E2]).
      eapply T_ext; [rewrite !bind_assoc; reflexivity|].
      apply T_bind; [apply T_ev; exact I|]. intros c3 E3.
      eapply T_ext; [rewrite bind_ret; reflexivity|].
      apply IH; auto. eapply goodd_Ok; [apply goodd_ev|exact G2|exact E3].
Qed.

Lemma psr_trace D root fuel : forall s init fin c, goodd i D root c ->
  T root (psr K fs fuel root s init fin) c.
Proof.
  induction fuel as [|fuel IH]; intros s init fin c G.
  { exists [], true. split; auto. }
  cbn [psr]. set (reparse := fun s : str => _). eapply T_ext; [apply psr_body_split|].
  pose proof (psr_keeps K fs i D root fuel) as HK.
  apply T_bind.
  { destruct (init && str_eqb s root); [|apply T_ret].
    apply T_bind.
    { apply T_ext with (m := exec_ev K fs root (Hook s $"handler_initialize")); [apply call_named_hook|].
      apply T_ev. exact I. }
    intros c1 E1. rewrite call_named_hook in E1.
    assert (G1 : goodd i D root c1) by (eapply goodd_Ok; [apply goodd_hook|exact G|exact E1]).
    eapply T_ext; [rewrite (bind_cpd fs i) by apply G1; reflexivity|].
    eapply T_ext; [rewrite bind_get; reflexivity|].
    destruct (ini_has_section i (o_defname (x_obj c1))); [now apply IH|apply T_ret]. }
  intros c1 E1.
  assert (G1 : goodd i D root c1).
  { destruct (init && str_eqb s root); [|inversion E1; subst; exact G].
    apply bind_Ok in E1 as (u2 & c2 & E2 & E1). rewrite call_named_hook in E2.
    assert (G2 : goodd i D root c2) by (eapply goodd_Ok; [apply goodd_hook|exact G|exact E2]).
    rewrite (bind_cpd fs i) in E1 by apply G2. rewrite bind_get in E1.
    destruct (ini_has_section i (o_defname (x_obj c2))); [|inversion E1; subst; exact G2].
    eapply goodd_Ok; [apply HK|exact G2|exact E1]. }
  clear E1 G c. rename c1 into c, G1 into G.
  destruct (ini_items i s) as [items|] eqn:IT.
  - apply T_ext with (m := exec_ev K fs root (Enter s) ;;
      (run_items K fs (psr K fs fuel root) reparse s (new_hp root) items ;; ret tt) ;;
      (if fin && str_eqb s root then exec_ev K fs root (Hook s $"handler_finalize") else ret tt) ;;
      exec_ev K fs root (Leave s)).
    { unfold section_part. cbn [exec_ev]. sm.
      rewrite !(bind_cpd fs i) by apply G. rewrite IT. sm.
      apply bind_ext; auto. intros u1 c1 E1. sm. apply bind_ext; auto. intros u2 c2 E2.
      rewrite bind_unit. apply bind_ext; auto. }
    apply T_bind; [apply T_ev; cbn [legit]; rewrite IT; discriminate|]. intros c1 E1.
    assert (G1 : goodd i D root c1) by (eapply goodd_Ok; [apply goodd_ev|exact G|exact E1]).
    apply T_bind.
    { eapply run_items_trace; eauto. }
    intros c2 E2. apply T_bind; [destruct (fin && _); [apply T_ev; exact I|apply T_ret]|].
    intros c3 E3. apply T_ev. exact I.
  - apply T_ext with (m := exec_ev K fs root (Missing s)); [|apply T_ev; exact I].
    unfold section_part. cbn [exec_ev]. sm. rewrite !(bind_cpd fs i) by apply G. rewrite IT. sm.
Qed.

(** ** From an object whose file is not loaded yet *)
Definition onl {A} (p : res A * ctx) : res A * ctx := (fst p, loaded i (snd p)).
Definition comm {A} (m : SM ctx A) : Prop := forall c, m (loaded i c) = onl (m c).

Lemma comm_bind {A B} (m : SM ctx A) (k : A -> SM ctx B) :
  comm m -> (forall a, comm (k a)) -> comm (bind m k).
Proof.
  intros H1 H2 c. unfold bind. rewrite H1. destruct (m c) as [[a|e] c1]; cbn; auto. apply H2.
Qed.
Lemma comm_ret {A} (a : A) : comm (ret a).
Proof. intros c. reflexivity. Qed.
Lemma comm_raise {A} e : comm (@raise ctx A e).
Proof. intros c. reflexivity. Qed.
Lemma comm_log e : comm (lift (log e)).
Proof. intros c. reflexivity. Qed.
Lemma comm_event n e : comm (lift (event n e)).
Proof.
  intros c. unfold lift, event, onl, loaded. cbn [x_obj o_ec set_cpd x_sh x_proc].
  destruct (ec_event (o_ec (x_obj c)) n (XClass e) true). reflexivity.
Qed.
Lemma comm_user f s hp : comm (user_body f s hp).
Proof.
  intros c. unfold user_body, onl, loaded. cbn.
  destruct (f s hp (x_sh c) (o_user (x_obj c))) as [[r sh] us]. reflexivity.
Qed.
Lemma comm_check r : comm (lift (check_rval r)).
Proof.
  unfold check_rval. destruct r as [z|]; [|apply comm_event].
  destruct (z =? 0)%Z; [intros c; reflexivity|]. destruct (z <=? 10)%Z; apply comm_event.
Qed.
Lemma comm_decorated hp body : comm body -> comm (decorated hp body).
Proof.
  intros H. unfold decorated. apply comm_bind; [apply comm_log|intros _].
  apply comm_bind; [exact H|intros r]. apply comm_bind; [apply comm_log|intros _]. apply comm_check.
Qed.
Lemma comm_hook r s name : comm (exec_hook K r s name).
Proof.
  unfold exec_hook. destruct (find_attr K name) as [[|[] f| |]|]; try apply comm_raise;
    try (apply comm_decorated); try apply comm_raise; try apply comm_user.
  all: apply comm_bind; [apply comm_user|intros _; apply comm_ret].
Qed.

Lemma loaded_good root (c : ctx) : good i root c -> loaded i c = c.
Proof.
  intros [C _]. destruct c as [o sh p]. unfold loaded. cbn in *. rewrite <- C. now destruct o.
Qed.
Lemma loaded_loaded (c : ctx) : loaded i (loaded i c) = loaded i c.
Proof. reflexivity. Qed.

Lemma bind_eq {S A B} (m : SM S A) (k : A -> SM S B) c :
  bind m k c = match m c with (Ok a, c1) => k a c1 | (Err e, c1) => (Err e, c1) end.
Proof. reflexivity. Qed.

Lemma psr_loaded_cases fuel root init fin c : ready fs i root c ->
  psr K fs fuel root root init fin (loaded i c) = psr K fs fuel root root init fin c \/
  psr K fs fuel root root init fin (loaded i c) = onl (psr K fs fuel root root init fin c) /\
  ready fs i root (snd (psr K fs fuel root root init fin c)).
Proof.
  intros R. destruct fuel as [|f]; [right; auto|].
  cbn [psr]. set (reparse := fun s : str => _). rewrite !psr_body_split, str_eqb_refl, andb_true_r.
  destruct init.
  - rewrite !bind_assoc in *.
    pose proof (comm_hook root root $"handler_initialize" c) as CH.
    pose proof (ready_hook K fs i root root root $"handler_initialize" c R) as RH.
    rewrite (bind_first _ _ _ _ (call_named_hook K (psr K fs f root) $"handler_initialize" root root (loaded i c))) in *.
    rewrite (bind_first _ _ _ _ (call_named_hook K (psr K fs f root) $"handler_initialize" root root c)) in *.
    rewrite !(bind_eq (exec_hook K root root $"handler_initialize")) in *. rewrite CH in *.
    destruct (exec_hook K root root $"handler_initialize" c) as [[u|e] c1]; cbn [onl fst snd] in *; [left|right].
    + rewrite !bind_assoc. rewrite !(bind_cpd_ready fs i root); auto.
      apply good_ready, (good_loaded fs), RH.
    + split; [reflexivity|exact RH].
  - left. sm. unfold section_part. sm.
    rewrite !(bind_cpd_ready fs i root) by (apply ready_logc; auto; apply good_ready, (good_loaded fs), R).
    reflexivity.
Qed.

Lemma psr_loaded fuel root init fin c : ready fs i root c ->
  psr K fs fuel root root init fin (loaded i c) = onl (psr K fs fuel root root init fin c) /\
  ready fs i root (snd (psr K fs fuel root root init fin c)).
Proof.
  intros R. destruct (psr_loaded_cases fuel root init fin c R) as [E|E]; auto.
  assert (G : goodd i (o_defname (x_obj c)) root (loaded i c)) by (split; [apply (good_loaded fs), R|reflexivity]).
  pose proof (psr_keeps K fs i _ root fuel root init fin _ G) as G'. rewrite E in *. split.
  - destruct (psr K fs fuel root root init fin c) as [r c']. unfold onl. cbn in *.
    now rewrite (loaded_good root) by apply G'.
  - apply good_ready, G'.
Qed.

(** ** The data after any parse *)
Definition dview (c : ctx) : sections_data * list str := (data_of (x_obj c), checked_of (x_obj c)).
Definition keeps_data {A} (m : SM ctx A) : Prop := forall c, dview (snd (m c)) = dview c.
Lemma kd_ret {A} (a : A) : keeps_data (ret a).
Proof. intros c. reflexivity. Qed.
Lemma kd_raise {A} e : keeps_data (@raise ctx A e).
Proof. intros c. reflexivity. Qed.
Lemma kd_bind {A B} (m : SM ctx A) (k : A -> SM ctx B) :
  keeps_data m -> (forall a, keeps_data (k a)) -> keeps_data (bind m k).
Proof.
  intros H1 H2 c. unfold bind. specialize (H1 c). destruct (m c) as [[a|e] c1]; auto.
  rewrite H2. exact H1.
Qed.
Lemma kd_log e : keeps_data (lift (log e)).
Proof. intros c. reflexivity. Qed.
Lemma kd_event n e : keeps_data (lift (event n e)).
Proof. intros c. unfold lift, event. now destruct (ec_event _ _ _ _). Qed.
Lemma kd_get_files : keeps_data (lift get_files).
Proof. intros c. unfold lift, get_files. now destruct (o_files _). Qed.
Lemma get_cpd_edata (o : obj) : o_edata (snd (get_cpd fs o)) = o_edata o.
Proof.
  unfold get_cpd. destruct (o_cpd o); auto. cbn. destruct (o_files o) as [[|f fl]|]; auto.
  destruct (forallb _ _); auto. destruct (read_files _ _ _) as [[u|[]] j]; auto.
Qed.
Lemma kd_get_cpd : keeps_data (lift (get_cpd fs)).
Proof.
  intros c. unfold lift. destruct (get_cpd fs (x_obj c)) as [r o] eqn:E. cbn.
  unfold dview, data_of, checked_of. cbn. pose proof (get_cpd_edata (x_obj c)) as H. rewrite E in H. cbn in H. now rewrite H.
Qed.
Lemma kd_begin_op h k v : keeps_data (lift (begin_op h k v)).
Proof.
  intros c. destruct (does_begin_op fs (Ini [] [] []) h k v c) as (c' & E & F). rewrite E.
  destruct F. unfold dview. cbn. congruence.
Qed.
Lemma kd_check r : keeps_data (lift (check_rval r)).
Proof.
  unfold check_rval. destruct r as [z|]; [|apply kd_event].
  destruct (z =? 0)%Z; [intros c; reflexivity|]. destruct (z <=? 10)%Z; apply kd_event.
Qed.
Lemma kd_user f s hp : keeps_data (user_body f s hp).
Proof. intros c. unfold user_body. now destruct (f s hp _ _) as [[r sh] us]. Qed.
Lemma kd_proc_add s : keeps_data (proc_add s).
Proof. intros c. reflexivity. Qed.
Lemma kd_proc_remove s : keeps_data (proc_remove s).
Proof. intros c. unfold proc_remove. now destruct (str_mem _ _). Qed.
Ltac kd := repeat first
  [ apply kd_ret | apply kd_raise | apply kd_log | apply kd_event | apply kd_get_files
  | apply kd_get_cpd | apply kd_begin_op | apply kd_check | apply kd_user | apply kd_proc_add
  | apply kd_proc_remove | apply kd_bind; [|intros ?] ].
Lemma kd_hook r s name : keeps_data (exec_hook K r s name).
Proof.
  unfold exec_hook, decorated. destruct (find_attr K name) as [[|[] f| |]|]; kd.
Qed.

(** A step either has its data effect or none. *)
Lemma exec_ev_data root e c :
  dview (snd (exec_ev K fs root e c)) = dview c \/
  dview (snd (exec_ev K fs root e c)) = (data_step root (data_of (x_obj c)) e, checked_of (x_obj c)).
Proof.
  destruct e as [s|s|s|s w k v|s h kind f k v|s t h k v|s t h k v|s t h k v|s []|s name];
    cbn [data_step]; try (left; cbn [exec_ev]; unfold decorated; kd; fail).
  - cbn [exec_ev]. sm. rewrite bind_eq.
    match goal with |- context [lift (get_cpd fs) ?c1] =>
      pose proof (kd_get_cpd c1) as H; destruct (lift (get_cpd fs) c1) as [[j|e] c2] end.
    + right. destruct (does_add_section fs i s c2) as (c3 & E3 & F3).
      rewrite bind_eq, E3. destruct F3. cbn [snd] in H. injection H as H1 H2.
      rewrite H1 in ef_data. rewrite H2 in ef_checked. unfold dview.
      exact (f_equal2 pair ef_data ef_checked).
    + left. exact H.
  - right. cbn [exec_ev]. sm. rewrite bind_eq.
    assert (W : exists c2, (match w with None => ret tt | Some (op, ps) => lift (log (LOperation op ps)) end)
       (logc (LKeyValue k v) c) = (Ok tt, c2) /\ dview c2 = dview c).
    { destruct w as [[op ps]|]; eexists; split; reflexivity. }
    destruct W as (c2 & E2 & D2). rewrite E2.
    destruct (does_put_plain fs i root k v c2) as (c3 & E3 & F3).
    rewrite bind_eq, E3. destruct F3. injection D2 as H1 H2.
    rewrite H1 in ef_data. rewrite H2 in ef_checked. unfold dview.
    exact (f_equal2 pair ef_data ef_checked).
  - left. cbn [exec_ev]. unfold decorated. destruct kind; kd.
  - left. apply kd_hook.
Qed.

Lemma exec_data root evs : forall c,
  exists es, incl es evs /\
    dview (snd (exec K fs root evs c)) = (data_after root es (data_of (x_obj c)), checked_of (x_obj c)).
Proof.
  induction evs as [|e evs IH]; intros c.
  - exists []. split; [intros x []|reflexivity].
  - cbn [exec]. pose proof (exec_ev_data root e c) as H. unfold bind.
    destruct (exec_ev K fs root e c) as [[u|x] c1]; cbn [snd] in *.
    + destruct (IH c1) as (es & I & E).
      destruct H as [H|H]; unfold dview in H; injection H as H1 H2; rewrite H1, H2 in E.
      * exists es. split; auto. intros y Hy. right. auto.
      * exists (e :: es). split; [|exact E]. intros y [<-|Hy]; [now left|right; auto].
    + destruct H as [H|H]; rewrite H.
      * exists []. split; [intros y []|reflexivity].
      * exists [e]. split; [|reflexivity]. intros y [<-|[]]. now left.
Qed.

Lemma psr_data fuel root init fin c : ready fs i root c ->
  exists es, Forall legit es /\
    dview (snd (psr K fs fuel root root init fin c)) =
    (data_after root es (data_of (x_obj c)), checked_of (x_obj c)).
Proof.
  intros R. pose proof (proj1 (psr_loaded fuel root init fin c R)) as L.
  destruct (psr_trace (o_defname (x_obj c)) root fuel root init fin (loaded i c)) as (evs & t & LE & E).
  { split; [apply (good_loaded fs), R|reflexivity]. }
  rewrite E in L. destruct (exec_data root evs (loaded i c)) as (es & I & D).
  exists es. split.
  { apply Forall_forall. intros x Hx. eapply Forall_forall in LE; eauto. }
  change (data_of (x_obj c)) with (data_of (x_obj (loaded i c))).
  change (checked_of (x_obj c)) with (checked_of (x_obj (loaded i c))). rewrite <- D.
  destruct (psr K fs fuel root root init fin c) as [r c']. unfold onl in L. cbn [fst snd] in *.
  change (dview c') with (dview (loaded i c')).
  apply (f_equal snd) in L. cbn in L. rewrite <- L.
  unfold tail. unfold bind. destruct (exec K fs root evs (loaded i c)) as [[u|x] c2]; auto.
  now destruct t.
Qed.
Lemma psr_conf root fuel : forall init fin c, ready fs i root c ->
  conf (x_obj (snd (psr K fs fuel root root init fin c))) = conf (x_obj c).
Proof.
  intros init fin c R. pose proof (proj1 (psr_loaded fuel root init fin c R)) as L.
  destruct (psr_trace (o_defname (x_obj c)) root fuel root init fin (loaded i c)) as (evs & t & LE & E).
  { split; [apply (good_loaded fs), R|reflexivity]. }
  rewrite E in L. pose proof (conf_exec K fs root evs (loaded i c)) as CE.
  change (conf (x_obj c)) with (conf (x_obj (loaded i c))). rewrite <- CE.
  destruct (psr K fs fuel root root init fin c) as [r c']. unfold onl in L. cbn [fst snd] in *.
  change (conf (x_obj c')) with (conf (x_obj (loaded i c'))).
  apply (f_equal snd) in L. cbn in L. rewrite <- L.
  unfold tail. unfold bind. destruct (exec K fs root evs (loaded i c)) as [[u|x] c2]; auto.
  now destruct t.
Qed.
End Trace.

Section NoFile.
Context {Sh Us : Type} (K : pyclass Sh Us) (fs : str -> option str).
Notation obj := (obj Sh Us).
Notation ctx := (ctx Sh Us).

(** When the file cannot be loaded, only the initialisation handler runs. *)
Definition no_file (o : obj) : Prop := exists x, fst (get_cpd fs o) = Err x.

Lemma file_or_not (o : obj) : (exists i, has_file fs o i) \/ no_file o.
Proof.
  unfold has_file, no_file. destruct (fst (get_cpd fs o)) as [i|e]; [left|right]; eauto.
Qed.

Lemma psr_no_file fuel root init fin c : no_file (x_obj c) ->
  exists x, fst (psr K fs fuel root root init fin c) = Err x /\
    dview (snd (psr K fs fuel root root init fin c)) = dview c /\
    conf (x_obj (snd (psr K fs fuel root root init fin c))) = conf (x_obj c).
Proof.
  intros (x & N). destruct fuel as [|f]; [exists RecursionError; auto|].
  cbn [psr]. set (reparse := fun s : str => _). rewrite psr_body_split, str_eqb_refl, andb_true_r.
  assert (Q : forall c1 : ctx, fst (get_cpd fs (x_obj c1)) = Err x -> forall A (k : ini -> SM ctx A),
    fst (bind (lift (get_cpd fs)) k c1) = Err x /\
    dview (snd (bind (lift (get_cpd fs)) k c1)) = dview c1 /\
    conf (x_obj (snd (bind (lift (get_cpd fs)) k c1))) = conf (x_obj c1)).
  { intros c1 N1 A k. pose proof (kd_get_cpd fs c1) as H1. pose proof (conf_lift _ (conf_get_cpd fs) c1) as H2.
    unfold bind, lift in *. destruct (get_cpd fs (x_obj c1)) as [[j|e] o]; [discriminate|].
    cbn [fst snd] in *. split; [congruence|]. split; [exact H1|exact H2]. }
  destruct init.
  - rewrite bind_assoc.
    rewrite (bind_first _ _ _ _ (call_named_hook K (psr K fs f root) $"handler_initialize" root root c)).
    pose proof (kd_hook K root root $"handler_initialize" c) as H1.
    pose proof (conf_exec_hook K root root $"handler_initialize" c) as H2.
    assert (ST : stable (fun o : obj => fst (get_cpd fs o) = Err x)).
    { repeat split; intros o l H; rewrite <- H; now apply get_cpd_fst_ext. }
    pose proof (stable_hook K _ root root $"handler_initialize" ST c N) as H3.
    rewrite bind_eq. destruct (exec_hook K root root $"handler_initialize" c) as [[u|e] c1]; cbn [snd] in *.
    + rewrite bind_assoc.
      match goal with |- context [bind (lift (get_cpd fs)) ?k c1] => destruct (Q c1 H3 _ k) as (A & B & C) end.
      exists x. rewrite A, B, C. auto.
    + exists e. auto.
  - sm. unfold section_part. sm.
    match goal with |- context [bind (lift (get_cpd fs)) ?k ?c1] =>
      destruct (Q c1 ltac:(rewrite <- N; now apply get_cpd_fst_ext) _ k) as (A & B & C) end.
    exists x. rewrite A, B, C. auto.
Qed.

(** ** [parse_section], any outcome *)
Theorem parse_section_any fuel s init fin (o : obj) :
  let '(r, o') := parse_section_str K fs fuel s init fin o in
  exists es, data_of o' = data_after s es (data_of o) /\
    checked_of o' = (if str_eqb s [] then checked_of o else sadd s (checked_of o)) /\
    conf (set_last (o_last o) o') = conf o /\
    (es = [] \/ exists i, has_file fs o i /\ Forall (legit K i) es).
Proof.
  destruct (str_eqb_spec s []) as [->|NE].
  { cbn. exists []. auto. }
  rewrite parse_section_start by auto.
  assert (DS : dview (start K o s) = (data_of o, sadd s (checked_of o))).
  { unfold dview, start, data_of, checked_of. cbn. now destruct (o_edata o). }
  assert (CS : conf (x_obj (start K o s)) = conf o) by reflexivity.
  assert (X : exists es, dview (snd (psr K fs fuel s s init fin (start K o s))) =
                         (data_after s es (data_of o), sadd s (checked_of o)) /\
    conf (x_obj (snd (psr K fs fuel s s init fin (start K o s)))) = conf o /\
    (es = [] \/ exists i, has_file fs o i /\ Forall (legit K i) es)).
  { destruct (file_or_not o) as [[i H]|[x N]].
    - pose proof (start_ready K fs i o s H) as R.
      destruct (psr_data K fs i fuel s init fin _ R) as (es & L & D).
      pose proof (psr_conf K fs i s fuel init fin _ R) as C.
      assert (D1 : data_of (x_obj (start K o s)) = data_of o) by exact (f_equal fst DS).
      assert (D2 : checked_of (x_obj (start K o s)) = sadd s (checked_of o)) by exact (f_equal snd DS).
      exists es. rewrite D, C, D1, D2, CS.
      split; [reflexivity|]. split; [reflexivity|]. right. exists i. auto.
    - assert (N' : no_file (x_obj (start K o s))).
      { exists x. rewrite <- N. now apply get_cpd_fst_ext. }
      destruct (psr_no_file fuel s init fin _ N') as (y & _ & B & C).
      exists []. rewrite B, C, DS, CS. split; [reflexivity|]. split; [reflexivity|]. now left. }
  destruct X as (es & D & C & L).
  destruct (psr K fs fuel s s init fin (start K o s)) as [[u|e] c']; unfold dview in D; cbn [snd] in *;
    injection D as D1 D2; exists es; (split; [exact D1|]); (split; [exact D2|]); (split; [|exact L]).
  all: rewrite <- C; unfold conf in *; cbn; inversion C; reflexivity.
Qed.

Theorem parse_section_keeps_file fuel s init fin (o : obj) i : has_file fs o i ->
  has_file fs (snd (parse_section_str K fs fuel s init fin o)) i.
Proof.
  intros H. destruct (str_eqb_spec s []) as [->|NE].
  { cbn. unfold has_file in *. rewrite <- H. now apply get_cpd_fst_ext. }
  rewrite parse_section_start by auto.
  pose proof (proj2 (psr_loaded K fs i fuel s init fin _ (start_ready K fs i o s H))) as [R _].
  destruct (psr K fs fuel s s init fin (start K o s)) as [[u|e] c']; cbn [snd] in *; auto.
  unfold has_file. rewrite <- R. now apply get_cpd_fst_ext.
Qed.
End NoFile.
