(** * The texts tell the truth (C94). *)
From Coq Require Import String NArith ZArith List Bool Lia.
Import ListNotations.
From Verif Require Import PyBase PyFacts Shlex IniView IniRead ExcControl Debuggable Cpe SpecText SpecFile FileProofs SpecShell ShellProofs MeaningProofs
  SpecBase SpecWalk SpecRun SpecParse BaseProofs Refine RefineRoot Errors Texts SpecTexts TextsProofs.
Local Open Scope list_scope.

Section T.
Context {Sh Us : Type} (K : pyclass Sh Us) (fs : str -> option str) (cwd : str) (shown_files : list str -> str).
Notation obj := (obj Sh Us).
Notation ctx := (ctx Sh Us).
Variables (i : ini) (fl : list str) (dname root : str) (init0 : bool).
Notation tells := (tells K shown_files i fl dname root init0).
Notation quiet_exc := (silent_exc K i dname root init0).
Notation takes_part u := (contributes K i dname root init0 u).

(** Printed texts and texts of exceptions. *)
Definition printed (w : list str) : Prop := Forall (fun x => exists e m, tells e m /\ warns m x) w.
Definition raised (e : exc) (x : option str) : Prop := match x with Some m => tells e m | None => quiet_exc e end.
Definition triple {S A} (I P : S -> Prop) (t : TM S A) (Q : A -> S -> Prop) : Prop :=
  forall s, P s -> let '(r, s', w) := t s in
    printed w /\ match r with EOk a => Q a s' | EErr e x => I s' /\ raised e x end.

Lemma tr_bind {S A B} (I P : S -> Prop) (t : TM S A) M (k : A -> TM S B) Q :
  triple I P t M -> (forall a, triple I (M a) (k a) Q) -> triple I P (tbind t k) Q.
Proof.
  intros H H' s X. unfold tbind. specialize (H s X). destruct (t s) as [[[a|e x] s1] w]; [|exact H]. destruct H as (W & Y).
  specialize (H' a s1 Y). destruct (k a s1) as [[r s2] w']. destruct H' as (W' & Z). split; [apply Forall_app; auto|exact Z].
Qed.
Lemma tr_ret {S A} (I P : S -> Prop) (a : A) (Q : A -> S -> Prop) : (forall s, P s -> Q a s) -> triple I P (tret a) Q.
Proof. intros H s X. split; [constructor|now apply H]. Qed.
Lemma tr_of {S A} (I P : S -> Prop) (m : SM S A) (Q : A -> S -> Prop) :
  (forall s, P s -> match m s with (Ok a, s') => Q a s' | (Err e, s') => I s' /\ quiet_exc e end) -> triple I P (tof m) Q.
Proof. intros H s X. specialize (H s X). unfold tof. destruct (m s) as [[a|e] s']; (split; [constructor|exact H]). Qed.
Lemma tr_raise {S A} (I P : S -> Prop) e m (Q : A -> S -> Prop) : (forall s, P s -> I s /\ tells e m) -> triple I P (traise e m) Q.
Proof. intros H s X. split; [constructor|]. now apply H. Qed.
Lemma tr_pre {S A} (I P P' : S -> Prop) (t : TM S A) Q : (forall s, P s -> P' s) -> triple I P' t Q -> triple I P t Q.
Proof. intros H T s X. exact (T s (H s X)). Qed.
Lemma tr_post {S A} (I P : S -> Prop) (t : TM S A) (Q Q' : A -> S -> Prop) : (forall a s, Q a s -> Q' a s) -> triple I P t Q -> triple I P t Q'.
Proof. intros H T s X. specialize (T s X). destruct (t s) as [[[a|e x] s1] w]; [destruct T as (W & Y); split; auto|exact T]. Qed.

(** What stays true of the object. *)
Definition io (o : obj) : Prop :=
  has_file fs o i /\ o_files o = Some fl /\ o_defname o = dname /\ exists d, o_edata o = Some d /\ str_mem root (d_checked d) = true.
Lemma io_ext (o o' : obj) : o_files o' = o_files o -> o_cpd o' = o_cpd o -> o_delims o' = o_delims o -> o_intname o' = o_intname o ->
  o_defname o' = o_defname o -> (exists d, o_edata o' = Some d /\ str_mem root (d_checked d) = true) -> io o -> io o'.
Proof.
  intros F C D N E X (H & A & B & _). split; [|split; [congruence|split; [congruence|exact X]]].
  unfold has_file, get_cpd in *. cbn [o_files set_cpd o_delims o_intname] in *. rewrite C. destruct (o_cpd o); [exact H|]. rewrite F, D, N.
  destruct (o_files o) as [[|p l]|]; try exact H. destruct (forallb (file_exists fs) (p :: l)); [|exact H].
  destruct (read_files (o_delims o) (file_texts fs (p :: l)) (Ini [] [] (o_intname o))) as [[[]|e] j]; [exact H|]. destruct e; exact H.
Qed.
Lemma io_log l o : io o -> io (set_log l o).
Proof. intros H. apply (io_ext o); auto. apply H. Qed.
Lemma io_out l o : io o -> io (add_out l o).
Proof. intros H. apply (io_ext o); auto. apply H. Qed.
Lemma io_user u o : io o -> io (set_user u o).
Proof. intros H. apply (io_ext o); auto. apply H. Qed.
Lemma io_last u o : io o -> io (set_last u o).
Proof. intros H. apply (io_ext o); auto. apply H. Qed.
Lemma io_cpd o : io o -> get_cpd fs o = (Ok i, set_cpd (Some i) o) /\ io (set_cpd (Some i) o).
Proof.
  intros (H & A & B & C). split; [now apply get_cpd_ready|]. split; [reflexivity|]. split; [exact A|]. split; [exact B|exact C].
Qed.
Lemma io_edata o : io o -> exists d, get_edata o = (Ok d, o) /\ o_edata o = Some d /\ str_mem root (d_checked d) = true.
Proof. intros (_ & _ & _ & d & E & M). exists d. unfold get_edata. now rewrite E. Qed.

Lemma tr_log e : triple io io (tof (log e)) (fun _ => io).
Proof. apply tr_of. intros o H. unfold log. now apply io_log. Qed.
Lemma tr_event ev e m : tells e m -> In ev [$"WARNING"; $"SERIOUS"; $"CATASTROPHIC"] -> triple io io (tevent ev e m) (fun _ => io).
Proof.
  intros T V o H. unfold tevent.
  assert (X : let (r, out) := ec_event (o_ec o) ev (XClass e) true in match r with Ok _ => True | Err e' => e' = e end).
  { unfold ec_event. cbn [is_raisable negb]. destruct V as [<-|[<-|[<-|[]]]];
      match goal with |- context[dget ?x event_map] => let y := eval vm_compute in (dget x event_map) in change (dget x event_map) with y end; cbn iota;
      destruct (_ <=? ec_level (o_ec o))%Z; try reflexivity; destruct (0 <? ec_level (o_ec o))%Z; try exact Logic.I;
      destruct (negb (ec_silent (o_ec o)) && _); exact Logic.I. }
  destruct (ec_event (o_ec o) ev (XClass e) true) as [r out]. split.
  - clear X. induction out as [|[c v e' []] out IH]; [constructor| |exact IH]. constructor; [exists e, m; split; [exact T|apply shown_warns]|exact IH].
  - destruct r as [[]|e']; [now apply io_out|]. subst e'. split; [now apply io_out|exact T].
Qed.
Lemma tr_files : triple io io tget_files (fun l o => l = fl /\ io o).
Proof. intros o H. unfold tget_files. assert (o_files o = Some fl) as -> by apply H. split; [constructor|]. auto. Qed.
Lemma tr_cpd : triple io io (tget_cpd fs cwd) (fun j o => j = i /\ io o).
Proof.
  intros o H. pose proof (er_cpd fs cwd o) as E. destruct (io_cpd o H) as (C & H'). rewrite C in E.
  assert (W : snd (tget_cpd fs cwd o) = []).
  { unfold tget_cpd. destruct (o_cpd o); [reflexivity|]. destruct (o_files (set_cpd (Some (Ini [] [] (o_intname o))) o)) as [[|p l]|]; try reflexivity.
    destruct (first_missing fs (p :: l)); [reflexivity|]. destruct (read_files _ _ _) as [[[]|e] j]; [reflexivity|]. destruct e; reflexivity. }
  destruct (tget_cpd fs cwd o) as [[r o'] w]. cbn [snd] in W. subst w. unfold forget in E. injection E as R ->. split; [constructor|].
  destruct r as [j|e x]; cbn [unsaid] in R; [|discriminate]. injection R as ->. split; [reflexivity|exact H'].
Qed.

(** [set] on the section of the parse. *)
Lemma tr_set reparse k v : triple io io (tdata_set fs cwd reparse root k v) (fun _ => io).
Proof.
  unfold tdata_set. apply tr_bind with (fun (b : bool) o => io o /\ b = match o_edata o with Some d => dmem root (d_data d) | None => false end).
  - unfold tdata_has_section. eapply tr_bind; [apply tr_cpd|]. intros j. apply tr_pre with io; [tauto|].
    apply tr_bind with (fun _ => io).
    + destruct (ini_has_section j root); [|now apply tr_ret]. apply tr_bind with (fun d o => io o /\ str_mem root (d_checked d) = true).
      * apply tr_of. intros o H. destruct (io_edata o H) as (d & -> & _ & M). auto.
      * intros d o (H & M). rewrite M. split; [constructor|exact H].
    + intros _. apply tr_bind with (fun d o => io o /\ o_edata o = Some d).
      * apply tr_of. intros o H. destruct (io_edata o H) as (d & -> & E & M). auto.
      * intros d. apply tr_ret. intros o (H & ->). auto.
  - intros b. apply tr_bind with (fun _ o => io o /\ exists d, o_edata o = Some d /\ dmem root (d_data d) = true).
    + intros o (H & E). destruct (io_edata o H) as (d & G & D & M). rewrite D in E. destruct b.
      * split; [constructor|]. split; [exact H|]. exists d. auto.
      * unfold tof, data_add_section, bind. rewrite G. cbn [put_edata modify]. split; [constructor|].
        assert (X : ed_add_section root false d = EData (dset root [] (d_data d)) (d_checked d) (d_level d) (d_debug d)) by (unfold ed_add_section; now rewrite <- E).
        cbn [silent]. split.
        -- apply (io_ext o); auto. exists (ed_add_section root false d). split; [reflexivity|]. rewrite X. exact M.
        -- exists (ed_add_section root false d). split; [reflexivity|]. rewrite X. unfold dmem. cbn [d_data]. now rewrite dget_dset_same.
    + intros _ o (H & d & D & M). destruct (io_edata o H) as (d' & G & D' & M'). assert (d' = d) by congruence. subst d'.
      unfold tbind, tof at 1. rewrite G. cbn [silent]. unfold ed_put, dmem in *. destruct (dget root (d_data d)) as [opts|]; [|discriminate].
      cbn [tof put_edata modify silent app]. split; [constructor|]. apply (io_ext o); auto. eexists. split; [reflexivity|exact M'].
Qed.

(** Return values of handlers. *)
Lemma tr_rval name r : (forall z, r = Some z -> z <> 0%Z -> tells RuntimeError (returned name z)) -> triple io io (tcheck_rval name r) (fun _ => io).
Proof.
  intros H. unfold tcheck_rval. destruct r as [z|].
  - destruct (z =? 0)%Z eqn:Z0; [now apply tr_ret|]. apply Z.eqb_neq in Z0. destruct (z <=? 10)%Z; (apply tr_event; [auto|cbn; auto]).
  - apply tr_of. intros o X. unfold event. destruct (ec_event (o_ec o) $"CATASTROPHIC" (XClass TypeError) true) as [r out] eqn:E.
    assert (r = Ok tt \/ r = Err TypeError) as [->| ->].
    { unfold ec_event in E. cbn [is_raisable negb] in E.
      match type of E with context[dget ?x event_map] => let y := eval vm_compute in (dget x event_map) in change (dget x event_map) with y in E end; cbn iota in E.
      destruct (0 <=? ec_level (o_ec o))%Z; [injection E as <- _; auto|]. destruct (0 <? ec_level (o_ec o))%Z; [|injection E as <- _; auto].
      destruct (negb (ec_silent (o_ec o)) && _); injection E as <- _; auto. }
    + now apply io_out.
    + split; [now apply io_out|]. right. right. right. cbn. tauto.
Qed.

(** Contexts: [P] are the sections that are being read. *)
Definition ic (P : str -> Prop) (c : ctx) : Prop := io (x_obj c) /\ forall t, str_mem t (x_proc c) = true <-> P t.
Definition ec (c : ctx) : Prop := io (x_obj c).
Lemma tr_lift {A} P (t : TM obj A) Q : triple io io t (fun a o => Q a /\ io o) -> triple ec (ic P) (tlift t) (fun a c => Q a /\ ic P c).
Proof.
  intros H c (X & Y). specialize (H (x_obj c) X). unfold tlift. destruct (t (x_obj c)) as [[[a|e x] o] w].
  - destruct H as (W & q & Z). split; [exact W|]. split; [exact q|]. split; [exact Z|exact Y].
  - exact H.
Qed.
Lemma tr_lift0 {A} P (t : TM obj A) : triple io io t (fun _ => io) -> triple ec (ic P) (tlift t) (fun _ => ic P).
Proof.
  intros H. apply tr_post with (fun (a : A) c => True /\ ic P c); [tauto|]. apply (tr_lift P t (fun _ => True)).
  apply tr_post with (fun _ : A => io); [tauto|exact H].
Qed.
Lemma tr_clog P e : triple ec (ic P) (tof (lift (log e))) (fun _ => ic P).
Proof. apply tr_of. intros c (X & Y). unfold lift, log. split; [now apply io_log|exact Y]. Qed.
Lemma tr_decorated P hp body : triple ec (ic P) body (fun r c => (forall z, r = Some z -> z <> 0%Z -> tells RuntimeError (returned (hp_name hp) z)) /\ ic P c) ->
  triple ec (ic P) (tdecorated hp body) (fun _ => ic P).
Proof.
  intros H. unfold tdecorated. apply tr_bind with (fun _ => ic P); [apply tr_clog|intros _]. eapply tr_bind; [exact H|]. intros r.
  intros c (R & X). revert c X. apply tr_bind with (fun _ => ic P); [apply tr_clog|intros _]. now apply tr_lift0, tr_rval.
Qed.
Lemma tr_user P f sec hp : (forall sh us e, fst (fst (f sec hp sh us)) = Err e -> quiet_exc e) ->
  triple ec (ic P) (tof (user_body f sec hp)) (fun r c => (exists sh us sh' us', f sec hp sh us = (Ok r, sh', us')) /\ ic P c).
Proof.
  intros H. apply tr_of. intros c (X & Y). unfold user_body. specialize (H (x_sh c) (o_user (x_obj c))).
  destruct (f sec hp (x_sh c) (o_user (x_obj c))) as [[[r|e] sh'] us'] eqn:E.
  - split; [eauto 8|]. split; [now apply io_user|exact Y].
  - split; [now apply io_user|]. now apply H.
Qed.
Lemma handler_exc name kind f : find_attr K name = Some (AUser kind f) -> forall sec hp sh us e, fst (fst (f sec hp sh us)) = Err e -> quiet_exc e.
Proof. intros H sec hp sh us e E. left. exists name, kind, f, sec, hp, sh, us. auto. Qed.

(** ** One option *)
Section Item.
Variable rec : str -> bool -> bool -> TM ctx unit.
Variable reparse : str -> TM obj unit.
Hypothesis REC : forall sec init fin P, takes_part sec -> ~ P sec -> (forall t, P t -> reaches K i t sec) ->
  (P root \/ ~ reaches K i sec root \/ sec = root) -> (init = true -> sec = root -> init0 = true /\ forall t, ~ P t) ->
  triple ec (ic P) (rec sec init fin) (fun _ => ic P).
Variables (sec : str) (items : list (str * res (option str))) (P : str -> Prop).
Hypothesis TP : takes_part sec.
Hypothesis SH : section_shows i sec items.
Hypothesis OPEN : forall t, P t -> reaches K i t sec.
Hypothesis ROOT : P root \/ ~ reaches K i sec root.

Lemma tp_uses t : uses K i sec t -> takes_part t.
Proof.
  intros U. assert (R : reaches K i sec t) by (econstructor; [exact U|constructor]).
  destruct TP as [X|(A & B & X)]; [left|right]; [|split; [exact A|split; [exact B|]]]; eapply reaches_trans; eauto.
Qed.
Lemma tr_use hp w t ps : hp_params hp = t :: ps -> uses K i sec t -> w = hp_name hp ->
  triple ec (ic P) (tuse_body shown_files rec sec hp) (fun r c => (forall z, r = Some z -> z <> 0%Z -> tells RuntimeError (returned w z)) /\ ic P c).
Proof.
  intros E U ->. unfold tuse_body. rewrite E. apply tr_bind with (fun c0 c => c = c0 /\ ic P c); [apply tr_of; intros c H; cbn; auto|].
  intros c0. destruct (str_mem t (x_proc c0)) eqn:M; cbn [negb].
  - intros c (-> & X). assert (PT : P t) by (now apply X). revert c0 X M. intros c0 X _. revert c0 X.
    apply tr_bind with (fun _ => ic P); [apply tr_clog|intros _]. apply tr_bind with (fun _ => ic P); [apply tr_clog|intros _].
    eapply tr_bind; [apply (tr_lift P tget_files (fun l => l = fl)), tr_files|]. intros l c (-> & X). revert c X.
    apply tr_bind with (fun _ => ic P).
    + apply tr_lift0, tr_event; [|cbn; auto]. apply t_cycle; [exact TP|exact U|now apply OPEN].
    + intros _. apply tr_ret. intros c X. split; [|exact X]. intros z Q. congruence.
  - intros c (-> & X). assert (NT : ~ P t) by (intros Q; apply X in Q; congruence). revert c0 X M. intros c0 X _. revert c0 X.
    apply tr_bind with (fun _ => ic P).
    + assert (NR : t <> root) by (intros ->; destruct ROOT as [Q|Q]; [contradiction|apply Q; econstructor; [exact U|constructor]]).
      apply REC; [now apply tp_uses|exact NT| | |intros _ Q; contradiction].
      * intros u Q. eapply reaches_trans; [now apply OPEN|]. econstructor; [exact U|constructor].
      * destruct ROOT as [Q|Q]; [now left|right; left]. intros R. apply Q. econstructor; eauto.
    + intros _. apply tr_ret. intros c X. split; [|exact X]. intros z Q. congruence.
Qed.

Lemma tr_generic hp k v : hp_root hp = root -> triple ec (ic P) (tlaunch_generic fs cwd reparse hp k v) (fun hp' c => hp_root hp' = root /\ ic P c).
Proof.
  intros E. unfold tlaunch_generic. rewrite E. apply tr_bind with (fun _ => ic P); [apply tr_lift0, tr_set|intros _]. cbv zeta.
  apply tr_bind with (fun _ => ic P).
  - apply tr_decorated, tr_ret. intros c X. split; [|exact X]. intros z Q. congruence.
  - intros _. apply tr_ret. intros c X. split; [reflexivity|exact X].
Qed.

(** The handler of an operation. *)
Lemma tr_locate k0 v0 w ps : In (k0, Ok v0) items -> shlex_split (strip_ws k0) = Ok (w :: ps) -> op_word K w = true ->
  triple io io (tlocate_handler K (normalize_op w))
    (fun h o => (match h with None => handler_of K (undash w) None | Some (n, a) => exists b, handler_of K (undash w) (Some (n, a, b)) end) /\ io o).
Proof.
  intros IN SP OW. unfold tlocate_handler. assert (N : normalize_op (normalize_op w) = normalize_op w) by apply normalize_idem. rewrite N. cbv zeta.
  change (locate_class_method K) with (has_attr K). change (normalize_op w) with (undash w). fold (public_name (undash w)) (private_name (undash w)).
  destruct (has_attr K (private_name (undash w))) as [b|] eqn:PR, (has_attr K (public_name (undash w))) as [a|] eqn:PU.
  - apply tr_bind with (fun _ => io).
    + apply tr_event; [|cbn; auto]. apply t_ambiguous with (u := sec) (k0 := k0) (v0 := v0) (k := strip_ws k0) (w := w) (ps := ps).
      * split; [exact TP|]. exists items. auto.
      * now apply trimmed_iff.
      * now apply shlex_words.
      * now apply op_word_iff.
      * congruence.
      * congruence.
    + intros _. apply tr_ret. intros o X. split; [exists true; now apply ho_both with b|exact X].
  - apply tr_bind with (fun _ => io); [now apply tr_ret|intros _]. apply tr_ret. intros o X. split; [exists false; now apply ho_private|exact X].
  - apply tr_bind with (fun _ => io); [now apply tr_ret|intros _]. apply tr_ret. intros o X. split; [exists false; now apply ho_public|exact X].
  - apply tr_bind with (fun _ => io); [now apply tr_ret|intros _]. apply tr_ret. intros o X. split; [now apply ho_none|exact X].
Qed.
Lemma handler_found op n a b : handler_of K op (Some (n, a, b)) -> find_attr K n = Some a.
Proof.
  assert (X : forall m c, has_attr K m = Some c -> find_attr K m = Some c) by (intros m c; unfold has_attr; destruct (find_attr K m) as [[]|]; congruence).
  intros H. inversion H; subst; auto.
Qed.

Lemma tr_item hp kv : In kv items -> hp_root hp = root ->
  triple ec (ic P) (tprocess_item K fs cwd shown_files rec reparse sec hp kv) (fun hp' c => hp_root hp' = root /\ ic P c).
Proof.
  intros IN HR. destruct kv as [k0 v0]. unfold tprocess_item. cbn [fst snd].
  apply tr_bind with (fun v c => v0 = Ok v /\ ic P c).
  { apply tr_of. intros c X. destruct v0 as [v|e]; cbn [of_res]; [auto|]. split; [apply X|]. right. left. exists sec, k0. split; [exact TP|]. exists items. auto. }
  intros v c (-> & X). revert c X. cbv zeta. apply tr_bind with (fun _ => ic P); [apply tr_clog|intros _].
  apply tr_bind with (fun toks c => shlex_split (strip_ws k0) = Ok toks /\ ic P c).
  { apply tr_of. intros c X. assert (I2 : strip_ws (strip_ws k0) = strip_ws k0) by apply strip_idem. rewrite I2.
    destruct (shlex_split (strip_ws k0)) as [toks|e] eqn:E; cbn [of_res]; [auto|]. split; [apply X|]. apply shlex_err in E as (-> & N). right. right. left. split; [reflexivity|].
    exists sec, k0, v, (strip_ws k0). split; [split; [exact TP|exists items; auto]|]. split; [now apply trimmed_iff|exact N]. }
  intros toks c (SP & X). revert c X. destruct toks as [|w ps].
  { apply tr_of. intros c X. split; [apply X|]. right. right. right. cbn. tauto. }
  destruct (op_word K w) eqn:OW; cbn [negb]; [|now apply tr_generic].
  apply tr_bind with (fun _ => ic P); [apply tr_clog|intros _].
  eapply tr_bind; [apply (tr_lift P _ (fun h => match h with None => handler_of K (undash w) None | Some (n, a) => exists b, handler_of K (undash w) (Some (n, a, b)) end)); eapply tr_locate; eauto|].
  intros [[n a]|] c (HO & X); revert c X; [|now apply tr_generic]. destruct HO as (b & HO).
  set (hp3 := Hp _ _ _ _ _ n).
  apply tr_bind with (fun _ => ic P); [|intros _; apply tr_ret; intros c X; split; [exact HR|exact X]].
  destruct a as [|kind f| |]; cbn [tcall_attr].
  - apply tr_decorated. destruct ps as [|t ps].
    + unfold tuse_body. cbn [hp_params hp3]. apply tr_of. intros c X. split; [apply X|]. right. right. right. cbn. tauto.
    + apply (tr_use hp3 n t ps); [reflexivity| |reflexivity]. exists items, (k0, Ok v). eexists _, _, _. split; [exact SH|]. split; [exact IN|].
      apply meaning_iff. eapply c_use; eauto.
  - pose proof (handler_exc n kind f (handler_found _ _ _ _ HO) sec hp3) as HE. destruct kind; cbn [tcall_attr].
    + apply tr_decorated. eapply tr_post; [|apply tr_user; exact HE]. cbn beta. intros r c ((sh & us & sh' & us' & E) & X). split; [|exact X].
      intros z -> NZ. eapply (t_returned _ _ _ _ _ _ _ sec (k0, Ok v) (OpInfo (undash w) ps n b) f (strip_ws k0) (clean_value v) hp3 sh us z sh' us');
        [split; [exact TP|exists items; auto]|apply meaning_iff; eapply c_user; eauto|exact E|exact NZ].
    + eapply tr_bind; [apply tr_user; exact HE|]. intros r. apply tr_ret. tauto.
    + eapply tr_bind; [apply tr_user; exact HE|]. intros r. apply tr_ret. tauto.
  - apply tr_of. intros c X. split; [apply X|]. right. right. right. cbn. tauto.
  - apply tr_of. intros c X. split; [apply X|]. right. right. right. cbn. tauto.
Qed.
Lemma tr_items l : (forall kv, In kv l -> In kv items) -> forall hp, hp_root hp = root ->
  triple ec (ic P) (trun_items K fs cwd shown_files rec reparse sec hp l) (fun _ => ic P).
Proof.
  induction l as [|kv l IH]; intros S hp HR; cbn [trun_items]; [now apply tr_ret|].
  eapply tr_bind; [apply tr_item; [apply S; now left|exact HR]|]. intros hp' c (HR' & X). revert c X. apply IH; [|exact HR']. intros x J. apply S. now right.
Qed.
End Item.

Lemma tr_hook rec P name : In name [$"handler_initialize"; $"handler_finalize"] ->
  triple ec (ic P) (tcall_named K shown_files rec name root (hp_named root name)) (fun _ => ic P).
Proof.
  intros IN. unfold tcall_named. destruct (find_attr K name) as [a|] eqn:E; [|apply tr_of; intros c X; split; [apply X|right; right; right; cbn; tauto]].
  destruct a as [|kind f| |]; cbn [tcall_attr].
  - apply tr_decorated. unfold tuse_body. cbn [hp_params hp_named]. apply tr_of. intros c X. split; [apply X|]. right. right. right. cbn. tauto.
  - pose proof (handler_exc name kind f E root (hp_named root name)) as HE. destruct kind.
    + apply tr_decorated. eapply tr_post; [|apply tr_user; exact HE]. cbn beta. intros r c ((sh & us & sh' & us' & EE) & X). split; [|exact X].
      intros z -> NZ. change (hp_name (hp_named root name)) with name. eapply t_hook; eauto.
    + eapply tr_bind; [apply tr_user; exact HE|]. intros r. apply tr_ret. tauto.
    + eapply tr_bind; [apply tr_user; exact HE|]. intros r. apply tr_ret. tauto.
  - apply tr_of. intros c X. split; [apply X|]. right. right. right. cbn. tauto.
  - apply tr_of. intros c X. split; [apply X|]. right. right. right. cbn. tauto.
Qed.

Hypothesis DOK : default_ok K i dname root init0.
Lemma tr_psr fuel : forall sec init fin P, takes_part sec -> ~ P sec -> (forall t, P t -> reaches K i t sec) ->
  (P root \/ ~ reaches K i sec root \/ sec = root) -> (init = true -> sec = root -> init0 = true /\ forall t, ~ P t) ->
  triple ec (ic P) (tpsr K fs cwd shown_files fuel root sec init fin) (fun _ => ic P).
Proof.
  induction fuel as [|f IH]; intros sec init fin P TP NP OPEN RT INIT; cbn [tpsr].
  { apply tr_of. intros c X. split; [apply X|]. right. right. right. cbn. tauto. }
  set (reparse := fun s => _). clearbody reparse. unfold tpsr_body. apply tr_bind with (fun _ => ic P).
  { destruct init; cbn [andb]; [|now apply tr_ret]. destruct (str_eqb sec root) eqn:E; [|now apply tr_ret]. apply str_eqb_eq in E. subst sec.
    destruct (INIT eq_refl eq_refl) as (I0 & EMP). apply tr_bind with (fun _ => ic P); [apply tr_hook; cbn; auto|intros _].
    eapply tr_bind; [apply (tr_lift P _ (fun j => j = i)), tr_cpd|]. intros j c (-> & X). revert c X.
    apply tr_bind with (fun c0 c => c = c0 /\ ic P c); [apply tr_of; intros c H; cbn; auto|]. intros c0 c (-> & X).
    assert (o_defname (x_obj c0) = dname) as -> by apply X. revert c0 X.
    destruct (ini_has_section i dname) eqn:HD; [|now apply tr_ret]. apply IH.
    - right. split; [exact I0|]. split; [exact HD|constructor].
    - apply EMP.
    - intros t Q. destruct (EMP _ Q).
    - destruct (str_eqb dname root) eqn:ER; [apply str_eqb_eq in ER; auto|]. right. left. apply DOK; auto. intros ->. now rewrite str_eqb_refl in ER.
    - discriminate. }
  intros _. apply tr_bind with (fun _ => ic P); [apply tr_clog|intros _].
  eapply tr_bind; [apply (tr_lift P _ (fun j => j = i)), tr_cpd|]. intros j c (-> & X). revert c X.
  destruct (ini_items i sec) as [items|] eqn:IT.
  - apply tr_bind with (fun _ => ic P).
    { apply tr_of. intros c (X & Y). unfold lift, data_add_section, bind. destruct (io_edata _ X) as (d & -> & D & M). cbn [put_edata modify]. split; [|exact Y].
      apply (io_ext (x_obj c)); auto. exists (ed_add_section sec false d). split; [reflexivity|]. unfold ed_add_section. destruct (_ || _); exact M. }
    intros _. set (P' := fun t => t = sec \/ P t). apply tr_bind with (fun _ => ic P').
    { apply tr_of. intros c (X & Y). cbn. split; [exact X|]. intros t. unfold P'. cbn [x_proc]. rewrite str_mem_sadd, orb_true_iff, str_eqb_eq, (Y t). tauto. }
    intros _. apply tr_bind with (fun _ => ic P').
    { refine (tr_items (tpsr K fs cwd shown_files f root) reparse IH sec items P' TP _ _ _ items (fun kv J => J) (new_hp root) eq_refl).
      - now apply shows_iff.
      - intros t [->|Q]; [constructor|auto].
      - destruct RT as [Q|[Q| ->]]; [left; now right|now right|left; now left]. }
    intros _. apply tr_bind with (fun _ => ic P').
    { destruct fin; cbn [andb]; [|now apply tr_ret]. destruct (str_eqb sec root) eqn:E; [|now apply tr_ret]. apply str_eqb_eq in E. subst sec. apply tr_hook; cbn; auto. }
    intros _. apply tr_bind with (fun _ => ic P); [|intros _; apply tr_clog].
    apply tr_of. intros c (X & Y). unfold proc_remove. assert (str_mem sec (x_proc c) = true) as -> by (apply Y; now left). split; [exact X|].
    intros t. cbn [x_proc]. rewrite str_mem_sremove, andb_true_iff, negb_true_iff, str_eqb_neq, (Y t). unfold P'. split; [tauto|]. intros Q. split; [|now right].
    intros ->. contradiction.
  - eapply tr_bind; [apply (tr_lift P _ (fun l => l = fl)), tr_files|]. intros l. apply tr_raise. intros c (-> & X). split; [apply X|].
    apply t_missing; [exact TP|]. now apply absent_iff.
Qed.
End T.

Lemma has_file_ext {Sh Us} fs (o o' : obj Sh Us) i : o_files o' = o_files o -> o_cpd o' = o_cpd o -> o_delims o' = o_delims o -> o_intname o' = o_intname o ->
  has_file fs o i -> has_file fs o' i.
Proof.
  intros F C D N H. unfold has_file, get_cpd in *. cbn [o_files set_cpd o_delims o_intname] in *. rewrite C. destruct (o_cpd o); [exact H|]. rewrite F, D, N.
  destruct (o_files o) as [[|p l]|]; try exact H. destruct (forallb (file_exists fs) (p :: l)); [|exact H].
  destruct (read_files (o_delims o) (file_texts fs (p :: l)) (Ini [] [] (o_intname o))) as [[[]|e] j]; [exact H|]. destruct e; exact H.
Qed.
Theorem parse_tells {Sh Us} (K : pyclass Sh Us) fs cwd shown_files fuel s init fin i fl (o : obj Sh Us) :
  s <> [] -> has_file fs o i -> o_files o = Some fl -> default_ok K i (o_defname o) s init ->
  let '(r, o', w) := tparse_section_str K fs cwd shown_files fuel s init fin o in
  Forall (fun x => exists e m, tells K shown_files i fl (o_defname o) s init e m /\ warns m x) w /\
  match r with
  | EOk _ => io fs i fl (o_defname o) s o'
  | EErr e (Some m) => tells K shown_files i fl (o_defname o) s init e m
  | EErr e None => silent_exc K i (o_defname o) s init e
  end.
Proof.
  intros NE H F D. unfold tparse_section_str, tparse_section_with.
  assert (S0 : str_eqb s [] = false) by (destruct s; [congruence|reflexivity]).
  unfold tbind at 1. cbn [tof modify silent]. rewrite S0.
  set (o1 := set_log None o). assert (H1 : has_file fs o1 i) by (apply (has_file_ext fs o); auto).
  unfold tbind at 1. unfold tparse_root, tbind, tof.
  assert (G : exists d o2, get_edata o1 = (Ok d, o2) /\ o_files o2 = o_files o1 /\ o_cpd o2 = o_cpd o1 /\ o_delims o2 = o_delims o1 /\ o_intname o2 = o_intname o1 /\ o_defname o2 = o_defname o1).
  { unfold get_edata. destruct (o_edata o1); [eexists _, _; split; [reflexivity|auto]|]. eexists _, _. split; [reflexivity|]. cbn. auto. }
  destruct G as (d & o2 & -> & G1 & G2 & G3 & G4 & G5). cbn [silent put_edata modify].
  set (o3 := set_edata (Some (ed_check s d)) o2).
  assert (IO : io fs i fl (o_defname o) s o3).
  { split; [|split; [change (o_files o2 = Some fl); rewrite G1; exact F|split; [change (o_defname o2 = o_defname o); rewrite G5; reflexivity|]]].
    - apply (has_file_ext fs o1); auto.
    - exists (ed_check s d). split; [reflexivity|]. unfold ed_check. cbn [d_checked]. rewrite str_mem_sadd, str_eqb_refl. reflexivity. }
  pose proof (tr_psr K fs cwd shown_files i fl (o_defname o) s init D fuel s init fin (fun _ => False)) as T.
  specialize (T (or_introl (reach_refl K i s)) (fun x => x) (fun t x => match x with end) (or_intror (or_intror eq_refl)) (fun a _ => conj a (fun t x => x))).
  specialize (T (Ctx o3 (k_empty K) [])).
  assert (IC : ic fs i fl (o_defname o) s (fun _ => False) (Ctx o3 (k_empty K) [])) by (split; [exact IO|intros t; cbn; split; [discriminate|tauto]]).
  specialize (T IC). destruct (tpsr K fs cwd shown_files fuel s s init fin (Ctx o3 (k_empty K) [])) as [[[u|e x] c] w]; cbn [silent app].
  - destruct T as (W & X & _). split; [|apply io_last; exact X]. repeat (apply Forall_app; split); first [exact W|constructor].
  - destruct T as (W & _ & R). split; [exact W|]. destruct x; exact R.
Qed.
