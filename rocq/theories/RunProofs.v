(** * The parser's outcome is the outcome of the walk. *)
From Coq Require Import String NArith ZArith List Bool Lia Arith.
Import ListNotations.
From Verif Require Import PyBase PyFacts Shlex IniView IniRead ExcControl Debuggable Cpe SpecBase
  SpecText SpecFile SpecShell ShellProofs FileProofs SpecWalk MeaningProofs SpecRun BaseProofs Refine RefineRoot RefineOk.
Local Open Scope sm_scope.

Section RunP.
Context {Sh Us : Type} (K : pyclass Sh Us) (fs : str -> option str) (i : ini).
Notation ev := (ev Sh Us).
Notation obj := (obj Sh Us).
Notation ctx := (ctx Sh Us).

(** ** Bracket structure of the steps *)
Inductive nested : list str -> list ev -> list str -> Prop :=
| ne_nil st : nested st [] st
| ne_enter st s evs st' : ~ In s st -> nested (s :: st) evs st' -> nested st (Enter s :: evs) st'
| ne_leave st s evs st' : ~ In s st -> nested st evs st' -> nested (s :: st) (Leave s :: evs) st'
| ne_other st e evs st' :
    match e with Enter _ | Leave _ => False | _ => True end ->
    nested st evs st' -> nested st (e :: evs) st'.

Lemma nested_app a st st1 b st2 : nested st a st1 -> nested st1 b st2 -> nested st (a ++ b) st2.
Proof. induction 1; cbn; intros; auto; econstructor; eauto. Qed.

Lemma walk_nested :
  (forall path s evs n, walk K i path s evs n -> ~ In s path -> nested path evs path) /\
  (forall path s items evs n, walk_options K i path s items evs n -> nested path evs path).
Proof.
  apply walk_both.
  - intros. apply ne_other; [exact I|constructor].
  - intros path s items evs n Hi W IH N. apply ne_enter; auto.
    eapply nested_app; [exact IH|]. apply ne_leave; auto. constructor.
  - intros. constructor.
  - intros path s item rest e evs n M W IH. apply ne_other; auto.
    inversion M; subst; exact I.
  - intros path s item rest t h k v evs1 n1 evs2 n2 M Ht W1 IH1 W2 IH2.
    apply ne_other; [exact I|]. eapply nested_app; [apply IH1, Ht|].
    apply ne_other; [exact I|exact IH2].
  - intros path s item rest t h k v evs n M Ht W IH. apply ne_other; [exact I|exact IH].
Qed.

Lemma parse_walk_nested dname root init fin evs n :
  parse_walk K i dname root init fin evs n -> nested [] evs [].
Proof.
  assert (D : forall evs0 n0,
    (if init then default_walk K i dname evs0 n0 else evs0 = [] /\ n0 = 0) ->
    nested [] (if init then Hook root $"handler_initialize" :: evs0 else []) []).
  { intros evs0 n0 H. destruct init; [|constructor]. apply ne_other; [exact I|].
    unfold default_walk in H. destruct (ini_has_section i dname).
    - eapply (proj1 walk_nested); eauto.
    - destruct H as [-> _]. constructor. }
  intros W. inversion W; subst; (eapply nested_app; [eapply D; eauto|]).
  - apply ne_other; [exact I|constructor].
  - apply ne_enter; [intros []|]. eapply nested_app; [eapply (proj2 walk_nested); eauto|].
    eapply nested_app with (st1 := [root]).
    + destruct fin; [apply ne_other; [exact I|]|]; constructor.
    + apply ne_leave; [intros []|constructor].
Qed.

(** ** One step *)

(** [eff c c' sh us d l]: [c'] differs from [c] in having shared dict [sh],
    subclass state [us], enhanced data [d] and log records [l] more; printed
    output and the processed set are not described. *)
Record eff (c c' : ctx) (sh : Sh) (us : Us) (d : sections_data) (l : list logent) : Prop := Eff {
  ef_sh : x_sh c' = sh;
  ef_us : o_user (x_obj c') = us;
  ef_data : data_of (x_obj c') = d;
  ef_checked : checked_of (x_obj c') = checked_of (x_obj c);
  ef_conf : conf (x_obj c') = conf (x_obj c);
  ef_cpd : has_file fs (x_obj c) i -> has_file fs (x_obj c') i;
  ef_log : log_of (x_obj c') =
           if (0 <? o_debug (x_obj c))%Z then log_of (x_obj c) ++ l else log_of (x_obj c)
}.

Definition does {A} (m : SM ctx A) (c : ctx) (r : res A) (sh : Sh) (us : Us)
  (d : sections_data) (l : list logent) : Prop :=
  exists c', m c = (r, c') /\ eff c c' sh us d l.

Notation sh0 c := (x_sh c).
Notation us0 c := (o_user (x_obj c)).
Notation da0 c := (data_of (x_obj c)).

Ltac same_file := let H := fresh in intros H; unfold has_file in *;
  first [reflexivity | erewrite get_cpd_fst_ext; [exact H|reflexivity..]].

Lemma eff_refl c : eff c c (sh0 c) (us0 c) (da0 c) [].
Proof. constructor; auto; try same_file. rewrite app_nil_r. now destruct (0 <? _)%Z. Qed.

Lemma conf_debug (o o' : obj) : conf o = conf o' -> o_debug o = o_debug o'.
Proof. unfold conf. congruence. Qed.
Lemma conf_ec (o o' : obj) : conf o = conf o' -> o_ec o = o_ec o'.
Proof. unfold conf. congruence. Qed.
Lemma conf_files (o o' : obj) : conf o = conf o' -> o_files o = o_files o'.
Proof. unfold conf. congruence. Qed.
Lemma conf_level (o o' : obj) : conf o = conf o' -> level_of o = level_of o'.
Proof. unfold level_of. intros H. now rewrite (conf_ec _ _ H). Qed.

Lemma eff_trans c c1 c2 sh us d l sh' us' d' l' :
  eff c c1 sh us d l -> eff c1 c2 sh' us' d' l' -> eff c c2 sh' us' d' (l ++ l').
Proof.
  intros [] []. constructor; auto; try same_file; try congruence.
  rewrite ef_log1, (conf_debug _ _ ef_conf0), ef_log0. destruct (0 <? _)%Z; auto.
  now rewrite app_assoc.
Qed.

Lemma does_ret {A} (a : A) c : does (ret a) c (Ok a) (sh0 c) (us0 c) (da0 c) [].
Proof. exists c. split; [reflexivity|apply eff_refl]. Qed.
Lemma does_raise {A} e c : does (@raise ctx A e) c (Err e) (sh0 c) (us0 c) (da0 c) [].
Proof. exists c. split; [reflexivity|apply eff_refl]. Qed.
Lemma does_bind {A B} (m : SM ctx A) (k : A -> SM ctx B) c a sh us d l r sh' us' d' l' :
  does m c (Ok a) sh us d l ->
  (forall c1, eff c c1 sh us d l -> does (k a) c1 r sh' us' d' l') ->
  does (bind m k) c r sh' us' d' (l ++ l').
Proof.
  intros (c1 & E & F) H. destruct (H c1 F) as (c2 & E2 & F2). exists c2. split.
  - unfold bind. now rewrite E.
  - eapply eff_trans; eauto.
Qed.
Lemma does_bind_err {A B} (m : SM ctx A) (k : A -> SM ctx B) c e sh us d l :
  does m c (Err e) sh us d l -> does (bind m k) c (Err e) sh us d l.
Proof. intros (c1 & E & F). exists c1. split; auto. unfold bind. now rewrite E. Qed.

Lemma does_log e c : does (lift (log e)) c (Ok tt) (sh0 c) (us0 c) (da0 c) [e].
Proof.
  eexists. split; [reflexivity|]. constructor; auto; try same_file.
Qed.

Lemma does_event ev t e c : threshold (upper ev) t ->
  does (lift (event ev e)) c (if (t <=? level_of (x_obj c))%Z then Err e else Ok tt)
       (sh0 c) (us0 c) (da0 c) [].
Proof.
  intros T. pose proof (event_raise_iff (o_ec (x_obj c)) ev t e true T) as H.
  unfold lift, event, level_of.
  destruct (ec_event (o_ec (x_obj c)) ev (XClass e) true) as [r out] eqn:E. cbn in H. subst r.
  eexists. split.
  - unfold lift, event. rewrite E. reflexivity.
  - constructor; auto; try same_file. cbn. rewrite app_nil_r. now destruct (0 <? _)%Z.
Qed.

Lemma does_get_files c :
  does (lift get_files) c
       (match o_files (x_obj c) with Some l => Ok l | None => Err ValueError end)
       (sh0 c) (us0 c) (da0 c) [].
Proof.
  exists c. split; [|apply eff_refl]. unfold lift, get_files.
  destruct (o_files (x_obj c)); now destruct c.
Qed.

Lemma does_get_cpd c : has_file fs (x_obj c) i ->
  does (lift (get_cpd fs)) c (Ok i) (sh0 c) (us0 c) (da0 c) [].
Proof.
  intros H. eexists. split.
  - unfold lift. rewrite (get_cpd_ready fs i) by exact H. reflexivity.
  - constructor; auto; try same_file. cbn. rewrite app_nil_r. now destruct (0 <? _)%Z.
Qed.

Lemma eff_edata c d' d l :
  d_data d' = d -> d_checked d' = checked_of (x_obj c) ->
  l = [] ->
  eff c (Ctx (set_edata (Some d') (x_obj c)) (x_sh c) (x_proc c)) (sh0 c) (us0 c) d l.
Proof.
  intros H1 H2 ->. constructor; auto; try same_file. cbn. rewrite app_nil_r. now destruct (0 <? _)%Z.
Qed.

Lemma does_add_section s c :
  does (lift (data_add_section s false)) c (Ok tt) (sh0 c) (us0 c) (ensure s (da0 c)) [].
Proof.
  unfold lift, data_add_section, bind, get_edata, put_edata, modify, ensure, data_of.
  destruct (o_edata (x_obj c)) as [d|] eqn:E.
  - eexists. split; [rewrite E; reflexivity|]. apply eff_edata; auto.
    + unfold ed_add_section. cbn. destruct (dmem s (d_data d)); auto.
    + unfold checked_of. rewrite E. unfold ed_add_section. destruct (_ || _); auto.
  - eexists. split; [rewrite E; reflexivity|]. cbn. apply eff_edata; auto.
    unfold checked_of. now rewrite E.
Qed.

Lemma dset_ensure {A} k (v w : A) (d : dict A) :
  dget k d = None -> dset k v (dset k w d) = dset k v d.
Proof. intros _. apply dset_dset_same. Qed.

Lemma does_put_plain root k v c :
  does (lift (put_plain root k v)) c (Ok tt) (sh0 c) (us0 c) (write root k v (da0 c)) [].
Proof.
  unfold lift, put_plain, data_add_section, bind, get_edata, put_edata, modify, write, data_of.
  destruct (o_edata (x_obj c)) as [d|] eqn:E.
  - unfold dmem. destruct (dget root (d_data d)) as [o|] eqn:G.
    + eexists. split.
      { rewrite E, G. cbn. rewrite E. unfold ed_put. rewrite G. reflexivity. }
      apply eff_edata; auto. cbn. unfold checked_of. now rewrite E.
    + eexists. split.
      { rewrite E, G. cbn. rewrite E. cbn. unfold ed_add_section, ed_put, dmem. cbn. rewrite G. cbn.
        rewrite dget_dset_same. cbn. reflexivity. }
      apply (eff_edata c (EData (dset root (dset k v []) (dset root [] (d_data d))) (d_checked d) (d_level d) (d_debug d))); auto.
      * cbn. now rewrite dset_dset_same.
      * cbn. unfold checked_of. now rewrite E.
  - eexists. split.
    { rewrite E. cbn. unfold ed_put. cbn. rewrite str_eqb_refl. cbn. reflexivity. }
    cbn. match goal with |- eff c (Ctx ?o _ _) _ _ _ _ =>
      change o with (set_edata (o_edata o) (x_obj c)) end. cbn.
    apply eff_edata; auto. unfold checked_of. now rewrite E.
Qed.

Lemma does_user f s hp c :
  let '(r, sh, us) := f s hp (sh0 c) (us0 c) in
  does (user_body f s hp) c r sh us (da0 c) [].
Proof.
  destruct (f s hp (sh0 c) (us0 c)) as [[r sh] us] eqn:E.
  eexists. split; [unfold user_body; rewrite E; reflexivity|]. constructor; auto; try same_file.
  cbn. rewrite app_nil_r. now destruct (0 <? _)%Z.
Qed.

Lemma does_eq {A} (m : SM ctx A) c r sh us d l r' sh' us' d' l' :
  does m c r sh us d l -> r' = r -> sh' = sh -> us' = us -> d' = d -> l' = l ->
  does m c r' sh' us' d' l'.
Proof. intros. now subst. Qed.

Ltac effc := repeat match goal with F : eff _ _ _ _ _ _ |- _ => destruct F end.
Ltac lev := repeat match goal with
  | H : conf (x_obj ?a) = conf (x_obj ?b) |- context [level_of (x_obj ?a)] =>
      rewrite (conf_level _ _ H)
  | H : conf (x_obj ?a) = conf (x_obj ?b) |- context [o_files (x_obj ?a)] =>
      rewrite (conf_files _ _ H)
  end.
(** Use [P] for the current command, leaving nothing but equations. *)
Tactic Notation "prim" constr(P) :=
  eapply does_eq; [apply P|first [reflexivity|effc; lev; congruence]..].
Tactic Notation "next" constr(P) :=
  eapply does_bind; [prim P|]; let c1 := fresh "c" in let F := fresh "F" in intros c1 F.

Lemma does_lift_ret {A} (a : A) c : does (lift (ret a)) c (Ok a) (sh0 c) (us0 c) (da0 c) [].
Proof. exists c. split; [now destruct c|apply eff_refl]. Qed.

Lemma does_begin_op h k v c :
  does (lift (begin_op h k v)) c (ambiguity (level_of (x_obj c)) h) (sh0 c) (us0 c) (da0 c)
       [LKeyValue k v; LOperation (h_op h) (h_params h)].
Proof.
  assert (E : lift (begin_op h k v) c =
              (lift (log (LKeyValue k v)) ;; lift (log (LOperation (h_op h) (h_params h))) ;;
               lift (if h_amb h then event $"SERIOUS" AmbiguousHandlerError else ret tt)) c).
  { unfold begin_op. rewrite lift_bind. apply bind_ext; auto. }
  unfold does. rewrite E. clear E.
  change [LKeyValue k v; LOperation (h_op h) (h_params h)]
    with ([LKeyValue k v] ++ [LOperation (h_op h) (h_params h)] ++ []).
  next (does_log (LKeyValue k v) c).
  next (does_log (LOperation (h_op h) (h_params h)) c0).
  unfold ambiguity. destruct (h_amb h); cbn [andb].
  - prim (does_event $"SERIOUS" 3 AmbiguousHandlerError c1 ltac:(constructor)).
  - prim (does_lift_ret tt c1).
Qed.

Lemma does_check_rval rv c : (0 <= level_of (x_obj c))%Z ->
  does (lift (check_rval rv)) c (rval_policy (level_of (x_obj c)) rv) (sh0 c) (us0 c) (da0 c) [].
Proof.
  intros L. unfold check_rval, rval_policy.
  assert (Z0 : (0 <=? level_of (x_obj c))%Z = true) by now apply Z.leb_le.
  destruct rv as [z|].
  - destruct (z =? 0)%Z; [apply does_lift_ret|].
    rewrite Z.leb_antisym. destruct (10 <? z)%Z; cbn [negb].
    + eapply does_eq; [apply (does_event $"CATASTROPHIC" 0); constructor|..]; auto. now rewrite Z0.
    + eapply does_eq; [apply (does_event $"WARNING" 5); constructor|..]; auto.
  - eapply does_eq; [apply (does_event $"CATASTROPHIC" 0); constructor|..]; auto. now rewrite Z0.
Qed.

Lemma does_decorated f s hp c : (0 <= level_of (x_obj c))%Z ->
  let '(r, sh, us) := run_handler (level_of (x_obj c)) Decorated f s hp (sh0 c) (us0 c) in
  exists l, does (decorated hp (user_body f s hp)) c r sh us (da0 c) l /\
    (r = Ok tt -> l = [LHEntry (hp_name hp) (hp_raw hp); LHExit (hp_name hp) (hp_raw hp)]) /\
    l = handler_left Decorated f s hp (sh0 c) (us0 c).
Proof.
  intros L. unfold run_handler. destruct (f s hp (sh0 c) (us0 c)) as [[r sh] us] eqn:E.
  unfold decorated. destruct r as [rv|x].
  - eexists. split.
    + next (does_log (LHEntry (hp_name hp) (hp_raw hp)) c).
      pose proof (does_user f s hp c0) as U. destruct F. rewrite ef_sh0, ef_us0, E in U.
      eapply does_bind; [exact U|]. intros c1 F1.
      next (does_log (LHExit (hp_name hp) (hp_raw hp)) c1).
      assert (L2 : (0 <= level_of (x_obj c2))%Z) by (effc; lev; lia).
      prim (does_check_rval rv c2 L2).
    + split; [reflexivity|]. unfold handler_left. rewrite E. reflexivity.
  - eexists. split; [|split; [discriminate|unfold handler_left; rewrite E; shelve]].
    next (does_log (LHEntry (hp_name hp) (hp_raw hp)) c).
    pose proof (does_user f s hp c0) as U. destruct F. rewrite ef_sh0, ef_us0, E in U.
    apply does_bind_err. eapply does_eq; [exact U|..]; auto.
    Unshelve. reflexivity.
Qed.

Lemma does_undecorated kind f s hp c : kind <> Decorated ->
  let '(r, sh, us) := run_handler (level_of (x_obj c)) kind f s hp (sh0 c) (us0 c) in
  does (user_body f s hp ;; ret tt) c r sh us (da0 c) [].
Proof.
  intros N. unfold run_handler. pose proof (does_user f s hp c) as U.
  destruct (f s hp (sh0 c) (us0 c)) as [[[rv|x] sh] us] eqn:E.
  - change (@nil logent) with (@nil logent ++ []).
    eapply does_bind; [exact U|]. intros c1 F1. destruct kind; try easy; prim (does_ret tt c1).
  - apply does_bind_err. exact U.
Qed.

Lemma does_call kind f s hp c : (0 <= level_of (x_obj c))%Z ->
  let '(r, sh, us) := run_handler (level_of (x_obj c)) kind f s hp (sh0 c) (us0 c) in
  exists l, does (match kind with
                  | Decorated => decorated hp (user_body f s hp)
                  | _ => user_body f s hp ;; ret tt
                  end) c r sh us (da0 c) l /\
    (r = Ok tt -> l = match kind with
                      | Decorated => [LHEntry (hp_name hp) (hp_raw hp); LHExit (hp_name hp) (hp_raw hp)]
                      | _ => []
                      end) /\
    l = handler_left kind f s hp (sh0 c) (us0 c).
Proof.
  intros L. destruct kind; [apply does_decorated; auto|..].
  all: match goal with |- context [run_handler _ ?k] =>
    pose proof (does_undecorated k f s hp c ltac:(discriminate)) as U end.
  all: destruct (run_handler _ _ f s hp _ _) as [[r sh] us]; exists []; auto.
Qed.

Lemma does_proc_add s c : does (proc_add s) c (Ok tt) (sh0 c) (us0 c) (da0 c) [].
Proof.
  eexists. split; [reflexivity|]. constructor; auto; try same_file. cbn. rewrite app_nil_r.
  now destruct (0 <? _)%Z.
Qed.
Lemma does_proc_remove s c : In s (x_proc c) ->
  does (proc_remove s) c (Ok tt) (sh0 c) (us0 c) (da0 c) [].
Proof.
  intros H. unfold does, proc_remove. apply str_mem_In in H.
  eexists. split; [rewrite H; reflexivity|]. constructor; auto; try same_file. cbn. rewrite app_nil_r.
  now destruct (0 <? _)%Z.
Qed.

Lemma does_ev root e c :
  has_file fs (x_obj c) i -> (0 <= level_of (x_obj c))%Z ->
  (forall s, e = Leave s -> In s (x_proc c)) ->
  let '(r, sh, us) := step K root (level_of (x_obj c)) (path_set_of (x_obj c)) e (sh0 c) (us0 c) in
  exists l, does (exec_ev K fs root e) c r sh us
              (match r with Ok _ => data_step root (da0 c) e | Err _ => da0 c end) l /\
    (r = Ok tt -> l = records K e) /\
    (forall x, r = Err x -> l = left_by K root (level_of (x_obj c)) e (sh0 c) (us0 c)).
Proof.
  intros C L P. destruct e as [s|s|s|s w k v|s h kind f k v|s t h k v|s t h k v|s t h k v|s r|s name];
    cbn [step exec_ev data_step].
  - eexists. split.
    + next (does_log (LSecEntry s) c).
      assert (C0 : has_file fs (x_obj c0) i) by (effc; auto).
      next (does_get_cpd c0 C0). next (does_add_section s c1).
      prim (does_proc_add s c2).
    + split; [reflexivity|discriminate].
  - eexists. split.
    + next (does_proc_remove s c (P s eq_refl)). prim (does_log (LSecExit s) c0).
    + split; [reflexivity|discriminate].
  - unfold path_set_of. destruct (o_files (x_obj c)) as [fl|] eqn:FL.
    all: eexists; split; [|split; [discriminate|shelve]].
    all: next (does_log (LSecEntry s) c).
    all: assert (C0 : has_file fs (x_obj c0) i) by (effc; auto).
    all: next (does_get_cpd c0 C0); pose proof (does_get_files c1) as G.
    all: assert (X : o_files (x_obj c1) = o_files (x_obj c)) by (effc; lev; auto).
    all: rewrite X, FL in G.
    + eapply does_bind; [exact G|]. intros c2 F2. prim (@does_raise unit KeyError c2).
    + apply does_bind_err. eapply does_eq; [exact G|first [reflexivity|effc; congruence]..].
  - eexists. split.
    + next (does_log (LKeyValue k v) c).
      assert (W : does (match w with None => ret tt | Some (op, ps) => lift (log (LOperation op ps)) end)
                   c0 (Ok tt) (sh0 c0) (us0 c0) (da0 c0)
                   (match w with Some (o, ps) => [LOperation o ps] | None => [] end)).
      { destruct w as [[op ps]|]; [apply does_log|apply does_ret]. }
      eapply does_bind; [exact W|]. intros c1 F1. next (does_put_plain root k v c1).
      next (does_log (LHEntry $"_generic_option_handler" (Some k, v)) c2).
      prim (does_log (LHExit $"_generic_option_handler" (Some k, v)) c3).
    + split; [reflexivity|discriminate].
  - pose proof (does_begin_op h k v c) as B.
    destruct (ambiguity (level_of (x_obj c)) h) as [[]|x] eqn:A.
    + destruct B as (c1 & E1 & F1).
      assert (L1 : (0 <= level_of (x_obj c1))%Z) by (effc; lev; lia).
      pose proof (does_call kind f s (params_of root h k v) c1 L1) as D.
      destruct F1. rewrite ef_sh0, ef_us0, ef_data0 in D. rewrite (conf_level _ _ ef_conf0) in D.
      destruct (run_handler (level_of (x_obj c)) kind f s (params_of root h k v) (sh0 c) (us0 c))
        as [[r sh] us].
      destruct D as (l & (c2 & E2 & F2) & R & HL). eexists. split.
      * exists c2. split.
        -- unfold bind at 1. rewrite E1. exact E2.
        -- eapply eff_trans; [constructor; eauto|]. destruct r as [[]|]; exact F2.
      * split.
        -- intros Hr. rewrite (R Hr). cbn. destruct kind; reflexivity.
        -- intros x _. cbn [left_by]. rewrite A, HL. reflexivity.
    + eexists. split; [|split; [discriminate|shelve]]. apply does_bind_err. exact B.
  - pose proof (does_begin_op h k v c) as B.
    destruct (ambiguity (level_of (x_obj c)) h) as [[]|x] eqn:A.
    + eexists. split.
      * eapply does_bind; [exact B|]. intros c1 F1. prim (does_log (LHEntry (h_name h) (Some k, v)) c1).
      * split; [reflexivity|discriminate].
    + eexists. split; [|split; [discriminate|shelve]]. apply does_bind_err. exact B.
  - eexists. split; [apply does_log|split; [reflexivity|discriminate]].
  - pose proof (does_begin_op h k v c) as B.
    destruct (ambiguity (level_of (x_obj c)) h) as [[]|x] eqn:A.
    2:{ eexists. split; [|split; [discriminate|shelve]]. apply does_bind_err. exact B. }
    unfold path_set_of. destruct (o_files (x_obj c)) as [fl|] eqn:FL;
      [destruct (5 <=? level_of (x_obj c))%Z eqn:L5|].
    all: eexists; split; [|split; [try discriminate; intros _; shelve|shelve]].
    all: eapply does_bind; [exact B|]; intros c1 F1.
    all: next (does_log (LHEntry (h_name h) (Some k, v)) c1).
    all: next (does_log (LCycle s (h_op h)) c0).
    all: next (does_log (LHExit (h_name h) (Some k, v)) c2).
    all: pose proof (does_get_files c3) as G.
    all: assert (X : o_files (x_obj c3) = o_files (x_obj c)) by (effc; lev; auto).
    all: rewrite X, FL in G.
    3: { apply does_bind_err. eapply does_eq; [exact G|first [reflexivity|effc; congruence]..]. }
    all: eapply does_bind; [exact G|]; intros c4 F4.
    all: pose proof (does_event $"WARNING" 5 ValueError c4 ltac:(constructor)) as V.
    all: assert (X4 : level_of (x_obj c4) = level_of (x_obj c)) by (effc; lev; auto).
    all: rewrite X4, L5 in V.
    + apply does_bind_err. eapply does_eq; [exact V|first [reflexivity|effc; congruence]..].
    + eapply does_bind; [exact V|]. intros c5 F5.
      prim (does_log (LHExit (h_name h) (Some k, v)) c5).
  - destruct r as [x|k v x|h k v|h k v].
    + eexists. split; [apply does_raise|split; [discriminate|shelve]].
    + eexists. split; [|split; [discriminate|shelve]]. next (does_log (LKeyValue k v) c).
      prim (@does_raise unit x c0).
    + pose proof (does_begin_op h k v c) as B.
      destruct (ambiguity (level_of (x_obj c)) h) as [[]|x] eqn:A.
      * eexists. split; [|split; [discriminate|shelve]]. eapply does_bind; [exact B|]. intros c1 F1.
        next (does_log (LHEntry (h_name h) (Some k, v)) c1). prim (@does_raise unit IndexError c0).
      * eexists. split; [|split; [discriminate|shelve]]. apply does_bind_err. exact B.
    + pose proof (does_begin_op h k v c) as B.
      destruct (ambiguity (level_of (x_obj c)) h) as [[]|x] eqn:A.
      * eexists. split; [|split; [discriminate|shelve]]. eapply does_bind; [exact B|]. intros c1 F1.
        prim (@does_raise unit TypeError c1).
      * eexists. split; [|split; [discriminate|shelve]]. apply does_bind_err. exact B.
  - unfold exec_hook. cbn [records]. destruct (find_attr K name) as [[|kind f| |]|] eqn:HA.
    + eexists. split; [|split; [discriminate|shelve]]. unfold decorated.
      next (does_log (LHEntry (hp_name (hp_named root name)) (hp_raw (hp_named root name))) c).
      apply does_bind_err. prim (@does_raise (option Z) IndexError c0).
    + pose proof (does_call kind f s (hp_named root name) c L) as D.
      destruct (run_handler _ kind f s (hp_named root name) _ _) as [[r sh] us].
      destruct D as (l & D & R & HL). exists l. split.
      * destruct kind; eapply does_eq; try exact D; auto; destruct r; auto.
      * split.
        -- intros Hr. rewrite (R Hr). destruct kind; reflexivity.
        -- intros x _. cbn [left_by]. rewrite HA. exact HL.
    + eexists. split; [apply does_raise|split; [discriminate|shelve]].
    + eexists. split; [apply does_raise|split; [discriminate|shelve]].
    + eexists. split; [apply does_raise|split; [discriminate|shelve]].
  Unshelve. all: intros; cbn [left_by]; rewrite ?A, ?HA; first [discriminate|reflexivity].
Qed.

(** ** All steps *)
Lemma exec_run root evs : forall st st' c,
  nested st evs st' -> same_proc c st -> has_file fs (x_obj c) i ->
  (0 <= level_of (x_obj c))%Z ->
  let '(r, sh, us, done) :=
    run K root (level_of (x_obj c)) (path_set_of (x_obj c)) evs (sh0 c) (us0 c) in
  exists l, does (exec K fs root evs) c r sh us (data_after root done (da0 c))
              (flat_map (records K) done ++ l) /\
    (r = Ok tt -> l = [] /\ done = evs) /\
    flat_map (records K) done ++ l =
      run_log K root (level_of (x_obj c)) (path_set_of (x_obj c)) evs (sh0 c) (us0 c).
Proof.
  induction evs as [|e evs IH]; intros st st' c N P C L.
  - cbn. exists []. split; [apply does_ret|auto].
  - cbn [run run_log exec].
    assert (IL : forall s, e = Leave s -> In s (x_proc c)).
    { intros s ->. inversion N; subst; [|contradiction].
      apply str_mem_In. rewrite P. apply str_mem_In. now left. }
    pose proof (does_ev root e c C L IL) as D.
    destruct (step K root (level_of (x_obj c)) (path_set_of (x_obj c)) e (sh0 c) (us0 c))
      as [[r sh] us]. destruct D as (l & D & R & RE).
    destruct r as [[]|x].
    + rewrite (R eq_refl) in D. clear R RE l. destruct D as (c1 & E1 & F1).
      assert (N1 : exists st1, nested st1 evs st' /\ same_proc c1 st1).
      { inversion N; subst.
        - exists (s :: st). split; auto. apply exec_enter_proc in E1. intros x.
          rewrite E1, str_mem_sadd, P. reflexivity.
        - exists st0. split; auto. apply exec_leave_proc in E1. intros x.
          rewrite E1, str_mem_sremove, P.
          change (str_mem x (s :: st0)) with (str_eqb x s || str_mem x st0).
          destruct (str_eqb_spec x s) as [->|NE]; cbn [negb andb orb]; auto.
          symmetry. now apply str_mem_not_In.
        - exists st. split; auto.
          match goal with H : match e with _ => _ end |- _ =>
            pose proof (keeps_proc_exec_ev K fs root e H c) as Q end.
          rewrite E1 in Q. cbn in Q. intros x. rewrite Q. apply P. }
      destruct N1 as (st1 & N1 & P1). destruct F1.
      specialize (IH st1 st' c1 N1 P1 (ef_cpd0 C)).
      rewrite (conf_level _ _ ef_conf0) in IH. unfold path_set_of in *.
      rewrite (conf_files _ _ ef_conf0), ef_sh0, ef_us0, ef_data0 in IH.
      specialize (IH L).
      destruct (run K root (level_of (x_obj c)) _ evs sh us) as [[[r2 sh2] us2] done].
      destruct IH as (l2 & (c2 & E2 & F2) & R2 & LG). exists l2. split; [|split].
      * exists c2. split.
        -- unfold bind. now rewrite E1.
        -- cbn [flat_map data_after fold_left]. rewrite <- app_assoc.
           eapply eff_trans; [constructor; eauto|exact F2].
      * intros Hr. destruct (R2 Hr) as [-> ->]. auto.
      * cbn [flat_map]. rewrite <- app_assoc, LG. reflexivity.
    + exists l. split; [|split; [discriminate|exact (RE x eq_refl)]]. cbn. apply does_bind_err. exact D.
Qed.

(** ** [parse_section] *)

Record parsed (o o' : obj) (s : str) (r : res unit) (sh : Sh) (us : Us) (done : list ev) : Prop := {
  pa_data : data_of o' = data_after s done (data_of o);
  pa_user : o_user o' = us;
  pa_last : o_last o' = match r with Ok _ => Some sh | Err _ => o_last o end;
  pa_checked : checked_of o' = sadd s (checked_of o);
  pa_file : has_file fs o' i;
  pa_files : o_files o' = o_files o;
  pa_delims : o_delims o' = o_delims o;
  pa_ec : o_ec o' = o_ec o;
  pa_debug : o_debug o' = o_debug o;
  pa_defname : o_defname o' = o_defname o;
  pa_intname : o_intname o' = o_intname o;
  pa_log : exists l, log_of o' = (if (0 <? o_debug o)%Z then flat_map (records K) done ++ l else []) /\
             (r = Ok tt -> l = [])
}.

Definition start (o : obj) (s : str) : ctx :=
  Ctx (set_edata (Some (ed_check s (match o_edata o with
                                    | Some d => d
                                    | None => EData [] [] (ec_level (o_ec o)) (o_debug o)
                                    end))) (set_log None o)) (k_empty K) [].

Lemma parse_section_start fuel s init fin o : s <> [] ->
  parse_section_str K fs fuel s init fin o =
  match psr K fs fuel s s init fin (start o s) with
  | (Ok _, c) => (Ok (x_sh c), set_last (Some (x_sh c)) (x_obj c))
  | (Err e, c) => (Err e, x_obj c)
  end.
Proof.
  intros N. unfold parse_section_str, parse_section_with, parse_root, start, get_edata, put_edata.
  unfold bind, modify. destruct (str_eqb_spec s []) as [->|_]; [contradiction|].
  cbn [o_edata set_log]. destruct (o_edata o) as [d|].
  - cbn. destruct (psr _ _ _ _ _ _ _ _) as [[u|e] c]; reflexivity.
  - cbn. destruct (psr _ _ _ _ _ _ _ _) as [[u|e] c]; reflexivity.
Qed.

Lemma start_ready o s : has_file fs o i -> ready fs i s (start o s).
Proof.
  intros H. split.
  - unfold has_file in H. erewrite get_cpd_fst_ext; [exact H|reflexivity..].
  - cbn. eexists. split; [reflexivity|]. apply str_mem_In. cbn. apply In_sadd. now left.
Qed.

Lemma parsed_intro o s r sh us done c' l :
  eff (start o s) c' sh us (data_after s done (data_of o)) (flat_map (records K) done ++ l) ->
  (r = Ok tt -> l = []) -> has_file fs o i ->
  parsed o (match r with Ok _ => set_last (Some sh) (x_obj c') | Err _ => x_obj c' end) s r sh us done.
Proof.
  intros F R H. destruct F. unfold conf, start in *. cbn in *.
  assert (CH : checked_of (x_obj c') = sadd s (checked_of o)).
  { rewrite ef_checked0. unfold checked_of. cbn. now destruct (o_edata o). }
  assert (HF : has_file fs (x_obj c') i).
  { apply ef_cpd0. unfold has_file in *. erewrite get_cpd_fst_ext; [exact H|reflexivity..]. }
  inversion ef_conf0.
  destruct r as [[]|x]; constructor; cbn; auto; try (exists l; split; auto).
  unfold has_file in *. erewrite get_cpd_fst_ext; [exact HF|reflexivity..].
Qed.

Theorem parse_section_spec fuel s init fin o evs n :
  s <> [] -> has_file fs o i -> (0 <= level_of o)%Z ->
  parse_walk K i (o_defname o) s init fin evs n ->
  default_ok K i (o_defname o) s init -> n <= fuel ->
  let '(r, sh, us, done) := run K s (level_of o) (path_set_of o) evs (k_empty K) (o_user o) in
  exists o', parse_section_str K fs fuel s init fin o =
             (match r with Ok _ => Ok sh | Err e => Err e end, o') /\
    parsed o o' s r sh us done /\ (r = Ok tt -> done = evs).
Proof.
  intros NE H L W DO F. rewrite parse_section_start by auto.
  pose proof (start_ready o s H) as RD.
  rewrite (psr_parse K fs i fuel s init fin evs n (start o s)); auto; [|intros x; reflexivity].
  pose proof (exec_run s evs [] [] (start o s) (parse_walk_nested _ _ _ _ _ _ W)
                (fun x => eq_refl) (proj1 RD) L) as X.
  change (level_of (x_obj (start o s))) with (level_of o) in X.
  change (path_set_of (x_obj (start o s))) with (path_set_of o) in X.
  change (x_sh (start o s)) with (k_empty K) in X.
  change (o_user (x_obj (start o s))) with (o_user o) in X.
  destruct (run K s (level_of o) (path_set_of o) evs (k_empty K) (o_user o)) as [[[r sh] us] done].
  destruct X as (l & (c' & E & FF) & R & _). rewrite E.
  replace (data_of (x_obj (start o s))) with (data_of o) in FF
    by (unfold start, data_of; cbn; now destruct (o_edata o)).
  exists (match r with Ok _ => set_last (Some sh) (x_obj c') | Err _ => x_obj c' end).
  split; [|split].
  - pose proof (ef_sh _ _ _ _ _ _ FF) as S. destruct r; rewrite ?S; reflexivity.
  - eapply parsed_intro; eauto. intros Hr. now apply R.
  - intros Hr. now apply R.
Qed.

(** Its log. *)
Theorem parse_section_log fuel s init fin o evs n :
  s <> [] -> has_file fs o i -> (0 <= level_of o)%Z ->
  parse_walk K i (o_defname o) s init fin evs n ->
  default_ok K i (o_defname o) s init -> n <= fuel ->
  log_of (snd (parse_section_str K fs fuel s init fin o)) =
  if (0 <? o_debug o)%Z then run_log K s (level_of o) (path_set_of o) evs (k_empty K) (o_user o)
  else [].
Proof.
  intros NE H L W DO F. rewrite parse_section_start by auto.
  pose proof (start_ready o s H) as RD.
  rewrite (psr_parse K fs i fuel s init fin evs n (start o s)); auto; [|intros x; reflexivity].
  pose proof (exec_run s evs [] [] (start o s) (parse_walk_nested _ _ _ _ _ _ W)
                (fun x => eq_refl) (proj1 RD) L) as X.
  change (level_of (x_obj (start o s))) with (level_of o) in X.
  change (path_set_of (x_obj (start o s))) with (path_set_of o) in X.
  change (x_sh (start o s)) with (k_empty K) in X.
  change (o_user (x_obj (start o s))) with (o_user o) in X.
  destruct (run K s (level_of o) (path_set_of o) evs (k_empty K) (o_user o)) as [[[r sh] us] done].
  destruct X as (l & (c' & E & FF) & R & LG). rewrite E.
  pose proof (ef_log _ _ _ _ _ _ FF) as G. rewrite LG in G. cbn in G.
  destruct r as [u|x]; exact G.
Qed.

(** A parse that returns, without assumptions about fuel or default section. *)
Theorem parse_section_Ok fuel s init fin o v o' :
  has_file fs o i -> (0 <= level_of o)%Z ->
  parse_section_str K fs fuel s init fin o = (Ok v, o') ->
  s <> [] /\ default_ok K i (o_defname o) s init /\
  exists evs n us, parse_walk K i (o_defname o) s init fin evs n /\
    run K s (level_of o) (path_set_of o) evs (k_empty K) (o_user o) = (Ok tt, v, us, evs) /\
    parsed o o' s (Ok tt) v us evs.
Proof.
  intros H L E.
  assert (NE : s <> []).
  { intros ->. unfold parse_section_str, parse_section_with in E. cbn in E. discriminate. }
  split; auto. pose proof E as E0. rewrite parse_section_start in E by auto.
  destruct (psr K fs fuel s s init fin (start o s)) as [[u|x] c] eqn:EP; [|discriminate].
  pose proof (psr_ok_default K fs i _ _ _ _ _ _ _ (start_ready o s H) eq_refl EP) as DO.
  split; [exact DO|].
  destruct (parse_walk_exists K i (o_defname o) s init fin) as (evs & n & W & _).
  exists evs, n.
  pose proof (parse_section_spec (Nat.max fuel n) s init fin o evs n NE H L W DO ltac:(lia)) as X.
  assert (E' : parse_section_str K fs (Nat.max fuel n) s init fin o = (Ok v, o')).
  { rewrite parse_section_start by auto.
    rewrite (psr_mono K fs fuel (Nat.max fuel n) ltac:(lia) s s init fin _ _ _ EP). exact E. }
  rewrite E' in X.
  destruct (run K s (level_of o) (path_set_of o) evs (k_empty K) (o_user o)) as [[[r sh] us] done].
  destruct X as (o1 & E1 & P1 & D1). destruct r as [[]|x]; [|discriminate].
  inversion E1; subst. rewrite (D1 eq_refl) in *. exists us. auto.
Qed.
End RunP.
