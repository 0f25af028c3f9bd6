(** * Proofs about the program [gen_config.py]. *)
From Coq Require Import String NArith List Bool Lia.
Import ListNotations.
From Verif Require Import PyBase PyFacts EnvVar EnvProofs Regex Keyword DetSys EnvKeyword LoadEnv GenRun Bash SpecBash BashProofs
  FlagsProofs2 SpecLoadEnv SpecGenRun GenConfigProofs.
Local Open Scope sm_scope.

(** ** Answers *)
Lemma lower_y c : (lower_char c =? 121)%N = true <-> (c = 121 \/ c = 89)%N.
Proof.
  unfold lower_char. rewrite N.eqb_eq. destruct (N.leb_spec 65 c), (N.leb_spec c 90); cbn [andb]; lia.
Qed.
Lemma lower_n c : (lower_char c =? 110)%N = true <-> (c = 110 \/ c = 78)%N.
Proof.
  unfold lower_char. rewrite N.eqb_eq. destruct (N.leb_spec 65 c), (N.leb_spec c 90); cbn [andb]; lia.
Qed.
Lemma yes_not_no r : says_yes r -> says_no r -> False.
Proof. intros (c & t & -> & A) (d & u & [= <- <-] & B). lia. Qed.

Lemma confirm_cases l :
  (agreed l /\ fst (confirm l) = Ok true) \/ (refused l /\ fst (confirm l) = Ok false) \/
  (~ agreed l /\ ~ refused l /\ exists x, fst (confirm l) = Err x).
Proof.
  induction l as [|r l IH]; cbn [confirm].
  - right. right. split; [|split; [|eexists; reflexivity]]; intros (m & r & rest & E & _); destruct m; discriminate E.
  - destruct r as [|c t]; cbn [lower map].
    + right. right. split; [|split; [|eexists; reflexivity]].
      * intros (m & r & rest & E & F & Y). destruct m as [|x m]; cbn in E; injection E as E1 E2; subst.
        -- destruct Y as (? & ? & Y & _). discriminate Y.
        -- inversion F as [|? ? [] ]. congruence.
      * intros (m & r & rest & E & F & Y). destruct m as [|x m]; cbn in E; injection E as E1 E2; subst.
        -- destruct Y as (? & ? & Y & _). discriminate Y.
        -- inversion F as [|? ? [] ]. congruence.
    + destruct (lower_char c =? 121)%N eqn:Y.
      { left. apply lower_y in Y. split; auto. exists [], (c :: t), l. repeat split; auto. exists c, t. auto. }
      destruct (lower_char c =? 110)%N eqn:M.
      { right. left. apply lower_n in M. split; auto. exists [], (c :: t), l. repeat split; auto. exists c, t. auto. }
      assert (UN : unclear (c :: t)).
      { split; [discriminate|]. split; intros (d & u & [= <- <-] & E).
        - apply lower_y in E. congruence.
        - apply lower_n in E. congruence. }
      destruct IH as [[(m & r & rest & -> & F & A) E]|[[(m & r & rest & -> & F & A) E]|(A & B & E)]].
      * left. split; auto. exists ((c :: t) :: m), r, rest. repeat split; auto.
      * right. left. split; auto. exists ((c :: t) :: m), r, rest. repeat split; auto.
      * right. right. split; [|split; auto].
        -- intros (m & r & rest & E2 & F & Z). destruct m as [|x m]; cbn in E2; injection E2 as E3 E4.
           ++ subst. destruct UN as (_ & U & _). auto.
           ++ subst. apply A. inversion F; subst. exists m, r, rest. auto.
        -- intros (m & r & rest & E2 & F & Z). destruct m as [|x m]; cbn in E2; injection E2 as E3 E4.
           ++ subst. destruct UN as (_ & _ & U). auto.
           ++ subst. apply B. inversion F; subst. exists m, r, rest. auto.
Qed.
Lemma refused_not_agreed l : refused l -> ~ agreed l.
Proof.
  intros (m & r & rest & -> & F & A) (m' & r' & rest' & E & F' & A').
  revert m' E F'. induction m as [|x m IH]; intros [|y m'] E F'; cbn in E; injection E as E E'; subst.
  - eapply yes_not_no; eauto.
  - inversion F' as [|? ? [_ [_ U]] ]. auto.
  - inversion F as [|? ? [_ [U _]] ]. auto.
  - inversion F; inversion F'; subst. eauto.
Qed.

Section Run.
Variable other_re : str -> str -> res bool.
Variable systems : list (str * list str).
Variable hostname : str.
Variable envs : str -> res (dict (option str)).
Variable flags : str -> res (dict (option str)).
Variable specs : list str.
Variable gen : str -> str -> res (list str).
Variable list_flags list_confs : bool.
Variable save fragment : option str.
Variable yes ci : bool.
Variable systems_file envs_file env_specs_file : str.
Variable args_file loc_file : str.
Variable writable : str -> bool.
Notation options_for := (options_for other_re systems hostname envs flags specs gen).
Notation generated_flags := (generated_flags other_re systems hostname envs flags specs).
Notation write_fragment := (write_fragment other_re systems hostname envs flags specs gen yes writable).
Notation gen_main lf lc sv fr := (gen_main other_re systems hostname envs flags specs gen lf lc sv fr yes ci
  systems_file envs_file env_specs_file args_file loc_file writable).

(** ** The options *)
Lemma flags_new kind b f l :
  fst (generated_flags (gen kind) (new_genconfig b f)) = Ok l <-> options_for kind b f l.
Proof.
  unfold SpecGenRun.options_for. destruct (flags flags_section) as [fd|e] eqn:FD.
  - split.
    + intros E. pose proof (no_flags other_re systems hostname envs flags specs (gen kind) fd FD b f [] l) as V.
      cbn [gafter gexec] in V. rewrite bind_eq in V.
      destruct (generated_flags (gen kind) (new_genconfig b f)) as [r p'] eqn:G. cbn [fst] in E. subst r.
      specialize (V eq_refl). split; [exact V|].
      pose proof (proj1 (canonical_iff other_re systems hostname envs flags specs fd FD) V) as V2.
      pose proof (proj1 (gexec_ok other_re systems hostname envs flags specs (gen kind) fd FD b f _ GFlags V2
        (ginv_new other_re systems hostname envs flags specs fd b f))) as Q.
      cbn [gexec q_gans] in Q. rewrite bind_eq, G in Q. cbn in Q. unfold q_flags in Q. rewrite V2 in Q. cbn [rbind] in Q.
      destruct (q_config other_re systems hostname envs flags fd b f) as [c|e] eqn:C; [|discriminate].
      exists c. split; [now apply (config_name_iff other_re systems hostname envs flags fd FD)|].
      cbn [rbind] in Q. destruct (gen kind c); cbn in Q; congruence.
    + intros (V & c & C & G).
      pose proof (flags_answer other_re systems hostname envs flags specs (gen kind) fd FD b f c V C) as Q.
      cbn [gexec] in Q. rewrite bind_eq, G in Q. cbn [rbind] in Q.
      destruct (generated_flags (gen kind) (new_genconfig b f)) as [[l'|x] p']; cbn in *; congruence.
  - split.
    + unfold LoadEnv.generated_flags. rewrite bind_eq. unfold get at 1. cbn [g_valid new_genconfig]. rewrite bind_eq.
      unfold validate. rewrite bind_eq. unfold load_ckp. rewrite bind_eq. unfold get at 1. cbn [g_ckp new_genconfig].
      rewrite bind_eq. unfold of_res, new_ckp. rewrite FD. discriminate.
    + intros (_ & c & (k & n & o & K & _) & _). unfold new_ckp in K. rewrite FD in K. discriminate.
Qed.

(** ** The fragment *)
Lemma fragment_new b f out answers p :
  (exists l w, options_for $"cmake_fragment" b f l /\ may_replace p out yes answers /\ writable p = true /\
     write_fragment p (new_gworld b f out answers) = (Ok p, w) /\ v_fragment w = Some p /\
     dget p (v_out w) = Some (join newline l) /\ same_but [p] out (v_out w)) \/
  (exists x w, write_fragment p (new_gworld b f out answers) = (Err x, w) /\ same_but [p] out (v_out w) /\
     (writable p = true -> v_out w = out) /\
     ~ (exists l, options_for $"cmake_fragment" b f l /\ may_replace p out yes answers /\ writable p = true) /\
     (yes = false -> dget p out <> None -> refused answers -> (exists l, options_for $"cmake_fragment" b f l) -> x = SystemExit)).
Proof.
  remember (write_fragment p (new_gworld b f out answers)) as run eqn:R.
  unfold GenRun.write_fragment in R. rewrite bind_eq in R. unfold get at 1 in R. cbn [v_fragment new_gworld] in R. rewrite bind_eq in R.
  unfold on_gc at 1 in R. cbn [v_gc v_fragment v_out v_in new_gworld] in R.
  pose proof (fun l => flags_new $"cmake_fragment" b f l) as O.
  destruct (generated_flags (gen $"cmake_fragment") (new_genconfig b f)) as [[l|x] p1]; cbn [fst] in O.
  2:{ right. exists x. eexists. split; [exact R|]. split; [intros q _; reflexivity|]. split; [auto|]. split.
      - intros (l & A & _). apply O in A. discriminate.
      - intros _ _ _ (l & A). apply O in A. discriminate. }
  assert (OL : options_for $"cmake_fragment" b f l) by now apply O.
  rewrite bind_eq in R. unfold get at 1 in R. rewrite bind_eq in R. cbn [v_out] in R.
  assert (WR : forall out1 in1, same_but [p] out out1 ->
    (open_file writable p ;; put_out (dset p (join newline l)) ;;
       modify (fun w => GWorld (v_gc w) (Some p) (v_out w) (v_in w)) ;; ret p) (GWorld p1 None out1 in1) =
    (if writable p then (Ok p, GWorld p1 (Some p) (dset p (join newline l) (dset p [] out1)) in1)
     else (Err IOError, GWorld p1 None out1 in1)) /\
    same_but [p] out (dset p (join newline l) (dset p [] out1)) /\
    dget p (dset p (join newline l) (dset p [] out1)) = Some (join newline l)).
  { intros out1 in1 SB. split; [|split].
    - rewrite bind_eq. unfold open_file. destruct (writable p); [|reflexivity]. reflexivity.
    - intros q N. rewrite !dget_dset_other; [now apply SB|..]; intros ->; apply N; now left.
    - apply dget_dset_same. }
  assert (SB0 : same_but [p] out out) by (intros q _; reflexivity).
  assert (SB1 : same_but [p] out (ddel p out)).
  { intros q N. apply dget_ddel_other. intros ->. apply N. now left. }
  unfold dmem in R. destruct (dget p out) as [old|] eqn:D.
  2:{ cbn [ret] in R. destruct (WR out answers SB0) as (E & S1 & S2). destruct (writable p) eqn:W.
      - left. exists l. eexists. split; [exact OL|]. split; [now left|]. split; [reflexivity|]. split; [exact (eq_trans R E)|]. auto.
      - right. exists IOError. eexists. split; [exact (eq_trans R E)|]. split; [exact SB0|]. split; [discriminate|]. split.
        + intros (? & _ & _ & ?). discriminate.
        + congruence. }
  rewrite bind_eq in R.
  destruct yes eqn:Y.
  - cbn [ret] in R. unfold put_out at 1, modify at 1 in R. cbn [v_gc v_fragment v_out v_in] in R.
    destruct (WR (ddel p out) answers SB1) as (E & S1 & S2). destruct (writable p) eqn:W.
    + left. exists l. eexists. split; [exact OL|]. split; [right; now left|]. split; [reflexivity|]. split; [exact (eq_trans R E)|]. auto.
    + right. exists IOError. eexists. split; [exact (eq_trans R E)|]. split; [exact SB1|]. split; [discriminate|]. split.
      * intros (? & _ & _ & ?). discriminate.
      * congruence.
  - rewrite bind_eq in R. unfold ask in R. cbn [v_gc v_fragment v_out v_in] in R.
    pose proof (confirm_cases answers) as CC. destruct (confirm answers) as [r rest]. cbn [fst] in CC.
    destruct CC as [[A ->]|[[A ->]|(A & B & x & ->)]].
    + cbn [ret] in R. unfold put_out at 1, modify at 1 in R. cbn [v_gc v_fragment v_out v_in] in R.
      destruct (WR (ddel p out) rest SB1) as (E & S1 & S2). destruct (writable p) eqn:W.
      * left. exists l. eexists. split; [exact OL|]. split; [right; now right|]. split; [reflexivity|]. split; [exact (eq_trans R E)|]. auto.
      * right. exists IOError. eexists. split; [exact (eq_trans R E)|]. split; [exact SB1|]. split; [discriminate|]. split.
        -- intros (? & _ & _ & ?). discriminate.
        -- intros _ _ RF. apply refused_not_agreed in RF. tauto.
    + right. exists SystemExit. eexists. split; [exact R|]. split; [exact SB0|]. split; [reflexivity|]. split.
      * intros (? & _ & [M|[M|M]] & _); [congruence|congruence|]. now apply refused_not_agreed in A.
      * auto.
    + right. exists x. eexists. split; [exact R|]. split; [exact SB0|]. split; [reflexivity|]. split.
      * intros (? & _ & [M|[M|M]] & _); [congruence|congruence|auto].
      * tauto.
Qed.

Notation fragment_main p := (gen_main false false None (Some p)).
Lemma main_fragment p w : fragment_main p w = (r <- write_fragment p ;; ret tt) w.
Proof. reflexivity. Qed.
Lemma fragment_iff p b f out answers :
  (exists w, fragment_main p (new_gworld b f out answers) = (Ok tt, w)) <->
  (exists l, options_for $"cmake_fragment" b f l) /\ may_replace p out yes answers /\ writable p = true.
Proof.
  rewrite main_fragment, bind_eq.
  destruct (fragment_new b f out answers p) as [(l & w & O & M & W & E & _)|(x & w & E & _ & _ & N & _)]; rewrite E.
  - split; [eauto|intros _; exists w; reflexivity].
  - split; [intros (? & [=])|]. intros ((l & O) & M & W). exfalso. eauto.
Qed.
Lemma fragment_contents p b f out answers w :
  fragment_main p (new_gworld b f out answers) = (Ok tt, w) ->
  exists l, options_for $"cmake_fragment" b f l /\ dget p (v_out w) = Some (join newline l) /\ same_but [p] out (v_out w).
Proof.
  rewrite main_fragment, bind_eq.
  destruct (fragment_new b f out answers p) as [(l & w1 & O & M & W & E & _ & R)|(x & w1 & E & _)]; rewrite E; [|discriminate].
  intros [= <-]. eauto.
Qed.
Lemma fragment_failure p b f out answers x w :
  fragment_main p (new_gworld b f out answers) = (Err x, w) -> writable p = true -> v_out w = out.
Proof.
  rewrite main_fragment, bind_eq.
  destruct (fragment_new b f out answers p) as [(l & w1 & O & M & W & E & _ & R)|(y & w1 & E & _ & U & _)]; rewrite E; [discriminate|].
  intros [= <- <-]. exact U.
Qed.
Lemma fragment_refused p b f out answers :
  (exists l, options_for $"cmake_fragment" b f l) -> dget p out <> None -> yes = false -> refused answers ->
  exists w, fragment_main p (new_gworld b f out answers) = (Err SystemExit, w) /\ (writable p = true -> v_out w = out).
Proof.
  intros O D Y R. rewrite main_fragment, bind_eq.
  destruct (fragment_new b f out answers p) as [(l & w1 & _ & [M|[M|M]] & _)|(y & w1 & E & _ & U & _ & X)]; try congruence.
  - now apply refused_not_agreed in R.
  - rewrite E. rewrite (X Y D R O). exists w1. auto.
Qed.
Lemma fragment_again p w q w1 out2 in2 :
  write_fragment p w = (Ok q, w1) ->
  write_fragment p (GWorld (v_gc w1) (v_fragment w1) out2 in2) = (Ok q, GWorld (v_gc w1) (v_fragment w1) out2 in2).
Proof.
  intros E. assert (F : v_fragment w1 = Some q).
  { unfold GenRun.write_fragment in E. rewrite bind_eq in E. unfold get at 1 in E.
    destruct (v_fragment w) as [r|] eqn:V; [injection E as <- <-; exact V|].
    rewrite bind_eq in E. destruct (on_gc _ w) as [[l|x] w2]; [|discriminate].
    rewrite bind_eq in E. unfold get at 1 in E. rewrite bind_eq in E.
    match type of E with (let (_, _) := ?m in _) = _ => destruct m as [[u|x] w3]; [|discriminate] end.
    rewrite bind_eq in E. destruct (open_file writable p w3) as [[u2|x] w4]; [|discriminate].
    cbv [bind put_out modify ret] in E. injection E as <- <-. reflexivity. }
  rewrite F. reflexivity.
Qed.

(** ** The arguments for cmake *)
Notation default_main := (gen_main false false None None).
Lemma default_run b f out answers : args_file <> loc_file ->
  (exists l w, options_for $"bash" b f l /\ writable args_file = true /\ writable loc_file = true /\
     default_main (new_gworld b f out answers) = (Ok tt, w) /\
     dget args_file (v_out w) = Some (args_text l) /\ dget loc_file (v_out w) = Some args_file /\
     same_but [args_file; loc_file] out (v_out w)) \/
  (exists x w, default_main (new_gworld b f out answers) = (Err x, w) /\ same_but [args_file] out (v_out w) /\
     ~ ((exists l, options_for $"bash" b f l) /\ writable args_file = true /\ writable loc_file = true) /\
     ((~ exists l, options_for $"bash" b f l) -> writable args_file = true -> dget args_file (v_out w) = Some [])).
Proof.
  intros NE. remember (default_main (new_gworld b f out answers)) as run eqn:R.
  unfold GenRun.gen_main in R. rewrite bind_eq in R. unfold open_file at 1 in R. destruct (writable args_file) eqn:W.
  2:{ right. exists IOError. eexists. split; [exact R|]. split; [intros q _; reflexivity|]. split; [intros (_ & [=] & _)|discriminate]. }
  unfold put_out at 1, modify at 1 in R. cbn [v_gc v_fragment v_out v_in new_gworld] in R. rewrite bind_eq in R. unfold flags_str in R.
  rewrite bind_eq in R. unfold on_gc at 1 in R. cbn [v_gc v_fragment v_out v_in] in R.
  pose proof (fun l => flags_new $"bash" b f l) as O.
  destruct (generated_flags (gen $"bash") (new_genconfig b f)) as [[l|x] p1]; cbn [fst] in O.
  2:{ right. exists x. eexists. split; [exact R|]. cbn [v_out]. split.
      - intros q N. rewrite dget_dset_other; auto. intros ->. apply N. now left.
      - split; [intros ((l & A) & _); apply O in A; discriminate|]. intros _ _. apply dget_dset_same. }
  cbn [ret] in R. rewrite bind_eq in R. unfold put_out at 1, modify at 1 in R. cbn [v_gc v_fragment v_out v_in] in R.
  assert (OL : options_for $"bash" b f l) by now apply O.
  rewrite bind_eq in R. unfold open_file at 1 in R. destruct (writable loc_file) eqn:W2.
  - left. exists l. eexists. split; [exact OL|]. split; [reflexivity|]. split; [reflexivity|]. split; [exact R|].
    cbn [v_out]. split; [|split].
    + rewrite !dget_dset_other, dget_dset_same by auto. reflexivity.
    + apply dget_dset_same.
    + intros q N. cbn [In] in N. rewrite !dget_dset_other; auto; intros ->; tauto.
  - right. exists IOError. eexists. split; [exact R|]. cbn [v_out]. split.
    + intros q N. cbn [In] in N. rewrite !dget_dset_other; auto; intros ->; tauto.
    + split; [intros (_ & _ & [=])|]. intros N. exfalso. eauto.
Qed.
Lemma default_iff b f out answers : args_file <> loc_file ->
  (exists w, default_main (new_gworld b f out answers) = (Ok tt, w)) <->
  (exists l, options_for $"bash" b f l) /\ writable args_file = true /\ writable loc_file = true.
Proof.
  intros NE. destruct (default_run b f out answers NE) as [(l & w & O & W1 & W2 & E & _)|(x & w & E & _ & N & _)]; rewrite E.
  - split; eauto.
  - split; [intros (? & [=])|tauto].
Qed.
Lemma default_contents b f out answers w : args_file <> loc_file ->
  default_main (new_gworld b f out answers) = (Ok tt, w) ->
  exists l, options_for $"bash" b f l /\ dget args_file (v_out w) = Some (args_text l) /\
    dget loc_file (v_out w) = Some args_file /\ same_but [args_file; loc_file] out (v_out w).
Proof.
  intros NE. destruct (default_run b f out answers NE) as [(l & w1 & O & W1 & W2 & E & R)|(x & w1 & E & _)]; rewrite E;
    [|discriminate]. intros [= <-]. exists l. auto.
Qed.
Lemma default_failure b f out answers x w : args_file <> loc_file ->
  default_main (new_gworld b f out answers) = (Err x, w) -> same_but [args_file] out (v_out w).
Proof.
  intros NE. destruct (default_run b f out answers NE) as [(l & w1 & O & W1 & W2 & E & R)|(y & w1 & E & R & _)]; rewrite E;
    [discriminate|]. intros [= <- <-]. exact R.
Qed.
Lemma default_leftover b f out answers : args_file <> loc_file ->
  (~ exists l, options_for $"bash" b f l) -> writable args_file = true ->
  exists x w, default_main (new_gworld b f out answers) = (Err x, w) /\ dget args_file (v_out w) = Some [].
Proof.
  intros NE N W. destruct (default_run b f out answers NE) as [(l & w1 & O & _)|(y & w1 & E & _ & _ & R)].
  - exfalso. eauto.
  - eauto.
Qed.

(** ** The arguments for [load-env.sh] *)
Lemma saved p b f out answers : writable p = true ->
  exists w l, gen_main false false (Some p) fragment (new_gworld b f out answers) = (Ok tt, w) /\
    loadenv_command systems_file envs_file env_specs_file f ci b l /\
    dget p (v_out w) = Some (join $" " l) /\ same_but [p] out (v_out w).
Proof.
  intros W. unfold GenRun.gen_main, open_file. rewrite W. eexists.
  exists (load_env_args ci systems_file envs_file env_specs_file (new_genconfig b f)).
  split; [reflexivity|]. cbn [v_out v_gc]. split; [|split].
  - unfold load_env_args, loadenv_command. cbn [g_force g_build new_genconfig].
    exists ((if f then [$"--force"] else []) ++ (if ci then [$"--ci-mode"] else [])).
    split; [now rewrite <- app_assoc|]. destruct f, ci; cbn [app In].
    all: assert (D : $"--force" <> $"--ci-mode") by discriminate; assert (D' := not_eq_sym D).
    all: split; [intuition congruence|]; split; [intuition congruence|]; split; [|intuition congruence].
    all: repeat first [apply NoDup_nil|apply NoDup_cons; [cbn [In]; intuition congruence|]].
  - apply dget_dset_same.
  - intros q N. cbn [In] in N. rewrite !dget_dset_other; auto; intros ->; tauto.
Qed.

(** ** Nothing else is written *)
Notation main := (gen_main list_flags list_confs save fragment).
Notation touched := (touched list_flags list_confs save fragment args_file loc_file).
Definition keeps {A} (l : list str) (m : SM gworld A) : Prop := forall w, same_but l (v_out w) (v_out (snd (m w))).
Lemma k_ret {A} l (a : A) : keeps l (ret a).
Proof. intros w q _. reflexivity. Qed.
Lemma k_get l : keeps l get.
Proof. intros w q _. reflexivity. Qed.
Lemma k_raise {A} l x : keeps l (@raise gworld A x).
Proof. intros w q _. reflexivity. Qed.
Lemma k_bind {A B} l (m : SM gworld A) (k : A -> SM gworld B) : keeps l m -> (forall a, keeps l (k a)) -> keeps l (bind m k).
Proof.
  intros M Kk w q N. specialize (M w q N). rewrite bind_eq. destruct (m w) as [[a|x] w1]; cbn [snd] in *; auto.
  rewrite (Kk a w1 q N). exact M.
Qed.
Lemma k_gc {A} l (m : SM genconfig A) : keeps l (on_gc m).
Proof. intros w q _. unfold on_gc. destruct (m (v_gc w)). reflexivity. Qed.
Lemma k_ask l : keeps l ask.
Proof. intros w q _. unfold ask. destruct (confirm (v_in w)). reflexivity. Qed.
Lemma k_set l p s : In p l -> keeps l (put_out (dset p s)).
Proof. intros I w q N. cbn. apply dget_dset_other. congruence. Qed.
Lemma k_del l p : In p l -> keeps l (put_out (ddel p)).
Proof. intros I w q N. cbn. apply dget_ddel_other. congruence. Qed.
Lemma k_open l p : In p l -> keeps l (open_file writable p).
Proof. intros I. unfold open_file. destruct (writable p); [now apply k_set|apply k_raise]. Qed.
Lemma k_fragment l p : In p l -> keeps l (write_fragment p).
Proof.
  intros I. apply k_bind; [apply k_get|]. intros w. destruct (v_fragment w); [apply k_ret|].
  apply k_bind; [apply k_gc|]. intros o. apply k_bind; [apply k_get|]. intros w2. apply k_bind.
  - destruct (dmem p (v_out w2)); [|apply k_ret]. apply k_bind; [|intros _; now apply k_del].
    destruct yes; [apply k_ret|]. apply k_bind; [apply k_ask|]. intros []; [apply k_ret|apply k_raise].
  - intros _. apply k_bind; [now apply k_open|]. intros _. apply k_bind; [now apply k_set|]. intros _.
    apply k_bind; [intros w3 q _; reflexivity|]. intros _. apply k_ret.
Qed.
Lemma only_touched w : same_but touched (v_out w) (v_out (snd (main w))).
Proof.
  revert w. change (keeps touched main). unfold SpecGenRun.touched, GenRun.gen_main.
  destruct list_flags; [apply k_bind; [apply k_gc|intros _; apply k_raise]|].
  destruct list_confs; [apply k_bind; [apply k_gc|intros _; apply k_raise]|]. cbn [orb].
  destruct save as [p|].
  - apply k_bind; [apply k_open; now left|]. intros _. apply k_bind; [apply k_get|]. intros w. apply k_set. now left.
  - destruct fragment as [p|].
    + apply k_bind; [apply k_fragment; now left|]. intros _. apply k_ret.
    + apply k_bind; [apply k_open; now left|]. intros _. apply k_bind; [apply k_bind; [apply k_gc|intros; apply k_ret]|]. intros s.
      apply k_bind; [apply k_set; now left|]. intros _. apply k_bind; [apply k_open; right; now left|]. intros _.
      apply k_set. right. now left.
Qed.
End Run.

(** ** Words *)
Section Words.
Variable glob : str -> list str.
Lemma split_value_app s t : forall cur,
  split_value (s ++ t) cur =
  let (l, c) := split_value s cur in let (l', c') := split_value t c in (l ++ l', c').
Proof.
  induction s as [|c s IH]; intros cur; cbn [split_value app].
  - destruct (split_value t cur). reflexivity.
  - destruct (ifs c).
    + rewrite IH. destruct (split_value s None) as [l d]. destruct (split_value t d) as [l' d']. destruct cur; reflexivity.
    + apply IH.
Qed.
Lemma fields_value s : fields glob [U s] =
  flat_map (fun f : str * bool => if snd f then glob (fst f) else [fst f])
    (let (l, c) := split_value s None in l ++ match c with Some f => [f] | None => [] end).
Proof. unfold fields. cbn [split_word]. reflexivity. Qed.
Lemma fields_cons x sep s mid : bare_word x -> (exists c t, sep = c :: t /\ ifs c = true) ->
  split_value sep None = (mid, None) ->
  fields glob [U (x ++ sep ++ s)] =
  x :: flat_map (fun f : str * bool => if snd f then glob (fst f) else [fst f]) mid ++ fields glob [U s].
Proof.
  intros [N B] (c & t & -> & I) E. rewrite !fields_value, split_value_app, split_value_none by auto.
  rewrite split_value_app. cbn [split_value] in E |- *. rewrite I in *.
  destruct (split_value t None) as [m d]. injection E as -> ->.
  destruct (split_value s None) as [l' c']. cbn [app flat_map snd fst]. rewrite <- app_assoc, flat_map_app. reflexivity.
Qed.
Lemma spaced_words l : Forall bare_word l -> fields glob [U (join $" " l)] = l.
Proof.
  induction 1 as [|x l B F IH]; [reflexivity|]. destruct l as [|y l].
  - cbn [join]. destruct B. now apply fields_one.
  - change (join $" " (x :: y :: l)) with (x ++ $" " ++ join $" " (y :: l)).
    rewrite (fields_cons x $" " _ []); auto; [|now exists 32%N, []]. cbn [flat_map app]. now rewrite IH.
Qed.
Lemma slashed_words l : glob $"\" = [$"\"] -> Forall bare_word l -> fields glob [U (args_text l)] = slashed l.
Proof.
  intros G. unfold args_text. induction 1 as [|x l B F IH]; [reflexivity|]. destruct l as [|y l].
  - cbn [join slashed]. destruct B. now apply fields_one.
  - set (sep := $" \" ++ newline ++ $"    ") in *.
    change (join sep (x :: y :: l)) with (x ++ sep ++ join sep (y :: l)).
    rewrite (fields_cons x sep _ [($"\", true)]); auto.
    + cbn [flat_map app snd fst slashed]. rewrite G. cbn [app]. now rewrite IH.
    + eexists _, _. split; reflexivity.
Qed.
End Words.
