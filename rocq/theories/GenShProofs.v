(** * Proofs about [gen-config.sh]. *)
From Coq Require Import String NArith List Bool Arith Lia.
Import ListNotations.
From Verif Require Import PyBase PyFacts EnvVar EnvProofs SetEnv Bash SpecBash BashProofs SpecText SpecGenRun Debuggable SpecBase BaseProofs
  SpecSetEnv SetEnvProofs GenRunProofs LoadSh SpecSh ShProofs GenSh SpecGenSh.
Local Open Scope sm_scope.

Lemma chomp_last (s : str) c : c <> 10%N -> chomp (s ++ [c]) = s ++ [c].
Proof.
  intros N. unfold chomp, rstrip. rewrite rev_app_distr. cbn [rev app lstrip].
  destruct (N.eqb_spec 10 c) as [E|_]; [congruence|]. cbn [rev]. now rewrite rev_involutive.
Qed.
Lemma bare_last x : bare_word x -> exists s c, x = s ++ [c] /\ c <> 10%N.
Proof.
  intros (N & U). destruct (exists_last N) as (s & c & ->). exists s, c. split; auto. intros ->.
  apply (U 10%N). { apply in_or_app. right. now left. } cbn. tauto.
Qed.
Lemma join_last sep l : Forall bare_word l -> l <> [] -> exists s c, join sep l = s ++ [c] /\ c <> 10%N.
Proof.
  induction 1 as [|x l B F IH]; [congruence|]. intros _. destruct l as [|y l].
  - now apply bare_last.
  - destruct IH as (s & c & E & N); [discriminate|]. exists (x ++ sep ++ s), c. split; auto.
    change (join sep (x :: y :: l)) with (x ++ sep ++ join sep (y :: l)). rewrite E. now rewrite !app_assoc.
Qed.
Lemma chomp_join sep l : Forall bare_word l -> chomp (join sep l) = join sep l.
Proof.
  destruct l as [|x l]; intros F; [reflexivity|]. destruct (join_last sep _ F) as (s & c & E & N); [discriminate|].
  rewrite E. now apply chomp_last.
Qed.

Section G.
Variable glob : str -> list str.
Variable odd_test : list str -> bool.
Variable odd_status : str -> N.
Variable which_python3 too_old : environ -> str.
Variable python3 : list str -> environ -> dict str -> N * dict str.
Variable interactive : list str -> environ -> dict str -> dict str.
Variable run_text run_function : str -> sh unit.
Variable here random : str.
Variable directory : str -> bool.
Variable cmake : list str -> environ -> dict str -> dict str.
Variable odd_source : list str -> sh N.
Notation words := (words glob).
Notation cleanup_gc := (cleanup_gc glob odd_test).
Notation gen_config_sh := (gen_config_sh glob odd_test odd_status which_python3 too_old python3 interactive run_text run_function here random directory cmake odd_source).
Notation configure := (configure glob odd_test odd_status which_python3 too_old python3 interactive run_text run_function random cmake odd_source).
Notation function_body := (function_body glob run_function cmake).

Lemma unset_app l m : forall t, unset_names (l ++ m) t = (unset_names l ;; unset_names m) t.
Proof.
  induction l as [|x l IH]; intros t; [reflexivity|].
  change ((x :: l) ++ m) with (x :: (l ++ m)). cbn [unset_names]. unfold bind, get in *.
  destruct (dmem x (t_vars t)); unfold set_vars, set_funs, modify; apply IH.
Qed.
Lemma gen_nodup : NoDup gen_removed.
Proof. repeat constructor; cbn; intuition discriminate. Qed.

Lemma cleanup_gc_works v f h fs c : unsplit (user_of (Term v f h fs c)) ->
  dget $"cleanup_gc" v = None -> dget $"gen_config_helper" v = None ->
  exists t', cleanup_gc (Term v f h fs c) = (Ok 0%N, t') /\ gen_leaves v f fs (gen_paths (Term v f h fs c)) t' /\ t_calls t' = c.
Proof.
  intros D C1 C2. unfold GenSh.cleanup_gc.
  destruct (rm_if_one glob odd_test _ _ v f h fs c (tmp_words glob _ $".bash_cmake_args_loc" D)) as (fs1 & E1 & S1).
  destruct (rm_if_one glob odd_test _ _ v f h fs1 c (tmp_words glob _ $".load_env_args" D)) as (fs2 & E2 & S2).
  rewrite bind_eq. unfold get at 1. cbv zeta iota beta. rewrite user_value. step E1. step E2.
  destruct (unset_spec gen_removed v f h fs2 c gen_nodup) as (v' & f' & E6 & A1 & A2 & A3 & A4).
  unfold gen_removed in E6.
  rewrite (unset_app [$"python_too_old"; $"script_dir"; $"cleanup_gc"; $"gen_config_py_call_args"; $"gen_config_helper"]
    [$"path_to_src"; $"load_env_call_args"; $"cmake_args_file"]) in E6.
  rewrite bind_eq in E6. rewrite bind_eq.
  destruct (unset_names [$"python_too_old"; $"script_dir"; $"cleanup_gc"; $"gen_config_py_call_args"; $"gen_config_helper"]
    (Term v f h fs2 c)) as [[[]|] t1]; [|discriminate].
  step E6. eexists. split; [reflexivity|]. split; [|reflexivity].
  destruct (shrinks_app _ _ _ _ _ S1 S2) as (F1 & F2 & F3).
  constructor; cbn [t_vars t_funs t_trap t_files t_calls]; auto.
  - eapply same_but_weaken; [|exact A1]. intros x I. apply in_or_app. auto.
  - eapply same_but_weaken; [|exact A3]. intros x I. apply in_or_app. auto.
  - split; apply A4; auto; cbn; tauto.
Qed.

Lemma gen_cleanup_from t0 v f h fs c : unsplit (user_of t0) -> dget $"cleanup_gc" v = None -> dget $"gen_config_helper" v = None ->
  same_but gen_names (t_vars t0) v -> same_but gen_functions (t_funs t0) f ->
  exists t', cleanup_gc (Term v f h fs c) = (Ok 0%N, t') /\ gen_leaves (t_vars t0) (t_funs t0) fs (gen_paths t0) t' /\ t_calls t' = c.
Proof.
  intros D C1 C2 SV SF.
  assert (UE : user_of (Term v f h fs c) = user_of t0).
  { unfold user_of. cbn [t_vars]. rewrite SV; auto. cbn. intuition discriminate. }
  rewrite <- UE in D. destruct (cleanup_gc_works v f h fs c D C1 C2) as (t' & E & L & C).
  exists t'. split; auto. split; auto. unfold gen_paths, args_loc, saved_args in *. rewrite UE in L.
  destruct L. constructor; auto; eapply same_but_trans; eauto.
Qed.

(** ** Up to the arguments *)
Definition gstart (t : term) : term :=
  Term (dset $"script_dir" here (dset $"python_too_old" (too_old (t_vars t)) (t_vars t)))
    (dset $"cleanup_gc" $"gen-config.sh: cleanup_gc" (t_funs t)) (Some $"cleanup_gc; return 1") (t_files t) (t_calls t).
Definition helps (args : list str) : bool := contains $"--help" (join $" " args).
Definition fragments (args : list str) : bool := contains $"--cmake-fragment" (join $" " args).
Lemma up_to_checks t args : gen_ready which_python3 too_old t -> args <> [] -> helps args = false ->
  gen_config_sh true args t =
    (if is_directory glob odd_test directory [U (last args [])] then
       let_var $"gen_config_py_call_args" (join $" " (removelast args)) ;;
       let_var $"path_to_src" (last args []) ;;
       configure args
     else if negb (fragments args) then give_up_gc glob odd_test
     else let_var $"gen_config_py_call_args" (join $" " args) ;; configure args) (gstart t).
Proof.
  intros [M P D FR] NA NH. destruct (P (t_vars t) (same_but_refl _ _)) as (P1 & P2).
  unfold GenSh.gen_config_sh. cbn [negb]. rewrite bind_eq. unfold get at 1. cbv iota beta.
  destruct (which_python3 (t_vars t)) as [|w ws]; [congruence|]. cbn [empty_str].
  rewrite bind_eq. unfold let_var at 1, set_vars at 1, modify at 1. cbv iota beta.
  destruct (str_eqb_spec (too_old (t_vars t)) $"True") as [T|_]; [congruence|].
  rewrite bind_eq. unfold set_funs at 1, modify at 1. cbv iota beta.
  rewrite bind_eq. unfold set_trap at 1, modify at 1. cbv iota beta.
  rewrite bind_eq. unfold let_var at 1, set_vars at 1, modify at 1. cbv iota beta.
  cbn [t_vars t_funs t_trap t_files t_calls]. fold (gstart t). fold (helps args). rewrite NH.
  destruct args as [|a args]; [congruence|]. reflexivity.
Qed.
Lemma gstart_vars t : same_but gen_names (t_vars t) (t_vars (gstart t)).
Proof. unfold gstart. cbn [t_vars]. repeat (eapply same_but_trans; [|apply same_but_dset; cbn; tauto]). apply same_but_refl. Qed.
Lemma gstart_funs t : same_but gen_functions (t_funs t) (t_funs (gstart t)).
Proof. apply same_but_dset. cbn. tauto. Qed.
Lemma gstart_get x t : x <> $"script_dir" -> x <> $"python_too_old" -> dget x (t_vars (gstart t)) = dget x (t_vars t).
Proof. intros A B. unfold gstart. cbn [t_vars]. now rewrite !dget_dset_other. Qed.

Lemma no_source t args src init : gen_ready which_python3 too_old t -> args = init ++ [src] -> bare_word src ->
  helps args = false -> fragments args = false -> directory src = false ->
  exists t', gen_config_sh true args t = (Ok 1%N, t') /\
    gen_leaves (t_vars t) (t_funs t) (t_files t) (gen_paths t) t' /\ t_calls t' = t_calls t.
Proof.
  intros R -> B NH NF ND. rewrite up_to_checks; auto. 2:{ destruct init; discriminate. }
  rewrite last_last, NF. unfold is_directory. rewrite words_bare by auto. rewrite ND. cbn [negb].
  unfold give_up_gc. pose proof (gstart_get $"cleanup_gc" t) as G1. pose proof (gstart_get $"gen_config_helper" t) as G2.
  destruct (gen_cleanup_from t (t_vars (gstart t)) (t_funs (gstart t)) (t_trap (gstart t)) (t_files t) (t_calls t)) as (t' & E & L & C).
  - apply R.
  - rewrite G1 by discriminate. apply R. cbn. tauto.
  - rewrite G2 by discriminate. apply R. cbn. tauto.
  - apply gstart_vars.
  - apply gstart_funs.
  - exists t'. split; auto. assert (E' : cleanup_gc (gstart t) = (Ok 0%N, t')) by exact E. step E'. reflexivity.
Qed.

(** ** A run of [gen_config.py] *)
Lemma gen_run l v f h fs c r fs' : dget $"script_dir" v = Some here -> unsplit here ->
  python3 (gen_command here l) v fs = (r, fs') ->
  gen_config_py glob python3 l (Term v f h fs c) = (Ok r, Term v f h fs' (c ++ [$"python3" :: gen_command here l])).
Proof.
  intros SD HD PY. unfold gen_config_py. rewrite bind_eq. unfold get at 1. cbv iota beta. unfold value. cbn [t_vars]. rewrite SD.
  cbn [value_or_empty]. rewrite (words_then glob here $"/gen_config.py" []) by auto. cbn [flat_map]. rewrite app_nil_r.
  change ([$"-E"; $"-s"] ++ [here ++ $"/gen_config.py"] ++ l) with (gen_command here l).
  unfold python. rewrite bind_eq. unfold get at 1. cbv iota beta. cbn [t_vars t_files]. rewrite PY. reflexivity.
Qed.

(** The state in which [configure] starts. *)
Record gset (t0 : term) (l : list str) (src : str) (v : environ) (f : dict str) : Prop := {
  gs_vars : same_but gen_names (t_vars t0) v;
  gs_funs : same_but gen_functions (t_funs t0) f;
  gs_here : dget $"script_dir" v = Some here;
  gs_args : dget $"gen_config_py_call_args" v = Some (join $" " l);
  gs_src : value_or_empty (dget $"path_to_src" v) = src;
  gs_free : forall x, In x [$"cleanup_gc"; $"gen_config_helper"; $"cleanup"; $"env_file"] -> dget x v = None
}.
Lemma gstart_set t init src : gen_ready which_python3 too_old t ->
  gset t init src (dset $"path_to_src" src (dset $"gen_config_py_call_args" (join $" " init) (t_vars (gstart t)))) (t_funs (gstart t)).
Proof.
  intros R. constructor.
  - do 2 (eapply same_but_trans; [|apply same_but_dset; cbn; tauto]). apply gstart_vars.
  - apply gstart_funs.
  - rewrite !dget_dset_other by discriminate. unfold gstart. cbn [t_vars]. now rewrite dget_dset_same.
  - rewrite dget_dset_other by discriminate. now rewrite dget_dset_same.
  - now rewrite dget_dset_same.
  - intros x I. assert (N : dget x (t_vars t) = None) by now apply R.
    assert (X : x <> $"path_to_src" /\ x <> $"gen_config_py_call_args" /\ x <> $"script_dir" /\ x <> $"python_too_old").
    { cbn in I. repeat split; intros ->; intuition discriminate. }
    destruct X as (X1 & X2 & X3 & X4). rewrite !dget_dset_other by auto. now rewrite gstart_get.
Qed.
Lemma with_source t init src : gen_ready which_python3 too_old t -> bare_word src -> helps (init ++ [src]) = false -> directory src = true ->
  exists v f, gset t init src v f /\
    gen_config_sh true (init ++ [src]) t = configure (init ++ [src]) (Term v f (t_trap (gstart t)) (t_files t) (t_calls t)).
Proof.
  intros R B NH DS. do 2 eexists. split; [apply (gstart_set t init src R)|].
  rewrite up_to_checks; auto. 2:{ destruct init; discriminate. }
  rewrite last_last, removelast_last. unfold is_directory. rewrite words_bare by auto. rewrite DS. reflexivity.
Qed.

Lemma with_fragment t args last_arg init : gen_ready which_python3 too_old t -> args = init ++ [last_arg] -> bare_word last_arg ->
  helps args = false -> fragments args = true -> directory last_arg = false -> dget $"path_to_src" (t_vars t) = None ->
  exists v f, gset t args [] v f /\
    gen_config_sh true args t = configure args (Term v f (t_trap (gstart t)) (t_files t) (t_calls t)).
Proof.
  intros R -> B NH NF ND NP. exists (dset $"gen_config_py_call_args" (join $" " (init ++ [last_arg])) (t_vars (gstart t))), (t_funs (gstart t)).
  split.
  - destruct (gstart_set t (init ++ [last_arg]) [] R) as [A1 A2 A3 A4 A5 A6]. constructor; auto.
    + eapply same_but_trans; [apply gstart_vars|]. apply same_but_dset. cbn. tauto.
    + rewrite dget_dset_other by discriminate. unfold gstart. cbn [t_vars]. now rewrite dget_dset_same.
    + now rewrite dget_dset_same.
    + rewrite dget_dset_other by discriminate. rewrite gstart_get by discriminate. now rewrite NP.
    + intros x I. specialize (A6 x I). rewrite dget_dset_other in A6; auto. intros ->. cbn in I. intuition discriminate.
  - rewrite up_to_checks; auto. 2:{ destruct init; discriminate. }
    rewrite last_last, NF. unfold is_directory. rewrite words_bare by auto. rewrite ND. reflexivity.
Qed.

Section Conf.
Variable t : term.
Variable args l : list str.
Variable src : str.
Variable v : environ.
Variable f : dict str.
Variable h : option str.
Hypothesis R : gen_ready which_python3 too_old t.
Hypothesis HD : unsplit here.
Hypothesis RD : unsplit random.
Hypothesis BL : Forall bare_word l.
Hypothesis GS : gset t l src v f.
Let c := t_calls t.
Let g := Term v f h (t_files t) c.
Let line1 := gen_command here l.
Let line2 := gen_command here (l ++ save_options t).

Lemma args_words : words [U (value $"gen_config_py_call_args" g)] = l.
Proof. unfold value. cbn [g t_vars]. rewrite (gs_args _ _ _ _ _ GS). cbn [value_or_empty]. now apply spaced_words. Qed.

Lemma first_fails r fs : r <> 0%N -> ends python3 t line1 (t_files t) r fs ->
  exists t', configure args g = (Ok 0%N, t') /\ gen_leaves (t_vars t) (t_funs t) fs (gen_paths t) t' /\
    t_calls t' = t_calls t ++ [$"python3" :: line1].
Proof.
  intros NZ PY. unfold GenSh.configure. rewrite bind_eq. unfold get at 1. cbv iota beta. rewrite args_words.
  assert (E := gen_run l v f h (t_files t) c r fs (gs_here _ _ _ _ _ GS) HD (PY v (gs_vars _ _ _ _ _ GS))). fold g in E.
  step E. apply N.eqb_neq in NZ. rewrite NZ. cbn [negb].
  apply gen_cleanup_from.
  - apply R.
  - apply (gs_free _ _ _ _ _ GS). cbn. tauto.
  - apply (gs_free _ _ _ _ _ GS). cbn. tauto.
  - apply GS.
  - apply GS.
Qed.

Variable fs1 : dict str.
Hypothesis PY1 : ends python3 t line1 (t_files t) 0%N fs1.
Variable args_file : str.
Hypothesis AF : value_or_empty (dget (args_loc t) fs1) = args_file.
Hypothesis AC : chomp args_file = args_file.
Let v1 := dset $"cmake_args_file" args_file v.
Let f1 := dset $"gen_config_helper" helper_body f.
Let c1 := c ++ [$"python3" :: line1].

Lemma user_g v' f' fs' c' : same_but gen_names (t_vars t) v' -> value $"USER" (Term v' f' h fs' c') = user_of t.
Proof. intros S. unfold value, user_of. cbn [t_vars]. rewrite S; auto. cbn. intuition discriminate. Qed.
Lemma v1_vars : same_but gen_names (t_vars t) v1.
Proof. eapply same_but_trans; [apply GS|]. apply same_but_dset. cbn. tauto. Qed.
Lemma f1_funs : same_but gen_functions (t_funs t) f1.
Proof. eapply same_but_trans; [apply GS|]. apply same_but_dset. cbn. tauto. Qed.
Lemma v1_get x : x <> $"cmake_args_file" -> dget x v1 = dget x v.
Proof. intros N. now apply dget_dset_other. Qed.
Lemma v1_here : dget $"script_dir" v1 = Some here.
Proof. rewrite v1_get by discriminate. apply GS. Qed.
Lemma v1_free x : In x [$"cleanup_gc"; $"gen_config_helper"; $"cleanup"; $"env_file"] -> dget x v1 = None.
Proof. intros I. rewrite v1_get; [now apply (gs_free _ _ _ _ _ GS)|]. intros ->. cbn in I. intuition discriminate. Qed.

Lemma after_first : configure args g =
  (r <- gen_config_py glob python3 (l ++ save_options t) ;;
   if negb (N.eqb r 0) then cleanup_gc else
   t <- get ;;
   let_var $"load_env_call_args" (cat glob (tmp (value $"USER" t) $".load_env_args") t) ;;
   source_load_env glob odd_test odd_status which_python3 too_old python3 interactive run_text run_function random cmake odd_source args ;;
   cleanup_gc) (Term v1 f1 h fs1 c1).
Proof.
  unfold GenSh.configure at 1. rewrite bind_eq. unfold get at 1. cbv iota beta. rewrite args_words.
  assert (E := gen_run l v f h (t_files t) c 0%N fs1 (gs_here _ _ _ _ _ GS) HD (PY1 v (gs_vars _ _ _ _ _ GS))). fold g in E.
  step E. cbn [N.eqb negb]. rewrite bind_eq. unfold get at 1. cbv iota beta. rewrite (user_g v f) by apply GS.
  assert (C : cat glob (tmp (user_of t) $".bash_cmake_args_loc") (Term v f h fs1 (c ++ [$"python3" :: gen_command here l])) = args_file).
  { unfold cat. rewrite (tmp_words glob) by apply R. cbn [flat_map t_files]. rewrite app_nil_r. fold (args_loc t). now rewrite AF. }
  rewrite C. rewrite bind_eq. unfold let_var at 1, set_vars at 1, modify at 1. cbv iota beta.
  rewrite bind_eq. unfold set_funs at 1, modify at 1. cbv iota beta. cbn [t_vars t_funs t_trap t_files t_calls].
  assert (W : words [U (value $"gen_config_py_call_args" (Term v f h fs1 (c ++ [$"python3" :: gen_command here l])))] = l) by exact args_words.
  rewrite W. rewrite (tmp_words glob) by apply R. reflexivity.
Qed.

Lemma second_fails r fs : r <> 0%N -> ends python3 t line2 fs1 r fs ->
  exists t', configure args g = (Ok 0%N, t') /\ gen_leaves (t_vars t) (t_funs t) fs (gen_paths t) t' /\
    t_calls t' = t_calls t ++ [$"python3" :: line1; $"python3" :: line2].
Proof.
  intros NZ PY. rewrite after_first.
  assert (E := gen_run (l ++ save_options t) v1 f1 h fs1 c1 r fs v1_here HD (PY v1 v1_vars)).
  step E. apply N.eqb_neq in NZ. rewrite NZ. cbn [negb].
  destruct (gen_cleanup_from t v1 f1 h fs (c1 ++ [$"python3" :: line2])) as (t' & E1 & L & C).
  - apply R.
  - apply v1_free. cbn. tauto.
  - apply v1_free. cbn. tauto.
  - apply v1_vars.
  - apply f1_funs.
  - exists t'. split; auto. split; auto. rewrite C. unfold c1, c. now rewrite <- app_assoc.
Qed.

Variable fs2 : dict str.
Hypothesis PY2 : ends python3 t line2 fs1 0%N fs2.
Variable m : list str.
Hypothesis SM1 : dget (saved_args t) fs2 = Some (join $" " m).
Hypothesis NM : m <> [].
Hypothesis BM : Forall bare_word m.
Let v2 := dset $"load_env_call_args" (join $" " m) v1.
Let c2 := c1 ++ [$"python3" :: line2].
Let inner := Term v2 f1 h fs2 c2.

Lemma v2_vars : same_but gen_names (t_vars t) v2.
Proof. eapply same_but_trans; [apply v1_vars|]. apply same_but_dset. cbn. tauto. Qed.
Lemma v2_get x : x <> $"cmake_args_file" -> x <> $"load_env_call_args" -> dget x v2 = dget x v.
Proof. intros N N'. unfold v2. rewrite dget_dset_other by auto. now apply v1_get. Qed.
Lemma after_second : configure args g =
  (load_env_sh glob odd_test odd_status which_python3 too_old python3 interactive run_text function_body
     (here ++ $"/LoadEnv") random true m ;; cleanup_gc) inner.
Proof.
  rewrite after_first.
  assert (E := gen_run (l ++ save_options t) v1 f1 h fs1 c1 0%N fs2 v1_here HD (PY2 v1 v1_vars)).
  step E. cbn [N.eqb negb]. rewrite bind_eq. unfold get at 1. cbv iota beta. rewrite (user_g v1 f1) by apply v1_vars.
  assert (C : forall c', cat glob (tmp (user_of t) $".load_env_args") (Term v1 f1 h fs2 c') = join $" " m).
  { intros c'. unfold cat. rewrite (tmp_words glob) by apply R. cbn [flat_map t_files]. rewrite app_nil_r. fold (saved_args t). rewrite SM1.
    cbn [value_or_empty]. now apply chomp_join. }
  rewrite C. rewrite bind_eq. unfold let_var at 1, set_vars at 1, modify at 1. cbv iota beta.
  cbn [t_vars t_funs t_trap t_files t_calls]. rewrite !bind_eq. unfold source_load_env. rewrite bind_eq. unfold get at 1. cbv iota beta zeta.
  fold v2. 
  assert (V1 : value $"load_env_call_args" inner = join $" " m) by (unfold value, inner, v2; cbn [t_vars]; now rewrite dget_dset_same).
  assert (V2 : value $"script_dir" inner = here).
  { unfold value, inner. cbn [t_vars]. rewrite v2_get by discriminate. now rewrite (gs_here _ _ _ _ _ GS). }
  change (Term v2 f1 h fs2 (c1 ++ [$"python3" :: gen_command here (l ++ save_options t)])) with inner. rewrite V1, V2.
  rewrite (words_then glob here $"/LoadEnv/load-env.sh" []) by auto. cbn [flat_map].
  assert (W : words [U (join $" " m)] = m) by now apply spaced_words.
  rewrite W. destruct m as [|m1 m']; [congruence|]. reflexivity.
Qed.
Lemma inner_ready : ready which_python3 too_old inner.
Proof.
  constructor.
  - left. unfold inner. cbn [t_vars]. rewrite v2_vars; [apply R|]. cbn. intuition discriminate.
  - apply (gr_python _ _ _ R). apply v2_vars.
  - unfold inner. change (unsplit (value $"USER" (Term v2 f1 h fs2 c2))). rewrite user_g by apply v2_vars. apply R.
  - unfold inner. cbn [t_vars]. rewrite v2_get by discriminate. apply (gs_free _ _ _ _ _ GS). cbn. tauto.
  - unfold inner. cbn [t_vars]. rewrite v2_get by discriminate. apply (gs_free _ _ _ _ _ GS). cbn. tauto.
Qed.

Lemma finish t4 vars funs files gone : leaves vars funs files gone t4 -> user_of t4 = user_of t ->
  dget $"cleanup_gc" (t_vars t4) = None -> dget $"gen_config_helper" (t_vars t4) = None ->
  exists t', cleanup_gc t4 = (Ok 0%N, t') /\ gen_leaves vars funs files (gone ++ gen_paths t) t' /\ t_calls t' = t_calls t4.
Proof.
  intros [L1 L2 L3 L4 L5 L6 L7] U4 A B. destruct t4 as [v4 f4 h4 fs4 c4]. cbn [t_vars t_funs t_files t_trap] in *.
  destruct (cleanup_gc_works v4 f4 h4 fs4 c4) as (t' & E & [M1 M2 M3 M4 M5 M6 M7] & C); auto.
  { rewrite U4. apply R. }
  unfold gen_paths, args_loc, saved_args in M6, M7 |- *. rewrite U4 in M6, M7. exists t'. split; auto. split; auto. constructor; auto.
  - eapply same_but_trans; [|exact M1]. eapply same_but_weaken; [|exact L1]. intros x I. apply in_or_app. right. apply in_or_app. auto.
  - eapply same_but_trans; [|exact M3]. eapply same_but_weaken; [|exact L3]. intros x I. apply in_or_app. auto.
  - intros x N. rewrite M6, L6; auto; intros I; apply N, in_or_app; auto.
  - intros p I. apply in_app_or in I as [I|I]; [|now apply M7].
    destruct (in_dec (list_eq_dec N.eq_dec) p [tmp_path (user_of t) $".bash_cmake_args_loc"; tmp_path (user_of t) $".load_env_args"]) as [J|J].
    + now apply M7.
    + rewrite M6 by auto. now apply L7.
Qed.

Let load_line := load_command (here ++ $"/LoadEnv") random m.
Lemma hereLE : unsplit (here ++ $"/LoadEnv").
Proof.
  intros x I. apply in_app_or in I as [I|I]; [now apply HD|].
  revert x I. apply Forall_forall. repeat constructor; cbn; intuition discriminate.
Qed.
Let e3 := seen too_old (here ++ $"/LoadEnv") random inner.
Lemma inner_seen : same_but gen_names (t_vars t) e3.
Proof.
  eapply same_but_trans; [apply v2_vars|]. unfold e3, seen. cbn [inner t_vars].
  do 3 (eapply same_but_trans; [|apply same_but_dset; cbn; tauto]). apply same_but_refl.
Qed.
Lemma inner_user : user_of inner = user_of t.
Proof. change (value $"USER" (Term v2 f1 h fs2 c2) = user_of t). exact (user_g v2 f1 fs2 c2 v2_vars). Qed.
Lemma inner_paths : tmp_paths inner = tmp_paths t.
Proof. unfold tmp_paths. now rewrite inner_user. Qed.
Lemma to_t vars' files gone t' : same_but gen_names (t_vars t) vars' ->
  gen_leaves vars' f1 files gone t' -> gen_leaves (t_vars t) (t_funs t) files gone t'.
Proof. intros S [? ? ? ? ? ? ?]. constructor; auto; eapply same_but_trans; eauto using f1_funs. Qed.
Lemma left_user vars funs files gone t4 : leaves vars funs files gone t4 -> user_of (Term vars funs None files []) = user_of t -> user_of t4 = user_of t.
Proof. intros L <-. unfold user_of. cbn [t_vars]. rewrite (lv_vars _ _ _ _ _ L); auto. cbn. intuition discriminate. Qed.
Lemma left_free vars funs files gone t4 x : leaves vars funs files gone t4 -> x = $"cleanup_gc" \/ x = $"gen_config_helper" ->
  dget x vars = None -> dget x (t_vars t4) = None.
Proof. intros L X N. rewrite (lv_vars _ _ _ _ _ L); auto. destruct X as [-> | ->]; cbn; intuition discriminate. Qed.

Lemma load_fails r fs3 : r <> 0%N -> (r < 256)%N -> python3 load_line e3 fs2 = (r, fs3) ->
  exists t', configure args g = (Ok 0%N, t') /\
    gen_leaves (t_vars t) (t_funs t) fs3 ((tmp_paths t ++ [$"rc"]) ++ gen_paths t) t' /\
    t_calls t' = t_calls t ++ [$"python3" :: line1; $"python3" :: line2; $"python3" :: load_line].
Proof.
  intros NZ LT PY3. rewrite after_second.
  destruct (failure glob odd_test odd_status which_python3 too_old python3 interactive run_text function_body (here ++ $"/LoadEnv") random
    m inner r fs3) as (t4 & E & L & C); auto using inner_ready, hereLE.
  step E. rewrite inner_paths in L.
  destruct (finish _ _ _ _ _ L) as (t' & E' & G & C').
  - eapply left_user; [exact L|]. exact inner_user.
  - eapply left_free; [exact L|auto|]. unfold inner. cbn [t_vars]. rewrite v2_get by discriminate. apply (gs_free _ _ _ _ _ GS). cbn. tauto.
  - eapply left_free; [exact L|auto|]. unfold inner. cbn [t_vars]. rewrite v2_get by discriminate. apply (gs_free _ _ _ _ _ GS). cbn. tauto.
  - exists t'. split; auto. split.
    + apply (to_t _ _ _ _ v2_vars G).
    + rewrite C', C. unfold inner, c2, c1, c. cbn [t_calls]. now rewrite <- !app_assoc.
Qed.

(** ** With the environment *)
Variable fs3 : dict str.
Hypothesis PY3 : python3 load_line e3 fs2 = (0%N, fs3).
Variable env_file stem text : str.
Hypothesis LF : dget (loc_file random) fs3 = Some env_file.
Hypothesis SFile : script_file env_file stem.
Hypothesis TX : dget env_file fs3 = Some text.
Let rc := stem ++ $"rc".
Let calls3 := t_calls t ++ [$"python3" :: line1; $"python3" :: line2; $"python3" :: load_line].
Lemma inner_calls : t_calls inner ++ [$"python3" :: load_line] = calls3.
Proof. unfold inner, c2, c1, c, calls3. cbn [t_calls]. now rewrite <- !app_assoc. Qed.

(** The function, in the shell [t4]. *)
Lemma helper_configures t4 opts : value $"cmake_args_file" t4 = args_file -> value $"path_to_src" t4 = src ->
  bare_word src -> bare_word args_file -> dget args_file (t_files t4) = Some (args_text opts) -> Forall bare_word opts -> glob $"\" = [$"\"] ->
  function_body helper_body t4 =
    (Ok tt, Term (dset $"cmake_args" (args_text opts) (t_vars t4)) (t_funs t4) (t_trap t4)
       (cmake (slashed opts ++ [src]) (dset $"cmake_args" (args_text opts) (t_vars t4)) (t_files t4))
       (t_calls t4 ++ [$"cmake" :: slashed opts ++ [src]])).
Proof.
  intros VA VS BS BF DF BO GL. unfold GenSh.function_body. rewrite str_eqb_refl. unfold gen_config_helper. rewrite bind_eq. unfold get at 1.
  cbv iota beta zeta. rewrite VA, VS. unfold dmem. rewrite DF. destruct src as [|s1 s']; [now destruct BS|]. cbn [empty_str negb andb].
  assert (C : cat glob [U args_file] t4 = args_text opts).
  { unfold cat. rewrite words_bare by auto. cbn [flat_map]. rewrite DF, app_nil_r. cbn [value_or_empty]. now apply chomp_join. }
  rewrite C. rewrite bind_eq. unfold let_var at 1, set_vars at 1, modify at 1. cbv iota beta.
  rewrite bind_eq. unfold get at 1. cbv iota beta zeta.
  assert (V : forall f' h' fs' c', value $"cmake_args" (Term (dset $"cmake_args" (args_text opts) (t_vars t4)) f' h' fs' c') = args_text opts).
  { intros. unfold value. cbn [t_vars]. now rewrite dget_dset_same. }
  rewrite V. rewrite (words_bare glob (s1 :: s')) by auto.
  assert (W : words [U (args_text opts)] = slashed opts) by now apply slashed_words. rewrite W. reflexivity.
Qed.
Lemma helper_idle t4 : value $"cmake_args_file" t4 = args_file -> value $"path_to_src" t4 = src ->
  src = [] \/ dget args_file (t_files t4) = None -> function_body helper_body t4 = (Ok tt, t4).
Proof.
  intros VA VS X. unfold GenSh.function_body. rewrite str_eqb_refl. unfold gen_config_helper. rewrite bind_eq. unfold get at 1.
  cbv iota beta zeta. rewrite VA, VS. unfold dmem. destruct X as [X|X]; rewrite X; [|reflexivity]. 
  destruct (dget args_file (t_files t4)); reflexivity.
Qed.

Lemma through_ci : asks_ci m ->
  exists t3, same_but gen_names (t_vars t) (t_vars t3) /\ same_but gen_functions (t_funs t) (t_funs t3) /\
    same_but [rc] fs3 (t_files t3) /\ t_calls t3 = calls3 /\
    value $"cmake_args_file" t3 = args_file /\ value $"path_to_src" t3 = src /\
    dget $"gen_config_helper" (t_funs t3) = Some helper_body /\
    (forall x t4, run_text text t3 = (Err x, t4) -> configure args g = (Err x, t4)) /\
    (forall t4 t5, run_text text t3 = (Ok tt, t4) -> then_helper function_body t4 t5 -> keeps gen_names (t_vars t3) (t_vars t4) ->
       same_but [$"cmake_args"] (t_vars t4) (t_vars t5) ->
       exists t', configure args g = (Ok 0%N, t') /\
         gen_leaves (t_vars t4) (t_funs t5) (t_files t5) ((tmp_paths t ++ [env_file; rc]) ++ gen_paths t) t' /\ t_calls t' = t_calls t5).
Proof.
  intros CI.
  destruct (script_ci glob odd_test odd_status which_python3 too_old python3 interactive run_text function_body (here ++ $"/LoadEnv") random
    m inner fs3 env_file stem inner_ready hereLE RD NM BM PY3 LF SFile text CI TX) as (t3 & [P1 P2 P3 P4] & ER & OK).
  exists t3.
  assert (SV : same_but gen_names (t_vars t) (t_vars t3)).
  { eapply same_but_trans; [apply v2_vars|]. eapply same_but_weaken; [|exact P1]. intros x I. apply in_or_app. right. apply in_or_app. auto. }
  assert (SF : same_but gen_functions (t_funs t) (t_funs t3)).
  { eapply same_but_trans; [apply f1_funs|]. eapply same_but_weaken; [|exact P2]. intros x I. apply in_or_app. auto. }
  split; auto. split; auto. split; auto. split; [rewrite P4; apply inner_calls|].
  split.
  { unfold value. rewrite P1 by (cbn; intuition discriminate). unfold inner, v2, v1. cbn [t_vars].
    rewrite dget_dset_other by discriminate. now rewrite dget_dset_same. }
  split.
  { unfold value. rewrite P1 by (cbn; intuition discriminate). unfold inner. cbn [t_vars]. rewrite v2_get by discriminate. apply GS. }
  split.
  { rewrite P2 by (cbn; intuition discriminate). unfold inner, f1. cbn [t_funs]. now rewrite dget_dset_same. }
  rewrite after_second. split.
  - intros x t4 E. rewrite bind_eq. now rewrite (ER _ _ E).
  - intros t4 t5 E TH K S5.
    assert (K5 : keeps_names t3 t5).
    { intros x X. etransitivity; [apply S5|apply K].
      - intros [<-|[]]. cbn in X. intuition discriminate.
      - destruct X as [X|X]; auto. left. apply in_or_app. right. apply in_or_app. auto. }
    destruct (OK t4 t5 E TH K5) as (t6 & E6 & L & C). step E6. rewrite inner_paths in L. fold rc in L.
    assert (U5 : user_of (Term (t_vars t5) (t_funs t5) None (t_files t5) []) = user_of t).
    { unfold user_of. cbn [t_vars]. rewrite (K5 $"USER") by auto. rewrite SV; auto. cbn. intuition discriminate. }
    assert (FR : forall x, x = $"cleanup_gc" \/ x = $"gen_config_helper" -> dget x (t_vars t5) = None).
    { intros x X. rewrite S5 by (intros [<-|[]]; intuition discriminate). rewrite K by (left; destruct X as [-> | ->]; cbn; tauto).
      rewrite P1 by (destruct X as [-> | ->]; cbn; intuition discriminate). unfold inner. cbn [t_vars].
      rewrite v2_get by (destruct X as [-> | ->]; discriminate). apply (gs_free _ _ _ _ _ GS). destruct X as [-> | ->]; cbn; tauto. }
    destruct (finish _ _ _ _ _ L) as (t' & E' & G & C').
    + eapply left_user; [exact L|exact U5].
    + eapply left_free; [exact L|auto|auto].
    + eapply left_free; [exact L|auto|auto].
    + exists t'. split; auto. split; [|congruence]. destruct G as [G1 G2 G3 G4 G5 G6 G7]. constructor; auto.
      eapply same_but_trans; [|exact G1]. eapply same_but_weaken; [|exact S5]. intros x [<-|[]]. cbn. tauto.
Qed.
Lemma through_interactive : ~ asks_ci m ->
  exists t3 t', same_but gen_names (t_vars t) (t_vars t3) /\ same_but gen_functions (t_funs t) (t_funs t3) /\
    same_but [rc] fs3 (t_files t3) /\ dget rc (t_files t3) = Some (rc_text env_file false) /\
    value $"cmake_args_file" t3 = args_file /\ value $"path_to_src" t3 = src /\
    dget $"gen_config_helper" (t_funs t3) = Some helper_body /\
    configure args g = (Ok 0%N, t') /\
    gen_leaves (t_vars t) (t_funs t) (interactive [rc] (t_vars t3) (t_files t3)) ((tmp_paths t ++ [env_file; rc]) ++ gen_paths t) t' /\
    t_calls t' = calls3 ++ [[$"/bin/bash"; $"--init-file"; rc; $"-i"]].
Proof.
  intros CI.
  destruct (script_interactive glob odd_test odd_status which_python3 too_old python3 interactive run_text function_body (here ++ $"/LoadEnv") random
    m inner fs3 env_file stem inner_ready hereLE RD NM BM PY3 LF SFile text CI TX) as (t3 & t4 & [P1 P2 P3 P4] & RC & E & L & C).
  rewrite inner_paths in L. fold rc in L.
  destruct (finish _ _ _ _ _ L) as (t' & E' & G & C').
  - eapply left_user; [exact L|]. exact inner_user.
  - eapply left_free; [exact L|auto|]. unfold inner. cbn [t_vars]. rewrite v2_get by discriminate. apply (gs_free _ _ _ _ _ GS). cbn. tauto.
  - eapply left_free; [exact L|auto|]. unfold inner. cbn [t_vars]. rewrite v2_get by discriminate. apply (gs_free _ _ _ _ _ GS). cbn. tauto.
  - exists t3, t'. split.
    { eapply same_but_trans; [apply v2_vars|]. eapply same_but_weaken; [|exact P1]. intros x I. apply in_or_app. right. apply in_or_app. auto. }
    split.
    { eapply same_but_trans; [apply f1_funs|]. eapply same_but_weaken; [|exact P2]. intros x I. apply in_or_app. auto. }
    split; auto. split; auto. split.
    { unfold value. rewrite P1 by (cbn; intuition discriminate). unfold inner, v2, v1. cbn [t_vars].
      rewrite dget_dset_other by discriminate. now rewrite dget_dset_same. }
    split.
    { unfold value. rewrite P1 by (cbn; intuition discriminate). unfold inner. cbn [t_vars]. rewrite v2_get by discriminate. apply GS. }
    split.
    { rewrite P2 by (cbn; intuition discriminate). unfold inner, f1. cbn [t_funs]. now rewrite dget_dset_same. }
    split; [rewrite after_second; step E; exact E'|]. split.
    + apply (to_t _ _ _ _ v2_vars G).
    + rewrite C', C, P4. rewrite <- inner_calls. reflexivity.
Qed.
(** The build is configured. *)
Lemma configured opts : asks_ci m -> bare_word src -> bare_word args_file -> Forall bare_word opts -> glob $"\" = [$"\"] ->
  exists t3, same_but gen_names (t_vars t) (t_vars t3) /\ same_but gen_functions (t_funs t) (t_funs t3) /\
    same_but [rc] fs3 (t_files t3) /\ t_calls t3 = calls3 /\
    forall t4, run_text text t3 = (Ok tt, t4) -> keeps gen_names (t_vars t3) (t_vars t4) ->
      dget $"gen_config_helper" (t_funs t4) = dget $"gen_config_helper" (t_funs t3) ->
      dget args_file (t_files t4) = Some (args_text opts) ->
      exists t' e, configure args g = (Ok 0%N, t') /\ same_but [$"cmake_args"] (t_vars t4) e /\
        t_calls t' = t_calls t4 ++ [$"cmake" :: slashed opts ++ [src]] /\
        gen_leaves (t_vars t4) (t_funs t4) (cmake (slashed opts ++ [src]) e (t_files t4)) ((tmp_paths t ++ [env_file; rc]) ++ gen_paths t) t'.
Proof.
  intros CI BS BF BO GL. destruct (through_ci CI) as (t3 & A1 & A2 & A3 & A4 & A5 & A6 & A7 & _ & OK).
  exists t3. do 4 (split; auto). intros t4 E K NH DF.
  assert (V : forall x, In x gen_names -> value x t4 = value x t3).
  { intros x I. unfold value. now rewrite K by auto. }
  pose proof (helper_configures t4 opts) as H. rewrite !V in H by (cbn; tauto). specialize (H A5 A6 BS BF DF BO GL).
  destruct (OK _ (Term (dset $"cmake_args" (args_text opts) (t_vars t4)) (t_funs t4) (t_trap t4)
       (cmake (slashed opts ++ [src]) (dset $"cmake_args" (args_text opts) (t_vars t4)) (t_files t4))
       (t_calls t4 ++ [$"cmake" :: slashed opts ++ [src]])) E) as (t' & E' & G & C); auto.
  - unfold then_helper. rewrite NH, A7. exact H.
  - apply same_but_dset. now left.
  - exists t'. eexists. split; [exact E'|]. split; [|split; [exact C|exact G]]. apply same_but_dset. now left.
Qed.
(** Nothing is configured. *)
Lemma not_configured : asks_ci m -> src = [] ->
  exists t3, same_but gen_names (t_vars t) (t_vars t3) /\ same_but gen_functions (t_funs t) (t_funs t3) /\
    same_but [rc] fs3 (t_files t3) /\ t_calls t3 = calls3 /\
    forall t4, run_text text t3 = (Ok tt, t4) -> keeps gen_names (t_vars t3) (t_vars t4) ->
      dget $"gen_config_helper" (t_funs t4) = dget $"gen_config_helper" (t_funs t3) ->
      exists t', configure args g = (Ok 0%N, t') /\ t_calls t' = t_calls t4 /\
        gen_leaves (t_vars t4) (t_funs t4) (t_files t4) ((tmp_paths t ++ [env_file; rc]) ++ gen_paths t) t'.
Proof.
  intros CI NS. destruct (through_ci CI) as (t3 & A1 & A2 & A3 & A4 & A5 & A6 & A7 & _ & OK).
  exists t3. do 4 (split; auto). intros t4 E K NH.
  assert (V : forall x, In x gen_names -> value x t4 = value x t3).
  { intros x I. unfold value. now rewrite K by auto. }
  pose proof (helper_idle t4) as H. rewrite !V in H by (cbn; tauto). specialize (H A5 A6 (or_introl NS)).
  destruct (OK _ t4 E) as (t' & E' & G & C); auto.
  - unfold then_helper. rewrite NH, A7. exact H.
  - apply same_but_refl.
  - exists t'. split; [exact E'|]. split; [exact C|exact G].
Qed.
End Conf.
End G.
