(** * Proofs about [load-env.sh]. *)
From Coq Require Import String NArith List Bool Arith Lia.
Import ListNotations.
From Verif Require Import PyBase PyFacts EnvVar EnvProofs SetEnv Bash SpecBash BashProofs SpecText SpecGenRun Debuggable SpecBase BaseProofs
  SpecSetEnv SetEnvProofs LoadSh SpecSh.
Local Open Scope sm_scope.

Lemma bind_eq {S A B} (m : SM S A) (k : A -> SM S B) c :
  bind m k c = match m c with (Ok a, c1) => k a c1 | (Err e, c1) => (Err e, c1) end.
Proof. reflexivity. Qed.

Ltac step E := rewrite bind_eq, E; cbv iota beta.

(** ** Words *)
Definition piece_text (p : piece) : str := match p with Q s => s | U s => s end.
Definition piece_plain (p : piece) : Prop := match p with Q _ => True | U s => unsplit s end.
Lemma split_value_some s t : unsplit s -> split_value s (Some (t, false)) = ([], Some (t ++ s, false)).
Proof.
  revert t. induction s as [|c s IH]; intros t D; cbn [split_value]; [now rewrite app_nil_r|].
  apply unsplit_char in D as (A & B & D). rewrite A, B. cbn [orb]. rewrite IH by auto. now rewrite <- app_assoc.
Qed.
Lemma split_word_some w : Forall piece_plain w -> forall t, split_word w (Some (t, false)) = [(t ++ flat_map piece_text w, false)].
Proof.
  induction w as [|p w IH]; intros F t; cbn [split_word flat_map]; [now rewrite app_nil_r|].
  inversion F as [|? ? P F']; subst. destruct p as [s|s]; cbn [piece_text].
  - rewrite IH by auto. now rewrite <- app_assoc.
  - rewrite split_value_some by exact P. cbn [app]. rewrite IH by auto. now rewrite <- app_assoc.
Qed.
Lemma split_value_none s : unsplit s -> s <> [] -> split_value s None = ([], Some (s, false)).
Proof.
  destruct s as [|c s]; [congruence|]. intros D _. cbn [split_value]. apply unsplit_char in D as (A & B & D).
  rewrite A, B. now rewrite split_value_some.
Qed.
Section W.
Variable glob : str -> list str.
Lemma words_bare s : bare_word s -> words glob [U s] = [s].
Proof. intros (N & D). now apply fields_one. Qed.
Lemma words_none : words glob [U []] = [].
Proof. reflexivity. Qed.
Lemma words_quoted p w : Forall piece_plain w -> words glob (Q p :: w) = [p ++ flat_map piece_text w].
Proof. intros F. unfold words, fields. cbn [split_word]. rewrite split_word_some by auto. reflexivity. Qed.
Lemma words_then u q w : unsplit u -> Forall piece_plain w -> words glob (U u :: Q q :: w) = [u ++ q ++ flat_map piece_text w].
Proof.
  intros D F. unfold words, fields. cbn [split_word]. destruct u as [|c u].
  - cbn [split_value]. rewrite split_word_some by auto. reflexivity.
  - rewrite split_value_none by (auto; discriminate). cbv iota beta. rewrite split_word_some by auto.
    rewrite (app_assoc (c :: u) q). reflexivity.
Qed.
Lemma words_args args : Forall bare_word args -> flat_map (fun a => words glob [U a]) args = args.
Proof. induction 1 as [|a l B F IH]; cbn [flat_map]; auto. rewrite words_bare by auto. exact (f_equal (cons a) IH). Qed.
End W.

(** ** Numbers *)
Lemma number_value s : number s = dec_value s.
Proof.
  unfold number, dec_value. generalize 0%N. induction s as [|c s IH]; intros n; auto. cbn [fold_left dec_value_acc]. apply IH.
Qed.
Lemma number_dec n : number (dec_of_N n) = n.
Proof. rewrite number_value. exact (proj1 (dec_of_N_value n)). Qed.
Lemma dec_is_number n : is_number (dec_of_N n) = true /\ bare_word (dec_of_N n).
Proof.
  destruct (dec_of_N_value n) as (_ & F & NE). split.
  - unfold is_number. apply andb_true_intro. split; [destruct (dec_of_N n); [congruence|reflexivity]|].
    apply forallb_forall. intros c I. apply (proj1 (Forall_forall _ _) F) in I. unfold is_digit in I.
    apply andb_true_intro. split; apply N.leb_le; lia.
  - split; auto. intros c I H. apply (proj1 (Forall_forall _ _) F) in I. unfold is_digit in I. cbn [In] in H.
    repeat (destruct H as [H|H]; [subst; lia|]). exact H.
Qed.

(** ** Single commands *)
Lemma same_but_refl l (d : dict str) : same_but l d d.
Proof. intros x N. reflexivity. Qed.
Lemma same_but_trans l (a b c : dict str) : same_but l a b -> same_but l b c -> same_but l a c.
Proof. intros H K x N. rewrite K by auto. now apply H. Qed.
Lemma same_but_dset l k v (d : dict str) : In k l -> same_but l d (dset k v d).
Proof. intros I x N. apply dget_dset_other. intros ->. auto. Qed.
Lemma same_but_ddel l k (d : dict str) : In k l -> same_but l d (ddel k d).
Proof. intros I x N. apply dget_ddel_other. intros ->. auto. Qed.
Lemma same_but_weaken l m (a b : dict str) : (forall x, In x l -> In x m) -> same_but l a b -> same_but m a b.
Proof. intros S H x N. apply H. auto. Qed.

Lemma rm_dict ps : forall fs : dict str,
  same_but ps fs (fold_left (fun d p => ddel p d) ps fs) /\
  forall p, In p ps -> dget p (fold_left (fun d p => ddel p d) ps fs) = None.
Proof.
  induction ps as [|q ps IH]; intros fs; cbn [fold_left]; [split; [apply same_but_refl|intros p []]|].
  destruct (IH (ddel q fs)) as (A & B). split.
  - intros x N. rewrite A by (intros I; apply N; now right). apply dget_ddel_other. intros ->. apply N. now left.
  - intros p [->|I]; auto. destruct (in_dec (list_eq_dec N.eq_dec) p ps) as [J|J]; auto. rewrite A by auto. apply dget_ddel_same.
Qed.

(** [unset] *)
Lemma unset_spec l : forall v f h fs c, NoDup l ->
  exists v' f', unset_names l (Term v f h fs c) = (Ok tt, Term v' f' h fs c) /\
    same_but l v v' /\ (forall x, In x l -> dget x v' = None) /\
    same_but l f f' /\ (forall x, In x l -> dget x v = None -> dget x f' = None).
Proof.
  induction l as [|x l IH]; intros v f h fs c ND.
  - exists v, f. cbn. repeat split; auto using same_but_refl; intros x [].
  - inversion ND as [|? ? NI ND']; subst. cbn [unset_names]. unfold bind at 1, get. cbn [t_vars].
    assert (M : dmem x v = true \/ dmem x v = false) by (destruct (dmem x v); auto).
    destruct M as [M|M]; rewrite M; unfold bind, set_vars, set_funs, modify; cbn [t_vars t_funs t_trap t_files t_calls].
    + destruct (IH (ddel x v) f h fs c ND') as (v' & f' & E & A & B & C & D). exists v', f'. split; [exact E|].
      split; [|split; [|split]].
      * intros y N. rewrite A by (intros I; apply N; now right). apply dget_ddel_other. intros ->. apply N. now left.
      * intros y [->|I]; auto. rewrite A by auto. apply dget_ddel_same.
      * intros y N. apply C. intros I. apply N. now right.
      * intros y [->|I] G; [unfold dmem in M; now rewrite G in M|]. apply D; auto.
        rewrite dget_ddel_other; auto. intros ->. auto.
    + destruct (IH v (ddel x f) h fs c ND') as (v' & f' & E & A & B & C & D). exists v', f'. split; [exact E|].
      assert (G : dget x v = None) by (unfold dmem in M; destruct (dget x v); [discriminate|auto]).
      split; [|split; [|split]].
      * intros y N. apply A. intros I. apply N. now right.
      * intros y [->|I]; auto. rewrite A by auto. exact G.
      * intros y N. rewrite C by (intros I; apply N; now right). apply dget_ddel_other. intros ->. apply N. now left.
      * intros y [->|I] Y; [rewrite C by auto; apply dget_ddel_same|]. now apply D.
Qed.

(** Removing files. *)
Definition shrinks (ps : list str) (a b : dict str) : Prop :=
  same_but ps a b /\ (forall p, In p ps -> dget p b = None) /\ (forall q, dget q a = None -> dget q b = None).
Lemma shrinks_refl a : shrinks [] a a.
Proof. repeat split; auto using same_but_refl. intros p []. Qed.
Lemma shrinks_app l m a b c : shrinks l a b -> shrinks m b c -> shrinks (l ++ m) a c.
Proof.
  intros (A & B & C) (D & E & F). split; [|split]; auto.
  - intros x N. rewrite D, A; auto; intros I; apply N, in_or_app; auto.
  - intros p I. apply in_app_or in I as [I|I]; auto.
Qed.
Lemma shrinks_rm ps fs : shrinks ps fs (fold_left (fun d p => ddel p d) ps fs).
Proof.
  destruct (rm_dict ps fs) as (A & B). split; [auto|split; auto]. intros q G.
  destruct (in_dec (list_eq_dec N.eq_dec) q ps) as [J|J]; auto. rewrite A; auto.
Qed.

(** The text for the new shell. *)
Lemma flat_newlines l : flat_map newline_ended l = join [10%N] (l ++ [[]]).
Proof.
  induction l as [|x l IH]; [reflexivity|]. cbn [flat_map]. rewrite IH. unfold newline_ended, newline.
  destruct l as [|y l]; cbn [app join]; now rewrite <- app_assoc.
Qed.
Lemma rc_lines env_file : bare_word env_file ->
  exists rest, cut_at 10%N (rc_text env_file false) (($"source " ++ env_file) :: rest) /\
    In $"export LOAD_ENV_INTERACTIVE_MODE=""True""" rest /\ exists a, rest = a ++ [helper_line; []].
Proof.
  intros (_ & B). unfold rc_text. cbn [app]. rewrite flat_newlines. cbn [app]. eexists. split; [split; [|split; [|reflexivity]]|].
  - discriminate.
  - constructor.
    + intros I. apply in_app_or in I as [I|I].
      * cbn in I. intuition discriminate.
      * apply B in I. apply I. cbn. tauto.
    + repeat (constructor; [intros I; cbn in I; intuition discriminate|]). constructor.
  - split; [do 9 right; now left|].
    match goal with |- exists a, ?l = _ => exists (firstn (length l - 2) l) end. reflexivity.
Qed.

Section L.
Variable glob : str -> list str.
Variable odd_test : list str -> bool.
Variable odd_status : str -> N.
Variable which_python3 too_old : environ -> str.
Variable python3 : list str -> environ -> dict str -> N * dict str.
Variable interactive : list str -> environ -> dict str -> dict str.
Variable run_text run_function : str -> sh unit.
Variable here random : str.
Notation cleanup := (cleanup glob odd_test odd_status).
Notation status_of := (status_of glob odd_status).
Notation words := (words glob).
Notation load_env_sh := (load_env_sh glob odd_test odd_status which_python3 too_old python3 interactive run_text run_function here random).

Lemma rm_if_one w p v f h fs c : words w = [p] ->
  exists fs', rm_if glob odd_test w (Term v f h fs c) = (Ok tt, Term v f h fs' c) /\ shrinks [p] fs fs'.
Proof.
  intros W. unfold rm_if, bind, get, is_file, rm, set_files, modify. rewrite W. cbn [t_vars t_funs t_trap t_files t_calls].
  destruct (dmem p fs) eqn:M.
  - eexists. split; [reflexivity|]. apply shrinks_rm.
  - exists fs. split; [reflexivity|]. split; [apply same_but_refl|]. split; auto. intros q [<-|[]].
    unfold dmem in M. destruct (dget p fs); [discriminate|auto].
Qed.
Lemma tmp_words user name : unsplit user -> words (tmp user name) = [tmp_path user name].
Proof.
  intros D. unfold tmp. rewrite words_quoted by (constructor; [exact D|constructor; [exact I|constructor]]).
  cbn [flat_map piece_text]. now rewrite app_nil_r.
Qed.
Lemma user_value t : value $"USER" t = user_of t.
Proof. reflexivity. Qed.
Lemma status_number n : (n < 256)%N -> status_of (dec_of_N n) = n.
Proof.
  intros B. unfold LoadSh.status_of. destruct (dec_is_number n) as (A & W). rewrite words_bare by auto. rewrite A, number_dec.
  now apply N.mod_small.
Qed.
Lemma removed_nodup : NoDup removed_names.
Proof. repeat constructor; cbn; intuition discriminate. Qed.

(** What [cleanup] removes besides. *)
Inductive also_gone (v : environ) : list str -> Prop :=
| ag_none : dget $"env_file" v = None -> also_gone v [$"rc"]
| ag_some env_file stem : dget $"env_file" v = Some env_file -> script_file env_file stem ->
    also_gone v [env_file; stem ++ $"rc"].

Lemma stem_of env_file stem : script_file env_file stem ->
  Nat.ltb (length env_file) 2 = false /\ firstn (length env_file - 2) env_file = stem /\ unsplit stem.
Proof.
  intros [(a & b & ->) _ (_ & D)]. split; [|split].
  - apply Nat.ltb_ge. rewrite app_length. cbn. lia.
  - rewrite app_length. cbn [length]. replace (length stem + 2 - 2) with (length stem + 0) by lia.
    rewrite firstn_app_2. cbn [firstn]. apply app_nil_r.
  - intros c I. apply D. apply in_or_app. auto.
Qed.

Lemma cleanup_works v f h fs c gone : unsplit (user_of (Term v f h fs c)) -> dget $"cleanup" v = None -> also_gone v gone ->
  exists t', cleanup (Term v f h fs c) = (Ok (status_of (value $"ret" (Term v f h fs c))), t') /\
    leaves v f fs (tmp_paths (Term v f h fs c) ++ gone) t' /\ t_calls t' = c.
Proof.
  intros D CL G. unfold LoadSh.cleanup.
  destruct (rm_if_one _ _ v f h fs c (tmp_words _ $".load_matching_env_loc" D)) as (fs1 & E1 & S1).
  destruct (rm_if_one _ _ v f h fs1 c (tmp_words _ $".ci_mode" D)) as (fs2 & E2 & S2).
  rewrite bind_eq. unfold get at 1. cbv zeta iota beta. rewrite user_value. step E1. step E2.
  set (env := value $"env_file" (Term v f h fs c)).
  assert (X : exists fs3 fs4 stem, 
    (if not_empty glob odd_test [U env] return SM term unit then rm glob [U env] else ret tt) (Term v f h fs2 c) = (Ok tt, Term v f h fs3 c) /\
    but_two $"env_file" (Term v f h fs3 c) = (Ok stem, Term v f h fs3 c) /\
    rm glob [U stem; Q $"rc"] (Term v f h fs3 c) = (Ok tt, Term v f h fs4 c) /\ shrinks gone fs2 fs4).
  { destruct G as [G|e stem G SF].
    - assert (Ev : env = []) by (unfold env, value; cbn [t_vars]; now rewrite G). rewrite Ev. clearbody env. subst env.
      exists fs2. eexists _, []. split; [reflexivity|]. split.
      { unfold but_two, bind, get. cbn [t_vars]. now rewrite G. }
      split; [reflexivity|]. exact (shrinks_rm [$"rc"] fs2).
    - assert (Ev : env = e) by (unfold env, value; cbn [t_vars]; now rewrite G). rewrite Ev. clearbody env. subst env.
      destruct (stem_of _ _ SF) as (L & Fi & US). pose proof (sf_bare _ _ SF) as B.
      exists (fold_left (fun d p => ddel p d) [e] fs2). eexists _, stem. split.
      { unfold not_empty, rm. rewrite words_bare by auto. destruct e as [|e1 e]; [now destruct B|]. reflexivity. }
      split.
      { unfold but_two, bind, get. cbn [t_vars]. rewrite G, L, Fi. reflexivity. }
      unfold rm. rewrite (words_then glob stem $"rc" []) by auto. split; [reflexivity|].
      apply (shrinks_app [e] [_] _ _ _ (shrinks_rm [e] fs2)). cbn [flat_map]. rewrite app_nil_r. apply (shrinks_rm [stem ++ $"rc"]). }
  destruct X as (fs3 & fs4 & stem & E3 & E4 & E5 & S3).
  step E3. step E4. step E5.
  destruct (unset_spec removed_names v f h fs4 c removed_nodup) as (v' & f' & E6 & A1 & A2 & A3 & A4).
  change [$"python_too_old"; $"script_dir"; $"ci_mode"; $"cleanup"; $"env_file"; $"ret"] with removed_names.
  step E6. eexists. split; [reflexivity|]. split; [|reflexivity].
  destruct (shrinks_app _ _ _ _ _ (shrinks_app _ _ _ _ _ S1 S2) S3) as (F1 & F2 & F3).
  constructor; cbn [t_vars t_funs t_trap t_files t_calls]; auto.
  - eapply same_but_weaken; [|exact A1]. intros x I. apply in_or_app. auto.
  - apply A4; auto. cbn. tauto.
Qed.

(** ** The script *)
Lemma refused args t m : dget $"LOAD_ENV_INTERACTIVE_MODE" (t_vars t) = Some m -> bare_word m ->
  load_env_sh true args t = (Ok 1%N, t).
Proof.
  intros G B. unfold LoadSh.load_env_sh. cbn [negb]. rewrite bind_eq. unfold get at 1. cbv iota beta.
  unfold value, value_or_empty. rewrite G. unfold not_empty. rewrite words_bare by auto.
  destruct m as [|x m]; [now destruct B|]. reflexivity.
Qed.
Lemma not_sourced args t : load_env_sh false args t = (Err ScriptExit, t).
Proof. reflexivity. Qed.

Lemma mode_unset t : dget $"LOAD_ENV_INTERACTIVE_MODE" (t_vars t) = None \/ dget $"LOAD_ENV_INTERACTIVE_MODE" (t_vars t) = Some [] ->
  not_empty glob odd_test [U (value $"LOAD_ENV_INTERACTIVE_MODE" t)] = false.
Proof. intros [G|G]; unfold value, value_or_empty; rewrite G; reflexivity. Qed.

(** Up to the check of [python3]. *)
Definition trapped : option str := Some $"cleanup; return 1".
Definition with_cleanup (f : dict str) : dict str := dset $"cleanup" $"load-env.sh: cleanup" f.
Lemma removed_funs f f' : same_but removed_names (with_cleanup f) f' -> same_but removed_names f f'.
Proof. intros H x N. rewrite H by auto. apply dget_dset_other. intros ->. apply N. cbn. tauto. Qed.

Lemma cleanup_from t0 v f h fs c gone : unsplit (user_of t0) -> dget $"cleanup" v = None -> also_gone v gone ->
  same_but load_names (t_vars t0) v -> same_but removed_names (t_funs t0) f ->
  exists t', cleanup (Term v f h fs c) = (Ok (status_of (value $"ret" (Term v f h fs c))), t') /\
    leaves (t_vars t0) (t_funs t0) fs (tmp_paths t0 ++ gone) t' /\ t_calls t' = c.
Proof.
  intros D CL G SV SF.
  assert (UE : user_of (Term v f h fs c) = user_of t0).
  { unfold user_of. cbn [t_vars]. rewrite SV; auto. cbn. intuition discriminate. }
  rewrite <- UE in D. destruct (cleanup_works _ _ h fs c _ D CL G) as (t' & E & L & C).
  exists t'. split; auto. split; auto. unfold tmp_paths in *. rewrite UE in L.
  destruct L. constructor; auto; eapply same_but_trans; eauto.
Qed.
Lemma give_up_from t0 v f h fs c gone : unsplit (user_of t0) -> dget $"cleanup" v = None -> also_gone v gone ->
  same_but load_names (t_vars t0) v -> same_but removed_names (t_funs t0) f ->
  exists t', give_up glob odd_test odd_status (Term v f h fs c) = (Ok 1%N, t') /\
    leaves (t_vars t0) (t_funs t0) fs (tmp_paths t0 ++ gone) t' /\ t_calls t' = c.
Proof.
  intros D CL G SV SF. destruct (cleanup_from t0 v f h fs c gone) as (t' & E & L); auto.
  exists t'. unfold give_up. step E. auto.
Qed.

Lemma no_python args t : 
  dget $"LOAD_ENV_INTERACTIVE_MODE" (t_vars t) = None \/ dget $"LOAD_ENV_INTERACTIVE_MODE" (t_vars t) = Some [] ->
  which_python3 (t_vars t) = [] \/ too_old (t_vars t) = $"True" ->
  unsplit (user_of t) -> dget $"cleanup" (t_vars t) = None -> dget $"env_file" (t_vars t) = None ->
  exists t', load_env_sh true args t = (Ok 1%N, t') /\
    leaves (t_vars t) (t_funs t) (t_files t) (tmp_paths t ++ [$"rc"]) t' /\ t_calls t' = t_calls t.
Proof.
  intros M P D CL EF. unfold LoadSh.load_env_sh. cbn [negb]. rewrite bind_eq. unfold get at 1. cbv iota beta.
  rewrite (mode_unset t M). rewrite bind_eq. unfold set_funs at 1, modify at 1. cbv iota beta.
  rewrite bind_eq. unfold set_trap at 1, modify at 1. cbv iota beta. rewrite bind_eq. unfold get at 1. cbv iota beta.
  cbn [t_vars t_funs t_trap t_files t_calls].
  assert (SF : same_but removed_names (t_funs t) (with_cleanup (t_funs t))) by (apply same_but_dset; cbn; tauto).
  destruct (which_python3 (t_vars t)) as [|w ws] eqn:W; cbn [empty_str].
  { apply give_up_from; auto using same_but_refl. now constructor. }
  destruct P as [P|P]; [discriminate|]. rewrite bind_eq. unfold let_var at 1, set_vars at 1, modify at 1. cbv iota beta.
  rewrite P, str_eqb_refl. cbn [t_vars t_funs t_trap t_files t_calls].
  apply give_up_from; auto.
  - rewrite dget_dset_other; auto. discriminate.
  - constructor. rewrite dget_dset_other; auto. discriminate.
  - apply same_but_dset. cbn. tauto.
Qed.

(** The run of [load_env.py]. *)
Definition seen (t : term) : environ :=
  dset $"load_matching_env_loc" (loc_file random) (dset $"script_dir" here (dset $"python_too_old" (too_old (t_vars t)) (t_vars t))).
Lemma seen_vars t : same_but load_names (t_vars t) (seen t).
Proof. unfold seen. repeat (eapply same_but_trans; [|apply same_but_dset; cbn; tauto]). apply same_but_refl. Qed.
Definition called (t : term) (r : N) (fs : dict str) (args : list str) : term :=
  Term (dset $"ret" (dec_of_N r) (seen t))
    (with_cleanup (t_funs t)) trapped fs (t_calls t ++ [$"python3" :: load_command here random args]).
Lemma up_to_python args t r fs : ready which_python3 too_old t -> unsplit here -> unsplit random -> args <> [] -> Forall bare_word args ->
  python3 (load_command here random args) (seen t) (t_files t) = (r, fs) ->
  load_env_sh true args t = (if negb (N.eqb r 0) then cleanup else
    enter glob odd_test odd_status interactive run_text run_function args) (called t r fs args).
Proof.
  intros [M (P1 & P2) D CL EF] HD RD NA BA PY. unfold LoadSh.load_env_sh. cbn [negb]. rewrite bind_eq. unfold get at 1. cbv iota beta.
  rewrite (mode_unset t M). rewrite bind_eq. unfold set_funs at 1, modify at 1. cbv iota beta.
  rewrite bind_eq. unfold set_trap at 1, modify at 1. cbv iota beta. rewrite bind_eq. unfold get at 1. cbv iota beta.
  cbn [t_vars t_funs t_trap t_files t_calls].
  destruct (which_python3 (t_vars t)) as [|w ws] eqn:W; [congruence|]. cbn [empty_str].
  rewrite bind_eq. unfold let_var at 1, set_vars at 1, modify at 1. cbv iota beta.
  destruct (str_eqb_spec (too_old (t_vars t)) $"True") as [T|_]; [congruence|].
  rewrite bind_eq. unfold let_var at 1, set_vars at 1, modify at 1. cbv iota beta.
  destruct args as [|a args]; [congruence|]. set (l := a :: args) in *. 
  rewrite bind_eq. unfold let_var at 1, set_vars at 1, modify at 1. cbv iota beta.
  assert (C : [$"-E"; $"-s"] ++ words [U here; Q $"/load_env.py"] ++ [$"--load-matching-env-location"] ++
     words [U ($".load_matching_env_loc." ++ random)] ++ flat_map (fun a => words [U a]) l = load_command here random l).
  { rewrite (words_then glob here $"/load_env.py" []) by auto. cbn [flat_map]. rewrite app_nil_r.
    rewrite (words_bare glob ($".load_matching_env_loc." ++ random)).
    - rewrite words_args by auto. reflexivity.
    - split; [discriminate|]. intros x I. apply in_app_or in I as [I|I]; [|now apply RD].
      revert x I. apply Forall_forall. repeat constructor; cbn; intuition discriminate. }
  rewrite C. rewrite bind_eq. unfold python at 1. rewrite bind_eq. unfold get at 1. cbv iota beta.
  cbn [t_vars t_funs t_trap t_files t_calls]. fold (loc_file random). fold (seen t). rewrite PY.
  rewrite bind_eq. unfold started at 1, modify at 1. cbv iota beta. rewrite bind_eq. unfold set_files at 1, modify at 1. cbv iota beta.
  unfold ret at 1. cbv iota beta. rewrite bind_eq. unfold let_var at 1, set_vars at 1, modify at 1. cbv iota beta.
  cbn [t_vars t_funs t_trap t_files t_calls]. destruct (negb (N.eqb r 0)); reflexivity.
Qed.
Lemma called_vars t r fs args : same_but load_names (t_vars t) (t_vars (called t r fs args)).
Proof. unfold called. cbn [t_vars]. eapply same_but_trans; [apply seen_vars|apply same_but_dset; cbn; tauto]. Qed.
Lemma called_funs t r fs args : same_but removed_names (t_funs t) (t_funs (called t r fs args)).
Proof. apply same_but_dset. cbn. tauto. Qed.
Lemma called_get x t r fs args : x <> $"ret" -> x <> $"load_matching_env_loc" -> x <> $"script_dir" -> x <> $"python_too_old" ->
  dget x (t_vars (called t r fs args)) = dget x (t_vars t).
Proof. intros A B C D. unfold called, seen. cbn [t_vars]. now rewrite !dget_dset_other. Qed.
Lemma called_ret t r fs args : value $"ret" (called t r fs args) = dec_of_N r.
Proof. unfold value, called. cbn [t_vars]. now rewrite dget_dset_same. Qed.

Lemma failure args t r fs : ready which_python3 too_old t -> unsplit here -> unsplit random -> args <> [] -> Forall bare_word args ->
  python3 (load_command here random args) (seen t) (t_files t) = (r, fs) ->
  r <> 0%N -> (r < 256)%N ->
  exists t', load_env_sh true args t = (Ok r, t') /\
    leaves (t_vars t) (t_funs t) fs (tmp_paths t ++ [$"rc"]) t' /\
    t_calls t' = t_calls t ++ [$"python3" :: load_command here random args].
Proof.
  intros R HD RD NA BA PY NZ LT. rewrite (up_to_python args t r fs) by auto.
  apply N.eqb_neq in NZ. rewrite NZ. cbn [negb].
  pose proof (called_vars t r fs args) as SV. pose proof (called_funs t r fs args) as SF.
  pose proof (called_get $"cleanup" t r fs args) as CG. pose proof (called_get $"env_file" t r fs args) as EG.
  pose proof (called_ret t r fs args) as CR.
  destruct R as [M P D CL EF].
  destruct (cleanup_from t (t_vars (called t r fs args)) (t_funs (called t r fs args)) trapped fs
    (t_calls (called t r fs args)) [$"rc"]) as (t' & E & L & C); auto.
  { rewrite CG by discriminate. exact CL. }
  { constructor. rewrite EG by discriminate. exact EF. }
  exists t'. split; [|split; auto]. etransitivity; [exact E|]. f_equal. f_equal.
  change (status_of (value $"ret" (called t r fs args)) = r). rewrite CR. now apply status_number.
Qed.

(** Without arguments. *)
Lemma help_shown t r fs : ready which_python3 too_old t -> unsplit here ->
  python3 [$"-E"; $"-s"; here ++ $"/load_env.py"; $"--help"] (dset $"script_dir" here (dset $"python_too_old" (too_old (t_vars t)) (t_vars t)))
    (t_files t) = (r, fs) ->
  exists t', load_env_sh true [] t = (Ok 1%N, t') /\
    leaves (t_vars t) (t_funs t) fs (tmp_paths t ++ [$"rc"]) t' /\
    t_calls t' = t_calls t ++ [[$"python3"; $"-E"; $"-s"; here ++ $"/load_env.py"; $"--help"]].
Proof.
  intros [M (P1 & P2) D CL EF] HD PY. unfold LoadSh.load_env_sh. cbn [negb]. rewrite bind_eq. unfold get at 1. cbv iota beta.
  rewrite (mode_unset t M). rewrite bind_eq. unfold set_funs at 1, modify at 1. cbv iota beta.
  rewrite bind_eq. unfold set_trap at 1, modify at 1. cbv iota beta. rewrite bind_eq. unfold get at 1. cbv iota beta.
  cbn [t_vars t_funs t_trap t_files t_calls].
  destruct (which_python3 (t_vars t)) as [|w ws] eqn:W; [congruence|]. cbn [empty_str].
  rewrite bind_eq. unfold let_var at 1, set_vars at 1, modify at 1. cbv iota beta.
  destruct (str_eqb_spec (too_old (t_vars t)) $"True") as [T|_]; [congruence|].
  rewrite bind_eq. unfold let_var at 1, set_vars at 1, modify at 1. cbv iota beta.
  rewrite (words_then glob here $"/load_env.py" []) by auto. cbn [flat_map]. rewrite app_nil_r. cbn [app].
  rewrite bind_eq. unfold python at 1. rewrite bind_eq. unfold get at 1. cbv iota beta.
  cbn [t_vars t_funs t_trap t_files t_calls]. unfold environ, str in *. rewrite PY.
  rewrite bind_eq. unfold started at 1, modify at 1. cbv iota beta. rewrite bind_eq. unfold set_files at 1, modify at 1. cbv iota beta.
  unfold ret at 1. cbv iota beta. cbn [t_vars t_funs t_trap t_files t_calls].
  apply give_up_from; auto.
  - rewrite !dget_dset_other by discriminate. exact CL.
  - constructor. rewrite !dget_dset_other by discriminate. exact EF.
  - repeat (eapply same_but_trans; [|apply same_but_dset; cbn; tauto]). apply same_but_refl.
  - apply same_but_dset. cbn. tauto.
Qed.

(** ** After the run of [load_env.py] *)
Lemma lstrip_id (r : str) : ~ In 10%N r -> lstrip (N.eqb 10%N) r = r.
Proof.
  destruct r as [|c r]; auto. intros N. cbn [lstrip]. destruct (N.eqb_spec 10 c) as [<-|_]; auto. exfalso. apply N. now left.
Qed.
Lemma chomp_id s : ~ In 10%N s -> chomp s = s.
Proof.
  intros N. unfold chomp, rstrip. rewrite lstrip_id; [apply rev_involutive|]. intros I. now apply in_rev in I.
Qed.
Lemma loc_words : unsplit random -> words [U (loc_file random)] = [loc_file random].
Proof.
  intros RD. apply words_bare. split; [discriminate|]. intros x I. apply in_app_or in I as [I|I]; [|now apply RD].
  revert x I. apply Forall_forall. repeat constructor; cbn; intuition discriminate.
Qed.
Definition ci_of (args : list str) : bool := contains $"--ci-mode" (join $" " args).
Lemma ci_iff args : ci_of args = true <-> asks_ci args.
Proof. exact (contains_spec _ _). Qed.
Notation enter := (enter glob odd_test odd_status interactive run_text run_function).
Definition ci_text (args : list str) : str := if ci_of args then $"1" else $"0".
Definition entered (args : list str) (env_file rc : str) (t : term) : term :=
  Term (dset $"run_gen_config_helper_cmd" helper_line (dset $"env_file_rc" rc (dset $"env_file" env_file
         (dset $"ci_mode" (ci_text args) (t_vars t)))))
    (t_funs t) (t_trap t) (t_files t) (t_calls t).
Definition with_ci (args : list str) (t : term) : term :=
  Term (dset $"ci_mode" (ci_text args) (t_vars t)) (t_funs t) (t_trap t) (t_files t) (t_calls t).

Lemma enter_none args t : dget $"load_matching_env_loc" (t_vars t) = Some (loc_file random) -> unsplit random ->
  dget (loc_file random) (t_files t) = None -> enter args t = cleanup (with_ci args t).
Proof.
  intros L RD G. unfold LoadSh.enter. fold (ci_of args).
  assert (S : (if ci_of args return SM term unit then let_var $"ci_mode" $"1" else let_var $"ci_mode" $"0") t = (Ok tt, with_ci args t)).
  { unfold with_ci, ci_text. destruct (ci_of args); reflexivity. }
  step S. rewrite bind_eq. unfold get at 1. cbv iota beta zeta.
  assert (V : value $"load_matching_env_loc" (with_ci args t) = loc_file random).
  { unfold value, with_ci. cbn [t_vars]. rewrite dget_dset_other by discriminate. now rewrite L. }
  rewrite V. unfold is_file. rewrite loc_words by auto. unfold with_ci at 1, dmem. cbn [t_files]. rewrite G. reflexivity.
Qed.
Lemma enter_file args t env_file stem : dget $"load_matching_env_loc" (t_vars t) = Some (loc_file random) -> unsplit random ->
  dget (loc_file random) (t_files t) = Some env_file -> script_file env_file stem ->
  enter args t =
    (if dmem env_file (t_files t) then
       write glob [U (stem ++ $"rc")] (rc_text env_file (ci_of args)) ;;
       (if ci_of args then
          t <- get ;;
          if is_file glob odd_test [U (stem ++ $"rc")] t then source_rc glob run_text run_function env_file else ret tt
        else
          started ([$"/bin/bash"; $"--init-file"] ++ words [U (stem ++ $"rc")] ++ [$"-i"]) ;;
          t <- get ;;
          set_files (interactive (words [U (stem ++ $"rc")]) (t_vars t))) ;;
       cleanup
     else give_up glob odd_test odd_status) (entered args env_file (stem ++ $"rc") t).
Proof.
  intros L RD G SF. unfold LoadSh.enter. fold (ci_of args).
  assert (S : (if ci_of args return SM term unit then let_var $"ci_mode" $"1" else let_var $"ci_mode" $"0") t = (Ok tt, with_ci args t)).
  { unfold with_ci, ci_text. destruct (ci_of args); reflexivity. }
  step S. rewrite bind_eq. unfold get at 1. cbv iota beta zeta.
  assert (V : value $"load_matching_env_loc" (with_ci args t) = loc_file random).
  { unfold value, with_ci. cbn [t_vars]. rewrite dget_dset_other by discriminate. now rewrite L. }
  rewrite V. unfold is_file at 1. rewrite loc_words by auto. unfold with_ci at 1, dmem at 1. cbn [t_files]. rewrite G. cbv iota beta.
  assert (C : cat glob [U (loc_file random)] (with_ci args t) = env_file).
  { unfold cat. rewrite loc_words by auto. unfold with_ci. cbn [flat_map t_files]. rewrite G. cbn [value_or_empty]. rewrite app_nil_r.
    apply chomp_id. intros I. apply (proj2 (sf_bare _ _ SF) _ I). cbn. tauto. }
  rewrite C. destruct (stem_of _ _ SF) as (LT & Fi & US).
  rewrite bind_eq. unfold let_var at 1, set_vars at 1, modify at 1. cbv iota beta.
  assert (B : forall v f h fs c, dget $"env_file" v = Some env_file -> but_two $"env_file" (Term v f h fs c) = (Ok stem, Term v f h fs c)).
  { intros v f h fs c E. unfold but_two, bind, get. cbn [t_vars]. now rewrite E, LT, Fi. }
  unfold with_ci. cbn [t_vars t_funs t_trap t_files t_calls].
  rewrite bind_eq, B by apply dget_dset_same. cbv iota beta.
  rewrite bind_eq. unfold let_var at 1, set_vars at 1, modify at 1. cbv iota beta.
  rewrite bind_eq. unfold let_var at 1, set_vars at 1, modify at 1. cbv iota beta.
  cbn [t_vars t_funs t_trap t_files t_calls]. fold (entered args env_file (stem ++ $"rc") t).
  rewrite bind_eq. unfold get at 1. cbv iota beta zeta.
  assert (V1 : value $"env_file" (entered args env_file (stem ++ $"rc") t) = env_file).
  { unfold value, entered. cbn [t_vars]. rewrite !dget_dset_other by discriminate. now rewrite dget_dset_same. }
  assert (V2 : value $"env_file_rc" (entered args env_file (stem ++ $"rc") t) = stem ++ $"rc").
  { unfold value, entered. cbn [t_vars]. rewrite dget_dset_other by discriminate. now rewrite dget_dset_same. }
  rewrite V1, V2. unfold is_file at 1. rewrite (words_bare glob env_file) by exact (sf_bare _ _ SF). reflexivity.
Qed.

Lemma called_loc t r fs args : dget $"load_matching_env_loc" (t_vars (called t r fs args)) = Some (loc_file random).
Proof. unfold called, seen. cbn [t_vars]. rewrite dget_dset_other by discriminate. now rewrite dget_dset_same. Qed.
Lemma with_ci_vars args t : same_but load_names (t_vars t) (t_vars (with_ci args t)).
Proof. apply same_but_dset. cbn. tauto. Qed.
Lemma entered_vars args ef rc t : same_but load_names (t_vars t) (t_vars (entered args ef rc t)).
Proof.
  unfold entered. cbn [t_vars]. repeat (eapply same_but_trans; [|apply same_but_dset; cbn; tauto]). apply same_but_refl.
Qed.

(** No location was written. *)
Lemma nothing_written args t fs : ready which_python3 too_old t -> unsplit here -> unsplit random -> args <> [] -> Forall bare_word args ->
  python3 (load_command here random args) (seen t) (t_files t) = (0%N, fs) ->
  dget (loc_file random) fs = None ->
  exists t', load_env_sh true args t = (Ok 0%N, t') /\
    leaves (t_vars t) (t_funs t) fs (tmp_paths t ++ [$"rc"]) t' /\
    t_calls t' = t_calls t ++ [$"python3" :: load_command here random args].
Proof.
  intros R HD RD NA BA PY LN. rewrite (up_to_python args t 0%N fs) by auto. cbn [N.eqb negb].
  rewrite enter_none by (auto using called_loc).
  pose proof (called_vars t 0%N fs args) as SV. pose proof (called_funs t 0%N fs args) as SF.
  pose proof (called_get $"cleanup" t 0%N fs args) as CG. pose proof (called_get $"env_file" t 0%N fs args) as EG.
  pose proof (called_ret t 0%N fs args) as CR. pose proof (with_ci_vars args (called t 0%N fs args)) as CV.
  destruct R as [M P D CL EF]. set (t1 := called t 0%N fs args) in *.
  destruct (cleanup_from t (t_vars (with_ci args t1)) (t_funs t1) trapped fs (t_calls t1) [$"rc"]) as (t' & E & L & C); auto.
  { unfold with_ci. cbn [t_vars]. rewrite dget_dset_other, CG by discriminate. exact CL. }
  { constructor. unfold with_ci. cbn [t_vars]. rewrite dget_dset_other, EG by discriminate. exact EF. }
  { eapply same_but_trans; eauto. }
  exists t'. split; [|split; auto]. etransitivity; [exact E|]. f_equal. f_equal.
  unfold value at 1. cbn [t_vars]. unfold with_ci. cbn [t_vars]. rewrite dget_dset_other by discriminate.
  change (status_of (value $"ret" t1) = 0%N). rewrite CR. now apply status_number.
Qed.

Section Script.
Variable args : list str.
Variable t : term.
Variable fs : dict str.
Variable env_file stem : str.
Hypothesis R : ready which_python3 too_old t.
Hypothesis HD : unsplit here.
Hypothesis RD : unsplit random.
Hypothesis NA : args <> [].
Hypothesis BA : Forall bare_word args.
Hypothesis PY : python3 (load_command here random args) (seen t) (t_files t) = (0%N, fs).
Hypothesis LF : dget (loc_file random) fs = Some env_file.
Hypothesis SFile : script_file env_file stem.
Let rc := stem ++ $"rc".
Let t1 := called t 0%N fs args.
Let t2 := entered args env_file rc t1.

Lemma t2_vars : same_but load_names (t_vars t) (t_vars t2).
Proof. eapply same_but_trans; [apply called_vars|apply entered_vars]. Qed.
Lemma t2_get x : x <> $"run_gen_config_helper_cmd" -> x <> $"env_file_rc" -> x <> $"env_file" -> x <> $"ci_mode" ->
  dget x (t_vars t2) = dget x (t_vars t1).
Proof. intros A B C D. unfold t2, entered. cbn [t_vars]. now rewrite !dget_dset_other. Qed.
Lemma t2_env : dget $"env_file" (t_vars t2) = Some env_file.
Proof. unfold t2, entered. cbn [t_vars]. rewrite !dget_dset_other by discriminate. now rewrite dget_dset_same. Qed.
Lemma t2_ret : dget $"ret" (t_vars t2) = Some $"0".
Proof. rewrite t2_get by discriminate. unfold t1, called. cbn [t_vars]. now rewrite dget_dset_same. Qed.
Lemma t2_cleanup : dget $"cleanup" (t_vars t2) = None.
Proof. rewrite t2_get by discriminate. unfold t1. rewrite called_get by discriminate. apply R. Qed.
Lemma rc_words : words [U rc] = [rc].
Proof.
  apply words_bare. destruct (stem_of _ _ SFile) as (_ & _ & US). split.
  - unfold rc. destruct stem; discriminate.
  - intros x I. apply in_app_or in I as [I|I]; [now apply US|].
    revert x I. apply Forall_forall. repeat constructor; cbn; intuition discriminate.
Qed.

Lemma missing_script : dget env_file fs = None ->
  exists t', load_env_sh true args t = (Ok 1%N, t') /\
    leaves (t_vars t) (t_funs t) fs (tmp_paths t ++ [env_file; rc]) t' /\
    t_calls t' = t_calls t ++ [$"python3" :: load_command here random args].
Proof.
  intros G. rewrite (up_to_python args t 0%N fs) by auto. cbn [N.eqb negb]. fold t1.
  rewrite (enter_file args t1 env_file stem) by (auto; apply called_loc). fold rc. fold t2.
  unfold dmem. unfold t1 at 1, called. cbn [t_files]. rewrite G.
  apply (give_up_from t (t_vars t2) (t_funs t2) (t_trap t2) (t_files t2) (t_calls t2)).
  - apply R.
  - exact t2_cleanup.
  - apply (ag_some _ _ _ t2_env SFile).
  - exact t2_vars.
  - apply called_funs.
Qed.

Lemma after t5 gone : gone = tmp_paths t ++ [env_file; rc] -> keeps_names t2 t5 ->
  exists t', cleanup t5 = (Ok 0%N, t') /\ leaves (t_vars t5) (t_funs t5) (t_files t5) gone t' /\ t_calls t' = t_calls t5.
Proof.
  intros -> K. destruct t5 as [v f h fs5 c].
  assert (U5 : user_of (Term v f h fs5 c) = user_of t).
  { unfold user_of. rewrite K by auto. rewrite (t2_vars $"USER"); auto. cbn. intuition discriminate. }
  destruct (cleanup_works v f h fs5 c [env_file; rc]) as (t' & E & L & C).
  - rewrite U5. apply R.
  - etransitivity; [apply (K $"cleanup"); cbn; tauto|]. exact t2_cleanup.
  - apply ag_some; auto. etransitivity; [apply (K $"env_file"); cbn; tauto|]. exact t2_env.
  - exists t'. unfold tmp_paths in *. rewrite U5 in L. split; auto. rewrite E. f_equal. f_equal. unfold value.
    rewrite (K $"ret") by (cbn; tauto). rewrite t2_ret. now apply (status_number 0).
Qed.

Definition t3 : term := Term (t_vars t2) (t_funs t2) (t_trap t2) (dset rc (rc_text env_file (ci_of args)) fs) (t_calls t2).
Lemma t3_prepared : prepared t fs rc ($"python3" :: load_command here random args) t3.
Proof.
  constructor; cbn [t3 t_vars t_funs t_files t_calls].
  - exact t2_vars.
  - apply called_funs.
  - apply same_but_dset. now left.
  - reflexivity.
Qed.
Lemma up_to_script text : dget env_file fs = Some text ->
  load_env_sh true args t =
    ((if ci_of args then source_rc glob run_text run_function env_file
      else started [$"/bin/bash"; $"--init-file"; rc; $"-i"] ;;
           t <- get ;; set_files (interactive [rc] (t_vars t))) ;; cleanup) t3.
Proof.
  intros G. rewrite (up_to_python args t 0%N fs) by auto. cbn [N.eqb negb]. fold t1.
  rewrite (enter_file args t1 env_file stem) by (auto; apply called_loc). fold rc. fold t2.
  unfold dmem. unfold t1 at 1, called. cbn [t_files]. rewrite G.
  assert (W : write glob [U rc] (rc_text env_file (ci_of args)) t2 = (Ok tt, t3)).
  { unfold write. rewrite rc_words. reflexivity. }
  step W. rewrite !bind_eq.
  destruct (ci_of args).
  - rewrite bind_eq. unfold get at 1. cbv iota beta. unfold is_file. rewrite rc_words. unfold t3 at 1, dmem. cbn [t_files].
    rewrite dget_dset_same. reflexivity.
  - rewrite rc_words. reflexivity.
Qed.

Lemma script_ci text : asks_ci args -> dget env_file fs = Some text ->
  exists t3, prepared t fs rc ($"python3" :: load_command here random args) t3 /\
    (forall x t4, run_text text t3 = (Err x, t4) -> load_env_sh true args t = (Err x, t4)) /\
    (forall t4 t5, run_text text t3 = (Ok tt, t4) -> then_helper run_function t4 t5 -> keeps_names t3 t5 ->
       exists t', load_env_sh true args t = (Ok 0%N, t') /\
         leaves (t_vars t5) (t_funs t5) (t_files t5) (tmp_paths t ++ [env_file; rc]) t' /\ t_calls t' = t_calls t5).
Proof.
  intros CI G. apply ci_iff in CI. exists t3. split; [exact t3_prepared|].
  rewrite (up_to_script text G), CI.
  assert (NE : env_file <> rc) by exact (sf_other _ _ SFile).
  assert (SO : source glob run_text [U env_file] t3 = run_text text t3).
  { unfold source. rewrite bind_eq. unfold get at 1. cbv iota beta. rewrite words_bare by exact (sf_bare _ _ SFile).
    unfold t3 at 1. cbn [t_files]. rewrite dget_dset_other by auto. now rewrite G. }
  split.
  - intros x t4 E. rewrite bind_eq. unfold source_rc. rewrite bind_eq, SO, E. reflexivity.
  - intros t4 t5 E TH K. rewrite bind_eq. unfold source_rc. rewrite bind_eq, SO, E. cbv iota beta.
    rewrite bind_eq. unfold get at 1. cbv iota beta. unfold then_helper in TH.
    assert (X : (match dget $"gen_config_helper" (t_funs t4) return SM term unit with Some body => run_function body | None => ret tt end) t4 = (Ok tt, t5)).
    { destruct (dget $"gen_config_helper" (t_funs t4)); [exact TH|]. now subst t5. }
    rewrite X. now apply after.
Qed.
Lemma script_interactive text : ~ asks_ci args -> dget env_file fs = Some text ->
  exists t3 t', prepared t fs rc ($"python3" :: load_command here random args) t3 /\
    dget rc (t_files t3) = Some (rc_text env_file false) /\
    load_env_sh true args t = (Ok 0%N, t') /\
    leaves (t_vars t) (t_funs t) (interactive [rc] (t_vars t3) (t_files t3)) (tmp_paths t ++ [env_file; rc]) t' /\
    t_calls t' = t_calls t3 ++ [[$"/bin/bash"; $"--init-file"; rc; $"-i"]].
Proof.
  intros NC G. assert (CI : ci_of args = false) by (destruct (ci_of args) eqn:C; auto; apply ci_iff in C; tauto).
  exists t3. rewrite (up_to_script text G), CI.
  set (t5 := Term (t_vars t3) (t_funs t3) (t_trap t3) (interactive [rc] (t_vars t3) (t_files t3)) (t_calls t3 ++ [[$"/bin/bash"; $"--init-file"; rc; $"-i"]])).
  destruct (after t5 _ eq_refl) as (t' & E & L & C).
  { intros x _. reflexivity. }
  exists t'. split; [exact t3_prepared|]. split; [|split; [|split]].
  - unfold t3. cbn [t_files]. rewrite dget_dset_same, CI. reflexivity.
  - exact E.
  - destruct L as [L1 L2 L3 L4 L5 L6 L7]. constructor; auto.
    + eapply same_but_trans; [exact t2_vars|exact L1].
    + eapply same_but_trans; [|exact L3]. apply called_funs.
  - exact C.
Qed.
End Script.
End L.
