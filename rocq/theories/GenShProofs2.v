(** * Proofs about [gen-config.sh] as a whole. *)
From Coq Require Import String NArith ZArith List Bool Arith Lia.
Import ListNotations.
From Verif Require Import PyBase PyFacts IniView IniRead ExcControl Cpe EnvVar SetEnv Bash DetSys EnvKeyword LoadEnv LoadRun GenRun
  SpecText SpecWalk SpecRun SpecApi SpecEnv SpecSetEnv SpecBash SpecLoadEnv SpecLoadRun SpecGenRun SetEnvProofs
  LoadRunProofs LoadRunProofs2 LoadRunProofs3 GenRunProofs LoadSh SpecSh ShProofs GenSh SpecGenSh GenShProofs.
Local Open Scope sm_scope.

Section G.
Variable glob : str -> list str.
Variable odd_test : list str -> bool.
Variable odd_status : str -> N.
Variable which_python3 too_old : environ -> str.
Variable python3 : list str -> environ -> dict str -> N * dict str.
Variable interactive : list str -> environ -> dict str -> dict str.
Variable run_text run_function : str -> sh unit.
Variable here random : str.
Variable directory : str -> bool.
Variable cmake : list str -> environ -> dict str -> dict str.
Variable odd_source : list str -> sh N.
Notation gen_config_sh := (gen_config_sh glob odd_test odd_status which_python3 too_old python3 interactive run_text run_function here random directory cmake odd_source).
Notation load_line m := (load_command (here ++ $"/LoadEnv") random m).

(** What [load_env.py] sees. *)
Definition le_env (args_file : str) (m : list str) (v : environ) : environ :=
  seen too_old (here ++ $"/LoadEnv") random
    (Term (dset $"load_env_call_args" (join $" " m) (dset $"cmake_args_file" args_file v)) [] None [] []).
Lemma le_env_vars t l src args_file m v f : gset here t l src v f -> same_but gen_names (t_vars t) (le_env args_file m v).
Proof.
  intros GS. eapply same_but_trans; [apply GS|]. unfold le_env, seen. cbn [t_vars].
  do 5 (eapply same_but_trans; [|apply same_but_dset; cbn; tauto]). apply same_but_refl.
Qed.

Lemma mentions_iff o args : contains o (join $" " args) = true <-> mentions o args.
Proof. exact (contains_spec _ _). Qed.
Lemma not_mentions o args : ~ mentions o args -> contains o (join $" " args) = false.
Proof. intros N. destruct (contains o (join $" " args)) eqn:E; auto. apply mentions_iff in E. tauto. Qed.

Lemma source_needed t init src : gen_ready which_python3 too_old t -> bare_word src -> directory src = false ->
  ~ mentions $"--help" (init ++ [src]) -> ~ mentions $"--cmake-fragment" (init ++ [src]) ->
  exists t', gen_config_sh true (init ++ [src]) t = (Ok 1%N, t') /\
    gen_leaves (t_vars t) (t_funs t) (t_files t) (gen_paths t) t' /\ t_calls t' = t_calls t.
Proof. intros R B D H F. eapply no_source; eauto; now apply not_mentions. Qed.

(** The function, in any shell. *)
Lemma helper_runs src args_file t4 opts : value $"cmake_args_file" t4 = args_file -> value $"path_to_src" t4 = src ->
  bare_word src -> bare_word args_file -> dget args_file (t_files t4) = Some (args_text opts) -> Forall bare_word opts -> glob $"\" = [$"\"] ->
  function_body glob run_function cmake helper_body t4 =
    (Ok tt, Term (dset $"cmake_args" (args_text opts) (t_vars t4)) (t_funs t4) (t_trap t4)
       (cmake (slashed opts ++ [src]) (dset $"cmake_args" (args_text opts) (t_vars t4)) (t_files t4))
       (t_calls t4 ++ [$"cmake" :: slashed opts ++ [src]])).
Proof.
  intros VA VS BS BF DF BO GL. unfold GenSh.function_body. rewrite str_eqb_refl. unfold gen_config_helper. rewrite bind_eq. unfold get at 1.
  cbv iota beta zeta. rewrite VA, VS. unfold dmem. rewrite DF. destruct src as [|s1 s']; [now destruct BS|]. cbn [empty_str negb andb].
  assert (C : cat glob [U args_file] t4 = args_text opts).
  { unfold cat. rewrite words_bare by auto. cbn [flat_map]. rewrite DF, app_nil_r. cbn [value_or_empty]. now apply chomp_join. }
  rewrite C. rewrite bind_eq. unfold let_var at 1, set_vars at 1, modify at 1. cbv iota beta.
  rewrite bind_eq. unfold get at 1. cbv iota beta zeta.
  assert (V : forall f' h' fs' c', value $"cmake_args" (Term (dset $"cmake_args" (args_text opts) (t_vars t4)) f' h' fs' c') = args_text opts).
  { intros. unfold value. cbn [t_vars]. now rewrite dget_dset_same. }
  rewrite V. rewrite (words_bare glob (s1 :: s')) by auto.
  assert (W : words glob [U (args_text opts)] = slashed opts) by now apply slashed_words. rewrite W. reflexivity.
Qed.

Section Src.
Variable t : term.
Variable init : list str.
Variable src : str.
Hypothesis R : gen_ready which_python3 too_old t.
Hypothesis HD : unsplit here.
Hypothesis RD : unsplit random.
Hypothesis BI : Forall bare_word init.
Hypothesis BS : bare_word src.
Hypothesis NH : ~ mentions $"--help" (init ++ [src]).
Hypothesis DS : directory src = true.
Let line1 := gen_command here init.
Let line2 := gen_command here (init ++ save_options t).

Lemma generation_fails r fs : ends python3 t line1 (t_files t) r fs -> r <> 0%N ->
  exists t', gen_config_sh true (init ++ [src]) t = (Ok 0%N, t') /\ gen_leaves (t_vars t) (t_funs t) fs (gen_paths t) t' /\
    t_calls t' = t_calls t ++ [$"python3" :: line1].
Proof.
  intros PY NZ. destruct (with_source glob odd_test odd_status which_python3 too_old python3 interactive run_text run_function
    here random directory cmake odd_source t init src R BS (not_mentions _ _ NH) DS) as (v & f & GS & E).
  rewrite E. eapply first_fails; eauto.
Qed.

Variable fs1 : dict str.
Variable args_file : str.
Hypothesis PY1 : ends python3 t line1 (t_files t) 0%N fs1.
Hypothesis AF : dget (args_loc t) fs1 = Some args_file.
Hypothesis BF : bare_word args_file.
Lemma args_chomp : chomp args_file = args_file.
Proof. apply chomp_id. intros I. apply (proj2 BF _ I). cbn. tauto. Qed.
Lemma args_value : value_or_empty (dget (args_loc t) fs1) = args_file.
Proof. now rewrite AF. Qed.

Lemma saving_fails r fs : ends python3 t line2 fs1 r fs -> r <> 0%N ->
  exists t', gen_config_sh true (init ++ [src]) t = (Ok 0%N, t') /\ gen_leaves (t_vars t) (t_funs t) fs (gen_paths t) t' /\
    t_calls t' = t_calls t ++ [$"python3" :: line1; $"python3" :: line2].
Proof.
  intros PY NZ. destruct (with_source glob odd_test odd_status which_python3 too_old python3 interactive run_text run_function
    here random directory cmake odd_source t init src R BS (not_mentions _ _ NH) DS) as (v & f & GS & E).
  rewrite E. eapply second_fails; eauto using args_chomp, args_value.
Qed.

Variable fs2 : dict str.
Variable m : list str.
Hypothesis PY2 : ends python3 t line2 fs1 0%N fs2.
Hypothesis SA : dget (saved_args t) fs2 = Some (join $" " m).
Hypothesis NM : m <> [].
Hypothesis BM : Forall bare_word m.

Lemma loading_fails : exists e, same_but gen_names (t_vars t) e /\
  forall r fs, python3 (load_line m) e fs2 = (r, fs) -> r <> 0%N -> (r < 256)%N ->
  exists t', gen_config_sh true (init ++ [src]) t = (Ok 0%N, t') /\
    gen_leaves (t_vars t) (t_funs t) fs ((tmp_paths t ++ [$"rc"]) ++ gen_paths t) t' /\
    t_calls t' = t_calls t ++ [$"python3" :: line1; $"python3" :: line2; $"python3" :: load_line m].
Proof.
  destruct (with_source glob odd_test odd_status which_python3 too_old python3 interactive run_text run_function
    here random directory cmake odd_source t init src R BS (not_mentions _ _ NH) DS) as (v & f & GS & E).
  exists (le_env args_file m v). split; [now apply (le_env_vars _ _ _ _ _ _ _ GS)|intros r fs PY NZ LT; rewrite E; eapply load_fails; eauto using args_chomp, args_value].
Qed.

Lemma configures : exists e, same_but gen_names (t_vars t) e /\
  forall fs3 env_file stem text opts, python3 (load_line m) e fs2 = (0%N, fs3) ->
    dget (loc_file random) fs3 = Some env_file -> script_file env_file stem -> dget env_file fs3 = Some text ->
    asks_ci m -> Forall bare_word opts -> glob $"\" = [$"\"] ->
  exists t3, same_but gen_names (t_vars t) (t_vars t3) /\ same_but gen_functions (t_funs t) (t_funs t3) /\
    same_but [stem ++ $"rc"] fs3 (t_files t3) /\
    t_calls t3 = t_calls t ++ [$"python3" :: line1; $"python3" :: line2; $"python3" :: load_line m] /\
    forall t4, run_text text t3 = (Ok tt, t4) -> keeps gen_names (t_vars t3) (t_vars t4) ->
      dget $"gen_config_helper" (t_funs t4) = dget $"gen_config_helper" (t_funs t3) ->
      dget args_file (t_files t4) = Some (args_text opts) ->
      exists t' e, gen_config_sh true (init ++ [src]) t = (Ok 0%N, t') /\ same_but [$"cmake_args"] (t_vars t4) e /\
        t_calls t' = t_calls t4 ++ [$"cmake" :: slashed opts ++ [src]] /\
        gen_leaves (t_vars t4) (t_funs t4) (cmake (slashed opts ++ [src]) e (t_files t4))
          ((tmp_paths t ++ [env_file; stem ++ $"rc"]) ++ gen_paths t) t'.
Proof.
  destruct (with_source glob odd_test odd_status which_python3 too_old python3 interactive run_text run_function
    here random directory cmake odd_source t init src R BS (not_mentions _ _ NH) DS) as (v & f & GS & E).
  exists (le_env args_file m v). split; [now apply (le_env_vars _ _ _ _ _ _ _ GS)|intros fs3 env_file stem text opts PY LF SF TX CI BO GL; rewrite E; eapply configured; eauto using args_chomp, args_value].
Qed.
Lemma new_shell : exists e, same_but gen_names (t_vars t) e /\
  forall fs3 env_file stem text, python3 (load_line m) e fs2 = (0%N, fs3) ->
    dget (loc_file random) fs3 = Some env_file -> script_file env_file stem -> dget env_file fs3 = Some text ->
    ~ asks_ci m ->
  exists t3 t', same_but gen_names (t_vars t) (t_vars t3) /\ same_but gen_functions (t_funs t) (t_funs t3) /\
    same_but [stem ++ $"rc"] fs3 (t_files t3) /\ dget (stem ++ $"rc") (t_files t3) = Some (rc_text env_file false) /\
    value $"cmake_args_file" t3 = args_file /\ value $"path_to_src" t3 = src /\
    dget $"gen_config_helper" (t_funs t3) = Some helper_body /\
    gen_config_sh true (init ++ [src]) t = (Ok 0%N, t') /\
    gen_leaves (t_vars t) (t_funs t) (interactive [stem ++ $"rc"] (t_vars t3) (t_files t3))
      ((tmp_paths t ++ [env_file; stem ++ $"rc"]) ++ gen_paths t) t' /\
    t_calls t' = (t_calls t ++ [$"python3" :: line1; $"python3" :: line2; $"python3" :: load_line m]) ++
      [[$"/bin/bash"; $"--init-file"; stem ++ $"rc"; $"-i"]].
Proof.
  destruct (with_source glob odd_test odd_status which_python3 too_old python3 interactive run_text run_function
    here random directory cmake odd_source t init src R BS (not_mentions _ _ NH) DS) as (v & f & GS & E).
  exists (le_env args_file m v). split; [now apply (le_env_vars _ _ _ _ _ _ _ GS)|intros fs3 env_file stem text PY LF SF TX CI; rewrite E; eapply through_interactive; eauto using args_chomp, args_value].
Qed.
Lemma starts_shell : exists e, same_but gen_names (t_vars t) e /\
  forall fs3 env_file stem text, python3 (load_line m) e fs2 = (0%N, fs3) ->
    dget (loc_file random) fs3 = Some env_file -> script_file env_file stem -> dget env_file fs3 = Some text ->
    ~ asks_ci m ->
  exists t3 t' start rest body, same_but gen_names (t_vars t) (t_vars t3) /\ same_but gen_functions (t_funs t) (t_funs t3) /\
    same_but [stem ++ $"rc"] fs3 (t_files t3) /\
    dget (stem ++ $"rc") (t_files t3) = Some start /\
    cut_at 10%N start (($"source " ++ env_file) :: rest ++
      [$"declare -f -F gen_config_helper >/dev/null && [ $? -eq 0 ] && gen_config_helper || true"; []]) /\
    dget $"gen_config_helper" (t_funs t3) = Some body /\
    (forall t4 opts, keeps [$"cmake_args_file"; $"path_to_src"] (t_vars t3) (t_vars t4) ->
       dget args_file (t_files t4) = Some (args_text opts) -> Forall bare_word opts -> glob $"\" = [$"\"] ->
       exists t5, function_body glob run_function cmake body t4 = (Ok tt, t5) /\
    t_calls t5 = t_calls t4 ++ [$"cmake" :: slashed opts ++ [src]]) /\
    gen_config_sh true (init ++ [src]) t = (Ok 0%N, t') /\
    gen_leaves (t_vars t) (t_funs t) (interactive [stem ++ $"rc"] (t_vars t3) (t_files t3))
      ((tmp_paths t ++ [env_file; stem ++ $"rc"]) ++ gen_paths t) t' /\
    t_calls t' = t_calls t ++ [$"python3" :: line1; $"python3" :: line2; $"python3" :: load_line m;
      [$"/bin/bash"; $"--init-file"; stem ++ $"rc"; $"-i"]].
Proof.
  destruct new_shell as (e & SE & N). exists e. split; [exact SE|]. intros fs3 env_file stem text PY LF SF TX CI.
  destruct (N _ _ _ _ PY LF SF TX CI) as (t3 & t' & V & F & FS & RC & VA & VS & HB & E & L & C).
  destruct (rc_lines env_file (sf_bare _ _ SF)) as (rest & CU & _ & (a & ->)).
  exists t3, t', (rc_text env_file false), a, helper_body. do 4 (split; [assumption|]). split; [exact CU|]. split; [exact HB|].
  split; [|split; [exact E|split; [exact L|now rewrite C, <- app_assoc]]].
  intros t4 opts K DF BO GL. eexists. split.
  - apply (helper_runs src args_file t4 opts); auto.
    + rewrite <- VA. unfold value. rewrite K; [reflexivity|left; now left].
    + rewrite <- VS. unfold value. rewrite K; [reflexivity|left; right; now left].
  - reflexivity.
Qed.
End Src.

(** With [--cmake-fragment]. *)
Lemma fragment_only t init last_arg fs1 fs2 m :
  gen_ready which_python3 too_old t -> unsplit here -> unsplit random -> Forall bare_word (init ++ [last_arg]) ->
  ~ mentions $"--help" (init ++ [last_arg]) -> mentions $"--cmake-fragment" (init ++ [last_arg]) -> directory last_arg = false ->
  dget $"path_to_src" (t_vars t) = None ->
  ends python3 t (gen_command here (init ++ [last_arg])) (t_files t) 0%N fs1 -> dget (args_loc t) fs1 = None ->
  ends python3 t (gen_command here ((init ++ [last_arg]) ++ save_options t)) fs1 0%N fs2 ->
  dget (saved_args t) fs2 = Some (join $" " m) -> m <> [] -> Forall bare_word m ->
  exists e, same_but gen_names (t_vars t) e /\
  forall fs3 env_file stem text, python3 (load_line m) e fs2 = (0%N, fs3) ->
    dget (loc_file random) fs3 = Some env_file -> script_file env_file stem -> dget env_file fs3 = Some text -> asks_ci m ->
  exists t3, same_but gen_names (t_vars t) (t_vars t3) /\ same_but gen_functions (t_funs t) (t_funs t3) /\
    same_but [stem ++ $"rc"] fs3 (t_files t3) /\
    t_calls t3 = t_calls t ++ [$"python3" :: gen_command here (init ++ [last_arg]);
      $"python3" :: gen_command here ((init ++ [last_arg]) ++ save_options t); $"python3" :: load_line m] /\
    forall t4, run_text text t3 = (Ok tt, t4) -> keeps gen_names (t_vars t3) (t_vars t4) ->
      dget $"gen_config_helper" (t_funs t4) = dget $"gen_config_helper" (t_funs t3) ->
      exists t', gen_config_sh true (init ++ [last_arg]) t = (Ok 0%N, t') /\ t_calls t' = t_calls t4 /\
        gen_leaves (t_vars t4) (t_funs t4) (t_files t4) ((tmp_paths t ++ [env_file; stem ++ $"rc"]) ++ gen_paths t) t'.
Proof.
  intros R HD RD BA NH MF ND NP PY1 NL PY2 SA NM BM.
  assert (BL : bare_word last_arg).
  { apply (proj1 (Forall_forall _ _) BA). apply in_or_app. right. now left. }
  destruct (with_fragment glob odd_test odd_status which_python3 too_old python3 interactive run_text run_function
    here random directory cmake odd_source t _ last_arg init R eq_refl BL (not_mentions _ _ NH) (proj2 (mentions_iff _ _) MF) ND NP)
    as (v & f & GS & E).
  assert (AF : value_or_empty (dget (args_loc t) fs1) = []) by now rewrite NL.
  exists (le_env [] m v). split; [now apply (le_env_vars _ _ _ _ _ _ _ GS)|intros fs3 env_file stem text PY LF SF TX CI; rewrite E; eapply not_configured; eauto].
Qed.

(** ** With [gen_config.py] and [load_env.py] *)
Lemma mentions_in (o : str) (l : list str) : In o l -> mentions o l.
Proof.
  induction l as [|x l IH]; [intros []|]. intros [->|I].
  - destruct l as [|y l]; [exists [], []; cbn; now rewrite app_nil_r|].
    exists [], ($" " ++ join $" " (y :: l)). reflexivity.
  - destruct (IH I) as (a & b & E). destruct l as [|y l]; [destruct I|].
    exists (x ++ $" " ++ a), b. change (join $" " (x :: y :: l)) with (x ++ $" " ++ join $" " (y :: l)). rewrite E. now rewrite !app_assoc.
Qed.

Lemma build_configured other_re systems hostname envs flags specs gen yes sf ef pf args_file writable1 answers
    which mods other uniword fs fuel header env_file output writable2 i
    subst_pattern sed_other echo_option which_prints module_command other_command t init src build force stem :
  (* the programs *)
  is_gen_config python3 (gen_command here init)
    (fun files => gen_main other_re systems hostname envs flags specs gen false false None None yes true sf ef pf args_file (args_loc t)
       writable1 (new_gworld build force files answers)) ->
  is_gen_config python3 (gen_command here (init ++ save_options t))
    (fun files => gen_main other_re systems hostname envs flags specs gen false false (Some (saved_args t)) None yes true sf ef pf args_file
       (args_loc t) writable1 (new_gworld build force files answers)) ->
  (forall m, loadenv_command sf ef pf force true build m -> is_load_env python3 (load_line m)
    (fun e files => load_main other_re systems hostname envs which mods other uniword fs fuel header pf env_file output
       (Some (loc_file random)) false writable2 (new_lworld build force e files))) ->
  is_bash run_text (heading header $"bash" true true)
    (run_bash glob subst_pattern sed_other echo_option which_prints module_command other_command) ->
  (forall e v, chomp (which_prints e [v]) = match which e v with Some p => p | None => [] end) ->
  (forall a e, module_command a e = snd (mods a e)) -> glob $"\" = [$"\"] ->
  (* the shell and the command *)
  gen_ready which_python3 too_old t -> unsplit here -> unsplit random -> Forall bare_word init -> bare_word src ->
  ~ mentions $"--help" (init ++ [src]) -> directory src = true ->
  (* the files *)
  Forall bare_word [sf; ef; pf; build; args_file] -> script_file env_file stem -> env_file <> loc_file random ->
  ~ In args_file [args_loc t; saved_args t; env_file; loc_file random; stem ++ $"rc"] -> output <> Some args_file ->
  (forall p, In p [args_file; args_loc t; saved_args t] -> writable1 p = true) ->
  has_file fs (new_set pf) i -> no_finalize_options i ->
  (* the build has options, and its environment can be loaded *)
  (exists l, options_for other_re systems hostname envs flags specs gen $"bash" build force l) ->
  (forall l, options_for other_re systems hostname envs flags specs gen $"bash" build force l -> Forall bare_word l) ->
  (forall e files, same_but gen_names (t_vars t) e ->
     exists w, load_main other_re systems hostname envs which mods other uniword fs fuel header pf env_file output
       (Some (loc_file random)) false writable2 (new_lworld build force e files) = (Ok tt, w)) ->
  (forall n l, fst (lexec other_re systems hostname envs LParsed (new_loadenv build force)) = Ok n -> section_asks uniword i n l ->
     bare_text n /\ Forall plain_action l /\
     forall e, same_but gen_names (t_vars t) e ->
       portable_all which mods l e /\ exists e', all_done which mods l e e' /\ keeps gen_names e e') ->
  exists opts n l m e3 e' ec files t',
    options_for other_re systems hostname envs flags specs gen $"bash" build force opts /\
    fst (lexec other_re systems hostname envs LParsed (new_loadenv build force)) = Ok n /\ section_asks uniword i n l /\
    same_but gen_names (t_vars t) e3 /\ all_done which mods l e3 e' /\
    loadenv_command sf ef pf force true build m /\
    gen_config_sh true (init ++ [src]) t = (Ok 0%N, t') /\
    same_but gen_names (dset $"LOADED_ENV_NAME" n e') (t_vars t') /\
    same_but gen_names (dset $"LOADED_ENV_NAME" n e') ec /\
    t_calls t' = t_calls t ++ [$"python3" :: gen_command here init; $"python3" :: gen_command here (init ++ save_options t);
      $"python3" :: load_line m; $"cmake" :: slashed opts ++ [src]] /\
    dget args_file files = Some (args_text opts) /\
    same_but ((tmp_paths t ++ [env_file; stem ++ $"rc"]) ++ gen_paths t) (cmake (slashed opts ++ [src]) ec files) (t_files t').
Proof.
  intros G1 G2 L3 IB W1 W2 GL R HD RD BI BS NH DS BF SF NL DA NO WR HF NF EO BO LO HY.
  assert (A1 : args_file <> args_loc t) by (intros E; apply DA; rewrite <- E; cbn; tauto).
  assert (A2 : args_file <> saved_args t) by (intros E; apply DA; rewrite <- E; cbn; tauto).
  assert (A3 : args_file <> env_file) by (intros E; apply DA; rewrite <- E; cbn; tauto).
  assert (A4 : args_file <> loc_file random) by (intros E; apply DA; rewrite <- E; cbn; tauto).
  assert (A5 : args_file <> stem ++ $"rc") by (intros E; apply DA; rewrite <- E; cbn; tauto).
  assert (BSF : bare_word sf) by now inversion BF.
  assert (BEF : bare_word ef) by (inversion BF as [|? ? ? B2]; now inversion B2).
  assert (BPF : bare_word pf) by (inversion BF as [|? ? ? B2]; inversion B2 as [|? ? ? B3]; now inversion B3).
  assert (BB : bare_word build /\ bare_word args_file).
  { inversion BF as [|? ? ? B2]; inversion B2 as [|? ? ? B3]; inversion B3 as [|? ? ? B4]; inversion B4 as [|? ? ? B5]; split; auto. now inversion B5. }
  destruct BB as (BBU & BAF).
  (* the first run *)
  destruct (proj2 (default_iff other_re systems hostname envs flags specs gen yes true sf ef pf args_file (args_loc t) writable1
    build force (t_files t) answers A1)) as (w1 & E1).
  { split; auto. split; apply WR; cbn; tauto. }
  destruct (default_contents _ _ _ _ _ _ _ _ _ _ _ _ _ _ _ _ _ _ _ _ A1 E1) as (opts & OF & D1 & D2 & _).
  assert (PY1 : ends python3 t (gen_command here init) (t_files t) 0%N (v_out w1)).
  { intros e _. rewrite G1, E1. reflexivity. }
  (* the second *)
  destruct (saved other_re systems hostname envs flags specs gen None yes true sf ef pf args_file (args_loc t) writable1 (saved_args t)
    build force (v_out w1) answers) as (w2 & m & E2 & LC & D3 & S2).
  { apply WR. cbn. tauto. }
  assert (PY2 : ends python3 t (gen_command here (init ++ save_options t)) (v_out w1) 0%N (v_out w2)).
  { intros e _. rewrite G2, E2. reflexivity. }
  assert (BM : Forall bare_word m).
  { destruct LC as (o & -> & _ & _ & _ & O). apply Forall_forall. intros x I. 
    repeat (apply in_app_or in I as [I|I]).
    - cbn in I. destruct I as [<-|[<-|[<-|[<-|[<-|[<-|[]]]]]]]; auto; split; try discriminate;
        intros y J; revert y J; apply Forall_forall; repeat constructor; cbn; intuition discriminate.
    - apply O in I as [-> | ->]; split; try discriminate;
        intros y J; revert y J; apply Forall_forall; repeat constructor; cbn; intuition discriminate.
    - destruct I as [<-|[]]. exact BBU. }
  assert (NM : m <> []) by (destruct LC as (o & -> & _); discriminate).
  assert (CI : asks_ci m).
  { apply mentions_in. destruct LC as (o & -> & _ & C & _). apply in_or_app. right. apply in_or_app. left. now apply C. }
  destruct (configures t init src R HD RD BI BS NH DS (v_out w1) args_file PY1 D2 BAF (v_out w2) m PY2 D3 NM BM) as (e3 & SE & GO).
  destruct (LO e3 (v_out w2) SE) as (w3 & E3).
  pose proof (L3 m LC e3 (v_out w2)) as PY3. cbv beta in PY3. rewrite E3 in PY3. cbn [fst snd] in PY3.
  destruct (main_success _ _ _ _ _ _ _ _ _ _ _ _ _ _ _ _ _ _ HF NF _ _ _ _ _ E3) as (_ & _ & n & l & EN & HS & SA & K).
  destruct (HY n l EN SA) as (BN & PA & HE). destruct (K PA) as (_ & u & SL & F1 & F2). clear K.
  specialize (F1 env_file (or_introl eq_refl)). specialize (F2 _ eq_refl).
  assert (F3 : dget env_file (r_out w3) = Some (heading header $"bash" true true ++ commands u n)) by (apply F1; congruence).
  destruct (GO _ _ _ _ opts PY3 F2 SF F3 CI (BO _ OF) GL) as (t3 & P1 & P2 & P3 & P4 & FIN).
  destruct (HE (t_vars t3) P1) as (PO & e' & AD & KE).
  pose proof (commands_run glob subst_pattern sed_other echo_option which_prints module_command other_command which mods W1 W2
    l u n (t_vars t3) e' PO SL AD BN) as RB.
  destruct (IB (commands u n) t3) as (f' & RT & FH). rewrite RB in RT. cbn [fst snd] in RT.
  destruct (FIN _ RT) as (t' & ec & EG & SC & CC & GLv).
  - intros x X. cbn [t_vars]. rewrite dget_dset_other.
    + apply KE. exact X.
    + intros ->. cbn in X. intuition discriminate.
  - exact FH.
  - cbn [t_files]. rewrite P3 by (intros [X|[]]; congruence).
    destruct (files_written other_re systems hostname envs which mods other uniword fs fuel header pf env_file output
      (Some (loc_file random)) false writable2 (new_lworld build force e3 (v_out w2))) as (_ & FW).
    specialize (FW args_file). rewrite E3 in FW. cbn [snd] in FW. rewrite FW; auto; [|congruence].
    cbn [new_lworld r_out]. rewrite S2 by (intros [X|[]]; congruence). exact D1.
  - exists opts, n, l, m, (t_vars t3), e', ec, (t_files t3), t'.
    split; auto. split; auto. split; auto. split; auto. split; auto. split; auto. split; auto.
    split; [apply GLv|]. split.
    { eapply same_but_weaken; [|exact SC]. intros x [<-|[]]. cbn. tauto. }
    split.
    { rewrite CC. cbn [t_calls]. rewrite P4. now rewrite <- app_assoc. }
    split; [|apply GLv].
    rewrite P3 by (intros [X|[]]; congruence).
    destruct (files_written other_re systems hostname envs which mods other uniword fs fuel header pf env_file output
      (Some (loc_file random)) false writable2 (new_lworld build force e3 (v_out w2))) as (_ & FW).
    specialize (FW args_file). rewrite E3 in FW. cbn [snd] in FW. rewrite FW; auto; [|congruence].
    cbn [new_lworld r_out]. rewrite S2 by (intros [X|[]]; congruence). exact D1.
Qed.
End G.
