(** * The programs, started by the scripts. *)
From Coq Require Import String NArith ZArith List Bool Lia.
Import ListNotations.
From Verif Require Import PyBase PyFacts EnvVar Bash SetEnv SpecText IniView IniRead ExcControl Cpe SpecWalk SpecRun SpecParse SpecApi SpecEnv SpecSetEnv SetEnvProofs RefineRoot
  SpecBash ArgParse SpecArgs Trace ArgProofs ArgProofs2 ArgProofs3 ArgProofs4 TopLevel SpecTop
  DetSys EnvKeyword LoadEnv SpecLoadEnv LoadRun LoadRunProofs LoadRunProofs2 LoadRunProofs3 SpecLoadRun GenRun SpecGenRun GenRunProofs LoadSh SpecSh ShProofs2 GenSh SpecGenSh GenShProofs2
  Programs SpecPrograms ProgProofs ProgProofs2 ProgProofs3 Samples ApiProofs2.
Local Open Scope string_scope.
Local Open Scope list_scope.

Lemma loc_no_dash random : ~ starts [45%N] (loc_file random).
Proof. intros (r & E). discriminate. Qed.
Lemma saved_no_dash t : ~ starts [45%N] (saved_args t).
Proof. intros (r & E). discriminate. Qed.

Lemma no_letter_dash uni_digit (t : list opt) (r : str) o : good_table (fun c => digit uni_digit c = true) t -> ~ asks_letter t (45%N :: r) o.
Proof.
  intros G (a & c & b & E & SP & F).
  assert (K : forall o', ~ spelling t [45; 45]%N o').
  { intros o' S. destruct (gt_form _ _ G _ _ S) as [(c' & n & X & _)|(c' & X & Y)]; [discriminate|]. injection X as <-. apply Y. now left. }
  destruct a as [|x a]; cbn [app] in E; injection E as <- E.
  - now apply (K o).
  - apply Forall_inv in F as (f & S & _). now apply (K f).
Qed.
Lemma help_behind (uni_digit : pychar -> bool) random args :
  help_asked load_options ($"--load-matching-env-location" :: loc_file random :: args) -> help_asked load_options args.
Proof.
  assert (G := proj1 (load_table uni_digit)).
  intros (a & w & b & E & NI & o & K & H). destruct a as [|x [|y a]]; cbn [app] in E.
  - injection E as <- E. exfalso. destruct H as [H|(r & X & H)].
    + inversion H as [n o' _ _ _ S EQ|]; subst. assert (S' := load_opt_in $"--load-matching-env-location" _ eq_refl).
      destruct S as [S|(S & _)]; [|now apply (S _ S')]. assert (X := gt_apart _ _ G _ _ _ S S'). subst o. discriminate.
    + injection X as <-. now apply (no_letter_dash uni_digit load_options _ o G) in H.
  - injection E as <- <- E. exfalso. destruct H as [H|(r & X & H)]; [|discriminate].
    inversion H as [n o' (r & X) _ _ _ EQ|]; subst. discriminate.
  - injection E as <- <- E. exists a, w, b. split; [exact E|]. split; [intros I; apply NI; now right; right|]. now exists o.
Qed.

Section Shell.
Variable glob : str -> list str.
Variable odd_test : list str -> bool.
Variable odd_status : str -> N.
Variable which_python3 too_old : environ -> str.
Variable python3 : list str -> environ -> dict str -> N * dict str.
Variable interactive : list str -> environ -> dict str -> dict str.
Variable run_text run_function : str -> sh unit.
Variable here random : str.
Variable directory : str -> bool.
Variable cmake : list str -> environ -> dict str -> dict str.
Variable odd_source : list str -> sh N.
Notation load_env_sh := (load_env_sh glob odd_test odd_status which_python3 too_old python3 interactive run_text run_function here random).
Notation gen_config_sh := (gen_config_sh glob odd_test odd_status which_python3 too_old python3 interactive run_text run_function
  here random directory cmake odd_source).
Notation load_line m := (load_command (here ++ $"/LoadEnv") random m).

Variable uni_digit uniword : pychar -> bool.
Variable fs : str -> option str.
Variable fuel : nat.
Variable there : path -> bool.
Variable real : path -> str.
Variables load_ini gen_ini : str.
Variable systems_in : str -> list (str * list str).
Variable envs_in : str -> str -> res (dict (option str)).
Variable flags_in : str -> str -> res (dict (option str)).
Variable specs_in : str -> list str.
Variable gen_in : str -> str -> str -> res (list str).
Variable other_re : str -> str -> res bool.
Variable hostname : str.
Variable which : environ -> str -> option str.
Variable mods : list str -> environ -> res Z * environ.
Variable other : str -> environ -> res Z * environ.
Variable header : str -> str.
Variable env_file : str.
Variables writable1 writable2 : str -> bool.
Variable args_file : str.
Variable answers : list str.
Variable without_loadenv : gen_settings -> dict str -> N * dict str.
Notation is_digit := (fun c => digit uni_digit c = true).
Notation load_program := (load_program uni_digit uniword fs fuel real load_ini systems_in envs_in other_re hostname which mods other
  header env_file writable2).
Notation gen_program loc := (gen_program uni_digit uniword fs fuel there real load_ini gen_ini systems_in envs_in flags_in specs_in gen_in
  other_re hostname writable1 args_file loc answers without_loadenv).

Lemma command_line_to_environment d i s evs subst_pattern sed_other echo_option which_prints module_command other_command args stem t :
  runs_program python3 (here ++ $"/load_env.py") load_program ->
  load_top uniword fs fuel load_ini d -> reading is_digit load_options true args evs -> no_help evs ->
  ~ flagged $"--list-envs" evs -> given $"--load-matching-env-location" evs None -> settled real (loc_file random) ->
  load_means real load_ini d evs s ->
  is_bash run_text (heading header $"bash" true true)
    (run_bash glob subst_pattern sed_other echo_option which_prints module_command other_command) ->
  (forall e v, chomp (which_prints e [v]) = match which e v with Some p => p | None => [] end) ->
  (forall a e, module_command a e = snd (mods a e)) ->
  has_file fs (new_set (ls_specs s)) i -> no_finalize_options i ->
  ready which_python3 too_old t -> unsplit here -> unsplit random -> args <> [] -> Forall bare_word args ->
  asks_ci args -> script_file env_file stem -> env_file <> loc_file random -> dget $"gen_config_helper" (t_funs t) = None ->
  (forall n l, fst (lexec other_re (systems_in (ls_systems s)) hostname (envs_in (ls_envs s)) LParsed (new_loadenv (ls_build s) (ls_force s))) = Ok n ->
     section_asks uniword i n l ->
     bare_text n /\ Forall plain_action l /\
     forall e, same_but load_names (t_vars t) e ->
       portable_all which mods l e /\ exists e', all_done which mods l e e' /\ keeps load_names e e') ->
  (exists t', load_env_sh true args t = (Ok 1%N, t') /\ same_but load_names (t_vars t) (t_vars t')) \/
  exists n l e3 e' t',
    fst (lexec other_re (systems_in (ls_systems s)) hostname (envs_in (ls_envs s)) LParsed (new_loadenv (ls_build s) (ls_force s))) = Ok n /\
    section_asks uniword i n l /\ same_but load_names (t_vars t) e3 /\ all_done which mods l e3 e' /\
    load_env_sh true args t = (Ok 0%N, t') /\
    same_but load_names (dset $"LOADED_ENV_NAME" n e') (t_vars t') /\
    (forall x, In x removed_names -> dget x (t_vars t') = None) /\ dget env_file (t_files t') = None.
Proof.
  intros RP T R N NL GN SE M IB W1 W2 HF NF RD HD HR NA BA CI SF NE NH HY.
  assert (L : ls_list s = false).
  { destruct (ls_list s) eqn:L; [|reflexivity]. elim NL. now apply (lm_list _ _ _ _ _ M). }
  assert (PY := line_runs uni_digit uniword fs fuel real load_ini systems_in envs_in other_re hostname which mods other header env_file writable2
    python3 here random s args RP L (script_settings _ _ _ _ _ _ d args evs s (loc_file random) T R N M GN (loc_no_dash random) SE)).
  destruct (environment glob odd_test odd_status which_python3 too_old python3 interactive run_text run_function here random
    other_re (systems_in (ls_systems s)) hostname (envs_in (ls_envs s)) which mods other uniword fs fuel header (ls_specs s) env_file (ls_output s) false
    writable2 i subst_pattern sed_other echo_option which_prints module_command other_command args (ls_build s) (ls_force s) stem t
    PY IB W1 W2 HF NF RD HD HR NA BA CI SF NE NH HY) as (e & SB & K).
  destruct (load_main other_re (systems_in (ls_systems s)) hostname (envs_in (ls_envs s)) which mods other uniword fs fuel header (ls_specs s) env_file
    (ls_output s) (Some (loc_file random)) false writable2 (new_lworld (ls_build s) (ls_force s) e (t_files t))) as [[u|x] w]; [right; exact K|left; exact K].
Qed.

Lemma asked_once i n l l' : section_asks uniword i n l -> section_asks uniword i n l' -> l = l'.
Proof.
  intros (evs & m & W & RM) (evs' & m' & W' & RM'). destruct (parse_walk_unique _ _ _ _ _ _ _ _ _ _ W W') as [-> ->].
  exact (remain_det _ _ _ RM RM').
Qed.
Lemma command_line_loads d i s evs subst_pattern sed_other echo_option which_prints module_command other_command args stem t n l z o2 :
  runs_program python3 (here ++ $"/load_env.py") load_program ->
  load_top uniword fs fuel load_ini d -> reading is_digit load_options true args evs -> no_help evs ->
  ~ flagged $"--list-envs" evs -> given $"--load-matching-env-location" evs None -> settled real (loc_file random) ->
  load_means real load_ini d evs s ->
  is_bash run_text (heading header $"bash" true true)
    (run_bash glob subst_pattern sed_other echo_option which_prints module_command other_command) ->
  (forall e v, chomp (which_prints e [v]) = match which e v with Some p => p | None => [] end) ->
  (forall a e, module_command a e = snd (mods a e)) ->
  has_file fs (new_set (ls_specs s)) i -> no_finalize_options i ->
  assert_file (SetEnvironment uniword) fs fuel (snd (set_level 5 (new_set (ls_specs s)))) = (Ok z, o2) ->
  ready which_python3 too_old t -> unsplit here -> unsplit random -> args <> [] -> Forall bare_word args ->
  asks_ci args -> script_file env_file stem -> env_file <> loc_file random -> dget $"gen_config_helper" (t_funs t) = None ->
  (forall p, p = env_file \/ ls_output s = Some p \/ p = loc_file random -> writable2 p = true) ->
  fst (lexec other_re (systems_in (ls_systems s)) hostname (envs_in (ls_envs s)) LParsed (new_loadenv (ls_build s) (ls_force s))) = Ok n ->
  ini_has_section i n = true -> section_asks uniword i n l -> bare_text n -> Forall plain_action l ->
  (forall e, same_but load_names (t_vars t) e ->
     portable_all which mods l e /\ exists e', all_done which mods l e e' /\ keeps load_names e e') ->
  exists e3 e' t',
    same_but load_names (t_vars t) e3 /\ all_done which mods l e3 e' /\
    load_env_sh true args t = (Ok 0%N, t') /\
    same_but load_names (dset $"LOADED_ENV_NAME" n e') (t_vars t') /\
    (forall x, In x removed_names -> dget x (t_vars t') = None) /\ dget env_file (t_files t') = None.
Proof.
  intros RP T R N NL GN SE M IB W1 W2 HF NF AF RD HD HR NA BA CI SF NE NH WR NM HS SA BT PA HY.
  assert (L : ls_list s = false).
  { destruct (ls_list s) eqn:L; [|reflexivity]. elim NL. now apply (lm_list _ _ _ _ _ M). }
  assert (PY := line_runs uni_digit uniword fs fuel real load_ini systems_in envs_in other_re hostname which mods other header env_file writable2
    python3 here random s args RP L (script_settings _ _ _ _ _ _ d args evs s (loc_file random) T R N M GN (loc_no_dash random) SE)).
  destruct (environment glob odd_test odd_status which_python3 too_old python3 interactive run_text run_function here random
    other_re (systems_in (ls_systems s)) hostname (envs_in (ls_envs s)) which mods other uniword fs fuel header (ls_specs s) env_file (ls_output s) false
    writable2 i subst_pattern sed_other echo_option which_prints module_command other_command args (ls_build s) (ls_force s) stem t
    PY IB W1 W2 HF NF RD HD HR NA BA CI SF NE NH) as (e & SB & K).
  { intros n' l' NM' SA'. rewrite NM in NM'. injection NM' as <-. rewrite <- (asked_once _ _ _ _ SA SA'). split; [exact BT|]. split; [exact PA|exact HY]. }
  destruct (HY e SB) as (_ & e' & AD & _).
  destruct (main_works other_re (systems_in (ls_systems s)) hostname (envs_in (ls_envs s)) which mods other uniword fs fuel header (ls_specs s) env_file
    (ls_output s) (Some (loc_file random)) false writable2 i HF NF (ls_build s) (ls_force s) e (t_files t) n l e' z o2 AF eq_refl NM HS SA PA AD) as (w & E).
  { intros p [->|[H|[= <-]]]; apply WR; auto. }
  rewrite E in K. destruct K as (n' & l' & e3 & e4 & t' & NM' & SA' & K). rewrite NM in NM'. injection NM' as <-.
  rewrite <- (asked_once _ _ _ _ SA SA') in K. exists e3, e4, t'. exact K.
Qed.
Lemma command_line_invalid d i s evs args t :
  runs_program python3 (here ++ $"/load_env.py") load_program ->
  load_top uniword fs fuel load_ini d -> reading is_digit load_options true args evs -> no_help evs ->
  ~ flagged $"--list-envs" evs -> given $"--load-matching-env-location" evs None -> settled real (loc_file random) ->
  load_means real load_ini d evs s ->
  has_file fs (new_set (ls_specs s)) i -> no_finalize_options i -> ~ all_operations uniword i ->
  ready which_python3 too_old t -> unsplit here -> unsplit random -> args <> [] -> Forall bare_word args ->
  exists t', load_env_sh true args t = (Ok 1%N, t') /\ leaves (t_vars t) (t_funs t) (t_files t) (tmp_paths t ++ [$"rc"]) t' /\
    t_calls t' = t_calls t ++ [$"python3" :: load_command here random args].
Proof.
  intros RP T R N NL GN SE M HF NF AO RD HD HR NA BA.
  assert (L : ls_list s = false).
  { destruct (ls_list s) eqn:L; [|reflexivity]. elim NL. now apply (lm_list _ _ _ _ _ M). }
  assert (PY := line_runs uni_digit uniword fs fuel real load_ini systems_in envs_in other_re hostname which mods other header env_file writable2
    python3 here random s args RP L (script_settings _ _ _ _ _ _ d args evs s (loc_file random) T R N M GN (loc_no_dash random) SE)).
  destruct (runs glob odd_test odd_status which_python3 too_old python3 interactive run_text run_function here random args t RD HD HR NA BA) as (e & _ & K).
  specialize (PY e (t_files t)). cbv beta in PY.
  destruct (invalid_file other_re (systems_in (ls_systems s)) hostname (envs_in (ls_envs s)) which mods other uniword fs fuel header (ls_specs s) env_file
    (ls_output s) (Some (loc_file random)) false writable2 i HF NF (ls_build s) (ls_force s) e (t_files t) AO) as (x & w & E & _ & O).
  rewrite E in PY. cbn [fst snd] in PY. rewrite O in PY. destruct (K _ _ PY) as (F & _). apply F; [discriminate|reflexivity].
Qed.
Lemma command_line_rejected d args t :
  runs_program python3 (here ++ $"/load_env.py") load_program -> load_top uniword fs fuel load_ini d ->
  (forall evs, reading is_digit load_options true args evs -> ~ no_help evs) -> ~ help_asked load_options args ->
  ready which_python3 too_old t -> unsplit here -> unsplit random -> args <> [] -> Forall bare_word args ->
  exists t', load_env_sh true args t = (Ok 2%N, t') /\ leaves (t_vars t) (t_funs t) (t_files t) (tmp_paths t ++ [$"rc"]) t' /\
    t_calls t' = t_calls t ++ [$"python3" :: load_command here random args].
Proof.
  intros RP T NR NH RD HD HR NA BA.
  destruct (runs glob odd_test odd_status which_python3 too_old python3 interactive run_text run_function here random args t RD HD HR NA BA) as (e & _ & K).
  assert (PY : python3 (load_command here random args) e (t_files t) = (2%N, t_files t)).
  { transitivity (load_program ($"--load-matching-env-location" :: loc_file random :: args) e (t_files t)); [apply RP|].
    unfold Programs.load_program.
    destruct (load_args_exits uni_digit uniword fs fuel real load_ini d ($"--load-matching-env-location" :: loc_file random :: args) T) as [E|(_ & E)].
    - intros evs R N. assert (PR := parse_reads uni_digit (real_text real) load_options $"build_name" (proj1 (load_table uni_digit)) (proj2 (load_table uni_digit)) _ _ R N).
      destruct (proj2 (script_line uni_digit (real_text real) args (loc_file random) (no_dash uni_digit _ _ (loc_no_dash random))) _ PR) as (ns & E & _).
      assert (X := parse_result uni_digit (real_text real) load_options $"build_name" (proj1 (load_table uni_digit)) (proj2 (load_table uni_digit)) args).
      unfold load_parse in E. rewrite E in X. destruct X as (evs' & R' & N' & _). now apply (NR evs').
    - now rewrite E.
    - elim NH. now apply (help_behind uni_digit random). }
  destruct (K _ _ PY) as (F & _). apply F; [discriminate|reflexivity].
Qed.

Lemma command_line_configures dg dl d i s evs subst_pattern sed_other echo_option which_prints module_command other_command t init src stem n l z o2 :
  (* the programs *)
  runs_program python3 (here ++ $"/gen_config.py") (gen_program (args_loc t)) ->
  runs_program python3 ((here ++ $"/LoadEnv") ++ $"/load_env.py") load_program ->
  gen_top uniword fs fuel there gen_ini dg dl -> load_top uniword fs fuel load_ini d ->
  is_bash run_text (heading header $"bash" true true)
    (run_bash glob subst_pattern sed_other echo_option which_prints module_command other_command) ->
  (forall e v, chomp (which_prints e [v]) = match which e v with Some p => p | None => [] end) ->
  (forall a e, module_command a e = snd (mods a e)) -> glob $"\" = [$"\"] ->
  (* the command line *)
  reading is_digit gen_options true init evs -> no_help evs -> ~ In $"--" init ->
  ~ flagged $"--list-config-flags" evs -> ~ flagged $"--list-configs" evs -> flagged $"--ci-mode" evs ->
  given $"--save-load-env-args" evs None -> given $"--cmake-fragment" evs None ->
  gen_means real gen_ini dg dl evs s ->
  (* the shell *)
  gen_ready which_python3 too_old t -> unsplit here -> unsplit random -> Forall bare_word init -> bare_word src ->
  ~ mentions $"--help" (init ++ [src]) -> directory src = true ->
  (* the files *)
  Forall bare_word [gs_systems s; gs_envs s; gs_envspecs s; gs_build s; args_file] ->
  Forall (fun w => ~ starts [45%N] w) [gs_systems s; gs_envs s; gs_envspecs s; gs_build s] ->
  Forall (settled real) [gs_systems s; gs_envs s; gs_envspecs s; saved_args t; loc_file random] ->
  script_file env_file stem -> env_file <> loc_file random ->
  ~ In args_file [args_loc t; saved_args t; env_file; loc_file random; stem ++ $"rc"] ->
  (forall p, In p [args_file; args_loc t; saved_args t] -> writable1 p = true) ->
  has_file fs (new_set (gs_envspecs s)) i -> no_finalize_options i ->
  (* the build has options, and its environment can be loaded *)
  (exists l, options_for other_re (systems_in (gs_systems s)) hostname (envs_in (gs_envs s)) (flags_in (gs_flags s)) (specs_in (gs_specs s))
     (gen_in (gs_specs s)) $"bash" (gs_build s) (gs_force s) l) ->
  (forall l, options_for other_re (systems_in (gs_systems s)) hostname (envs_in (gs_envs s)) (flags_in (gs_flags s)) (specs_in (gs_specs s))
     (gen_in (gs_specs s)) $"bash" (gs_build s) (gs_force s) l -> Forall bare_word l) ->
  assert_file (SetEnvironment uniword) fs fuel (snd (set_level 5 (new_set (gs_envspecs s)))) = (Ok z, o2) ->
  (forall p, p = env_file \/ p = loc_file random -> writable2 p = true) ->
  fst (lexec other_re (systems_in (gs_systems s)) hostname (envs_in (gs_envs s)) LParsed (new_loadenv (gs_build s) (gs_force s))) = Ok n ->
  ini_has_section i n = true -> section_asks uniword i n l -> bare_text n -> Forall plain_action l ->
  (forall e, same_but gen_names (t_vars t) e ->
     portable_all which mods l e /\ exists e', all_done which mods l e e' /\ keeps gen_names e e') ->
  exists opts m e3 e' ec files t',
    options_for other_re (systems_in (gs_systems s)) hostname (envs_in (gs_envs s)) (flags_in (gs_flags s)) (specs_in (gs_specs s))
      (gen_in (gs_specs s)) $"bash" (gs_build s) (gs_force s) opts /\
    same_but gen_names (t_vars t) e3 /\ all_done which mods l e3 e' /\
    loadenv_command (gs_systems s) (gs_envs s) (gs_envspecs s) (gs_force s) true (gs_build s) m /\
    gen_config_sh true (init ++ [src]) t = (Ok 0%N, t') /\
    same_but gen_names (dset $"LOADED_ENV_NAME" n e') (t_vars t') /\
    same_but gen_names (dset $"LOADED_ENV_NAME" n e') ec /\
    t_calls t' = t_calls t ++ [$"python3" :: gen_command here init; $"python3" :: gen_command here (init ++ save_options t);
      $"python3" :: load_line m; $"cmake" :: slashed opts ++ [src]] /\
    dget args_file files = Some (args_text opts) /\
    same_but ((tmp_paths t ++ [env_file; stem ++ $"rc"]) ++ gen_paths t) (cmake (slashed opts ++ [src]) ec files) (t_files t').
Proof.
  intros RG RL TG TL IB W1 W2 GB R N ND NF NC FC NS NG M RD HD HR BI BS NH DS BW DW SE SF NE NA WR HF NO EO BO AF WL NM HS SA BT PA HY.
  assert (S1 : settled real (gs_systems s)) by now apply (proj1 (Forall_forall _ _) SE); left.
  assert (S2 : settled real (gs_envs s)) by now apply (proj1 (Forall_forall _ _) SE); right; left.
  assert (S3 : settled real (gs_envspecs s)) by now apply (proj1 (Forall_forall _ _) SE); do 2 right; left.
  assert (S4 : settled real (saved_args t)) by now apply (proj1 (Forall_forall _ _) SE); do 3 right; left.
  assert (S5 : settled real (loc_file random)) by now apply (proj1 (Forall_forall _ _) SE); do 4 right; left.
  assert (GD : forall o g g', given o evs g -> given o evs g' -> g = g').
  { intros o. exact (given_det uni_digit (real_text real) _ $"build_name" (proj1 (gen_table uni_digit)) (proj2 (gen_table uni_digit)) _ _ R o). }
  assert (L1 : gs_list_flags s = false).
  { destruct (gs_list_flags s) eqn:L; [|reflexivity]. elim NF. now apply (gm_list_flags _ _ _ _ _ _ M). }
  assert (L2 : gs_list s = false).
  { destruct (gs_list s) eqn:L; [|reflexivity]. elim NC. now apply (gm_list _ _ _ _ _ _ M). }
  assert (L3 : gs_ci s = true) by now apply (gm_ci _ _ _ _ _ _ M).
  assert (L4 : gs_save s = None) by exact (path_det real _ evs _ None (GD _) (gm_save _ _ _ _ _ _ M) NS).
  assert (L5 : gs_fragment s = None) by exact (path_det real _ evs _ None (GD _) (gm_fragment _ _ _ _ _ _ M) NG).
  destruct (gen_args_reads uni_digit uniword fs fuel there real gen_ini dg dl _ _ TG R N) as (s0 & E & M0).
  rewrite (gen_means_det _ _ _ _ _ _ _ _ _ _ _ _ _ TG R M0 M) in E. clear s0 M0.
  assert (E' := gen_args_saving uni_digit uniword fs fuel there real gen_ini init (saved_args t) evs s R N ND (saved_no_dash t) E).
  rewrite (settled_text _ _ S4) in E'.
  destruct (build_configured glob odd_test odd_status which_python3 too_old python3 interactive run_text run_function here random directory cmake odd_source
    other_re (systems_in (gs_systems s)) hostname (envs_in (gs_envs s)) (flags_in (gs_flags s)) (specs_in (gs_specs s)) (gen_in (gs_specs s)) (gs_yes s)
    (gs_systems s) (gs_envs s) (gs_envspecs s) args_file writable1 answers which mods other uniword fs fuel header env_file None writable2 i
    subst_pattern sed_other echo_option which_prints module_command other_command t init src (gs_build s) (gs_force s) stem)
    as (opts & n' & l' & m & e3 & e' & ec & files & t' & OF & NM' & SA' & K); try assumption; try discriminate.
  - intros e files. transitivity (gen_program (args_loc t) init e files); [apply RG|].
    unfold Programs.gen_program. rewrite E. rewrite with_loadenv by (exists d; auto).
    rewrite gen_run_main by assumption. rewrite L3, L4, L5. reflexivity.
  - intros e files. transitivity (gen_program (args_loc t) (init ++ save_options t) e files); [apply RG|].
    unfold Programs.gen_program, save_options. rewrite E'. unfold makes_loadenv, saving_to at 1 2 3. cbn [gs_list_flags gs_list gs_save]. rewrite L1, L2. cbn [negb andb orb].
    rewrite gen_run_main by assumption. unfold saving_to.
    cbn [gs_flags gs_specs gs_systems gs_envs gs_envspecs gs_list_flags gs_list gs_save gs_fragment gs_yes gs_ci gs_force gs_build]. rewrite L3, L5. reflexivity.
  - intros m LC.
    assert (A := load_args_saved uni_digit uniword fs fuel real load_ini _ _ _ _ _ _ m d TL LC DW).
    rewrite (settled_text _ _ S1), (settled_text _ _ S2), (settled_text _ _ S3) in A.
    assert (A' := load_args_front uni_digit uniword fs fuel real load_ini m (loc_file random) _ (loc_no_dash random) A eq_refl).
    rewrite (settled_text _ _ S5) in A'.
    exact (line_runs uni_digit uniword fs fuel real load_ini systems_in envs_in other_re hostname which mods other header env_file writable2
      python3 (here ++ $"/LoadEnv") random
      (LoadSettings (gs_systems s) (gs_envs s) (gs_envspecs s) None None false (gs_force s) (gs_build s)) m RL eq_refl A').
  - intros e files SB. destruct (HY e SB) as (_ & e' & AD & _).
    apply (main_works other_re (systems_in (gs_systems s)) hostname (envs_in (gs_envs s)) which mods other uniword fs fuel header (gs_envspecs s) env_file
      None (Some (loc_file random)) false writable2 i HF NO (gs_build s) (gs_force s) e files n l e' z o2 AF eq_refl NM HS SA PA AD).
    intros p [->|[H|[= <-]]]; [apply WL; auto|discriminate|apply WL; auto].
  - intros n' l' NM' SA'. rewrite NM in NM'. injection NM' as <-. rewrite <- (asked_once _ _ _ _ SA SA'). split; [exact BT|]. split; [exact PA|exact HY].
  - rewrite NM in NM'. injection NM' as <-. rewrite <- (asked_once _ _ _ _ SA SA') in K.
    exists opts, m, e3, e', ec, files, t'. split; [exact OF|exact K].
Qed.
End Shell.

(** For the examples: the expansion of a section is what the object answers. *)
Lemma expansion_check uniword fs i fuel s (o : obj unit unit) d :
  all_parsable (base_class uniword) i $"DEFAULT" -> length (ini_sections i) + 3 <= fuel -> opened (base_class uniword) fs i $"DEFAULT" o ->
  ini_has_section i s = true -> fst (exec_op (base_class uniword) fs fuel (OItem s) o) = Ok (RDict d) ->
  expansion (base_class uniword) i $"DEFAULT" s d.
Proof.
  intros AP F O H E. pose proof (history_answers (base_class uniword) fs i _ fuel (base_well_behaved uniword) F AP [] (OItem s) o O (Forall_nil _) H) as A.
  cbn [SpecApi.after] in A. revert A E. generalize (fst (exec_op (base_class uniword) fs fuel (OItem s) o)). intros r A E. subst r.
  inversion A as [| |s' d' X' E1 E2| | | | | | | | | | | | | | | | | | | | | | | | |]; subst s'. rewrite <- E2 in *. congruence.
Qed.
