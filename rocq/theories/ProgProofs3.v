(** * The programs as a whole. *)
From Coq Require Import String NArith ZArith List Bool Lia.
Import ListNotations.
From Verif Require Import PyBase PyFacts EnvVar Bash SetEnv SpecText IniView IniRead ExcControl Cpe SpecWalk SpecRun SpecParse SpecApi SpecEnv SpecSetEnv
  SpecBash ArgParse SpecArgs Trace ArgProofs ArgProofs2 ArgProofs3 ArgProofs4 TopLevel SpecTop TopProofs TopProofs3 TopProofs4
  DetSys EnvKeyword LoadEnv SpecLoadEnv LoadRun LoadRunProofs2 SpecLoadRun GenRun SpecGenRun GenRunProofs LoadSh SpecSh GenSh SpecGenSh ShProofs2 GenShProofs2
  Programs SpecPrograms ProgProofs ProgProofs2.

Lemma settled_text real f : settled real f -> real_text real f = f.
Proof. intros (p & D & E). unfold real_text. apply denotes_iff in D. now rewrite <- D. Qed.

Section Run.
Variable uni_digit uniword : pychar -> bool.
Variable fs : str -> option str.
Variable fuel : nat.
Variable real : path -> str.
Variable load_ini : str.
Variable systems_in : str -> list (str * list str).
Variable envs_in : str -> str -> res (dict (option str)).
Variable other_re : str -> str -> res bool.
Variable hostname : str.
Variable which : environ -> str -> option str.
Variable mods : list str -> environ -> res Z * environ.
Variable other : str -> environ -> res Z * environ.
Variable header : str -> str.
Variable tmp_file : str.
Variable writable : str -> bool.
Notation is_digit := (fun c => digit uni_digit c = true).
Notation load_args := (load_args uni_digit uniword fs fuel real load_ini).
Notation load_run := (load_run uniword fs fuel systems_in envs_in other_re hostname which mods other header tmp_file writable).
Notation load_program := (load_program uni_digit uniword fs fuel real load_ini systems_in envs_in other_re hostname which mods other
  header tmp_file writable).
Notation main s e files := (load_main other_re (systems_in (ls_systems s)) hostname (envs_in (ls_envs s)) which mods other uniword fs fuel
  header (ls_specs s) tmp_file (ls_output s) (ls_location s) false writable (new_lworld (ls_build s) (ls_force s) e files)).
Notation lists s := (lexec other_re (systems_in (ls_systems s)) hostname (envs_in (ls_envs s)) LStripped (new_loadenv (ls_build s) (ls_force s))).

Lemma load_run_main s e files : ls_list s = false -> load_run s e files = (status (fst (main s e files)), r_out (snd (main s e files))).
Proof. intros L. unfold Programs.load_run. now rewrite L. Qed.

Lemma stripped_status systems envs b f :
  status (fst (lexec other_re systems hostname envs LStripped (new_loadenv b f))) =
  status (fst (le_ekp other_re systems hostname envs (new_loadenv b f))).
Proof.
  cbn [lexec]. unfold le_stripped, bind at 1, get. cbn [new_loadenv l_stripped]. unfold bind at 1.
  destruct (le_ekp other_re systems hostname envs (new_loadenv b f)) as [[k|x] p]; reflexivity.
Qed.
Lemma load_run_list s e files : ls_list s = true -> load_run s e files = (status (fst (lists s)), files).
Proof.
  intros L. unfold Programs.load_run. rewrite L, stripped_status. f_equal.
  unfold load_main, bind at 1, list_envs, bind at 1.
  assert (F := on_names_frame (le_ekp other_re (systems_in (ls_systems s)) hostname (envs_in (ls_envs s))) (new_lworld (ls_build s) (ls_force s) e files)).
  destruct (on_names _ _) as [[?|?] w]; destruct F as (_ & F); cbn [raise fst snd]; exact F.
Qed.

Theorem load_program_runs d argv evs : load_top uniword fs fuel load_ini d -> reading is_digit load_options true argv evs -> no_help evs ->
  exists s, load_means real load_ini d evs s /\ (forall s', load_means real load_ini d evs s' -> s' = s) /\
    forall e files,
      let main := load_main other_re (systems_in (ls_systems s)) hostname (envs_in (ls_envs s)) which mods other uniword fs fuel
        header (ls_specs s) tmp_file (ls_output s) (ls_location s) false writable (new_lworld (ls_build s) (ls_force s) e files) in
      let list := lexec other_re (systems_in (ls_systems s)) hostname (envs_in (ls_envs s)) LStripped
        (new_loadenv (ls_build s) (ls_force s)) in
      (~ flagged $"--list-envs" evs ->
         load_program argv e files = (match fst main with Ok _ => 0%N | Err _ => 1%N end, r_out (snd main))) /\
      (flagged $"--list-envs" evs ->
         load_program argv e files = (match fst list with Ok _ => 0%N | Err _ => 1%N end, files)).
Proof.
  intros T R N. destruct (load_args_reads uni_digit uniword fs fuel real load_ini d _ _ T R N) as (s & E & M). exists s. split; [exact M|].
  split; [intros s' M'; exact (load_means_det _ _ _ _ _ _ _ _ _ _ _ T R M' M)|].
  intros e files. cbv zeta. unfold Programs.load_program. rewrite E. split; intros H.
  - rewrite load_run_main; [unfold status; reflexivity|]. destruct (ls_list s) eqn:L; [|reflexivity]. elim H. now apply (lm_list _ _ _ _ _ M).
  - rewrite load_run_list; [unfold status; reflexivity|]. now apply (lm_list _ _ _ _ _ M).
Qed.
Theorem load_program_rejects d argv e files : load_top uniword fs fuel load_ini d ->
  (forall evs, reading is_digit load_options true argv evs -> ~ no_help evs) ->
  load_program argv e files = (2%N, files) \/ load_program argv e files = (0%N, files) /\ help_asked load_options argv.
Proof.
  intros T H. unfold Programs.load_program. destruct (load_args_exits _ _ _ _ real _ _ _ T H) as [E|(E & A)]; rewrite E; auto.
Qed.
Theorem load_program_top (i : IniView.ini) argv e files : has_file fs (open_ini load_ini) i ->
  ini_has_section i $"load-env" = false \/
  (exists root dir name d, denotes load_ini (Path root (dir ++ [name])) /\ length (ini_sections i) + 3 <= fuel /\
     parsable (base_class uniword) i $"DEFAULT" $"load-env" /\ expansion (base_class uniword) i $"DEFAULT" $"load-env" d /\
     exists k, In k env_keys /\ forall v, ~ value_of d k v) ->
  load_program argv e files = (1%N, files).
Proof.
  intros HF H. unfold Programs.load_program. rewrite load_args_top; [reflexivity|]. destruct H as [H|(root & dir & name & d & DI & F & PA & EX & X)].
  - now apply (load_env_no_section uniword fs fuel i).
  - assert (C := load_env_outcome uniword fs fuel i load_ini root dir name DI HF F d PA EX).
    destruct (parse_top_level uniword fs fuel load_ini (open_ini load_ini)) as [r o]. now apply (proj2 C).
Qed.

(** ** Through [load-env.sh] *)
Lemma script_settings d args evs s f : load_top uniword fs fuel load_ini d -> reading is_digit load_options true args evs -> no_help evs ->
  load_means real load_ini d evs s -> given $"--load-matching-env-location" evs None -> ~ starts [45%N] f -> settled real f ->
  load_args ($"--load-matching-env-location" :: f :: args) = Done (at_location f s).
Proof.
  intros T R N M L F SE. destruct (load_args_reads uni_digit uniword fs fuel real load_ini d _ _ T R N) as (s0 & E & M0).
  rewrite (load_means_det _ _ _ _ _ _ _ _ _ _ _ T R M0 M) in E.
  rewrite (load_args_front _ _ _ _ _ _ _ _ _ F E), (settled_text _ _ SE); [reflexivity|].
  apply (path_det real $"--load-matching-env-location" evs).
  - exact (given_det uni_digit (real_text real) _ $"build_name" (proj1 (load_table uni_digit)) (proj2 (load_table uni_digit)) _ _ R _).
  - apply (lm_location _ _ _ _ _ M).
  - exact L.
Qed.
Lemma line_runs (python3 : list str -> environ -> dict str -> N * dict str) here random s args :
  runs_program python3 (here ++ $"/load_env.py") load_program -> ls_list s = false ->
  load_args ($"--load-matching-env-location" :: loc_file random :: args) = Done (at_location (loc_file random) s) ->
  is_load_env python3 (load_command here random args)
    (fun e files => load_main other_re (systems_in (ls_systems s)) hostname (envs_in (ls_envs s)) which mods other uniword fs fuel
       header (ls_specs s) tmp_file (ls_output s) (Some (loc_file random)) false writable (new_lworld (ls_build s) (ls_force s) e files)).
Proof.
  intros P L E e files. transitivity (load_program ($"--load-matching-env-location" :: loc_file random :: args) e files); [apply P|].
  unfold Programs.load_program. rewrite E. rewrite load_run_main by exact L. reflexivity.
Qed.
End Run.

Section GenRunning.
Variable uni_digit uniword : pychar -> bool.
Variable fs : str -> option str.
Variable fuel : nat.
Variable there : path -> bool.
Variable real : path -> str.
Variables load_ini gen_ini : str.
Variable systems_in : str -> list (str * list str).
Variable envs_in : str -> str -> res (dict (option str)).
Variable flags_in : str -> str -> res (dict (option str)).
Variable specs_in : str -> list str.
Variable gen_in : str -> str -> str -> res (list str).
Variable other_re : str -> str -> res bool.
Variable hostname : str.
Variable writable : str -> bool.
Variables args_file loc_file : str.
Variable answers : list str.
Variable without_loadenv : gen_settings -> dict str -> N * dict str.
Notation is_digit := (fun c => digit uni_digit c = true).
Notation gen_args := (gen_args uni_digit uniword fs fuel there real gen_ini).
Notation gen_run := (gen_run systems_in envs_in flags_in specs_in gen_in other_re hostname writable args_file loc_file answers).
Notation gen_program := (gen_program uni_digit uniword fs fuel there real load_ini gen_ini systems_in envs_in flags_in specs_in gen_in
  other_re hostname writable args_file loc_file answers without_loadenv).
Notation main save s files := (gen_main other_re (systems_in (gs_systems s)) hostname (envs_in (gs_envs s)) (flags_in (gs_flags s))
  (specs_in (gs_specs s)) (gen_in (gs_specs s)) false false save (gs_fragment s) (gs_yes s) (gs_ci s)
  (gs_systems s) (gs_envs s) (gs_envspecs s) args_file loc_file writable (new_gworld (gs_build s) (gs_force s) files answers)).
Notation lists s := (gexec other_re (systems_in (gs_systems s)) hostname (envs_in (gs_envs s)) (flags_in (gs_flags s)) (specs_in (gs_specs s))
  (gen_in (gs_specs s) $"bash") GList (new_genconfig (gs_build s) (gs_force s))).

Lemma gen_run_main s files : gs_list_flags s = false -> gs_list s = false ->
  gen_run s files = (status (fst (main (gs_save s) s files)), v_out (snd (main (gs_save s) s files))).
Proof. intros L1 L2. unfold Programs.gen_run. now rewrite L1, L2. Qed.
Lemma on_gc_frame {A} (m : SM genconfig A) w : v_out (snd (on_gc m w)) = v_out w.
Proof. unfold on_gc. now destruct (m (v_gc w)). Qed.
Lemma gen_run_flags s files : gs_list_flags s = true -> gen_run s files = (1%N, files).
Proof.
  intros L1. unfold Programs.gen_run. rewrite L1. cbn [negb andb]. unfold gen_main, bind.
  assert (F := on_gc_frame (load_ckp (flags_in (gs_flags s))) (new_gworld (gs_build s) (gs_force s) files answers)).
  destruct (on_gc _ _) as [[?|?] w]; cbn [fst snd status raise] in *; now rewrite F.
Qed.
Lemma gen_run_list s files : gs_list_flags s = false -> gs_list s = true -> gen_run s files = (status (fst (lists s)), files).
Proof.
  intros L1 L2. unfold Programs.gen_run. rewrite L1, L2. cbn [negb andb gexec]. unfold gen_main, bind.
  assert (F := on_gc_frame (list_configs other_re (systems_in (gs_systems s)) hostname (specs_in (gs_specs s))) (new_gworld (gs_build s) (gs_force s) files answers)).
  f_equal.
  - cbn [new_gworld v_gc]. now destruct (list_configs _ _ _ _ _) as [[?|?] ?].
  - destruct (on_gc _ _) as [[?|?] w]; cbn [fst snd raise] in *; exact F.
Qed.

Lemma same_settings d s : load_top uniword fs fuel load_ini d ->
  Forall (fun w => ~ starts [45%N] w) [gs_systems s; gs_envs s; gs_envspecs s; gs_build s] ->
  settled real (gs_systems s) -> settled real (gs_envs s) -> same_loadenv uni_digit uniword fs fuel real load_ini s = true.
Proof.
  intros T ND S1 S2. unfold same_loadenv.
  rewrite (load_args_saved uni_digit uniword fs fuel real load_ini (gs_systems s) (gs_envs s) (gs_envspecs s) (gs_force s) (gs_ci s) (gs_build s) _ d T
    (saved_command fs load_ini _ _ _ _ _ _) ND).
  cbn [ls_systems ls_envs ls_build ls_force]. rewrite (settled_text _ _ S1), (settled_text _ _ S2), !str_eqb_refl, eqb_reflx. reflexivity.
Qed.

Notation has_loadenv := (has_loadenv uniword fs fuel real load_ini).
Lemma with_loadenv s : has_loadenv s -> makes_loadenv s && negb (same_loadenv uni_digit uniword fs fuel real load_ini s) = false.
Proof. intros (d & T & ND & S1 & S2). rewrite (same_settings d s T ND S1 S2). apply andb_false_r. Qed.

Theorem gen_program_runs dg dl argv evs : gen_top uniword fs fuel there gen_ini dg dl -> reading is_digit gen_options true argv evs -> no_help evs ->
  exists s, gen_means real gen_ini dg dl evs s /\ (forall s', gen_means real gen_ini dg dl evs s' -> s' = s) /\
    forall e files,
      (flagged $"--list-config-flags" evs -> gen_program argv e files = (1%N, files)) /\
      (has_loadenv s -> ~ flagged $"--list-config-flags" evs -> flagged $"--list-configs" evs ->
         gen_program argv e files = (status (fst (lists s)), files)) /\
      (has_loadenv s \/ ~ given $"--save-load-env-args" evs None -> ~ flagged $"--list-config-flags" evs -> ~ flagged $"--list-configs" evs ->
         gen_program argv e files = (status (fst (main (gs_save s) s files)), v_out (snd (main (gs_save s) s files)))).
Proof.
  intros T R N. destruct (gen_args_reads uni_digit uniword fs fuel there real gen_ini dg dl _ _ T R N) as (s & E & M). exists s. split; [exact M|].
  split; [intros s' M'; exact (gen_means_det _ _ _ _ _ _ _ _ _ _ _ _ _ T R M' M)|].
  assert (NF : ~ flagged $"--list-config-flags" evs -> gs_list_flags s = false).
  { intros H. destruct (gs_list_flags s) eqn:L; [|reflexivity]. elim H. now apply (gm_list_flags _ _ _ _ _ _ M). }
  assert (NL : ~ flagged $"--list-configs" evs -> gs_list s = false).
  { intros H. destruct (gs_list s) eqn:L; [|reflexivity]. elim H. now apply (gm_list _ _ _ _ _ _ M). }
  intros e files. unfold Programs.gen_program. rewrite E. split; [|split].
  - intros H. apply (gm_list_flags _ _ _ _ _ _ M) in H. unfold makes_loadenv. rewrite H. now apply gen_run_flags.
  - intros HL H1 H2. rewrite (with_loadenv s HL). apply gen_run_list; [now apply NF|]. now apply (gm_list _ _ _ _ _ _ M).
  - intros HL H1 H2. apply NF in H1. apply NL in H2. destruct HL as [HL|HL].
    + rewrite (with_loadenv s HL). now apply gen_run_main.
    + unfold makes_loadenv. rewrite H1, H2. destruct (gs_save s) eqn:SV.
      * cbn [negb andb orb]. rewrite <- SV. now apply gen_run_main.
      * elim HL. assert (X := gm_save _ _ _ _ _ _ M). now rewrite SV in X.
Qed.
Theorem gen_program_rejects argv e files :
  (forall evs, reading is_digit gen_options true argv evs -> ~ no_help evs) ->
  gen_program argv e files = (2%N, files) \/ gen_program argv e files = (0%N, files) /\ help_asked gen_options argv.
Proof.
  intros H. unfold Programs.gen_program. destruct (gen_args_exits uni_digit uniword fs fuel there real gen_ini _ H) as [E|(E & A)]; rewrite E; auto.
Qed.
Theorem gen_program_top (i : IniView.ini) root dir name dg dl argv evs e files :
  denotes gen_ini (Path root (dir ++ [name])) -> root <> [] -> has_file fs (open_ini gen_ini) i -> length (ini_sections i) + 3 <= fuel ->
  parsable (base_class uniword) i $"DEFAULT" $"gen-config" -> parsable (base_class uniword) i $"DEFAULT" $"load-env" ->
  expansion (base_class uniword) i $"DEFAULT" $"gen-config" dg -> expansion (base_class uniword) i $"DEFAULT" $"load-env" dl ->
  (exists k, In k gen_keys /\ ~ names_a_file there gen_ini dg k) \/ (exists k, In k env_keys /\ ~ names_a_file there gen_ini dl k) ->
  reading is_digit gen_options true argv evs -> no_help evs -> gen_program argv e files = (1%N, files).
Proof.
  intros DI RT HF F PA PB EX EY X R N. unfold Programs.gen_program, Programs.gen_args, gen_parse.
  destruct (gen_table uni_digit) as (G & P).
  assert (E := parse_reads uni_digit (real_text real) gen_options $"build_name" G P argv evs R N).
  assert (S := effects_settle uni_digit (real_text real) gen_options $"build_name" G P argv evs R).
  remember (effects (real_text real) $"build_name" evs (defaults gen_options $"build_name")) as ns eqn:NS. clear NS.
  destruct (gen_args_files uni_digit uniword fs fuel there real gen_ini argv evs ns E R N S) as (g1 & g2 & g3 & g4 & g5 & _ & _ & _ & _ & _ & FE).
  destruct (gen_files_outcome uniword fs fuel i gen_ini root dir name DI HF F there dg dl PA PB EX EY RT str real (Overrides g1 g2 g3 g4 g5)) as (_ & FL).
  rewrite E. cbn [obind]. rewrite FE, (FL X). reflexivity.
Qed.
End GenRunning.
