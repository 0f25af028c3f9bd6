(** * The programs, and the scripts that start them. *)
From Coq Require Import String NArith ZArith List Bool Lia.
Import ListNotations.
From Verif Require Import PyBase PyFacts EnvVar Bash SetEnv SpecText IniView IniRead ExcControl Cpe SpecWalk SpecRun SpecParse SpecApi SpecEnv SpecSetEnv
  SpecBash ArgParse SpecArgs Trace ArgProofs ArgProofs2 ArgProofs3 ArgProofs4 TopLevel SpecTop TopProofs TopProofs3 TopProofs4
  DetSys EnvKeyword LoadEnv SpecLoadEnv LoadRun SpecLoadRun GenRun SpecGenRun GenRunProofs LoadSh SpecSh GenSh SpecGenSh ShProofs2 GenShProofs2
  Programs SpecPrograms ProgProofs.

Section Settings.
Variable uni_digit uniword : pychar -> bool.
Variable fs : str -> option str.
Variable fuel : nat.
Variable there : path -> bool.
Variable real : path -> str.
Variables load_ini gen_ini : str.
Notation is_digit := (fun c => digit uni_digit c = true).
Notation load_args := (load_args uni_digit uniword fs fuel real load_ini).
Notation gen_args := (gen_args uni_digit uniword fs fuel there real gen_ini).
Definition at_location (f : str) (s : load_settings) : load_settings :=
  LoadSettings (ls_systems s) (ls_envs s) (ls_specs s) (ls_output s) (Some f) (ls_list s) (ls_force s) (ls_build s).
Definition saving_to (f : str) (s : gen_settings) : gen_settings :=
  GenSettings (gs_flags s) (gs_specs s) (gs_systems s) (gs_envs s) (gs_envspecs s) (gs_list_flags s) (gs_list s) (Some f) (gs_fragment s)
    (gs_yes s) (gs_ci s) (gs_force s) (gs_build s).

Lemma no_dash (t : list opt) w : ~ starts [45%N] w -> plain is_digit t w.
Proof. intros N. now left. Qed.

(** An option with a value that was not given. *)
Lemma not_given args ns o : load_parse uni_digit (real_text real) args = Done ns -> In o load_options -> takes o ->
  path_of ns (o_dest o) = None -> dget (o_dest o) ns = Some VNone.
Proof.
  intros E I T. assert (X := parse_result uni_digit (real_text real) load_options $"build_name" (proj1 (load_table uni_digit)) (proj2 (load_table uni_digit)) args).
  unfold load_parse in E. rewrite E in X. destruct X as (evs & R & N & ->).
  assert (S := effects_settle uni_digit (real_text real) load_options $"build_name" (proj1 (load_table uni_digit)) (proj2 (load_table uni_digit)) args evs R).
  destruct (se_store _ _ _ _ _ S o I T) as (A & B).
  assert (F := evs_sound uni_digit (real_text real) load_options (proj1 (load_table uni_digit)) args evs R).
  destruct (event_dec uni_digit load_options $"build_name" (proj1 (load_table uni_digit)) (proj2 (load_table uni_digit)) o evs I F) as [([v|] & J)|Y].
  - destruct (has_last uni_digit load_options $"build_name" (proj1 (load_table uni_digit)) (proj2 (load_table uni_digit)) o evs v I F J) as (v' & L).
    unfold path_of. rewrite (A v' L). discriminate.
  - exfalso. assert (SE := proj1 (Forall_forall _ _) F _ J). now apply (proj1 (proj2 SE) T).
  - intros _. apply B. intros v. apply Y.
Qed.

(** The option that [load-env.sh] adds. *)
Lemma load_args_front args loc s : ~ starts [45%N] loc -> load_args args = Done s -> ls_location s = None ->
  load_args ($"--load-matching-env-location" :: loc :: args) = Done (at_location (real_text real loc) s).
Proof.
  intros N. unfold Programs.load_args. destruct (parse_top_level uniword fs fuel load_ini (open_ini load_ini)) as [[u|x] o]; [|discriminate].
  destruct (load_parse uni_digit (real_text real) args) as [ns| |] eqn:E; cbn [obind]; try discriminate.
  destruct (proj1 (script_line uni_digit (real_text real) args loc (no_dash _ _ N)) ns E) as (ns' & E' & A & B). rewrite E'. cbn [obind].
  assert (PO : forall k, k <> $"load_matching_env_location" -> path_of ns' k = path_of ns k /\ flag_of ns' k = flag_of ns k /\ text_of ns' k = text_of ns k).
  { intros k K. unfold path_of, flag_of, text_of. now rewrite (A k K). }
  assert (LF : load_files uniword fs fuel real ns' = load_files uniword fs fuel real ns).
  { unfold load_files. rewrite (proj1 (PO $"supported_systems_file" ltac:(discriminate))), (proj1 (PO $"supported_envs_file" ltac:(discriminate))),
      (proj1 (PO $"environment_specs_file" ltac:(discriminate))). reflexivity. }
  rewrite LF, (proj2 (proj2 (PO $"build_name" ltac:(discriminate)))), (proj1 (PO $"output" ltac:(discriminate))),
    (proj1 (proj2 (PO $"list_envs" ltac:(discriminate)))), (proj1 (proj2 (PO $"force" ltac:(discriminate)))).
  destruct (fst (load_files uniword fs fuel real ns o)) as [[|a [|b [|c [|? ?]]]]|]; try discriminate; destruct (text_of ns $"build_name") as [bn|]; try discriminate.
  intros [= <-]. cbn [ls_location]. intros L. unfold at_location. cbn [ls_systems ls_envs ls_specs ls_output ls_list ls_force ls_build].
  do 2 f_equal. unfold path_of at 1. rewrite B.
  assert (IL : In location_option load_options) by (apply (nth_In load_options help_option (n := 8)); cbn; lia).
  assert (Y := not_given args ns location_option E IL eq_refl L). change (o_dest location_option) with $"load_matching_env_location" in Y.
  now rewrite Y.
Qed.

(** The line that [GenConfig] saves. *)
Lemma load_args_saved sf ef pf force ci build m d : load_top uniword fs fuel load_ini d -> loadenv_command sf ef pf force ci build m ->
  Forall (fun w => ~ starts [45%N] w) [sf; ef; pf; build] ->
  load_args m = Done (LoadSettings (real_text real sf) (real_text real ef) (real_text real pf) None None false force build).
Proof.
  intros [(i & root & dir & name & DI & HF & F & PA & EX) V] LC ND.
  assert (C := load_env_outcome uniword fs fuel i load_ini root dir name DI HF F d PA EX).
  unfold Programs.load_args. destruct (parse_top_level uniword fs fuel load_ini (open_ini load_ini)) as [r o]. destruct (proj1 C V) as (-> & _).
  destruct (saved_line uni_digit (real_text real) sf ef pf force ci build m LC) as (ns & E & E1 & E2 & E3 & E4 & E5 & E6 & E7 & E8).
  { eapply Forall_impl; [|exact ND]. intros w N. now apply no_dash. }
  rewrite E. cbn [obind]. unfold load_files, path_of, flag_of, text_of. rewrite E1, E2, E3, E4, E5, E6, E7, E8. reflexivity.
Qed.
Lemma saved_command sf ef pf force ci build :
  loadenv_command sf ef pf force ci build (load_env_args ci sf ef pf (new_genconfig build force)).
Proof.
  unfold load_env_args, loadenv_command. cbn [g_force g_build new_genconfig].
  exists ((if force then [$"--force"] else []) ++ (if ci then [$"--ci-mode"] else [])).
  split; [now rewrite <- app_assoc|]. destruct force, ci; cbn [app In].
  all: assert (D : $"--force" <> $"--ci-mode") by discriminate; assert (D' := not_eq_sym D).
  all: split; [intuition congruence|]; split; [intuition congruence|]; split; [|intuition congruence].
  all: repeat first [apply NoDup_nil|apply NoDup_cons; [cbn [In]; intuition congruence|]].
Qed.

(** The option that [gen-config.sh] adds. *)
Lemma gen_args_saving args f evs s : reading is_digit gen_options true args evs -> no_help evs -> ~ In $"--" args -> ~ starts [45%N] f ->
  gen_args args = Done s -> gen_args (args ++ [$"--save-load-env-args"; f]) = Done (saving_to (real_text real f) s).
Proof.
  intros R N ND NF. assert (R' := saving_line uni_digit args f evs R ND (no_dash _ _ NF)).
  assert (N' : no_help (evs ++ [EOption save_option (Some f)])).
  { intros o v J. apply in_app_or in J as [J|[J|[]]]; [now apply (N o v)|]. injection J as <- _. discriminate. }
  assert (GT := gen_table uni_digit). destruct GT as (G & P).
  unfold Programs.gen_args, gen_parse.
  rewrite (parse_reads uni_digit (real_text real) gen_options $"build_name" G P _ _ R N), (parse_reads uni_digit (real_text real) gen_options $"build_name" G P _ _ R' N').
  cbn [obind]. rewrite effects_app. set (ns := effects (real_text real) $"build_name" evs (defaults gen_options $"build_name")).
  assert (EN : effects (real_text real) $"build_name" [EOption save_option (Some f)] ns = dset $"save_load_env_args" (VPath (real_text real f)) ns) by reflexivity.
  rewrite EN. set (ns' := dset $"save_load_env_args" (VPath (real_text real f)) ns).
  assert (PO : forall k, k <> $"save_load_env_args" -> path_of ns' k = path_of ns k /\ flag_of ns' k = flag_of ns k /\ text_of ns' k = text_of ns k).
  { intros k K. unfold path_of, flag_of, text_of, ns'. now rewrite (dget_dset_other _ _ _ _ K). }
  assert (PS : path_of ns' $"save_load_env_args" = Some (real_text real f)) by (unfold path_of, ns'; now rewrite dget_dset_same).
  assert (LF : gen_files_of uniword fs fuel there real gen_ini ns' = gen_files_of uniword fs fuel there real gen_ini ns).
  { unfold gen_files_of.
    rewrite (proj1 (PO $"supported_config_flags_file" ltac:(discriminate))), (proj1 (PO $"config_specs_file" ltac:(discriminate))),
      (proj1 (PO $"supported_systems_file" ltac:(discriminate))), (proj1 (PO $"supported_envs_file" ltac:(discriminate))),
      (proj1 (PO $"environment_specs_file" ltac:(discriminate))). reflexivity. }
  rewrite LF, PS, (proj2 (proj2 (PO $"build_name" ltac:(discriminate)))), (proj1 (PO $"cmake_fragment" ltac:(discriminate))),
    (proj1 (proj2 (PO $"list_config_flags" ltac:(discriminate)))), (proj1 (proj2 (PO $"list_configs" ltac:(discriminate)))),
    (proj1 (proj2 (PO $"yes" ltac:(discriminate)))), (proj1 (proj2 (PO $"ci_mode" ltac:(discriminate)))), (proj1 (proj2 (PO $"force" ltac:(discriminate)))).
  destruct (fst (gen_files_of uniword fs fuel there real gen_ini ns (open_ini gen_ini))) as [[|a [|b [|c [|x [|y [|? ?]]]]]]|]; try discriminate;
    destruct (text_of ns $"build_name") as [bn|]; try discriminate.
  now intros [= <-].
Qed.
End Settings.
