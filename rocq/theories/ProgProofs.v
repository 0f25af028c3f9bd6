(** * The settings of the programs. *)
From Coq Require Import String NArith ZArith List Bool Lia.
Import ListNotations.
From Verif Require Import PyBase PyFacts EnvVar SpecText IniView IniRead ExcControl Cpe SpecWalk SpecRun SpecParse SpecApi ArgParse SpecArgs
  Trace ArgProofs ArgProofs2 ArgProofs3 ArgProofs4 TopLevel SpecTop TopProofs TopProofs3 TopProofs4 LoadEnv LoadRun GenRun Programs SpecPrograms.

(** ** Values of options *)
Section Table.
Variable uni_digit : pychar -> bool.
Variable resolve : str -> str.
Variable t : list opt.
Variable positional : str.
Notation is_digit := (fun c => digit uni_digit c = true).
Hypothesis G : good_table is_digit t.
Hypothesis P : ~ In positional (map o_dest t).
Variable l : list str.
Variable evs : list event.
Hypothesis R : reading is_digit t true l evs.

Lemma evs_sound : Forall (sound_event t) evs.
Proof. exact (proj1 (reading_builds uni_digit resolve t G _ _ _ R)). Qed.
Lemma event_in o v : In (EOption o v) evs -> In o t /\ (takes o <-> v <> None).
Proof. intros I. exact (proj1 (Forall_forall _ _) evs_sound _ I). Qed.

Lemma given_one name o ns : settles resolve t positional evs ns -> spelling t name o -> takes o ->
  exists g, given name evs g /\ path_of ns (o_dest o) = option_map resolve g.
Proof.
  intros S (I & N) T. destruct (se_store _ _ _ _ _ S o I T) as (A & B).
  destruct (event_dec uni_digit t positional G P o evs I evs_sound) as [([v|] & J)|X].
  - destruct (has_last uni_digit t positional G P o evs v I evs_sound J) as (v' & L). exists (Some v').
    split; [now apply (given_last _ _ o)|]. unfold path_of. now rewrite (A _ L).
  - exfalso. apply (proj1 (proj2 (event_in _ _ J)) T). reflexivity.
  - exists None. split.
    + apply given_not. intros o' v N' J. destruct (event_in _ _ J) as (I' & _).
      assert (E : o' = o) by (apply (gt_apart _ _ G name); now split). subst o'. now apply (X (Some v)).
    + unfold path_of. now rewrite (B (fun v => X (Some v))).
Qed.
Lemma given_det name g g' : given name evs g -> given name evs g' -> g = g'.
Proof.
  assert (LI : forall o v, last_value o evs v -> In (EOption o (Some v)) evs).
  { intros o v (a & b & -> & _). apply in_or_app. right. now left. }
  intros [o v N L|X] [o' v' N' L'|X'].
  - destruct (event_in _ _ (LI _ _ L)) as (I & T). destruct (event_in _ _ (LI _ _ L')) as (I' & _).
    assert (E : o = o') by (apply (gt_apart _ _ G name); now split). subst o'.
    assert (S := effects_settle uni_digit (fun s => s) t positional G P l evs R).
    assert (K : takes o) by (apply T; discriminate).
    assert (A := proj1 (se_store _ _ _ _ _ S o I K) _ L). assert (A' := proj1 (se_store _ _ _ _ _ S o I K) _ L').
    cbn beta in A, A'. rewrite A in A'. injection A' as ->. reflexivity.
  - exfalso. apply (X' o v N). now apply LI.
  - exfalso. apply (X o' v' N'). now apply LI.
  - reflexivity.
Qed.
Lemma flag_one name o ns : settles resolve t positional evs ns -> spelling t name o -> o_kind o = KFlag true ->
  flag_of ns (o_dest o) = true <-> flagged name evs.
Proof.
  intros S (I & N) K. destruct (se_flag _ _ _ _ _ S o true I K) as (A & B). unfold flag_of. split.
  - intros E. destruct (event_dec uni_digit t positional G P o evs I evs_sound) as [([v|] & J)|X].
    + exfalso. assert (T := proj2 (proj2 (event_in _ _ J)) ltac:(discriminate)). unfold takes in T. congruence.
    + now exists o.
    + rewrite (B (X None)) in E. discriminate.
  - intros (o' & N' & J). destruct (event_in _ _ J) as (I' & _).
    assert (E : o' = o) by (apply (gt_apart _ _ G name); now split). subst o'. now rewrite (A J).
Qed.
Lemma build_dec : (exists w, In (EBuild w) evs) \/ forall w, ~ In (EBuild w) evs.
Proof.
  clear. induction evs as [|e l IH]; [right; intros w []|]. destruct e as [o v|w]; [|left; exists w; now left].
  destruct IH as [(w & I)|N]; [left; exists w; now right|]. right. intros w [X|I]; [discriminate|now apply (N w)].
Qed.
Lemma build_one ns : settles resolve t positional evs ns -> exists b, text_of ns positional = Some b /\ build_given evs b.
Proof.
  intros S. destruct (se_build _ _ _ _ _ S) as (A & B). unfold text_of. destruct build_dec as [(w & I)|N].
  - exists w. rewrite (A w I). split; [reflexivity|now constructor].
  - exists []. rewrite (B N). split; [reflexivity|now constructor].
Qed.
Lemma build_det b b' : build_given evs b -> build_given evs b' -> b = b'.
Proof.
  assert (S := effects_settle uni_digit resolve t positional G P l evs R). destruct (se_build _ _ _ _ _ S) as (A & _).
  intros [w I|N] [w' I'|N']; [|now elim (N' w)|now elim (N w')|reflexivity].
  apply A in I. apply A in I'. rewrite I in I'. injection I' as ->. reflexivity.
Qed.
End Table.

Lemma flag_det name evs b b' : b = true <-> flagged name evs -> b' = true <-> flagged name evs -> b = b'.
Proof. intros A B. apply eq_true_iff_eq. now rewrite A, B. Qed.

Section Files.
Variable real : path -> str.
Notation real_text := (real_text real).
Lemma path_one name evs g : given name evs g -> path_given real name evs (option_map real_text g).
Proof.
  destruct g as [v|]; intros H; [|exact H]. exists v, (mk_path v). split; [exact H|]. split; [apply denotes_mk|reflexivity].
Qed.
Lemma path_det name evs f f' : (forall g g', given name evs g -> given name evs g' -> g = g') ->
  path_given real name evs f -> path_given real name evs f' -> f = f'.
Proof.
  intros D. destruct f as [f|], f' as [f'|]; cbn [path_given].
  - intros (v & p & A & B & ->) (v' & p' & A' & B' & ->). assert (E := D _ _ A A'). injection E as <-. apply denotes_iff in B, B'. congruence.
  - intros (v & p & A & _) A'. assert (E := D _ _ A A'). discriminate.
  - intros A (v & p & A' & _). assert (E := D _ _ A A'). discriminate.
  - reflexivity.
Qed.
Lemma chosen_det ini root dir name g d k f f' : denotes ini (Path root (dir ++ [name])) ->
  chosen_file real ini g d k f -> chosen_file real ini g d k f' -> f = f'.
Proof.
  intros DI. destruct g as [c|]; cbn [chosen_file].
  - intros (p & B & ->) (p' & B' & ->). apply denotes_iff in B, B'. congruence.
  - intros (v & p & (V & _) & L & ->) (v' & p' & (V' & _) & L' & ->). rewrite V in V'. injection V' as <-.
    apply (located_iff _ _ _ _ DI) in L, L'. congruence.
Qed.
Lemma used_det ini root dir name evs o d k f f' : denotes ini (Path root (dir ++ [name])) ->
  (forall g g', given o evs g -> given o evs g' -> g = g') ->
  file_used real ini evs o d k f -> file_used real ini evs o d k f' -> f = f'.
Proof. intros DI D (g & A & B) (g' & A' & B'). assert (E := D _ _ A A'). subst g'. exact (chosen_det _ _ _ _ _ _ _ _ _ DI B B'). Qed.
End Files.

Definition load_opt (name : str) : opt := match dget name (option_strings load_options) with Some o => o | None => help_option end.
Definition gen_opt (name : str) : opt := match dget name (option_strings gen_options) with Some o => o | None => help_option end.
Lemma load_opt_in name o : dget name (option_strings load_options) = Some o -> spelling load_options name o.
Proof. intros D. apply strings_in. now apply dget_in. Qed.
Lemma gen_opt_in name o : dget name (option_strings gen_options) = Some o -> spelling gen_options name o.
Proof. intros D. apply strings_in. now apply dget_in. Qed.

Section LoadArgs.
Variable uni_digit uniword : pychar -> bool.
Variable fs : str -> option str.
Variable fuel : nat.
Variable real : path -> str.
Variable ini : str.
Variable d : dict (option str).
Notation is_digit := (fun c => digit uni_digit c = true).
Notation load_args := (load_args uni_digit uniword fs fuel real ini).
Notation G := (proj1 (load_table uni_digit)).
Notation P := (proj2 (load_table uni_digit)).

(** The value for one file. *)
Lemma or_else_file ns dest g k : path_of ns dest = option_map (real_text real) g ->
  or_else (path_of ns dest) (le_file uniword fs fuel str real None k) = le_file uniword fs fuel str real g k.
Proof. intros ->. now destruct g. Qed.

Theorem load_args_reads argv evs : load_top uniword fs fuel ini d -> reading is_digit load_options true argv evs -> no_help evs ->
  exists s, load_args argv = Done s /\ load_means real ini d evs s.
Proof.
  intros [(i & root & dir & name & DI & HF & F & PA & EX) V] R N.
  assert (E := parse_reads uni_digit (real_text real) load_options $"build_name" G P argv evs R N).
  assert (S := effects_settle uni_digit (real_text real) load_options $"build_name" G P argv evs R).
  remember (effects (real_text real) $"build_name" evs (defaults load_options $"build_name")) as ns eqn:NS. clear NS.
  destruct (given_one _ _ _ _ G P _ _ R $"--supported-systems" _ ns S (load_opt_in $"--supported-systems" _ eq_refl) eq_refl) as (g1 & G1 & E1).
  destruct (given_one _ _ _ _ G P _ _ R $"--supported-envs" _ ns S (load_opt_in $"--supported-envs" _ eq_refl) eq_refl) as (g2 & G2 & E2).
  destruct (given_one _ _ _ _ G P _ _ R $"--environment-specs" _ ns S (load_opt_in $"--environment-specs" _ eq_refl) eq_refl) as (g3 & G3 & E3).
  destruct (given_one _ _ _ _ G P _ _ R $"--output" _ ns S (load_opt_in $"--output" _ eq_refl) eq_refl) as (g4 & G4 & E4).
  destruct (given_one _ _ _ _ G P _ _ R $"--load-matching-env-location" _ ns S (load_opt_in $"--load-matching-env-location" _ eq_refl) eq_refl) as (g5 & G5 & E5).
  assert (F1 := flag_one _ _ _ _ G P _ _ R $"--list-envs" _ ns S (load_opt_in $"--list-envs" _ eq_refl) eq_refl).
  assert (F2 := flag_one _ _ _ _ G P _ _ R $"--force" _ ns S (load_opt_in $"--force" _ eq_refl) eq_refl).
  destruct (build_one (real_text real) load_options $"build_name" evs ns S) as (b & TB & BG).
  cbn [o_dest] in *.
  destruct (load_env_files uniword fs fuel i ini root dir name DI HF F str real d (Overrides None None g1 g2 g3) PA EX) as (FL & _).
  destruct (FL V) as (a & b' & c & LF & C1 & C2 & C3). cbn [v_systems v_envs v_envspecs] in *. clear FL.
  unfold Programs.load_args. unfold le_files in LF. cbn [v_systems v_envs v_envspecs] in LF. rewrite bind_eq in LF.
  destruct (parse_top_level uniword fs fuel ini (open_ini ini)) as [[u|x] o]; [|discriminate].
  unfold load_parse. rewrite E. cbn [obind].
  assert (LE : load_files uniword fs fuel real ns = (fun o => bind (le_file uniword fs fuel str real g1 $"supported-systems") (fun a =>
    bind (le_file uniword fs fuel str real g2 $"supported-envs") (fun b =>
    bind (le_file uniword fs fuel str real g3 $"environment-specs") (fun c => ret [a; b; c]))) o)).
  { unfold load_files. rewrite (or_else_file _ _ _ _ E1), (or_else_file _ _ _ _ E2), (or_else_file _ _ _ _ E3). reflexivity. }
  rewrite LE, LF, TB. eexists. split; [reflexivity|]. split; cbn [ls_systems ls_envs ls_specs ls_output ls_location ls_list ls_force ls_build].
  - now exists g1.
  - now exists g2.
  - now exists g3.
  - rewrite E4. now apply path_one.
  - rewrite E5. now apply path_one.
  - exact F1.
  - exact F2.
  - exact BG.
Qed.
Theorem load_means_det argv evs s s' : load_top uniword fs fuel ini d -> reading is_digit load_options true argv evs ->
  load_means real ini d evs s -> load_means real ini d evs s' -> s = s'.
Proof.
  intros [(i & root & dir & name & DI & _) _] R [A1 A2 A3 A4 A5 A6 A7 A8] [B1 B2 B3 B4 B5 B6 B7 B8].
  assert (D : forall o g g', given o evs g -> given o evs g' -> g = g') by (intros o; exact (given_det uni_digit (real_text real) _ $"build_name" G P _ _ R o)).
  destruct s as [x1 x2 x3 x4 x5 x6 x7 x8], s' as [y1 y2 y3 y4 y5 y6 y7 y8]. cbn [ls_systems ls_envs ls_specs ls_output ls_location ls_list ls_force ls_build] in *. f_equal.
  - exact (used_det _ _ _ _ _ _ _ _ _ _ _ DI (D _) A1 B1).
  - exact (used_det _ _ _ _ _ _ _ _ _ _ _ DI (D _) A2 B2).
  - exact (used_det _ _ _ _ _ _ _ _ _ _ _ DI (D _) A3 B3).
  - exact (path_det _ _ _ _ _ (D _) A4 B4).
  - exact (path_det _ _ _ _ _ (D _) A5 B5).
  - exact (flag_det _ _ _ _ A6 B6).
  - exact (flag_det _ _ _ _ A7 B7).
  - exact (build_det uni_digit (real_text real) _ $"build_name" G P _ _ R _ _ A8 B8).
Qed.
Theorem load_args_exits argv : load_top uniword fs fuel ini d -> (forall evs, reading is_digit load_options true argv evs -> ~ no_help evs) ->
  load_args argv = Exit 2 \/ load_args argv = Exit 0 /\ help_asked load_options argv.
Proof.
  intros [(i & root & dir & name & DI & HF & F & PA & EX) V] NR.
  assert (C := load_env_outcome uniword fs fuel i ini root dir name DI HF F d PA EX).
  unfold Programs.load_args. destruct (parse_top_level uniword fs fuel ini (open_ini ini)) as [r o].
  destruct (proj1 C V) as (-> & _).
  destruct (parse_exits uni_digit (real_text real) load_options $"build_name" G P argv) as [H|[E|(E & H)]].
  - exfalso. apply (parse_accepts uni_digit (real_text real) load_options $"build_name" G P) in H as (evs & R & N). now apply (NR evs).
  - left. unfold load_parse. now rewrite E.
  - right. unfold load_parse. now rewrite E.
Qed.
Theorem load_args_top argv : fst (parse_top_level uniword fs fuel ini (open_ini ini)) = Err ValueError -> load_args argv = Exit 1.
Proof. unfold Programs.load_args. destruct (parse_top_level uniword fs fuel ini (open_ini ini)) as [r o]. cbn [fst]. now intros ->. Qed.
End LoadArgs.

Section GenArgs.
Variable uni_digit uniword : pychar -> bool.
Variable fs : str -> option str.
Variable fuel : nat.
Variable there : path -> bool.
Variable real : path -> str.
Variable ini : str.
Variables dg dl : dict (option str).
Notation is_digit := (fun c => digit uni_digit c = true).
Notation gen_args := (gen_args uni_digit uniword fs fuel there real ini).
Notation G := (proj1 (gen_table uni_digit)).
Notation P := (proj2 (gen_table uni_digit)).

Lemma or_else_gen ns dest g d k : path_of ns dest = option_map (real_text real) g ->
  or_else (path_of ns dest) (gen_file str real None d k) = gen_file str real g d k.
Proof. intros ->. now destruct g. Qed.

Lemma gen_args_files argv evs ns : gen_parse uni_digit (real_text real) argv = Done ns -> reading is_digit gen_options true argv evs -> no_help evs ->
  settles (real_text real) gen_options $"build_name" evs ns ->
  exists g1 g2 g3 g4 g5, given $"--supported-config-flags" evs g1 /\ given $"--config-specs" evs g2 /\ given $"--supported-systems" evs g3 /\
    given $"--supported-envs" evs g4 /\ given $"--environment-specs" evs g5 /\
    gen_files_of uniword fs fuel there real ini ns (open_ini ini) =
    gen_files uniword fs fuel there str real ini (Overrides g1 g2 g3 g4 g5) (open_ini ini).
Proof.
  intros E R N S.
  destruct (given_one _ _ _ _ G P _ _ R $"--supported-config-flags" _ ns S (gen_opt_in $"--supported-config-flags" _ eq_refl) eq_refl) as (g1 & G1 & E1).
  destruct (given_one _ _ _ _ G P _ _ R $"--config-specs" _ ns S (gen_opt_in $"--config-specs" _ eq_refl) eq_refl) as (g2 & G2 & E2).
  destruct (given_one _ _ _ _ G P _ _ R $"--supported-systems" _ ns S (gen_opt_in $"--supported-systems" _ eq_refl) eq_refl) as (g3 & G3 & E3).
  destruct (given_one _ _ _ _ G P _ _ R $"--supported-envs" _ ns S (gen_opt_in $"--supported-envs" _ eq_refl) eq_refl) as (g4 & G4 & E4).
  destruct (given_one _ _ _ _ G P _ _ R $"--environment-specs" _ ns S (gen_opt_in $"--environment-specs" _ eq_refl) eq_refl) as (g5 & G5 & E5).
  cbn [o_dest] in *. exists g1, g2, g3, g4, g5. repeat (split; [assumption|]).
  unfold gen_files_of, gen_files. cbn [v_flags v_specs v_systems v_envs v_envspecs].
  rewrite E1, E2, E3, E4, E5. destruct g1, g2, g3, g4, g5; reflexivity.
Qed.

Theorem gen_args_reads argv evs : gen_top uniword fs fuel there ini dg dl -> reading is_digit gen_options true argv evs -> no_help evs ->
  exists s, gen_args argv = Done s /\ gen_means real ini dg dl evs s.
Proof.
  intros [(i & root & dir & name & DI & RT & HF & F & PA & PB & EX & EY) V W] R N.
  assert (E := parse_reads uni_digit (real_text real) gen_options $"build_name" G P argv evs R N).
  assert (S := effects_settle uni_digit (real_text real) gen_options $"build_name" G P argv evs R).
  remember (effects (real_text real) $"build_name" evs (defaults gen_options $"build_name")) as ns eqn:NS. clear NS.
  destruct (given_one _ _ _ _ G P _ _ R $"--save-load-env-args" _ ns S (gen_opt_in $"--save-load-env-args" _ eq_refl) eq_refl) as (g6 & G6 & E6).
  destruct (given_one _ _ _ _ G P _ _ R $"--cmake-fragment" _ ns S (gen_opt_in $"--cmake-fragment" _ eq_refl) eq_refl) as (g7 & G7 & E7).
  assert (F1 := flag_one _ _ _ _ G P _ _ R $"--list-config-flags" _ ns S (gen_opt_in $"--list-config-flags" _ eq_refl) eq_refl).
  assert (F2 := flag_one _ _ _ _ G P _ _ R $"--list-configs" _ ns S (gen_opt_in $"--list-configs" _ eq_refl) eq_refl).
  assert (F3 := flag_one _ _ _ _ G P _ _ R $"--yes" _ ns S (gen_opt_in $"--yes" _ eq_refl) eq_refl).
  assert (F4 := flag_one _ _ _ _ G P _ _ R $"--ci-mode" _ ns S (gen_opt_in $"--ci-mode" _ eq_refl) eq_refl).
  assert (F5 := flag_one _ _ _ _ G P _ _ R $"--force" _ ns S (gen_opt_in $"--force" _ eq_refl) eq_refl).
  destruct (build_one (real_text real) gen_options $"build_name" evs ns S) as (b & TB & BG).
  cbn [o_dest] in *.
  destruct (gen_args_files argv evs ns E R N S) as (g1 & g2 & g3 & g4 & g5 & G1 & G2 & G3 & G4 & G5 & FE).
  destruct (gen_files_outcome uniword fs fuel i ini root dir name DI HF F there dg dl PA PB EX EY RT str real (Overrides g1 g2 g3 g4 g5)) as (FL & _).
  destruct (FL V W) as (a & b' & x & y & z & LF & C1 & C2 & C3 & C4 & C5). cbn [v_flags v_specs v_systems v_envs v_envspecs] in *. clear FL.
  unfold Programs.gen_args, gen_parse. rewrite E. cbn [obind]. rewrite FE, LF, TB. eexists. split; [reflexivity|].
  split; cbn [gs_flags gs_specs gs_systems gs_envs gs_envspecs gs_list_flags gs_list gs_save gs_fragment gs_yes gs_ci gs_force gs_build]; try assumption.
  - now exists g1.
  - now exists g2.
  - now exists g3.
  - now exists g4.
  - now exists g5.
  - rewrite E6. now apply path_one.
  - rewrite E7. now apply path_one.
Qed.
Theorem gen_means_det argv evs s s' : gen_top uniword fs fuel there ini dg dl -> reading is_digit gen_options true argv evs ->
  gen_means real ini dg dl evs s -> gen_means real ini dg dl evs s' -> s = s'.
Proof.
  intros [(i & root & dir & name & DI & _) _ _] R [A1 A2 A3 A4 A5 A6 A7 A8 A9 A10 A11 A12 A13] [B1 B2 B3 B4 B5 B6 B7 B8 B9 B10 B11 B12 B13].
  assert (D : forall o g g', given o evs g -> given o evs g' -> g = g') by (intros o; exact (given_det uni_digit (real_text real) _ $"build_name" G P _ _ R o)).
  destruct s as [x1 x2 x3 x4 x5 x6 x7 x8 x9 x10 x11 x12 x13], s' as [y1 y2 y3 y4 y5 y6 y7 y8 y9 y10 y11 y12 y13]. cbn [gs_flags gs_specs gs_systems gs_envs gs_envspecs gs_list_flags gs_list gs_save gs_fragment gs_yes gs_ci gs_force gs_build] in *. f_equal.
  - exact (used_det _ _ _ _ _ _ _ _ _ _ _ DI (D _) A1 B1).
  - exact (used_det _ _ _ _ _ _ _ _ _ _ _ DI (D _) A2 B2).
  - exact (used_det _ _ _ _ _ _ _ _ _ _ _ DI (D _) A3 B3).
  - exact (used_det _ _ _ _ _ _ _ _ _ _ _ DI (D _) A4 B4).
  - exact (used_det _ _ _ _ _ _ _ _ _ _ _ DI (D _) A5 B5).
  - exact (flag_det _ _ _ _ A6 B6).
  - exact (flag_det _ _ _ _ A7 B7).
  - exact (path_det _ _ _ _ _ (D _) A8 B8).
  - exact (path_det _ _ _ _ _ (D _) A9 B9).
  - exact (flag_det _ _ _ _ A10 B10).
  - exact (flag_det _ _ _ _ A11 B11).
  - exact (flag_det _ _ _ _ A12 B12).
  - exact (build_det uni_digit (real_text real) _ $"build_name" G P _ _ R _ _ A13 B13).
Qed.
Theorem gen_args_exits argv : (forall evs, reading is_digit gen_options true argv evs -> ~ no_help evs) ->
  gen_args argv = Exit 2 \/ gen_args argv = Exit 0 /\ help_asked gen_options argv.
Proof.
  intros NR. unfold Programs.gen_args.
  destruct (parse_exits uni_digit (real_text real) gen_options $"build_name" G P argv) as [H|[E|(E & H)]].
  - exfalso. apply (parse_accepts uni_digit (real_text real) gen_options $"build_name" G P) in H as (evs & R & N). now apply (NR evs).
  - left. unfold gen_parse. now rewrite E.
  - right. unfold gen_parse. now rewrite E.
Qed.
End GenArgs.
