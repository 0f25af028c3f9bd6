(** * The programs with a file that cannot be read. *)
From Coq Require Import String NArith ZArith List Bool.
Import ListNotations.
From Verif Require Import PyBase IniView IniRead ExcControl Cpe EnvVar SetEnv SpecWalk SpecRun SpecParse SpecApi SpecEnv SpecSetEnv SpecBash
  Regex Keyword DetSys EnvKeyword LoadEnv LoadRun GenRun
  TopLevel SpecTop ArgParse SpecArgs Programs SpecPrograms ProgProofs ProgProofs2 ProgProofs3 ArgProofs ArgProofs2 ArgProofs3 ArgProofs4 FileObjects FilePrograms SpecObjects SpecFilePrograms.
Local Open Scope sm_scope.

Lemma bind_err {S A B} (m : SM S A) (k : A -> SM S B) s e : fst (m s) = Err e -> fst (bind m k s) = Err e.
Proof. unfold bind. destruct (m s) as [[a|x] s1]; cbn [fst]; [discriminate|]. intros [= ->]. reflexivity. Qed.

Section Unreadable.
Variable uniword : pychar -> bool.
Variable fs : str -> option str.
Variable fuel : nat.
Variable other_re : str -> str -> res bool.
Variable hostname : str.
Notation K := (base_class uniword).
Notation cpe := (obj unit unit).

Lemma no_cpd file : unreadable fs file -> exists e, fst (get_cpd fs (open_ini file)) = Err e.
Proof. intros H. destruct (fst (get_cpd fs (open_ini file))) as [i|e] eqn:E; [elim (H i E)|now exists e]. Qed.
Lemma no_names file : unreadable fs file -> exists e, fst (data_keys fs (open_ini file)) = Err e.
Proof. intros H. destruct (no_cpd _ H) as (e & E). exists e. now apply bind_err. Qed.
Lemma no_item file s : unreadable fs file -> exists e, fst (getitem K fs fuel s (open_ini file)) = Err e.
Proof.
  intros H. destruct (no_cpd _ H) as (e & E). exists e. unfold getitem. apply bind_err. unfold has_section, data_has_section. now apply bind_err.
Qed.
Lemma no_system file b f : unreadable fs file -> exists e, fst (f_system_name uniword fs fuel other_re hostname (f_new_detsys file b f)) = Err e.
Proof.
  intros H. destruct (no_names _ H) as (e & E). exists e. unfold f_system_name. apply bind_err. unfold f_determine_system.
  unfold bind at 1. cbn [on_object get f_new_detsys fst snd new_detsys d_name]. unfold bind at 1, on_file at 1. cbn [fst snd].
  assert (X : fst (f_sys_from_hostname uniword fs fuel other_re hostname (open_ini file)) = Err e).
  { unfold f_sys_from_hostname. apply bind_err. unfold f_sys_names. apply bind_err. exact E. }
  destruct (f_sys_from_hostname _ _ _ _ _ _) as [r o]. cbn [fst] in X. now rewrite X.
Qed.
Lemma no_ekp file b s : unreadable fs file -> exists e, f_new_ekp uniword fs fuel file b s = Err e.
Proof.
  intros H. destruct (no_item file s H) as (e & E). exists e. unfold f_new_ekp, bind at 1.
  destruct (getitem _ _ _ _ _) as [r o]. cbn [fst] in E. now rewrite E.
Qed.
Lemma no_ckp file b : unreadable fs file -> exists e, f_new_ckp uniword fs fuel file b = Err e.
Proof.
  intros H. destruct (no_item file flags_section H) as (e & E). exists e. unfold f_new_ckp. destruct (getitem _ _ _ _ _) as [r o]. cbn [fst] in E. now rewrite E.
Qed.

(** ** The names of [LoadEnv] *)
Section Names.
Variables sf ef : str.
Hypothesis U : unreadable fs sf \/ unreadable fs ef.
Definition blank (k : loadenv) : Prop := l_parsed k = None /\ l_ekp k = None /\ (unreadable fs sf -> l_system k = None).

Lemma load_fails p : blank (snd p) -> exists e, fst (f_le_load_ekp uniword fs fuel other_re hostname sf ef p) = Err e.
Proof.
  intros (_ & _ & B). unfold f_le_load_ekp. unfold bind at 1. cbn [on_object get fst snd].
  assert (C : (exists e, fst (f_le_system_name uniword fs fuel other_re hostname sf (fst p, snd p)) = Err e) \/ unreadable fs ef).
  { destruct U as [H|H]; [left|now right]. destruct (no_system sf (l_build (snd p)) (l_force (snd p)) H) as (e & E). exists e.
    unfold f_le_system_name, bind at 1. cbn [on_object get fst snd]. rewrite (B H). apply bind_err. now rewrite E. }
  destruct C as [(e & E)|H].
  - exists e. now apply bind_err.
  - unfold bind at 1. destruct (f_le_system_name _ _ _ _ _ _ _) as [[s|e] q]; [|now exists e].
    destruct (no_ekp ef (l_build (snd p)) s H) as (e & ->). now exists e.
Qed.
Lemma ekp_fails p : blank (snd p) -> exists e, fst (f_le_ekp uniword fs fuel other_re hostname sf ef p) = Err e.
Proof.
  intros B. unfold f_le_ekp, bind at 1. cbn [on_object get fst snd]. destruct B as (B1 & B2 & B3). rewrite B2. apply load_fails. split; auto.
Qed.
Lemma parsed_fails p : blank (snd p) -> exists e, fst (f_le_parsed_env_name uniword fs fuel other_re hostname sf ef p) = Err e.
Proof.
  intros B. destruct (ekp_fails (fst p, snd p) B) as (e & E). exists e. unfold f_le_parsed_env_name. unfold bind at 1. cbn [on_object get fst snd].
  rewrite (proj1 B). apply bind_err. exact E.
Qed.
End Names.

(** ** load_env.py *)
Section Load.
Variable which : environ -> str -> option str.
Variable mods : list str -> environ -> res Z * environ.
Variable other : str -> environ -> res Z * environ.
Variable header : str -> str.
Variable tmp_file : str.
Variable writable : str -> bool.
Variable s : load_settings.
Hypothesis U : unreadable fs (ls_systems s) \/ unreadable fs (ls_envs s).

(** The files and the names are left alone. *)
Definition leaves_names {A} (m : SM flworld A) : Prop := forall w, fr_le (snd (m w)) = fr_le w /\ fr_out (snd (m w)) = fr_out w.
Lemma leaves_bind {A B} (m : SM flworld A) (k : A -> SM flworld B) : leaves_names m -> (forall a, leaves_names (k a)) -> leaves_names (bind m k).
Proof.
  intros H1 H2 w. unfold bind. destruct (H1 w) as (L & O). destruct (m w) as [[a|e] w1]; cbn [snd] in *; [|now split].
  destruct (H2 a w1) as (L' & O'). split; congruence.
Qed.
Lemma leaves_set {A} (m : SM world A) : leaves_names (f_on_set m).
Proof. intros w. unfold f_on_set. destruct (fr_set w); [|now split]. now destruct (m _). Qed.
Lemma leaves_need : leaves_names (f_need_set uniword fs fuel s).
Proof.
  unfold f_need_set. apply leaves_bind; [intros w; now split|]. intros w0. destruct (fr_set w0); [intros w; now split|].
  unfold f_load_set. apply leaves_bind.
  - intros w. cbn. destruct (fr_set w); now split.
  - intros _. apply leaves_bind; [apply leaves_set|]. intros _. apply leaves_bind; [apply leaves_set|]. intros _ w. now split.
Qed.
Lemma list_fails w : blank (ls_systems s) (snd (fr_le w)) ->
  exists x w', f_list_envs uniword fs fuel other_re hostname s w = (Err x, w') /\ fr_out w' = fr_out w.
Proof.
  intros B. unfold f_list_envs, bind, f_on_names. destruct (ekp_fails _ _ U _ B) as (x & E).
  destruct (f_le_ekp _ _ _ _ _ _ _ _) as [r p]. cbn [fst] in E. rewrite E. now do 2 eexists.
Qed.
Lemma main_fails w : blank (ls_systems s) (snd (fr_le w)) ->
  exists x w', f_load_main uniword fs fuel other_re hostname which mods other header tmp_file writable s w = (Err x, w') /\ fr_out w' = fr_out w.
Proof.
  intros B. unfold f_load_main, f_apply_env. unfold bind at 1 2. destruct (leaves_need w) as (L & O).
  destruct (f_need_set _ _ _ _ _) as [[u|x] w1]; cbn [snd] in *; [|now exists x, w1].
  rewrite <- L in B. unfold bind at 1, f_env_name at 1, f_on_names at 1. destruct (parsed_fails _ _ U _ B) as (x & E).
  destruct (f_le_parsed_env_name _ _ _ _ _ _ _ _) as [r p]. cbn [fst] in E. rewrite E. do 2 eexists. split; [reflexivity|exact O].
Qed.
Lemma run_fails e files : f_load_run uniword fs fuel other_re hostname which mods other header tmp_file writable s e files = (1%N, files).
Proof.
  assert (B : blank (ls_systems s) (snd (fr_le (f_new_lworld s e files)))) by (repeat split).
  unfold f_load_run. cbv zeta. destruct (ls_list s).
  - destruct (list_fails _ B) as (x & w & E & O). rewrite E. cbn [fst snd status]. now rewrite O.
  - destruct (main_fails _ B) as (x & w & E & O). rewrite E. cbn [fst snd status]. now rewrite O.
Qed.
End Load.

(** ** gen_config.py *)
Section Gen.
Variable gen_in : str -> str -> str -> res (list str).
Variable args_file loc_file : str.
Variable writable : str -> bool.
Variable answers : list str.
Variable s : gen_settings.

Definition gblank (p : fgen) : Prop := g_config (fg p) = None /\ forall k, g_le (fg p) = Some k -> blank (gs_systems s) k.
Definition gkeeps {A} (m : SM fgen A) : Prop := forall p, gblank p -> forall a, fst (m p) = Ok a -> gblank (snd (m p)).
Lemma gk_bind {A B} (m : SM fgen A) (k : A -> SM fgen B) : gkeeps m -> (forall a, gkeeps (k a)) -> gkeeps (bind m k).
Proof.
  intros H1 H2 p B0 b. unfold bind. specialize (H1 p B0). destruct (m p) as [[a|e] p1]; cbn [fst snd] in *; [|discriminate].
  apply H2. now apply (H1 a).
Qed.
Lemma gk_gen {A} (m : SM genconfig A) :
  (forall p, g_config (snd (m p)) = g_config p /\ forall k, g_le (snd (m p)) = Some k -> g_le p = Some k) -> gkeeps (on_gen m).
Proof.
  intros H p (B1 & B2) a _. unfold on_gen. destruct (H (fg p)) as (C & D). destruct (m (fg p)) as [r g]. split; cbn [snd fg] in *; [congruence|].
  intros k E. apply B2, D, E.
Qed.
Lemma gk_ret {A} (a : A) : gkeeps (ret a).
Proof. intros p B b _. exact B. Qed.
Lemma gk_raise {A} e : gkeeps (@raise _ A e).
Proof. intros p B b. discriminate. Qed.
Lemma gk_res {A} (r : res A) : gkeeps (of_res r).
Proof. intros p B b _. exact B. Qed.
Lemma gk_load_ckp f : gkeeps (f_load_ckp uniword fs fuel f).
Proof.
  unfold f_load_ckp. apply gk_bind; [apply gk_gen; intros p; now split|]. intros g. destruct (g_ckp g); [apply gk_ret|].
  apply gk_bind; [apply gk_res|]. intros k p B a _. exact B.
Qed.
Lemma gk_load_le : gkeeps f_load_le.
Proof.
  unfold f_load_le. intros p (B1 & B2) a _. unfold on_gen, load_le, modify. split; cbn [snd fg]; destruct (g_le (fg p)) as [k|] eqn:E; auto.
  - intros k' E'. apply B2. congruence.
  - intros k [= <-]. now split.
Qed.
Lemma gk_on_ckp {A} (m : SM (cpe * ckp) A) : gkeeps (f_on_ckp m).
Proof. intros p B a. unfold f_on_ckp. destruct (g_ckp (fg p)); [|discriminate]. destruct (m _) as [r q]. intros _. exact B. Qed.
Lemma gk_on_le {A} (m : SM (cpe * loadenv) A) :
  (forall p, blank (gs_systems s) (snd p) -> forall a, fst (m p) = Ok a -> blank (gs_systems s) (snd (snd (m p)))) -> gkeeps (f_on_le m).
Proof.
  intros H p (B1 & B2) a. unfold f_on_le. destruct (g_le (fg p)) as [k|] eqn:E; [|discriminate]. specialize (H (fg_envs p, k) (B2 k eq_refl)).
  destruct (m _) as [r q]. cbn [fst snd] in *. intros X. split; cbn [fg g_config g_le]; [exact B1|]. intros k' [= <-]. now apply (H a).
Qed.
Lemma gk_set_build b : gkeeps (f_on_le (f_le_set_build b)).
Proof. apply gk_on_le. intros p B a _. now split. Qed.
Lemma gk_set_force b : gkeeps (f_on_le (f_le_set_force b)).
Proof. apply gk_on_le. intros p B a _. exact B. Qed.

Section Names.
Hypothesis U : unreadable fs (gs_systems s) \/ unreadable fs (gs_envs s).
Lemma gk_parsed : gkeeps (f_on_le (f_le_parsed_env_name uniword fs fuel other_re hostname (gs_systems s) (gs_envs s))).
Proof. apply gk_on_le. intros p B a E. destruct (parsed_fails _ _ U p B) as (e & X). congruence. Qed.
Lemma gk_check l : gkeeps (f_check_sections uniword fs fuel other_re hostname (gs_systems s) (gs_envs s) l).
Proof.
  induction l as [|x l IH]; cbn [f_check_sections]; [apply gk_ret|]. destruct (str_eqb (upper x) x); [exact IH|].
  apply gk_bind; [apply gk_set_build|]. intros _. apply gk_bind; [apply gk_on_ckp|]. intros _. apply gk_bind; [apply gk_on_ckp|]. intros o.
  apply gk_bind; [apply gk_parsed|]. intros n. apply gk_bind; [exact IH|]. intros r. apply gk_ret.
Qed.
Lemma gk_validate : gkeeps (f_validate_file uniword fs fuel other_re hostname s).
Proof.
  unfold f_validate_file. apply gk_bind; [apply gk_load_ckp|]. intros _. apply gk_bind; [apply gk_load_le|]. intros _.
  apply gk_bind; [apply gk_set_force|]. intros _. apply gk_bind; [apply gk_res|]. intros l. apply gk_bind; [apply gk_check|]. intros [|]; [|apply gk_raise].
  apply gk_bind; [apply gk_gen; intros p; now split|]. intros g. apply gk_bind; [apply gk_set_build|]. intros _.
  apply gk_bind; [apply gk_set_force|]. intros _. apply gk_bind; [apply gk_on_ckp|]. intros _. apply gk_gen. intros p. now split.
Qed.
Lemma complete_fails p : gblank p ->
  exists e, fst (f_complete_config uniword fs fuel other_re hostname (gs_systems s) (gs_envs s) (gs_flags s) p) = Err e.
Proof.
  intros B. unfold f_complete_config, bind at 1. cbn [on_gen get fst snd fg]. rewrite (proj1 B).
  assert (B' : gblank (FGen (fg_flags p) (fg_envs p) (fg p))) by exact B. clear B. set (q := FGen (fg_flags p) (fg_envs p) (fg p)) in *. clearbody q.
  unfold bind at 1. assert (B1 := gk_load_ckp (gs_flags s) q B'). destruct (f_load_ckp _ _ _ _ _) as [[u|e] q1]; [|now exists e]. specialize (B1 u eq_refl).
  unfold bind at 1. assert (B2 := gk_load_le q1 B1 tt eq_refl). assert (G : exists k, g_le (fg (snd (f_load_le q1))) = Some k).
  { unfold f_load_le, on_gen, load_le, modify. cbn [snd fg]. destruct (g_le (fg q1)) as [k|] eqn:E; [exists k; exact E|eexists; reflexivity]. }
  change (f_load_le q1) with (Ok tt, snd (f_load_le q1)). cbn [fst snd] in *. destruct G as (k & G). set (q2 := snd (f_load_le q1)) in *. clearbody q2.
  cbv beta iota. unfold bind at 1, f_on_le at 1. rewrite G. destruct (parsed_fails _ _ U (fg_envs q2, k) (proj2 B2 _ G)) as (e & E).
  exists e. destruct (f_le_parsed_env_name _ _ _ _ _ _ _ _) as [r z]. cbn [fst] in E. now rewrite E.
Qed.
End Names.

Hypothesis U : unreadable fs (gs_systems s) \/ unreadable fs (gs_envs s) \/ unreadable fs (gs_flags s) \/ unreadable fs (gs_specs s).
Lemma validate_fails p : g_ckp (fg p) = None -> unreadable fs (gs_flags s) \/ unreadable fs (gs_specs s) ->
  exists e, fst (f_validate_file uniword fs fuel other_re hostname s p) = Err e.
Proof.
  intros N H. unfold f_validate_file. assert (C : (exists e, fst (f_load_ckp uniword fs fuel (gs_flags s) p) = Err e) \/ unreadable fs (gs_specs s)).
  { destruct H as [H|H]; [left|now right]. destruct (no_ckp _ (g_build (fg p)) H) as (e & E). exists e. unfold f_load_ckp, bind at 1. cbn [on_gen get fst snd fg].
    rewrite N. apply bind_err. now rewrite E. }
  destruct C as [(e & E)|C]; [exists e; now apply bind_err|]. destruct (no_names _ C) as (e & E).
  unfold bind at 1. destruct (f_load_ckp _ _ _ _ _) as [[u|x] p1]; [|now exists x].
  unfold bind at 1. destruct (f_load_le p1) as [[u'|x] p2]; [|now exists x].
  unfold bind at 1. destruct (f_on_le _ p2) as [[u2|x] p3]; [|now exists x].
  exists e. apply bind_err. unfold f_spec_names. now rewrite E.
Qed.
Lemma generated_fails kind b f : exists e, fst (f_generated uniword fs fuel other_re hostname gen_in s kind (f_new_genconfig (gs_envs s) (gs_flags s) b f)) = Err e.
Proof.
  set (p := f_new_genconfig (gs_envs s) (gs_flags s) b f). unfold f_generated, bind at 1. cbn [on_gen get fst snd fg]. change (g_valid (fg p)) with false. cbv iota.
  change (FGen (fg_flags p) (fg_envs p) (fg p)) with p.
  assert (C : (unreadable fs (gs_systems s) \/ unreadable fs (gs_envs s)) \/ unreadable fs (gs_flags s) \/ unreadable fs (gs_specs s)) by tauto.
  assert (BL : gblank p) by (split; [reflexivity|intros k X; discriminate X]).
  destruct C as [C|C].
  - unfold bind at 1. assert (V := gk_validate C p). destruct (f_validate_file _ _ _ _ _ _ p) as [[u|e] q]; [|now exists e].
    destruct (complete_fails C q) as (e & E); [exact (V BL u eq_refl)|]. exists e. now apply bind_err.
  - destruct (validate_fails p eq_refl C) as (e & E). exists e. now apply bind_err.
Qed.
Lemma gc_fails kind w : fv_gc w = f_new_genconfig (gs_envs s) (gs_flags s) (gs_build s) (gs_force s) ->
  exists e w', f_on_gc (f_generated uniword fs fuel other_re hostname gen_in s kind) w = (Err e, w') /\ fv_out w' = fv_out w.
Proof.
  intros W. destruct (generated_fails kind (gs_build s) (gs_force s)) as (e & E). unfold f_on_gc. rewrite W.
  destruct (f_generated _ _ _ _ _ _ _ _ _) as [r q]. cbn [fst] in E. rewrite E. now do 2 eexists.
Qed.
Lemma gen_run_fails files : gs_list_flags s = false -> gs_list s = false -> gs_save s = None ->
  f_gen_run uniword fs fuel other_re hostname gen_in args_file loc_file writable answers s files =
    (1%N, match gs_fragment s with Some _ => files | None => if writable args_file then dset args_file [] files else files end).
Proof.
  intros L1 L2 L3.
  assert (X : exists e w', f_gen_main uniword fs fuel other_re hostname gen_in args_file loc_file writable s (f_new_gworld answers s files) = (Err e, w') /\
    fv_out w' = match gs_fragment s with Some _ => files | None => if writable args_file then dset args_file [] files else files end).
  { set (w := f_new_gworld answers s files). unfold f_gen_main. rewrite L3. destruct (gs_fragment s) as [p|].
    - unfold f_write_fragment. unfold bind at 1 2. cbn [get]. change (fv_fragment w) with (@None str). cbv iota. unfold bind at 1, f_flags_of.
      destruct (gc_fails $"cmake_fragment" w eq_refl) as (e & w' & E & O). rewrite E. exists e, w'. split; [reflexivity|exact O].
    - unfold f_open_file at 1. destruct (writable args_file); [|now do 2 eexists]. unfold bind at 1. cbn [f_put_out modify]. cbv beta iota.
      set (w1 := FGWorld _ _ _ _). unfold bind at 1, f_flags_str, f_flags_of, bind at 1.
      destruct (gc_fails $"bash" w1 eq_refl) as (e & w' & E & O). rewrite E. exists e, w'. split; [reflexivity|exact O]. }
  destruct X as (e & w' & E & O). unfold f_gen_run. cbv zeta. rewrite L1, L2, E. cbn [fst snd status]. now rewrite O.
Qed.
End Gen.
End Unreadable.

(** ** The programs *)
Section Whole.
Variable uni_digit uniword : pychar -> bool.
Variable fs : str -> option str.
Variable fuel : nat.
Variable there : path -> bool.
Variable real : path -> str.
Variables load_ini gen_ini : str.
Variable gen_in : str -> str -> str -> res (list str).
Variable other_re : str -> str -> res bool.
Variable hostname : str.
Variable which : environ -> str -> option str.
Variable mods : list str -> environ -> res Z * environ.
Variable other : str -> environ -> res Z * environ.
Variable header : str -> str.
Variable tmp_file : str.
Variable writable : str -> bool.
Variables args_file loc_file : str.
Variable answers : list str.
Variable without_loadenv : gen_settings -> dict str -> N * dict str.
Notation is_digit := (fun c => digit uni_digit c = true).

Lemma load_unreadable d argv evs s e files :
  load_top uniword fs fuel load_ini d -> reading is_digit load_options true argv evs -> no_help evs -> load_means real load_ini d evs s ->
  unreadable fs (ls_systems s) \/ unreadable fs (ls_envs s) ->
  f_load_program uni_digit uniword fs fuel real load_ini other_re hostname which mods other header tmp_file writable argv e files = (1%N, files).
Proof.
  intros T R N M U. destruct (load_args_reads uni_digit uniword fs fuel real load_ini d _ _ T R N) as (s0 & E & M0).
  rewrite (load_means_det _ _ _ _ _ _ _ _ _ _ _ T R M0 M) in E. unfold f_load_program. rewrite E. now apply run_fails.
Qed.
Lemma gen_unreadable dg dl argv evs s e files :
  gen_top uniword fs fuel there gen_ini dg dl -> reading is_digit gen_options true argv evs -> no_help evs -> gen_means real gen_ini dg dl evs s ->
  has_loadenv uniword fs fuel real load_ini s ->
  ~ flagged $"--list-config-flags" evs -> ~ flagged $"--list-configs" evs -> given $"--save-load-env-args" evs None ->
  unreadable fs (gs_systems s) \/ unreadable fs (gs_envs s) \/ unreadable fs (gs_flags s) \/ unreadable fs (gs_specs s) ->
  f_gen_program uni_digit uniword fs fuel there real load_ini gen_ini other_re hostname gen_in args_file loc_file writable answers without_loadenv argv e files =
    (1%N, match gs_fragment s with Some _ => files | None => if writable args_file then dset args_file [] files else files end).
Proof.
  intros T R N M HL H1 H2 NS U. destruct (gen_args_reads uni_digit uniword fs fuel there real gen_ini dg dl _ _ T R N) as (s0 & E & M0).
  rewrite (gen_means_det _ _ _ _ _ _ _ _ _ _ _ _ _ T R M0 M) in E. clear s0 M0.
  assert (GD : forall o g g', given o evs g -> given o evs g' -> g = g').
  { intros o. exact (given_det uni_digit (real_text real) _ $"build_name" (proj1 (gen_table uni_digit)) (proj2 (gen_table uni_digit)) _ _ R o). }
  unfold f_gen_program. rewrite E, with_loadenv by exact HL. apply gen_run_fails; [exact U| | |].
  - destruct (gs_list_flags s) eqn:L; [|reflexivity]. elim H1. now apply (gm_list_flags _ _ _ _ _ _ M).
  - destruct (gs_list s) eqn:L; [|reflexivity]. elim H2. now apply (gm_list _ _ _ _ _ _ M).
  - exact (path_det real _ evs _ None (GD _) (gm_save _ _ _ _ _ _ M) NS).
Qed.
End Whole.
