(** * Proofs about what does not matter in the text of a file: the programs. *)
From Coq Require Import String ZArith NArith List Bool.
Import ListNotations.
From Verif Require Import PyBase Shlex ExcControl IniView Cpe EnvVar SetEnv Regex Keyword KeywordFile DetSys EnvKeyword LoadEnv LoadRun GenRun ArgParse
  TopLevel Programs FileObjects FilePrograms SpecLayout LayoutProofs2.
Local Open Scope list_scope.
Local Open Scope sm_scope.

Section Programs.
Variable uniword : pychar -> bool.
Variables fs fs' : str -> option str.
Hypothesis SF : same_files fs fs'.
Variable fuel : nat.
Variable other_re : str -> str -> res bool.
Variable hostname : str.
Notation K := (base_class uniword).
Notation cpe := (obj unit unit).

Lemma ext_on_file {X A} (m m' : SM cpe A) : ext m m' -> ext (@on_file X A m) (on_file m').
Proof. intros H p. unfold on_file. now rewrite H. Qed.
Lemma ext_on_ekp {A} k (m m' : SM (cpe * ekp) A) : ext m m' -> ext (on_ekp k m) (on_ekp k m').
Proof. intros H p. unfold on_ekp. now rewrite H. Qed.
Lemma ext_on_ckp {A} (m m' : SM (cpe * ckp) A) : ext m m' -> ext (f_on_ckp m) (f_on_ckp m').
Proof. intros H p. unfold f_on_ckp. destruct (g_ckp (fg p)); [now rewrite H|reflexivity]. Qed.
Lemma ext_on_le {A} (m m' : SM (cpe * loadenv) A) : ext m m' -> ext (f_on_le m) (f_on_le m').
Proof. intros H p. unfold f_on_le. destruct (g_le (fg p)); [now rewrite H|reflexivity]. Qed.
Lemma ext_item s : ext (getitem K fs fuel s) (getitem K fs' fuel s).
Proof. now apply ext_getitem. Qed.
Lemma ext_option s k : ext (has_option K fs fuel s k) (has_option K fs' fuel s k).
Proof. now apply ext_has_option. Qed.
Lemma ext_section s : ext (has_section K fs fuel s) (has_section K fs' fuel s).
Proof. now apply ext_has. Qed.
Lemma ext_names p : ext (data_sections K fs fuel p) (data_sections K fs' fuel p).
Proof. now apply ext_sections. Qed.
Hint Resolve ext_item ext_option ext_section ext_names : core.

Ltac step :=
  match goal with
  | |- ext ?m ?m => apply ext_refl
  | |- ext (bind _ _) (bind _ _) => apply ext_bind; [|intros ?]
  | |- ext (on_file _) (on_file _) => apply ext_on_file
  | |- ext (on_ekp _ _) (on_ekp _ _) => apply ext_on_ekp
  | |- ext (f_on_ckp _) (f_on_ckp _) => apply ext_on_ckp
  | |- ext (f_on_le _) (f_on_le _) => apply ext_on_le
  | |- ext (match ?x with _ => _ end) _ => destruct x
  | |- _ => solve [auto]
  end.
Ltac steps := repeat step.

(** ** The objects *)
Lemma ext_option_on s k : ext (option_on K fs fuel s k) (option_on K fs' fuel s k).
Proof. unfold option_on. steps. Qed.
Hint Resolve ext_option_on : core.
Lemma ext_values s k : ext (get_values_on K fs fuel s k) (get_values_on K fs' fuel s k).
Proof. unfold get_values_on. cbv zeta. steps. Qed.
Hint Resolve ext_values : core.
Lemma ext_find_key s v l : forall f, ext (find_key_on K fs fuel s v l f) (find_key_on K fs' fuel s v l f).
Proof. induction l; intros; cbn [find_key_on]; steps. Qed.
Hint Resolve ext_find_key : core.
Lemma ext_key s k : ext (get_key_on K fs fuel s k) (get_key_on K fs' fuel s k).
Proof. unfold get_key_on. steps. Qed.
Hint Resolve ext_key : core.
Lemma same_new_ckp file build : f_new_ckp uniword fs fuel file build = f_new_ckp uniword fs' fuel file build.
Proof. unfold f_new_ckp. now rewrite ext_item. Qed.
Lemma ext_flag_options f : ext (f_flag_options uniword fs fuel f) (f_flag_options uniword fs' fuel f).
Proof. unfold f_flag_options. steps. Qed.
Hint Resolve ext_flag_options : core.
Lemma ext_select w f : ext (f_select uniword fs fuel w f) (f_select uniword fs' fuel w f).
Proof. unfold f_select. cbv zeta. steps. Qed.
Hint Resolve ext_select : core.
Lemma ext_select_all w l : forall acc, ext (f_select_all uniword fs fuel w l acc) (f_select_all uniword fs' fuel w l acc).
Proof. induction l; intros; cbn [f_select_all]; steps. Qed.
Lemma ext_all_options l : ext (f_all_options uniword fs fuel l) (f_all_options uniword fs' fuel l).
Proof. induction l; cbn [f_all_options]; steps. Qed.
Hint Resolve ext_select_all ext_all_options : core.
Lemma ext_options_list : ext (f_options_list uniword fs fuel) (f_options_list uniword fs' fuel).
Proof. unfold f_options_list. steps. Qed.
Hint Resolve ext_options_list : core.
Lemma ext_parse_selected : ext (f_parse_selected_options uniword fs fuel) (f_parse_selected_options uniword fs' fuel).
Proof. unfold f_parse_selected_options. steps. Qed.
Hint Resolve ext_parse_selected : core.
Lemma ext_selected : ext (f_selected_options uniword fs fuel) (f_selected_options uniword fs' fuel).
Proof. unfold f_selected_options. steps. Qed.
Hint Resolve ext_selected : core.
Lemma ext_selected_str : ext (f_selected_options_str uniword fs fuel) (f_selected_options_str uniword fs' fuel).
Proof. unfold f_selected_options_str. cbv zeta. steps. Qed.
Hint Resolve ext_selected_str : core.

Lemma ext_sys_names : ext (f_sys_names uniword fs fuel) (f_sys_names uniword fs' fuel).
Proof. unfold f_sys_names. steps. Qed.
Hint Resolve ext_sys_names : core.
Lemma ext_first_system l : ext (f_first_system uniword fs fuel other_re hostname l) (f_first_system uniword fs' fuel other_re hostname l).
Proof. induction l; cbn [f_first_system]; steps. Qed.
Hint Resolve ext_first_system : core.
Lemma ext_from_hostname : ext (f_sys_from_hostname uniword fs fuel other_re hostname) (f_sys_from_hostname uniword fs' fuel other_re hostname).
Proof. unfold f_sys_from_hostname. steps. Qed.
Lemma ext_from_build b : ext (f_sys_from_build uniword fs fuel b) (f_sys_from_build uniword fs' fuel b).
Proof. unfold f_sys_from_build. steps. Qed.
Hint Resolve ext_from_hostname ext_from_build : core.
Lemma ext_determine : ext (f_determine_system uniword fs fuel other_re hostname) (f_determine_system uniword fs' fuel other_re hostname).
Proof. unfold f_determine_system. steps. Qed.
Hint Resolve ext_determine : core.
Lemma ext_system : ext (f_system_name uniword fs fuel other_re hostname) (f_system_name uniword fs' fuel other_re hostname).
Proof. unfold f_system_name. steps. Qed.

Lemma ext_all_values s l : ext (f_all_values uniword fs fuel s l) (f_all_values uniword fs' fuel s l).
Proof. induction l; cbn [f_all_values]; steps. Qed.
Hint Resolve ext_all_values : core.
Lemma ext_aliases s : ext (f_get_aliases uniword fs fuel s) (f_get_aliases uniword fs' fuel s).
Proof. unfold f_get_aliases. steps. Qed.
Hint Resolve ext_aliases : core.
Lemma same_new_ekp file b s : f_new_ekp uniword fs fuel file b s = f_new_ekp uniword fs' fuel file b s.
Proof.
  unfold f_new_ekp.
  assert (E : ext (d <- getitem K fs fuel s ;; l <- f_get_aliases uniword fs fuel s ;; ret (Ekp b s (by_length (dkeys d)) (by_length l) None))
    (d <- getitem K fs' fuel s ;; l <- f_get_aliases uniword fs' fuel s ;; ret (Ekp b s (by_length (dkeys d)) (by_length l) None))) by steps.
  now rewrite E.
Qed.
Lemma ext_matched p : ext (f_matched_env uniword fs fuel other_re p) (f_matched_env uniword fs' fuel other_re p).
Proof. unfold f_matched_env. steps. Qed.
Hint Resolve ext_matched : core.
Lemma ext_qualified : ext (f_qualified_env_name uniword fs fuel other_re) (f_qualified_env_name uniword fs' fuel other_re).
Proof. unfold f_qualified_env_name. cbv zeta. steps. Qed.
Hint Resolve ext_qualified : core.

Lemma ext_le_system sf : ext (f_le_system_name uniword fs fuel other_re hostname sf) (f_le_system_name uniword fs' fuel other_re hostname sf).
Proof.
  unfold f_le_system_name. apply ext_bind; [apply ext_refl|]. intros p. destruct (l_system p); [apply ext_refl|].
  rewrite ext_system. apply ext_refl.
Qed.
Hint Resolve ext_le_system : core.
Lemma ext_le_load sf ef : ext (f_le_load_ekp uniword fs fuel other_re hostname sf ef) (f_le_load_ekp uniword fs' fuel other_re hostname sf ef).
Proof.
  unfold f_le_load_ekp. apply ext_bind; [apply ext_refl|]. intros p. apply ext_bind; [auto|]. intros s. rewrite same_new_ekp. apply ext_refl.
Qed.
Hint Resolve ext_le_load : core.
Lemma ext_le_ekp sf ef : ext (f_le_ekp uniword fs fuel other_re hostname sf ef) (f_le_ekp uniword fs' fuel other_re hostname sf ef).
Proof. unfold f_le_ekp. steps. Qed.
Hint Resolve ext_le_ekp : core.
Lemma ext_le_parsed sf ef : ext (f_le_parsed_env_name uniword fs fuel other_re hostname sf ef) (f_le_parsed_env_name uniword fs' fuel other_re hostname sf ef).
Proof. unfold f_le_parsed_env_name. steps. Qed.
Hint Resolve ext_le_parsed : core.

Lemma ext_load_ckp ff : ext (f_load_ckp uniword fs fuel ff) (f_load_ckp uniword fs' fuel ff).
Proof.
  unfold f_load_ckp. apply ext_bind; [apply ext_refl|]. intros p. destruct (g_ckp p); [apply ext_refl|]. rewrite same_new_ckp. apply ext_refl.
Qed.
Hint Resolve ext_load_ckp : core.
Lemma ext_complete sf ef ff : ext (f_complete_config uniword fs fuel other_re hostname sf ef ff) (f_complete_config uniword fs' fuel other_re hostname sf ef ff).
Proof. unfold f_complete_config. cbv zeta. steps. Qed.
Lemma ext_check sf ef l : ext (f_check_sections uniword fs fuel other_re hostname sf ef l) (f_check_sections uniword fs' fuel other_re hostname sf ef l).
Proof. induction l; cbn [f_check_sections]; steps. Qed.
Hint Resolve ext_complete ext_check : core.

(** ** The top-level files *)
Lemma ext_get_item s k : ext (get_item uniword fs fuel s k) (get_item uniword fs' fuel s k).
Proof. unfold get_item. steps. Qed.
Lemma ext_put_item s k v : ext (put_item uniword fs fuel s k v) (put_item uniword fs' fuel s k v).
Proof. unfold put_item. steps. Qed.
Hint Resolve ext_get_item ext_put_item : core.
Lemma ext_check_key f s k : ext (check_key uniword fs fuel f s k) (check_key uniword fs' fuel f s k).
Proof. unfold check_key. steps. Qed.
Lemma ext_check_section s : ext (check_section uniword fs fuel s) (check_section uniword fs' fuel s).
Proof. unfold check_section. steps. Qed.
Hint Resolve ext_check_key ext_check_section : core.
Lemma ext_top f : ext (parse_top_level uniword fs fuel f) (parse_top_level uniword fs' fuel f).
Proof. unfold parse_top_level. apply ext_bind; [auto|]. intros _. apply ext_for_each. auto. Qed.
Lemma ext_le_file real g k : ext (le_file uniword fs fuel str real g k) (le_file uniword fs' fuel str real g k).
Proof. unfold le_file. steps. Qed.
Lemma ext_exists there s k : ext (check_exists uniword fs fuel there s k) (check_exists uniword fs' fuel there s k).
Proof. unfold check_exists. steps. Qed.
Hint Resolve ext_le_file ext_exists : core.
Lemma ext_check_files there f l : ext (check_files uniword fs fuel there f l) (check_files uniword fs' fuel there f l).
Proof. induction l as [|[s k] l IH]; cbn [check_files]; steps. Qed.
Hint Resolve ext_check_files : core.
Lemma ext_gen_data there f : ext (gen_data uniword fs fuel there f) (gen_data uniword fs' fuel there f).
Proof. unfold gen_data. steps. Qed.
Hint Resolve ext_gen_data : core.
Lemma ext_or_else g (m m' : SM cpe str) : ext m m' -> ext (or_else g m) (or_else g m').
Proof. intros H. destruct g; [apply ext_refl|exact H]. Qed.
Hint Resolve ext_or_else : core.
Lemma ext_load_files real ns : ext (load_files uniword fs fuel real ns) (load_files uniword fs' fuel real ns).
Proof. unfold load_files. steps. Qed.
Lemma ext_gen_files there real f ns : ext (gen_files_of uniword fs fuel there real f ns) (gen_files_of uniword fs' fuel there real f ns).
Proof. unfold gen_files_of. steps. Qed.
Lemma same_load_args uni_digit real f argv : load_args uni_digit uniword fs fuel real f argv = load_args uni_digit uniword fs' fuel real f argv.
Proof.
  unfold load_args. rewrite ext_top. destruct (parse_top_level _ _ _ _ _) as [[?|?] o]; [|reflexivity].
  unfold obind. destruct (load_parse _ _ _) as [ns|n|]; [rewrite ext_load_files| |]; reflexivity.
Qed.
Lemma same_gen_args uni_digit there real f argv :
  gen_args uni_digit uniword fs fuel there real f argv = gen_args uni_digit uniword fs' fuel there real f argv.
Proof. unfold gen_args, obind. destruct (gen_parse _ _ _) as [ns|n|]; [rewrite ext_gen_files| |]; reflexivity. Qed.

(** ** load_env.py *)
Section Load.
Variable which : environ -> str -> option str.
Variable mods : list str -> environ -> res Z * environ.
Variable other : str -> environ -> res Z * environ.
Variable header : str -> str.
Variable tmp_file : str.
Variable writable : str -> bool.
Variable s : load_settings.
Notation KS := (SetEnvironment uniword).

Lemma ext_on_names {A} (m m' : SM (cpe * loadenv) A) : ext m m' -> ext (f_on_names m) (f_on_names m').
Proof. intros H w. unfold f_on_names. now rewrite H. Qed.
Lemma ext_on_set {A} (m m' : SM world A) : ext m m' -> ext (f_on_set m) (f_on_set m').
Proof. intros H w. unfold f_on_set. destruct (fr_set w); [now rewrite H|reflexivity]. Qed.
Lemma ext_on_obj {A} (m m' : SM sobj A) : ext m m' -> ext (on_obj m) (on_obj m').
Proof. intros H w. unfold on_obj. now rewrite H. Qed.
Lemma ext_apply n : ext (apply which mods other uniword fs fuel n) (apply which mods other uniword fs' fuel n).
Proof. intros w. unfold apply. rewrite (ext_on_obj _ (getitem KS fs' fuel n)); [reflexivity|]. now apply ext_getitem. Qed.
Lemma ext_write n a b c d : ext (write_actions uniword fs fuel header n a b c d) (write_actions uniword fs' fuel header n a b c d).
Proof.
  assert (P : forall i f, ext (parse_section_str KS fs fuel n i f) (parse_section_str KS fs' fuel n i f)) by (intros; now apply ext_parse_str).
  unfold write_actions, generate_script. cbv zeta. steps.
Qed.
Lemma ext_assert : ext (assert_file KS fs fuel) (assert_file KS fs' fuel).
Proof. now apply ext_assert_file. Qed.
Hint Resolve ext_apply ext_write ext_assert : core.
Ltac wstep :=
  match goal with
  | |- ext (f_on_names _) (f_on_names _) => apply ext_on_names
  | |- ext (f_on_set _) (f_on_set _) => apply ext_on_set
  | |- ext (on_obj _) (on_obj _) => apply ext_on_obj
  | |- _ => step
  end.
Lemma ext_load_set : ext (f_load_set uniword fs fuel s) (f_load_set uniword fs' fuel s).
Proof. unfold f_load_set. repeat wstep. Qed.
Hint Resolve ext_load_set : core.
Lemma ext_need : ext (f_need_set uniword fs fuel s) (f_need_set uniword fs' fuel s).
Proof. unfold f_need_set. repeat wstep. Qed.
Lemma ext_env_name : ext (f_env_name uniword fs fuel other_re hostname s) (f_env_name uniword fs' fuel other_re hostname s).
Proof. unfold f_env_name. repeat wstep. Qed.
Hint Resolve ext_need ext_env_name : core.
Lemma ext_apply_env : ext (f_apply_env uniword fs fuel other_re hostname which mods other s) (f_apply_env uniword fs' fuel other_re hostname which mods other s).
Proof. unfold f_apply_env. repeat wstep. Qed.
Lemma ext_write_one p : ext (f_write_one uniword fs fuel other_re hostname header writable s p) (f_write_one uniword fs' fuel other_re hostname header writable s p).
Proof. unfold f_write_one. repeat wstep. Qed.
Hint Resolve ext_apply_env ext_write_one : core.
Lemma ext_write_each l : ext (f_write_each uniword fs fuel other_re hostname header writable s l) (f_write_each uniword fs' fuel other_re hostname header writable s l).
Proof. induction l; cbn [f_write_each]; repeat wstep. Qed.
Hint Resolve ext_write_each : core.
Lemma ext_load_main : ext (f_load_main uniword fs fuel other_re hostname which mods other header tmp_file writable s)
  (f_load_main uniword fs' fuel other_re hostname which mods other header tmp_file writable s).
Proof. unfold f_load_main, f_write_env. repeat wstep. Qed.
Lemma ext_list_envs : ext (f_list_envs uniword fs fuel other_re hostname s) (f_list_envs uniword fs' fuel other_re hostname s).
Proof. unfold f_list_envs. repeat wstep. Qed.
Lemma same_load_run e files : f_load_run uniword fs fuel other_re hostname which mods other header tmp_file writable s e files
  = f_load_run uniword fs' fuel other_re hostname which mods other header tmp_file writable s e files.
Proof. unfold f_load_run. cbv zeta. destruct (ls_list s); [now rewrite ext_list_envs|now rewrite ext_load_main]. Qed.
End Load.

Lemma same_load_program uni_digit real load_ini which mods other header tmp_file writable argv e files :
  f_load_program uni_digit uniword fs fuel real load_ini other_re hostname which mods other header tmp_file writable argv e files
  = f_load_program uni_digit uniword fs' fuel real load_ini other_re hostname which mods other header tmp_file writable argv e files.
Proof. unfold f_load_program. rewrite same_load_args. destruct (load_args _ _ _ _ _ _ _); [apply same_load_run| |]; reflexivity. Qed.

(** ** gen_config.py *)
Section Gen.
Variable gen_in : str -> str -> str -> res (list str).
Variable args_file loc_file : str.
Variable writable : str -> bool.
Variable answers : list str.
Variable without_loadenv : gen_settings -> dict str -> N * dict str.
Variable s : gen_settings.

Lemma same_names : f_spec_names fs s = f_spec_names fs' s.
Proof. unfold f_spec_names. now rewrite (ext_keys _ _ SF). Qed.
Lemma same_sections : f_spec_sections uniword fs fuel s = f_spec_sections uniword fs' fuel s.
Proof. unfold f_spec_sections. now rewrite ext_names. Qed.
Lemma ext_validate : ext (f_validate_file uniword fs fuel other_re hostname s) (f_validate_file uniword fs' fuel other_re hostname s).
Proof. unfold f_validate_file. rewrite same_names. steps. Qed.
Hint Resolve ext_validate : core.
Lemma ext_generated k : ext (f_generated uniword fs fuel other_re hostname gen_in s k) (f_generated uniword fs' fuel other_re hostname gen_in s k).
Proof. unfold f_generated. steps. Qed.
Lemma ext_list_file : ext (f_list_file uniword fs fuel other_re hostname s) (f_list_file uniword fs' fuel other_re hostname s).
Proof. unfold f_list_file. rewrite same_sections. steps. Qed.
Hint Resolve ext_generated ext_list_file : core.
Lemma ext_on_gc {A} (m m' : SM fgen A) : ext m m' -> ext (f_on_gc m) (f_on_gc m').
Proof. intros H w. unfold f_on_gc. now rewrite H. Qed.
Ltac gstep := match goal with |- ext (f_on_gc _) (f_on_gc _) => apply ext_on_gc | |- _ => step end.
Lemma ext_fragment p : ext (f_write_fragment uniword fs fuel other_re hostname gen_in writable s p)
  (f_write_fragment uniword fs' fuel other_re hostname gen_in writable s p).
Proof. unfold f_write_fragment, f_flags_of. repeat gstep. Qed.
Lemma ext_flags_str : ext (f_flags_str uniword fs fuel other_re hostname gen_in s) (f_flags_str uniword fs' fuel other_re hostname gen_in s).
Proof. unfold f_flags_str, f_flags_of. repeat gstep. Qed.
Hint Resolve ext_fragment ext_flags_str : core.
Lemma ext_gen_main : ext (f_gen_main uniword fs fuel other_re hostname gen_in args_file loc_file writable s)
  (f_gen_main uniword fs' fuel other_re hostname gen_in args_file loc_file writable s).
Proof. unfold f_gen_main. repeat gstep. Qed.
Lemma same_gen_run files : f_gen_run uniword fs fuel other_re hostname gen_in args_file loc_file writable answers s files
  = f_gen_run uniword fs' fuel other_re hostname gen_in args_file loc_file writable answers s files.
Proof.
  unfold f_gen_run. cbv zeta. destruct (gs_list_flags s); [|destruct (gs_list s)].
  - rewrite (ext_bind _ (f_on_gc (f_load_ckp uniword fs' fuel (gs_flags s))) _ (fun _ => raise SystemExit)); [reflexivity|repeat gstep|intros; apply ext_refl].
  - rewrite (ext_bind _ (f_on_gc (f_list_file uniword fs' fuel other_re hostname s)) _ (fun _ => ret tt)); [reflexivity|repeat gstep|intros; apply ext_refl].
  - now rewrite ext_gen_main.
Qed.
End Gen.

Lemma same_gen_program uni_digit there real load_ini gen_ini gen_in args_file loc_file writable answers without_loadenv argv e files :
  f_gen_program uni_digit uniword fs fuel there real load_ini gen_ini other_re hostname gen_in args_file loc_file writable answers without_loadenv argv e files
  = f_gen_program uni_digit uniword fs' fuel there real load_ini gen_ini other_re hostname gen_in args_file loc_file writable answers without_loadenv argv e files.
Proof.
  unfold f_gen_program. rewrite same_gen_args. destruct (gen_args _ _ _ _ _ _ _ _) as [g| |]; [|reflexivity|reflexivity].
  unfold same_loadenv. rewrite same_load_args. destruct (_ && _); [reflexivity|]. apply same_gen_run.
Qed.
End Programs.
