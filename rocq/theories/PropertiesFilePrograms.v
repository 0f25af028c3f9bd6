(** * C92: the programs with all their [.ini] files.

    Statements and examples only. *)
From Coq Require Import String NArith ZArith List Bool.
Import ListNotations.
From Verif Require Import PyBase PyFacts IniView IniRead ExcControl Cpe EnvVar Bash SetEnv DetSys EnvKeyword LoadEnv LoadRun GenRun
  SpecText SpecWalk SpecRun SpecParse SpecApi SpecEnv SpecSetEnv SpecBash SpecLoadEnv SpecLoadRun TopLevel SpecTop SpecGenRun ArgParse SpecArgs
  SpecObjects SpecRead SpecLayout
  Samples SamplesApi BashTextProofs LoadRunProofs LoadRunProofs3 LoadSh SpecSh ShProofs ShProofs2 GenSh SpecGenSh GenShProofs GenShProofs2
  TopProofs ArgProofs4 Programs SpecPrograms ProgProofs ProgProofs3 ProgProofs4 FileObjects FilePrograms SpecFilePrograms
  ReadProofs3 FileProgProofs2 FileProgProofs3 LayoutProofs3
  PropertiesKeyword PropertiesSetEnv PropertiesLoadEnv PropertiesLoadRun PropertiesGenRun PropertiesSh PropertiesGenSh PropertiesArgs
  PropertiesPrograms PropertiesObjects.
Local Open Scope string_scope.
Local Open Scope list_scope.

Section C92.
(** What the scripts meet: see [LoadSh.v] and [GenSh.v]. *)
Variable glob : str -> list str.
Variable odd_test : list str -> bool.
Variable odd_status : str -> N.
Variable which_python3 too_old : environ -> str.
Variable python3 : list str -> environ -> dict str -> N * dict str.
Variable interactive : list str -> environ -> dict str -> dict str.
Variable run_text run_function : str -> sh unit.
Variable here random : str.
Variable directory : str -> bool.
Variable cmake : list str -> environ -> dict str -> dict str.
Variable odd_source : list str -> sh N.
Notation load_env_sh := (load_env_sh glob odd_test odd_status which_python3 too_old python3 interactive run_text run_function here random).
Notation gen_config_sh := (gen_config_sh glob odd_test odd_status which_python3 too_old python3 interactive run_text run_function
  here random directory cmake odd_source).
Notation load_line m := (load_command (here ++ $"/LoadEnv") random m).

(** What the programs meet: see [FilePrograms.v]. *)
Variable uni_digit uniword : pychar -> bool.
Variable fs : str -> option str.
Variable fuel : nat.
Variable there : path -> bool.
Variable real : path -> str.
Variables load_ini gen_ini : str.
(** What the files say. *)
Variable systems : list (str * list str).
Variable envs flags : str -> res (dict (option str)).
Variable specs : list str.
Variable gen_in : str -> str -> str -> res (list str).
Variable other_re : str -> str -> res bool.
Variable hostname : str.
Variable which : environ -> str -> option str.
Variable mods : list str -> environ -> res Z * environ.
Variable other : str -> environ -> res Z * environ.
Variable header : str -> str.
Variable env_file : str.
Variables writable1 writable2 : str -> bool.
Variable args_file : str.
Variable answers : list str.
Variable without_loadenv : gen_settings -> dict str -> N * dict str.
Notation is_digit := (fun c => digit uni_digit c = true).
Notation load_program := (f_load_program uni_digit uniword fs fuel real load_ini other_re hostname which mods other
  header env_file writable2).
Notation gen_program loc := (f_gen_program uni_digit uniword fs fuel there real load_ini gen_ini other_re hostname gen_in args_file loc writable1
  answers without_loadenv).

(** The program of C73, on a line that means [s], with the systems and environments
    that the files named by the line and the top-level file describe. *)
Theorem C92_load_env :
  forall d argv evs s,
    load_top uniword fs fuel load_ini d -> reading is_digit load_options true argv evs -> no_help evs ->
      load_means real load_ini d evs s -> load_files_tell uniword fs fuel s systems envs ->
      forall e files,
        let main := load_main other_re systems hostname envs which mods other uniword fs fuel
          header (ls_specs s) env_file (ls_output s) (ls_location s) false writable2 (new_lworld (ls_build s) (ls_force s) e files) in
        let list := lexec other_re systems hostname envs LStripped (new_loadenv (ls_build s) (ls_force s)) in
        (~ flagged $"--list-envs" evs ->
           load_program argv e files = (match fst main with Ok _ => 0%N | Err _ => 1%N end, r_out (snd main))) /\
        (flagged $"--list-envs" evs ->
           load_program argv e files = (match fst list with Ok _ => 0%N | Err _ => 1%N end, files)).
Proof. exact (file_load_runs uni_digit uniword fs fuel real load_ini systems envs other_re hostname which mods other header env_file writable2). Qed.
(** The environment that [load-env.sh --ci-mode ...] leaves, as C73. *)
Theorem C92_environment :
  forall d i s evs subst_pattern sed_other echo_option which_prints module_command other_command args stem t,
    runs_program python3 (here ++ $"/load_env.py") load_program ->
      load_top uniword fs fuel load_ini d -> reading is_digit load_options true args evs -> no_help evs ->
      ~ flagged $"--list-envs" evs -> given $"--load-matching-env-location" evs None -> settled real (loc_file random) ->
      load_means real load_ini d evs s -> load_files_tell uniword fs fuel s systems envs ->
      is_bash run_text (heading header $"bash" true true)
        (run_bash glob subst_pattern sed_other echo_option which_prints module_command other_command) ->
      (forall e v, chomp (which_prints e [v]) = match which e v with Some p => p | None => [] end) ->
      (forall a e, module_command a e = snd (mods a e)) ->
      has_file fs (new_set (ls_specs s)) i -> no_finalize_options i ->
      ready which_python3 too_old t -> unsplit here -> unsplit random -> args <> [] -> Forall bare_word args ->
      asks_ci args -> script_file env_file stem -> env_file <> loc_file random -> dget $"gen_config_helper" (t_funs t) = None ->
      (forall n l, fst (lexec other_re systems hostname envs LParsed (new_loadenv (ls_build s) (ls_force s))) = Ok n ->
         section_asks uniword i n l ->
         bare_text n /\ Forall plain_action l /\
         forall e, same_but load_names (t_vars t) e ->
           portable_all which mods l e /\ exists e', all_done which mods l e e' /\ keeps load_names e e') ->
      (exists t', load_env_sh true args t = (Ok 1%N, t') /\ same_but load_names (t_vars t) (t_vars t')) \/
      exists n l e3 e' t',
        fst (lexec other_re systems hostname envs LParsed (new_loadenv (ls_build s) (ls_force s))) = Ok n /\
        section_asks uniword i n l /\ same_but load_names (t_vars t) e3 /\ all_done which mods l e3 e' /\
        load_env_sh true args t = (Ok 0%N, t') /\
        same_but load_names (dset $"LOADED_ENV_NAME" n e') (t_vars t') /\
        (forall x, In x removed_names -> dget x (t_vars t') = None) /\ dget env_file (t_files t') = None.
Proof. exact (file_line_to_environment glob odd_test odd_status which_python3 too_old python3 interactive run_text run_function here random uni_digit uniword fs fuel real load_ini systems envs other_re hostname which mods other header env_file writable2). Qed.
Theorem C92_environment_loaded :
  forall d i s evs subst_pattern sed_other echo_option which_prints module_command other_command args stem t n l z o2,
    runs_program python3 (here ++ $"/load_env.py") load_program ->
      load_top uniword fs fuel load_ini d -> reading is_digit load_options true args evs -> no_help evs ->
      ~ flagged $"--list-envs" evs -> given $"--load-matching-env-location" evs None -> settled real (loc_file random) ->
      load_means real load_ini d evs s -> load_files_tell uniword fs fuel s systems envs ->
      is_bash run_text (heading header $"bash" true true)
        (run_bash glob subst_pattern sed_other echo_option which_prints module_command other_command) ->
      (forall e v, chomp (which_prints e [v]) = match which e v with Some p => p | None => [] end) ->
      (forall a e, module_command a e = snd (mods a e)) ->
      has_file fs (new_set (ls_specs s)) i -> no_finalize_options i ->
      assert_file (SetEnvironment uniword) fs fuel (snd (set_level 5 (new_set (ls_specs s)))) = (Ok z, o2) ->
      ready which_python3 too_old t -> unsplit here -> unsplit random -> args <> [] -> Forall bare_word args ->
      asks_ci args -> script_file env_file stem -> env_file <> loc_file random -> dget $"gen_config_helper" (t_funs t) = None ->
      (forall p, p = env_file \/ ls_output s = Some p \/ p = loc_file random -> writable2 p = true) ->
      fst (lexec other_re systems hostname envs LParsed (new_loadenv (ls_build s) (ls_force s))) = Ok n ->
      ini_has_section i n = true -> section_asks uniword i n l -> bare_text n -> Forall plain_action l ->
      (forall e, same_but load_names (t_vars t) e ->
         portable_all which mods l e /\ exists e', all_done which mods l e e' /\ keeps load_names e e') ->
      exists e3 e' t',
        same_but load_names (t_vars t) e3 /\ all_done which mods l e3 e' /\
        load_env_sh true args t = (Ok 0%N, t') /\
        same_but load_names (dset $"LOADED_ENV_NAME" n e') (t_vars t') /\
        (forall x, In x removed_names -> dget x (t_vars t') = None) /\ dget env_file (t_files t') = None.
Proof. exact (file_line_loads glob odd_test odd_status which_python3 too_old python3 interactive run_text run_function here random uni_digit uniword fs fuel real load_ini systems envs other_re hostname which mods other header env_file writable2). Qed.
(** An option that is not an operation, anywhere in the specs. *)
Theorem C92_environment_invalid :
  forall d i s evs args t,
    runs_program python3 (here ++ $"/load_env.py") load_program ->
      load_top uniword fs fuel load_ini d -> reading is_digit load_options true args evs -> no_help evs ->
      ~ flagged $"--list-envs" evs -> given $"--load-matching-env-location" evs None -> settled real (loc_file random) ->
      load_means real load_ini d evs s -> load_files_tell uniword fs fuel s systems envs ->
      has_file fs (new_set (ls_specs s)) i -> no_finalize_options i -> ~ all_operations uniword i ->
      ready which_python3 too_old t -> unsplit here -> unsplit random -> args <> [] -> Forall bare_word args ->
      exists t', load_env_sh true args t = (Ok 1%N, t') /\ leaves (t_vars t) (t_funs t) (t_files t) (tmp_paths t ++ [$"rc"]) t' /\
        t_calls t' = t_calls t ++ [$"python3" :: load_command here random args].
Proof. exact (file_line_invalid glob odd_test odd_status which_python3 too_old python3 interactive run_text run_function here random uni_digit uniword fs fuel real load_ini systems envs other_re hostname which mods other header env_file writable2). Qed.
(** A line that cannot be read. *)
Theorem C92_environment_rejected :
  forall d args t,
    runs_program python3 (here ++ $"/load_env.py") load_program -> load_top uniword fs fuel load_ini d ->
      (forall evs, reading is_digit load_options true args evs -> ~ no_help evs) -> ~ help_asked load_options args ->
      ready which_python3 too_old t -> unsplit here -> unsplit random -> args <> [] -> Forall bare_word args ->
      exists t', load_env_sh true args t = (Ok 2%N, t') /\ leaves (t_vars t) (t_funs t) (t_files t) (tmp_paths t ++ [$"rc"]) t' /\
        t_calls t' = t_calls t ++ [$"python3" :: load_command here random args].
Proof. exact (file_line_rejected glob odd_test odd_status which_python3 too_old python3 interactive run_text run_function here random uni_digit uniword fs fuel real load_ini other_re hostname which mods other header env_file writable2). Qed.
(** The same for [gen_config.py]. *)
Theorem C92_gen_config :
  forall loc_file dg dl argv evs s,
    gen_top uniword fs fuel there gen_ini dg dl -> reading is_digit gen_options true argv evs -> no_help evs ->
      gen_means real gen_ini dg dl evs s -> gen_files_tell uniword fs fuel s systems envs flags specs ->
      forall e files,
        let main := gen_main other_re systems hostname envs flags specs (gen_in (gs_specs s)) false false (gs_save s) (gs_fragment s) (gs_yes s) (gs_ci s)
          (gs_systems s) (gs_envs s) (gs_envspecs s) args_file loc_file writable1 (new_gworld (gs_build s) (gs_force s) files answers) in
        let list := gexec other_re systems hostname envs flags specs (gen_in (gs_specs s) $"bash") GList (new_genconfig (gs_build s) (gs_force s)) in
        (flagged $"--list-config-flags" evs -> gen_program loc_file argv e files = (1%N, files)) /\
        (has_loadenv uniword fs fuel real load_ini s -> ~ flagged $"--list-config-flags" evs -> flagged $"--list-configs" evs ->
           gen_program loc_file argv e files = (match fst list with Ok _ => 0%N | Err _ => 1%N end, files)) /\
        (has_loadenv uniword fs fuel real load_ini s \/ ~ given $"--save-load-env-args" evs None ->
           ~ flagged $"--list-config-flags" evs -> ~ flagged $"--list-configs" evs ->
           gen_program loc_file argv e files = (match fst main with Ok _ => 0%N | Err _ => 1%N end, v_out (snd main))).
Proof. exact (file_gen_runs uni_digit uniword fs fuel there real load_ini gen_ini systems envs flags specs gen_in other_re hostname writable1 args_file answers without_loadenv). Qed.
(** [gen-config.sh --ci-mode ... src]. *)
Theorem C92_build_configured :
  forall dg dl d i s evs subst_pattern sed_other echo_option which_prints module_command other_command t init src stem n l z o2,
    (* the programs *)
      runs_program python3 (here ++ $"/gen_config.py") (gen_program (args_loc t)) ->
      runs_program python3 ((here ++ $"/LoadEnv") ++ $"/load_env.py") load_program ->
      gen_top uniword fs fuel there gen_ini dg dl -> load_top uniword fs fuel load_ini d ->
      is_bash run_text (heading header $"bash" true true)
        (run_bash glob subst_pattern sed_other echo_option which_prints module_command other_command) ->
      (forall e v, chomp (which_prints e [v]) = match which e v with Some p => p | None => [] end) ->
      (forall a e, module_command a e = snd (mods a e)) -> glob $"\" = [$"\"] ->
      (* the command line *)
      reading is_digit gen_options true init evs -> no_help evs -> ~ In $"--" init ->
      ~ flagged $"--list-config-flags" evs -> ~ flagged $"--list-configs" evs -> flagged $"--ci-mode" evs ->
      given $"--save-load-env-args" evs None -> given $"--cmake-fragment" evs None ->
      gen_means real gen_ini dg dl evs s -> gen_files_tell uniword fs fuel s systems envs flags specs ->
      (* the shell *)
      gen_ready which_python3 too_old t -> unsplit here -> unsplit random -> Forall bare_word init -> bare_word src ->
      ~ mentions $"--help" (init ++ [src]) -> directory src = true ->
      (* the files *)
      Forall bare_word [gs_systems s; gs_envs s; gs_envspecs s; gs_build s; args_file] ->
      Forall (fun w => ~ starts [45%N] w) [gs_systems s; gs_envs s; gs_envspecs s; gs_build s] ->
      Forall (settled real) [gs_systems s; gs_envs s; gs_envspecs s; saved_args t; loc_file random] ->
      script_file env_file stem -> env_file <> loc_file random ->
      ~ In args_file [args_loc t; saved_args t; env_file; loc_file random; stem ++ $"rc"] ->
      (forall p, In p [args_file; args_loc t; saved_args t] -> writable1 p = true) ->
      has_file fs (new_set (gs_envspecs s)) i -> no_finalize_options i ->
      (* the build has options, and its environment can be loaded *)
      (exists l, options_for other_re systems hostname envs flags specs
         (gen_in (gs_specs s)) $"bash" (gs_build s) (gs_force s) l) ->
      (forall l, options_for other_re systems hostname envs flags specs
         (gen_in (gs_specs s)) $"bash" (gs_build s) (gs_force s) l -> Forall bare_word l) ->
      assert_file (SetEnvironment uniword) fs fuel (snd (set_level 5 (new_set (gs_envspecs s)))) = (Ok z, o2) ->
      (forall p, p = env_file \/ p = loc_file random -> writable2 p = true) ->
      fst (lexec other_re systems hostname envs LParsed (new_loadenv (gs_build s) (gs_force s))) = Ok n ->
      ini_has_section i n = true -> section_asks uniword i n l -> bare_text n -> Forall plain_action l ->
      (forall e, same_but gen_names (t_vars t) e ->
         portable_all which mods l e /\ exists e', all_done which mods l e e' /\ keeps gen_names e e') ->
      exists opts m e3 e' ec files t',
        options_for other_re systems hostname envs flags specs
          (gen_in (gs_specs s)) $"bash" (gs_build s) (gs_force s) opts /\
        same_but gen_names (t_vars t) e3 /\ all_done which mods l e3 e' /\
        loadenv_command (gs_systems s) (gs_envs s) (gs_envspecs s) (gs_force s) true (gs_build s) m /\
        gen_config_sh true (init ++ [src]) t = (Ok 0%N, t') /\
        same_but gen_names (dset $"LOADED_ENV_NAME" n e') (t_vars t') /\
        same_but gen_names (dset $"LOADED_ENV_NAME" n e') ec /\
        t_calls t' = t_calls t ++ [$"python3" :: gen_command here init; $"python3" :: gen_command here (init ++ save_options t);
          $"python3" :: load_line m; $"cmake" :: slashed opts ++ [src]] /\
        dget args_file files = Some (args_text opts) /\
        same_but ((tmp_paths t ++ [env_file; stem ++ $"rc"]) ++ gen_paths t) (cmake (slashed opts ++ [src]) ec files) (t_files t').
Proof. exact (file_line_configures glob odd_test odd_status which_python3 too_old python3 interactive run_text run_function here random directory cmake odd_source uni_digit uniword fs fuel there real load_ini gen_ini systems envs flags specs gen_in other_re hostname which mods other header env_file writable1 writable2 args_file answers without_loadenv). Qed.
End C92.
Print Assumptions C92_load_env.
Print Assumptions C92_environment.
Print Assumptions C92_environment_loaded.
Print Assumptions C92_environment_invalid.
Print Assumptions C92_environment_rejected.
Print Assumptions C92_gen_config.
Print Assumptions C92_build_configured.

(** ** Files that cannot be read *)
Section C92_unreadable.
Variable uni_digit uniword : pychar -> bool.
Variable fs : str -> option str.
Variable fuel : nat.
Variable there : path -> bool.
Variable real : path -> str.
Variables load_ini gen_ini : str.
Variable gen_in : str -> str -> str -> res (list str).
Variable other_re : str -> str -> res bool.
Variable hostname : str.
Variable which : environ -> str -> option str.
Variable mods : list str -> environ -> res Z * environ.
Variable other : str -> environ -> res Z * environ.
Variable header : str -> str.
Variable tmp_file : str.
Variable writable : str -> bool.
Variables args_file loc_file : str.
Variable answers : list str.
Variable without_loadenv : gen_settings -> dict str -> N * dict str.
Notation is_digit := (fun c => digit uni_digit c = true).

(** A missing or malformed file ends [load_env.py] with 1, whatever else the line
    asks for; no file is written. *)
Theorem C92_load_env_unreadable :
  forall d argv evs s e files,
    load_top uniword fs fuel load_ini d -> reading is_digit load_options true argv evs -> no_help evs -> load_means real load_ini d evs s ->
      unreadable fs (ls_systems s) \/ unreadable fs (ls_envs s) ->
      f_load_program uni_digit uniword fs fuel real load_ini other_re hostname which mods other header tmp_file writable argv e files = (1%N, files).
Proof. exact (load_unreadable uni_digit uniword fs fuel real load_ini other_re hostname which mods other header tmp_file writable). Qed.
(** It ends [gen_config.py] with 1; without a fragment, the file for the arguments
    has been emptied by then. *)
Theorem C92_gen_config_unreadable :
  forall dg dl argv evs s e files,
    gen_top uniword fs fuel there gen_ini dg dl -> reading is_digit gen_options true argv evs -> no_help evs -> gen_means real gen_ini dg dl evs s ->
      has_loadenv uniword fs fuel real load_ini s ->
      ~ flagged $"--list-config-flags" evs -> ~ flagged $"--list-configs" evs -> given $"--save-load-env-args" evs None ->
      unreadable fs (gs_systems s) \/ unreadable fs (gs_envs s) \/ unreadable fs (gs_flags s) \/ unreadable fs (gs_specs s) ->
      f_gen_program uni_digit uniword fs fuel there real load_ini gen_ini other_re hostname gen_in args_file loc_file writable answers without_loadenv argv e files =
        (1%N, match gs_fragment s with Some _ => files | None => if writable args_file then dset args_file [] files else files end).
Proof. exact (gen_unreadable uni_digit uniword fs fuel there real load_ini gen_ini gen_in other_re hostname writable args_file loc_file answers without_loadenv). Qed.
End C92_unreadable.
Print Assumptions C92_load_env_unreadable.
Print Assumptions C92_gen_config_unreadable.

(** ** The layout of the files *)

(** Comments, blank lines and indentation as in C91, in any of the files: the
    programs do the same. *)
Theorem C92_load_env_layout :
  forall uniword fs fs', same_files fs fs' ->
  forall fuel other_re hostname uni_digit real load_ini which mods other header tmp_file writable argv e files,
    f_load_program uni_digit uniword fs fuel real load_ini other_re hostname which mods other header tmp_file writable argv e files
    = f_load_program uni_digit uniword fs' fuel real load_ini other_re hostname which mods other header tmp_file writable argv e files.
Proof. exact same_load_program. Qed.
Print Assumptions C92_load_env_layout.
Theorem C92_gen_config_layout :
  forall uniword fs fs', same_files fs fs' ->
  forall fuel other_re hostname uni_digit there real load_ini gen_ini gen_in args_file loc_file writable answers without_loadenv argv e files,
    f_gen_program uni_digit uniword fs fuel there real load_ini gen_ini other_re hostname gen_in args_file loc_file writable answers without_loadenv argv e files
    = f_gen_program uni_digit uniword fs' fuel there real load_ini gen_ini other_re hostname gen_in args_file loc_file writable answers without_loadenv argv e files.
Proof. exact same_gen_program. Qed.
Print Assumptions C92_gen_config_layout.

(** ** Examples *)

(** All the files of both programs. *)
Definition systems_text : list string :=
  ["[machine-1]"; "m1-login.*"; "m1.node  # the nodes"; "[machine-2]"; "m2:"; "[other]"].
Definition envs_text : list string :=
  ["[DEFAULTS]"; "gnu-8: gnu"; "[machine-1]"; "intel-18.0.5-mpich:"; "    intel-18"; "    intel   # the old one"; "intel-19.0.4: intel-19";
   "use DEFAULTS"; "[machine-2]"; "clang"].
Definition flags_text : list string :=
  ["[configure-flags]"; "build-type: SELECT_ONE"; "    debug  # slow"; "    release"; "lib-type: SELECT_ONE"; "    static"; "    shared";
   "use TPLS"; "[TPLS]"; "tpls: SELECT_MANY # any of these"; "    no-tpl"; "    mpi"; "    cuda"].
Definition configs_text : list string := ["[COMMON]"; "opt-set A"; "[machine-1_gnu-8_debug_static_cuda_mpi]"; "use COMMON"].
Definition disk5 (p : str) : option str :=
  dget p [($"/le/load-env.ini", file_of ["[load-env]"; "supported-systems : systems.ini"; "supported-envs : envs.ini"; "environment-specs : ./specs.ini"]);
          ($"/le/systems.ini", file_of systems_text); ($"/le/envs.ini", file_of envs_text); ($"/le/specs.ini", file_of specs1);
          ($"/gc/LoadEnv/load-env.ini", file_of ["[load-env]"; "supported-systems : a.ini"; "supported-envs : a.ini"; "environment-specs : a.ini"]);
          ($"/gc/gen-config.ini", file_of ["[gen-config]"; "supported-config-flags : flags.ini"; "config-specs : ini//configs.ini";
             "[load-env]"; "supported-systems : systems.ini"; "supported-envs : envs.ini"; "environment-specs : specs.ini"]);
          ($"/gc/systems.ini", file_of systems_text); ($"/gc/envs.ini", file_of envs_text); ($"/gc/flags.ini", file_of flags_text);
          ($"/gc/ini/configs.ini", file_of configs_text); ($"/gc/specs.ini", file_of specs3); ($"/my/bad.ini", file_of ["no section"])].
Definition load5 (top host : str) : list str -> environ -> dict str -> N * dict str :=
  f_load_program no_digit no_uni disk5 20 path_str top no_re host no_programs (returning 0) PropertiesSetEnv.no_other (fun _ => $"# header")
    $"/tmp/u/env.sh" (fun _ => true).
Definition config5 : list str -> environ -> dict str -> N * dict str :=
  f_gen_program no_digit no_uni disk5 20 (fun _ => true) path_str $"/gc/LoadEnv/load-env.ini" $"/gc/gen-config.ini" no_re $"m1-login2" gen4
    $"/tmp/u/args" $"/tmp/u/.bash_cmake_args_loc" (fun _ => true) [] (fun _ files => (1%N, files)).
Definition python5 (line : list str) (e : environ) (files : dict str) : N * dict str :=
  if str_eqb (nth 2 line []) $"/le/load_env.py" then load5 $"/le/load-env.ini" $"m1-login7" (skipn 3 line) e files
  else if str_eqb (nth 2 line []) $"/gc/LoadEnv/load_env.py" then load5 $"/gc/LoadEnv/load-env.ini" $"m1-login2" (skipn 3 line) e files
  else if str_eqb (nth 2 line []) $"/gc/gen_config.py" then config5 (skipn 3 line) e files
  else (2%N, files).

(** From the words and the texts of the files to the variables, and to cmake. *)
Example C92_ex_load : exists t',
  shell1 python5 true [$"--ci-mode"; $"intel-19_debug"] term1 = (Ok 0%N, t') /\
  dget $"PATH" (t_vars t') = Some $"/bin:/opt" /\ dget $"A" (t_vars t') = Some $"1" /\
  dget $"LOADED_ENV_NAME" (t_vars t') = Some $"machine-1_intel-19.0.4" /\
  t_files t' = [($"notes", $"mine"); ($".load_matching_env_loc.7", $"/tmp/u/env.sh")].
Proof. eexists. split; [vm_compute; reflexivity|]. repeat split; vm_compute; reflexivity. Qed.
Example C92_ex_configure : exists t',
  shell2 python5 [$"--ci-mode"; $"gnu_mpi_cuda"; $"src"] term1 = (Ok 0%N, t') /\
  last (t_calls t') [] = [$"cmake"; $"-DA=1"; $"\"; $"-DB=2"; $"src"] /\ length (t_calls t') = 4 /\
  dget $"PATH" (t_vars t') = Some $"/bin:/opt" /\ dget $"LOADED_ENV_NAME" (t_vars t') = Some $"machine-1_gnu-8".
Proof. eexists. split; [vm_compute; reflexivity|]. repeat split; vm_compute; reflexivity. Qed.
(** Files that are missing or have lines before the first section. *)
Example C92_ex_unreadable :
  fst (load5 $"/le/load-env.ini" $"m1-login7" [$"--supported-envs=/my/bad.ini"; $"intel-19_debug"] [] []) = 1%N /\
  load5 $"/le/load-env.ini" $"m1-login7" [$"--supported-systems"; $"/none.ini"; $"intel-19_debug"] [] [($"/tmp/u/env.sh", $"old")]
    = (1%N, [($"/tmp/u/env.sh", $"old")]) /\
  config5 [$"--config-specs=/none.ini"; $"gnu_mpi_cuda"] [] [($"/tmp/u/args", $"old")] = (1%N, [($"/tmp/u/args", [])]) /\
  unreadable disk5 $"/my/bad.ini" /\ unreadable disk5 $"/none.ini".
Proof.
  split; [vm_compute; reflexivity|]. split; [vm_compute; reflexivity|]. split; [vm_compute; reflexivity|].
  split; intros i E; vm_compute in E; discriminate.
Qed.

(** The hypotheses: what the files say. *)
Ltac said f :=
  apply (expansion_check no_uni disk5 _ 20 _ (open_ini f));
  [apply (all_parsable_check _ _ _ [$"DEFAULT"]); vm_compute; reflexivity
  |vm_compute; repeat constructor
  |constructor; [vm_compute; reflexivity|reflexivity|vm_compute; split; discriminate|left; reflexivity|reflexivity|reflexivity]
  |vm_compute; reflexivity|vm_compute; reflexivity].
Definition systems5 : list (str * list str) :=
  [($"machine-1", [$"m1-login.*"; $"m1.node  # the nodes"]); ($"machine-2", [$"m2"]); ($"other", [])].
Example C92_ex_systems : tells_keys no_uni disk5 20 $"/le/systems.ini" systems5 /\ tells_keys no_uni disk5 20 $"/gc/systems.ini" systems5.
Proof.
  split; (eexists; split; [is_readable|]; split; [vm_compute; reflexivity|]; intros s l [E|[E|[E|[]]]]; injection E as <- <-;
    eexists; (split; [|match goal with |- _ = map fst ?d => idtac end])).
  1, 3, 5: said $"/le/systems.ini". 1, 2, 3: reflexivity. 1, 3, 5: said $"/gc/systems.ini". all: reflexivity.
Qed.
Lemma some_table f : (exists i, readable no_uni disk5 20 f i) -> exists conf, tells_table no_uni disk5 20 f conf.
Proof. intros (i & R). destruct (proj1 (C88_tables _ _ _ _ _ R)) as (conf & T). exists conf, i. split; assumption. Qed.
Example C92_ex_files :
  (exists envs, load_files_tell no_uni disk5 20
     (LoadSettings $"/le/systems.ini" $"/le/envs.ini" $"/le/specs.ini" None None false false $"intel-19_debug") systems5 envs) /\
  (exists envs flags, gen_files_tell no_uni disk5 20
     (GenSettings $"/gc/flags.ini" $"/gc/ini/configs.ini" $"/gc/systems.ini" $"/gc/envs.ini" $"/gc/specs.ini" false false None None false true
        false $"gnu_mpi_cuda") systems5 envs flags [$"COMMON"; $"machine-1_gnu-8_debug_static_cuda_mpi"]).
Proof.
  split.
  - destruct (some_table $"/le/envs.ini") as (envs & T); [eexists; is_readable|]. exists envs. split; [exact (proj1 C92_ex_systems)|exact T].
  - destruct (some_table $"/gc/envs.ini") as (envs & T); [eexists; is_readable|].
    destruct (some_table $"/gc/flags.ini") as (flags & T'); [eexists; is_readable|]. exists envs, flags.
    constructor; [exact (proj2 C92_ex_systems)|exact T|exact T'|]. eexists. split; vm_compute; reflexivity.
Qed.
(** A comment at the top of one of the files. *)
Definition disk6 (p : str) : option str :=
  if str_eqb p $"/le/systems.ini" then Some (file_of ("# our systems" :: systems_text)) else disk5 p.
Example C92_ex_layout : same_files disk5 disk6 /\ disk6 $"/le/systems.ini" <> disk5 $"/le/systems.ini".
Proof.
  split; [|vm_compute; discriminate]. intros p. unfold disk6. destruct (str_eqb p $"/le/systems.ini") eqn:E.
  - apply str_eqb_eq in E. subst p. change (disk5 $"/le/systems.ini") with (Some (file_of systems_text)).
    exists (map lit systems_text), (map lit ("# our systems" :: systems_text)).
    split; [change (SpecRead.lines_of (SpecRead.text_of (map lit systems_text)) (map lit systems_text)); apply lines_text_of; repeat constructor; intros [X|X]; repeat destruct X as [X|X]; discriminate || contradiction|].
    split; [change (SpecRead.lines_of (SpecRead.text_of (map lit ("# our systems" :: systems_text))) (map lit ("# our systems" :: systems_text))); apply lines_text_of; repeat constructor; intros [X|X]; repeat destruct X as [X|X]; discriminate || contradiction|].
    apply (sl_comment []). exists [], 35%N, $" our systems". auto.
  - destruct (disk5 p) as [t|]; [|exact Logic.I]. destruct (lines_exist t) as (ls & L). exists ls, ls. split; [exact L|]. split; [exact L|apply sl_refl].
Qed.
