(** * C73: from the command line to the environment and the build.

    Statements and examples only. *)
From Coq Require Import String NArith ZArith List Bool.
Import ListNotations.
From Verif Require Import PyBase PyFacts IniView IniRead ExcControl Cpe EnvVar Bash SetEnv DetSys EnvKeyword LoadEnv LoadRun GenRun
  SpecText SpecWalk SpecRun SpecParse SpecApi SpecEnv SpecSetEnv SpecBash SpecLoadEnv SpecLoadRun TopLevel SpecTop SpecGenRun ArgParse SpecArgs
  Samples SamplesApi BashTextProofs LoadRunProofs LoadRunProofs3 LoadSh SpecSh ShProofs ShProofs2 GenSh SpecGenSh GenShProofs GenShProofs2
  TopProofs ArgProofs4 Programs SpecPrograms ProgProofs ProgProofs3 ProgProofs4
  PropertiesKeyword PropertiesSetEnv PropertiesLoadEnv PropertiesLoadRun PropertiesGenRun PropertiesSh PropertiesGenSh PropertiesArgs.
Local Open Scope string_scope.
Local Open Scope list_scope.

(** ** [load_env.py] *)
Section C73_load.
(** What the program meets: see [Programs.v]. *)
Variable uni_digit uniword : pychar -> bool.
Variable fs : str -> option str.
Variable fuel : nat.
Variable real : path -> str.
Variable load_ini : str.
Variable systems_in : str -> list (str * list str).
Variable envs_in : str -> str -> res (dict (option str)).
Variable other_re : str -> str -> res bool.
Variable hostname : str.
Variable which : environ -> str -> option str.
Variable mods : list str -> environ -> res Z * environ.
Variable other : str -> environ -> res Z * environ.
Variable header : str -> str.
Variable tmp_file : str.
Variable writable : str -> bool.
Notation is_digit := (fun c => digit uni_digit c = true).
Notation load_program := (load_program uni_digit uniword fs fuel real load_ini systems_in envs_in other_re hostname which mods other
  header tmp_file writable).

(** A line that can be read, with a top-level file as it should be: there are just
    one file of each kind and one build name that the line and the top-level file
    mean. The program of C67 runs with these, and its status says whether it ended
    without an error. If a list is asked for, no file is written. *)
Theorem C73_load_env :
  forall d argv evs, load_top uniword fs fuel load_ini d -> reading is_digit load_options true argv evs -> no_help evs ->
    exists s, load_means real load_ini d evs s /\ (forall s', load_means real load_ini d evs s' -> s' = s) /\
      forall e files,
        let main := load_main other_re (systems_in (ls_systems s)) hostname (envs_in (ls_envs s)) which mods other uniword fs fuel
          header (ls_specs s) tmp_file (ls_output s) (ls_location s) false writable (new_lworld (ls_build s) (ls_force s) e files) in
        let list := lexec other_re (systems_in (ls_systems s)) hostname (envs_in (ls_envs s)) LStripped
          (new_loadenv (ls_build s) (ls_force s)) in
        (~ flagged $"--list-envs" evs ->
           load_program argv e files = (match fst main with Ok _ => 0%N | Err _ => 1%N end, r_out (snd main))) /\
        (flagged $"--list-envs" evs ->
           load_program argv e files = (match fst list with Ok _ => 0%N | Err _ => 1%N end, files)).
Proof.
  exact (load_program_runs uni_digit uniword fs fuel real load_ini systems_in envs_in other_re hostname which mods other header tmp_file
    writable).
Qed.
(** Another line ends the program with 2, or 0 if a word asks for help; no file is
    written. *)
Theorem C73_load_env_rejects :
  forall d argv e files, load_top uniword fs fuel load_ini d ->
    (forall evs, reading is_digit load_options true argv evs -> ~ no_help evs) ->
    load_program argv e files = (2%N, files) \/ load_program argv e files = (0%N, files) /\ help_asked load_options argv.
Proof.
  exact (load_program_rejects uni_digit uniword fs fuel real load_ini systems_in envs_in other_re hostname which mods other header tmp_file
    writable).
Qed.
(** Without its section or one of its values in the top-level file: 1, whatever the
    line says. *)
Theorem C73_load_env_top :
  forall (i : IniView.ini) argv e files, has_file fs (open_ini load_ini) i ->
    ini_has_section i $"load-env" = false \/
    (exists root dir name d, denotes load_ini (Path root (dir ++ [name])) /\ length (ini_sections i) + 3 <= fuel /\
       parsable (base_class uniword) i $"DEFAULT" $"load-env" /\ expansion (base_class uniword) i $"DEFAULT" $"load-env" d /\
       exists k, In k env_keys /\ forall v, ~ value_of d k v) ->
    load_program argv e files = (1%N, files).
Proof.
  exact (load_program_top uni_digit uniword fs fuel real load_ini systems_in envs_in other_re hostname which mods other header tmp_file
    writable).
Qed.
End C73_load.
Print Assumptions C73_load_env.
Print Assumptions C73_load_env_rejects.
Print Assumptions C73_load_env_top.

(** ** [gen_config.py] *)
Section C73_gen.
Variable uni_digit uniword : pychar -> bool.
Variable fs : str -> option str.
Variable fuel : nat.
Variable there : path -> bool.
Variable real : path -> str.
Variables load_ini gen_ini : str.
Variable systems_in : str -> list (str * list str).
Variable envs_in : str -> str -> res (dict (option str)).
Variable flags_in : str -> str -> res (dict (option str)).
Variable specs_in : str -> list str.
Variable gen_in : str -> str -> str -> res (list str).
Variable other_re : str -> str -> res bool.
Variable hostname : str.
Variable writable : str -> bool.
Variables args_file loc_file : str.
Variable answers : list str.
Variable without_loadenv : gen_settings -> dict str -> N * dict str.
Notation is_digit := (fun c => digit uni_digit c = true).
Notation gen_program := (gen_program uni_digit uniword fs fuel there real load_ini gen_ini systems_in envs_in flags_in specs_in gen_in
  other_re hostname writable args_file loc_file answers without_loadenv).

(** The same for [gen_config.py] and the program of C68. The list of the flags
    ends it with 1, that of the configurations with 0. *)
Theorem C73_gen_config :
  forall dg dl argv evs, gen_top uniword fs fuel there gen_ini dg dl -> reading is_digit gen_options true argv evs -> no_help evs ->
    exists s, gen_means real gen_ini dg dl evs s /\ (forall s', gen_means real gen_ini dg dl evs s' -> s' = s) /\
      forall e files,
        let main := gen_main other_re (systems_in (gs_systems s)) hostname (envs_in (gs_envs s)) (flags_in (gs_flags s))
          (specs_in (gs_specs s)) (gen_in (gs_specs s)) false false (gs_save s) (gs_fragment s) (gs_yes s) (gs_ci s)
          (gs_systems s) (gs_envs s) (gs_envspecs s) args_file loc_file writable (new_gworld (gs_build s) (gs_force s) files answers) in
        let list := gexec other_re (systems_in (gs_systems s)) hostname (envs_in (gs_envs s)) (flags_in (gs_flags s))
          (specs_in (gs_specs s)) (gen_in (gs_specs s) $"bash") GList (new_genconfig (gs_build s) (gs_force s)) in
        (flagged $"--list-config-flags" evs -> gen_program argv e files = (1%N, files)) /\
        (has_loadenv uniword fs fuel real load_ini s -> ~ flagged $"--list-config-flags" evs -> flagged $"--list-configs" evs ->
           gen_program argv e files = (match fst list with Ok _ => 0%N | Err _ => 1%N end, files)) /\
        (has_loadenv uniword fs fuel real load_ini s \/ ~ given $"--save-load-env-args" evs None ->
           ~ flagged $"--list-config-flags" evs -> ~ flagged $"--list-configs" evs ->
           gen_program argv e files = (match fst main with Ok _ => 0%N | Err _ => 1%N end, v_out (snd main))).
Proof.
  exact (gen_program_runs uni_digit uniword fs fuel there real load_ini gen_ini systems_in envs_in flags_in specs_in gen_in
    other_re hostname writable args_file loc_file answers without_loadenv).
Qed.
Theorem C73_gen_config_rejects :
  forall argv e files,
    (forall evs, reading is_digit gen_options true argv evs -> ~ no_help evs) ->
    gen_program argv e files = (2%N, files) \/ gen_program argv e files = (0%N, files) /\ help_asked gen_options argv.
Proof.
  exact (gen_program_rejects uni_digit uniword fs fuel there real load_ini gen_ini systems_in envs_in flags_in specs_in gen_in
    other_re hostname writable args_file loc_file answers without_loadenv).
Qed.
Theorem C73_gen_config_top :
  forall (i : IniView.ini) root dir name dg dl argv evs e files,
    denotes gen_ini (Path root (dir ++ [name])) -> root <> [] -> has_file fs (open_ini gen_ini) i -> length (ini_sections i) + 3 <= fuel ->
    parsable (base_class uniword) i $"DEFAULT" $"gen-config" -> parsable (base_class uniword) i $"DEFAULT" $"load-env" ->
    expansion (base_class uniword) i $"DEFAULT" $"gen-config" dg -> expansion (base_class uniword) i $"DEFAULT" $"load-env" dl ->
    (exists k, In k gen_keys /\ ~ names_a_file there gen_ini dg k) \/ (exists k, In k env_keys /\ ~ names_a_file there gen_ini dl k) ->
    reading is_digit gen_options true argv evs -> no_help evs -> gen_program argv e files = (1%N, files).
Proof.
  exact (gen_program_top uni_digit uniword fs fuel there real load_ini gen_ini systems_in envs_in flags_in specs_in gen_in
    other_re hostname writable args_file loc_file answers without_loadenv).
Qed.
End C73_gen.
Print Assumptions C73_gen_config.
Print Assumptions C73_gen_config_rejects.
Print Assumptions C73_gen_config_top.

(** ** The scripts, with these programs *)
Section C73_scripts.
(** What the scripts meet: see [LoadSh.v] and [GenSh.v]. *)
Variable glob : str -> list str.
Variable odd_test : list str -> bool.
Variable odd_status : str -> N.
Variable which_python3 too_old : environ -> str.
Variable python3 : list str -> environ -> dict str -> N * dict str.
Variable interactive : list str -> environ -> dict str -> dict str.
Variable run_text run_function : str -> sh unit.
Variable here random : str.
Variable directory : str -> bool.
Variable cmake : list str -> environ -> dict str -> dict str.
Variable odd_source : list str -> sh N.
Notation load_env_sh := (load_env_sh glob odd_test odd_status which_python3 too_old python3 interactive run_text run_function here random).
Notation gen_config_sh := (gen_config_sh glob odd_test odd_status which_python3 too_old python3 interactive run_text run_function
  here random directory cmake odd_source).
Notation load_line m := (load_command (here ++ $"/LoadEnv") random m).
(** What the programs meet. *)
Variable uni_digit uniword : pychar -> bool.
Variable fs : str -> option str.
Variable fuel : nat.
Variable there : path -> bool.
Variable real : path -> str.
Variables load_ini gen_ini : str.
Variable systems_in : str -> list (str * list str).
Variable envs_in : str -> str -> res (dict (option str)).
Variable flags_in : str -> str -> res (dict (option str)).
Variable specs_in : str -> list str.
Variable gen_in : str -> str -> str -> res (list str).
Variable other_re : str -> str -> res bool.
Variable hostname : str.
Variable which : environ -> str -> option str.
Variable mods : list str -> environ -> res Z * environ.
Variable other : str -> environ -> res Z * environ.
Variable header : str -> str.
Variable env_file : str.
Variables writable1 writable2 : str -> bool.
Variable args_file : str.
Variable answers : list str.
Variable without_loadenv : gen_settings -> dict str -> N * dict str.
Notation is_digit := (fun c => digit uni_digit c = true).
Notation load_program := (load_program uni_digit uniword fs fuel real load_ini systems_in envs_in other_re hostname which mods other
  header env_file writable2).
Notation gen_program loc := (gen_program uni_digit uniword fs fuel there real load_ini gen_ini systems_in envs_in flags_in specs_in gen_in
  other_re hostname writable1 args_file loc answers without_loadenv).

(** [load-env.sh --ci-mode ...]: either the status is 1 and the variables are as
    before, or they are those that the actions of the section lead to that the
    build name of the line means, in the files that the line and the top-level
    file name. *)
Theorem C73_environment :
  forall d i s evs subst_pattern sed_other echo_option which_prints module_command other_command args stem t,
    runs_program python3 (here ++ $"/load_env.py") load_program ->
    load_top uniword fs fuel load_ini d -> reading is_digit load_options true args evs -> no_help evs ->
    ~ flagged $"--list-envs" evs -> given $"--load-matching-env-location" evs None -> settled real (loc_file random) ->
    load_means real load_ini d evs s ->
    is_bash run_text (heading header $"bash" true true)
      (run_bash glob subst_pattern sed_other echo_option which_prints module_command other_command) ->
    (forall e v, chomp (which_prints e [v]) = match which e v with Some p => p | None => [] end) ->
    (forall a e, module_command a e = snd (mods a e)) ->
    has_file fs (new_set (ls_specs s)) i -> no_finalize_options i ->
    ready which_python3 too_old t -> unsplit here -> unsplit random -> args <> [] -> Forall bare_word args ->
    asks_ci args -> script_file env_file stem -> env_file <> loc_file random -> dget $"gen_config_helper" (t_funs t) = None ->
    (forall n l, fst (lexec other_re (systems_in (ls_systems s)) hostname (envs_in (ls_envs s)) LParsed (new_loadenv (ls_build s) (ls_force s))) = Ok n ->
       section_asks uniword i n l ->
       bare_text n /\ Forall plain_action l /\
       forall e, same_but load_names (t_vars t) e ->
         portable_all which mods l e /\ exists e', all_done which mods l e e' /\ keeps load_names e e') ->
    (exists t', load_env_sh true args t = (Ok 1%N, t') /\ same_but load_names (t_vars t) (t_vars t')) \/
    exists n l e3 e' t',
      fst (lexec other_re (systems_in (ls_systems s)) hostname (envs_in (ls_envs s)) LParsed (new_loadenv (ls_build s) (ls_force s))) = Ok n /\
      section_asks uniword i n l /\ same_but load_names (t_vars t) e3 /\ all_done which mods l e3 e' /\
      load_env_sh true args t = (Ok 0%N, t') /\
      same_but load_names (dset $"LOADED_ENV_NAME" n e') (t_vars t') /\
      (forall x, In x removed_names -> dget x (t_vars t') = None) /\ dget env_file (t_files t') = None.
Proof.
  exact (command_line_to_environment glob odd_test odd_status which_python3 too_old python3 interactive run_text run_function here random
    uni_digit uniword fs fuel real load_ini systems_in envs_in other_re hostname which mods other header env_file writable2).
Qed.
(** The latter, if the file passes the check, the section is there, its actions can
    be performed, and the files can be written. *)
Theorem C73_environment_loaded :
  forall d i s evs subst_pattern sed_other echo_option which_prints module_command other_command args stem t n l z o2,
    runs_program python3 (here ++ $"/load_env.py") load_program ->
    load_top uniword fs fuel load_ini d -> reading is_digit load_options true args evs -> no_help evs ->
    ~ flagged $"--list-envs" evs -> given $"--load-matching-env-location" evs None -> settled real (loc_file random) ->
    load_means real load_ini d evs s ->
    is_bash run_text (heading header $"bash" true true)
      (run_bash glob subst_pattern sed_other echo_option which_prints module_command other_command) ->
    (forall e v, chomp (which_prints e [v]) = match which e v with Some p => p | None => [] end) ->
    (forall a e, module_command a e = snd (mods a e)) ->
    has_file fs (new_set (ls_specs s)) i -> no_finalize_options i ->
    assert_file (SetEnvironment uniword) fs fuel (snd (set_level 5 (new_set (ls_specs s)))) = (Ok z, o2) ->
    ready which_python3 too_old t -> unsplit here -> unsplit random -> args <> [] -> Forall bare_word args ->
    asks_ci args -> script_file env_file stem -> env_file <> loc_file random -> dget $"gen_config_helper" (t_funs t) = None ->
    (forall p, p = env_file \/ ls_output s = Some p \/ p = loc_file random -> writable2 p = true) ->
    fst (lexec other_re (systems_in (ls_systems s)) hostname (envs_in (ls_envs s)) LParsed (new_loadenv (ls_build s) (ls_force s))) = Ok n ->
    ini_has_section i n = true -> section_asks uniword i n l -> bare_text n -> Forall plain_action l ->
    (forall e, same_but load_names (t_vars t) e ->
       portable_all which mods l e /\ exists e', all_done which mods l e e' /\ keeps load_names e e') ->
    exists e3 e' t',
      same_but load_names (t_vars t) e3 /\ all_done which mods l e3 e' /\
      load_env_sh true args t = (Ok 0%N, t') /\
      same_but load_names (dset $"LOADED_ENV_NAME" n e') (t_vars t') /\
      (forall x, In x removed_names -> dget x (t_vars t') = None) /\ dget env_file (t_files t') = None.
Proof.
  exact (command_line_loads glob odd_test odd_status which_python3 too_old python3 interactive run_text run_function here random
    uni_digit uniword fs fuel real load_ini systems_in envs_in other_re hostname which mods other header env_file writable2).
Qed.
(** The former, if an option anywhere in the file is not an operation: then no
    file is changed either. *)
Theorem C73_environment_invalid :
  forall d i s evs args t,
    runs_program python3 (here ++ $"/load_env.py") load_program ->
    load_top uniword fs fuel load_ini d -> reading is_digit load_options true args evs -> no_help evs ->
    ~ flagged $"--list-envs" evs -> given $"--load-matching-env-location" evs None -> settled real (loc_file random) ->
    load_means real load_ini d evs s ->
    has_file fs (new_set (ls_specs s)) i -> no_finalize_options i -> ~ all_operations uniword i ->
    ready which_python3 too_old t -> unsplit here -> unsplit random -> args <> [] -> Forall bare_word args ->
    exists t', load_env_sh true args t = (Ok 1%N, t') /\ leaves (t_vars t) (t_funs t) (t_files t) (tmp_paths t ++ [$"rc"]) t' /\
      t_calls t' = t_calls t ++ [$"python3" :: load_command here random args].
Proof.
  exact (command_line_invalid glob odd_test odd_status which_python3 too_old python3 interactive run_text run_function here random
    uni_digit uniword fs fuel real load_ini systems_in envs_in other_re hostname which mods other header env_file writable2).
Qed.
(** A line that cannot be read. *)
Theorem C73_environment_rejected :
  forall d args t,
    runs_program python3 (here ++ $"/load_env.py") load_program -> load_top uniword fs fuel load_ini d ->
    (forall evs, reading is_digit load_options true args evs -> ~ no_help evs) -> ~ help_asked load_options args ->
    ready which_python3 too_old t -> unsplit here -> unsplit random -> args <> [] -> Forall bare_word args ->
    exists t', load_env_sh true args t = (Ok 2%N, t') /\ leaves (t_vars t) (t_funs t) (t_files t) (tmp_paths t ++ [$"rc"]) t' /\
      t_calls t' = t_calls t ++ [$"python3" :: load_command here random args].
Proof.
  exact (command_line_rejected glob odd_test odd_status which_python3 too_old python3 interactive run_text run_function here random
    uni_digit uniword fs fuel real load_ini systems_in envs_in other_re hostname which mods other header env_file writable2).
Qed.
(** [gen-config.sh --ci-mode ... src]: cmake is started once, in the environment that
    the actions of the section lead to, with the options of the configuration that
    the build name of the line means, in the files that the line and the top-level
    file name. *)
Theorem C73_build_configured :
  forall dg dl d i s evs subst_pattern sed_other echo_option which_prints module_command other_command t init src stem n l z o2,
    (* the programs *)
    runs_program python3 (here ++ $"/gen_config.py") (gen_program (args_loc t)) ->
    runs_program python3 ((here ++ $"/LoadEnv") ++ $"/load_env.py") load_program ->
    gen_top uniword fs fuel there gen_ini dg dl -> load_top uniword fs fuel load_ini d ->
    is_bash run_text (heading header $"bash" true true)
      (run_bash glob subst_pattern sed_other echo_option which_prints module_command other_command) ->
    (forall e v, chomp (which_prints e [v]) = match which e v with Some p => p | None => [] end) ->
    (forall a e, module_command a e = snd (mods a e)) -> glob $"\" = [$"\"] ->
    (* the command line *)
    reading is_digit gen_options true init evs -> no_help evs -> ~ In $"--" init ->
    ~ flagged $"--list-config-flags" evs -> ~ flagged $"--list-configs" evs -> flagged $"--ci-mode" evs ->
    given $"--save-load-env-args" evs None -> given $"--cmake-fragment" evs None ->
    gen_means real gen_ini dg dl evs s ->
    (* the shell *)
    gen_ready which_python3 too_old t -> unsplit here -> unsplit random -> Forall bare_word init -> bare_word src ->
    ~ mentions $"--help" (init ++ [src]) -> directory src = true ->
    (* the files *)
    Forall bare_word [gs_systems s; gs_envs s; gs_envspecs s; gs_build s; args_file] ->
    Forall (fun w => ~ starts [45%N] w) [gs_systems s; gs_envs s; gs_envspecs s; gs_build s] ->
    Forall (settled real) [gs_systems s; gs_envs s; gs_envspecs s; saved_args t; loc_file random] ->
    script_file env_file stem -> env_file <> loc_file random ->
    ~ In args_file [args_loc t; saved_args t; env_file; loc_file random; stem ++ $"rc"] ->
    (forall p, In p [args_file; args_loc t; saved_args t] -> writable1 p = true) ->
    has_file fs (new_set (gs_envspecs s)) i -> no_finalize_options i ->
    (* the build has options, and its environment can be loaded *)
    (exists l, options_for other_re (systems_in (gs_systems s)) hostname (envs_in (gs_envs s)) (flags_in (gs_flags s)) (specs_in (gs_specs s))
       (gen_in (gs_specs s)) $"bash" (gs_build s) (gs_force s) l) ->
    (forall l, options_for other_re (systems_in (gs_systems s)) hostname (envs_in (gs_envs s)) (flags_in (gs_flags s)) (specs_in (gs_specs s))
       (gen_in (gs_specs s)) $"bash" (gs_build s) (gs_force s) l -> Forall bare_word l) ->
    assert_file (SetEnvironment uniword) fs fuel (snd (set_level 5 (new_set (gs_envspecs s)))) = (Ok z, o2) ->
    (forall p, p = env_file \/ p = loc_file random -> writable2 p = true) ->
    fst (lexec other_re (systems_in (gs_systems s)) hostname (envs_in (gs_envs s)) LParsed (new_loadenv (gs_build s) (gs_force s))) = Ok n ->
    ini_has_section i n = true -> section_asks uniword i n l -> bare_text n -> Forall plain_action l ->
    (forall e, same_but gen_names (t_vars t) e ->
       portable_all which mods l e /\ exists e', all_done which mods l e e' /\ keeps gen_names e e') ->
    exists opts m e3 e' ec files t',
      options_for other_re (systems_in (gs_systems s)) hostname (envs_in (gs_envs s)) (flags_in (gs_flags s)) (specs_in (gs_specs s))
        (gen_in (gs_specs s)) $"bash" (gs_build s) (gs_force s) opts /\
      same_but gen_names (t_vars t) e3 /\ all_done which mods l e3 e' /\
      loadenv_command (gs_systems s) (gs_envs s) (gs_envspecs s) (gs_force s) true (gs_build s) m /\
      gen_config_sh true (init ++ [src]) t = (Ok 0%N, t') /\
      same_but gen_names (dset $"LOADED_ENV_NAME" n e') (t_vars t') /\
      same_but gen_names (dset $"LOADED_ENV_NAME" n e') ec /\
      t_calls t' = t_calls t ++ [$"python3" :: gen_command here init; $"python3" :: gen_command here (init ++ save_options t);
        $"python3" :: load_line m; $"cmake" :: slashed opts ++ [src]] /\
      dget args_file files = Some (args_text opts) /\
      same_but ((tmp_paths t ++ [env_file; stem ++ $"rc"]) ++ gen_paths t) (cmake (slashed opts ++ [src]) ec files) (t_files t').
Proof.
  exact (command_line_configures glob odd_test odd_status which_python3 too_old python3 interactive run_text run_function here random directory cmake odd_source
    uni_digit uniword fs fuel there real load_ini gen_ini systems_in envs_in flags_in specs_in gen_in other_re hostname which mods other header env_file
    writable1 writable2 args_file answers without_loadenv).
Qed.
End C73_scripts.
Print Assumptions C73_environment.
Print Assumptions C73_environment_loaded.
Print Assumptions C73_environment_invalid.
Print Assumptions C73_environment_rejected.
Print Assumptions C73_build_configured.

(** ** Examples *)

(** The files: those of [LoadEnv] in [/le], those of [GenConfig] in [/gc]. *)
Definition disk1 (p : str) : option str :=
  dget p [($"/le/load-env.ini", file_of ["[load-env]"; "supported-systems : systems.ini"; "supported-envs : envs.ini"; "environment-specs : ./specs.ini"]);
          ($"/le/specs.ini", file_of specs1);
          ($"/gc/LoadEnv/load-env.ini", file_of ["[load-env]"; "supported-systems : a.ini"; "supported-envs : a.ini"; "environment-specs : a.ini"]);
          ($"/gc/gen-config.ini", file_of ["[gen-config]"; "supported-config-flags : flags.ini"; "config-specs : ini//configs.ini";
             "[load-env]"; "supported-systems : systems.ini"; "supported-envs : envs.ini"; "environment-specs : specs.ini"]);
          ($"/gc/specs.ini", file_of specs3); ($"/my/specs.ini", file_of ["[machine-1_intel-19.0.4]"; "envvar-set A = mine"]);
          ($"/my/wrong.ini", file_of ["[machine-1_intel-19.0.4]"; "envvar-set A = mine"; "[else]"; "envvar-sets A = mine"])].
Definition systems4 (f : str) : list (str * list str) :=
  if str_eqb f $"/le/systems.ini" then systems1 else if str_eqb f $"/gc/systems.ini" then systems3 else [].
Definition envs4 (f system : str) : res (dict (option str)) :=
  if str_eqb f $"/le/envs.ini" then envs1 system else if str_eqb f $"/gc/envs.ini" then envs3 system else Err ValueError.
Definition flags4 (f s : str) : res (dict (option str)) := if str_eqb f $"/gc/flags.ini" then conf1 s else Err ValueError.
Definition configs4 (f : str) : list str := if str_eqb f $"/gc/ini/configs.ini" then specs2 else [].
Definition gen4 (f kind config : str) : res (list str) := if str_eqb f $"/gc/ini/configs.ini" then gen2 kind config else Err ValueError.
(** The programs on hosts [m1-login7] and [m1-login2]. *)
Definition load4 (top host : str) : list str -> environ -> dict str -> N * dict str :=
  load_program no_digit no_uni disk1 20 path_str top systems4 envs4 no_re host no_programs (returning 0) no_other (fun _ => $"# header")
    $"/tmp/u/env.sh" (fun _ => true).
Definition config4 : list str -> environ -> dict str -> N * dict str :=
  gen_program no_digit no_uni disk1 20 (fun _ => true) path_str $"/gc/LoadEnv/load-env.ini" $"/gc/gen-config.ini" systems4 envs4 flags4 configs4 gen4 no_re
    $"m1-login2" (fun _ => true) $"/tmp/u/args" $"/tmp/u/.bash_cmake_args_loc" [] (fun _ files => (1%N, files)).
Definition python4 (line : list str) (e : environ) (files : dict str) : N * dict str :=
  if str_eqb (nth 2 line []) $"/le/load_env.py" then load4 $"/le/load-env.ini" $"m1-login7" (skipn 3 line) e files
  else if str_eqb (nth 2 line []) $"/gc/LoadEnv/load_env.py" then load4 $"/gc/LoadEnv/load-env.ini" $"m1-login2" (skipn 3 line) e files
  else if str_eqb (nth 2 line []) $"/gc/gen_config.py" then config4 (skipn 3 line) e files
  else (2%N, files).

(** From the words to the variables. *)
Example C73_ex_load : exists t',
  shell1 python4 true [$"--ci-mode"; $"intel-19_debug"] term1 = (Ok 0%N, t') /\
  dget $"PATH" (t_vars t') = Some $"/bin:/opt" /\ dget $"A" (t_vars t') = Some $"1" /\
  dget $"LOADED_ENV_NAME" (t_vars t') = Some $"machine-1_intel-19.0.4" /\
  t_files t' = [($"notes", $"mine"); ($".load_matching_env_loc.7", $"/tmp/u/env.sh")].
Proof. eexists. split; [vm_compute; reflexivity|]. repeat split; vm_compute; reflexivity. Qed.
(** An abbreviated option with another file. *)
Example C73_ex_other_file : exists t',
  shell1 python4 true [$"--ci"; $"--env=/my//specs.ini"; $"intel-19_debug"; $"--ci-mode"] term1 = (Ok 0%N, t') /\
  dget $"PATH" (t_vars t') = Some $"/bin" /\ dget $"A" (t_vars t') = Some $"mine".
Proof. eexists. split; [vm_compute; reflexivity|]. repeat split; vm_compute; reflexivity. Qed.
Example C73_ex_wrong_file : exists t',
  shell1 python4 true [$"--ci-mode"; $"--env=/my/wrong.ini"; $"intel-19_debug"] term1 = (Ok 1%N, t') /\
  dget $"PATH" (t_vars t') = Some $"/bin" /\ t_files t' = [($"notes", $"mine")].
Proof. eexists. split; [vm_compute; reflexivity|]. repeat split; vm_compute; reflexivity. Qed.
Example C73_ex_unreadable : exists t',
  shell1 python4 true [$"--ci-mode"; $"--outputs"; $"intel-19_debug"] term1 = (Ok 2%N, t') /\
  dget $"PATH" (t_vars t') = Some $"/bin" /\ t_files t' = [($"notes", $"mine")].
Proof. eexists. split; [vm_compute; reflexivity|]. repeat split; vm_compute; reflexivity. Qed.
(** From the words to cmake. *)
Example C73_ex_configure : exists t',
  shell2 python4 [$"--ci-mode"; $"gnu_mpi_cuda"; $"src"] term1 = (Ok 0%N, t') /\
  last (t_calls t') [] = [$"cmake"; $"-DA=1"; $"\"; $"-DB=2"; $"src"] /\ length (t_calls t') = 4 /\
  dget $"PATH" (t_vars t') = Some $"/bin:/opt" /\ dget $"LOADED_ENV_NAME" (t_vars t') = Some $"machine-1_gnu-8" /\
  dkeys (t_files t') = [$"notes"; $"/tmp/u/args"; $".load_matching_env_loc.7"; $"CMakeCache.txt"].
Proof. eexists. split; [vm_compute; reflexivity|]. repeat split; vm_compute; reflexivity. Qed.
(** The lists. *)
Example C73_ex_lists :
  fst (load4 $"/le/load-env.ini" $"m1-login7" [$"-l"] [] []) = 0%N /\ fst (config4 [$"--list-configs"; $"gnu"] [] []) = 0%N /\
  fst (config4 [$"--list-config-flags"; $"gnu"] [] []) = 1%N /\ fst (config4 [$"--help"] [] []) = 0%N /\ fst (config4 [$"--hel"; $"a"; $"b"] [] []) = 0%N /\
  fst (config4 [$"a"; $"b"] [] []) = 2%N.
Proof. repeat split; vm_compute; reflexivity. Qed.

(** The hypotheses of the theorems, for the two lines. *)
Definition the (o : option opt) : opt := match o with Some x => x | None => help_option end.
Definition ci1 : opt := the (dget $"--ci-mode" (option_strings load_options)).
Definition ci2 : opt := the (dget $"--ci-mode" (option_strings gen_options)).
Definition evs1 : list event := [EOption ci1 None; EBuild $"intel-19_debug"].
Definition evs2 : list event := [EOption ci2 None; EBuild $"gnu_mpi_cuda"].
Definition top_d (a b c : string) : dict (option str) :=
  [($"supported-systems", Some (lit a)); ($"supported-envs", Some (lit b)); ($"environment-specs", Some (lit c))].
Ltac settle := eexists; split; [apply denotes_iff; reflexivity|reflexivity].
Ltac top_expansion f :=
  apply (expansion_check no_uni disk1 _ 20 _ (open_ini f));
  [apply (all_parsable_check _ _ _ [$"DEFAULT"]); vm_compute; reflexivity
  |vm_compute; repeat constructor
  |constructor; [vm_compute; reflexivity|reflexivity|vm_compute; split; discriminate|left; reflexivity|reflexivity|reflexivity]
  |vm_compute; reflexivity|vm_compute; reflexivity].

Example C73_ex_top : load_top no_uni disk1 20 $"/le/load-env.ini" (top_d "systems.ini" "envs.ini" "./specs.ini") /\
  load_top no_uni disk1 20 $"/gc/LoadEnv/load-env.ini" (top_d "a.ini" "a.ini" "a.ini").
Proof.
  split; (constructor; [|intros k [<-|[<-|[<-|[]]]]; eexists; (split; [reflexivity|discriminate])]).
  - do 4 eexists. split; [apply denotes_iff; exact (eq_refl (Path $"/" ([$"le"] ++ [$"load-env.ini"])))|]. split; [vm_compute; reflexivity|].
    split; [vm_compute; repeat constructor|]. split; [apply (all_parsable_check _ _ _ [$"DEFAULT"]); vm_compute; reflexivity|].
    top_expansion $"/le/load-env.ini".
  - do 4 eexists. split; [apply denotes_iff; exact (eq_refl (Path $"/" ([$"gc"; $"LoadEnv"] ++ [$"load-env.ini"])))|]. split; [vm_compute; reflexivity|].
    split; [vm_compute; repeat constructor|]. split; [apply (all_parsable_check _ _ _ [$"DEFAULT"]); vm_compute; reflexivity|].
    top_expansion $"/gc/LoadEnv/load-env.ini".
Qed.
Example C73_ex_gen_top : gen_top no_uni disk1 20 (fun _ => true) $"/gc/gen-config.ini"
  [($"supported-config-flags", Some $"flags.ini"); ($"config-specs", Some $"ini//configs.ini")] (top_d "systems.ini" "envs.ini" "specs.ini").
Proof.
  assert (D : denotes $"/gc/gen-config.ini" (Path $"/" ([$"gc"] ++ [$"gen-config.ini"]))) by (apply denotes_iff; reflexivity).
  constructor.
  - do 4 eexists. split; [exact D|]. split; [discriminate|]. split; [vm_compute; reflexivity|].
    split; [vm_compute; repeat constructor|]. split; [apply (all_parsable_check _ _ _ [$"DEFAULT"]); vm_compute; reflexivity|].
    split; [apply (all_parsable_check _ _ _ [$"DEFAULT"]); vm_compute; reflexivity|].
    split; top_expansion $"/gc/gen-config.ini".
  - intros k [<-|[<-|[]]]; do 2 eexists; (split; [split; [reflexivity|discriminate]|]; split; [apply (located_iff _ _ _ _ D); reflexivity|reflexivity]).
  - intros k [<-|[<-|[<-|[]]]]; do 2 eexists; (split; [split; [reflexivity|discriminate]|]; split; [apply (located_iff _ _ _ _ D); reflexivity|reflexivity]).
Qed.
Lemma absent name (evs : list event) : (forall o, In (EOption o None) evs -> str_mem name (o_strings o) = false) -> ~ flagged name evs.
Proof. intros H (o & I & J). apply H in J. apply str_mem_In in I. congruence. Qed.
Ltac lacks := apply absent; intros o [H|[H|[]]]; [injection H as <-; reflexivity|discriminate].
Ltac not_there := apply given_not; intros o v _ [H|[H|[]]]; discriminate.
Example C73_ex_load_line :
  runs_program python4 ($"/le" ++ $"/load_env.py") (load4 $"/le/load-env.ini" $"m1-login7") /\
  reading (fun c => digit no_digit c = true) load_options true [$"--ci-mode"; $"intel-19_debug"] evs1 /\ no_help evs1 /\
  ~ flagged $"--list-envs" evs1 /\ given $"--load-matching-env-location" evs1 None /\ settled path_str (loc_file $"7") /\
  load_means path_str $"/le/load-env.ini" (top_d "systems.ini" "envs.ini" "./specs.ini") evs1
    (LoadSettings $"/le/systems.ini" $"/le/envs.ini" $"/le/specs.ini" None None false false $"intel-19_debug").
Proof.
  assert (R : reading (fun c => digit no_digit c = true) load_options true [$"--ci-mode"; $"intel-19_debug"] evs1).
  { apply rd_flag; [apply load_spelled; reflexivity|discriminate|]. apply rd_build; [left; intros (r & E); discriminate|constructor]. }
  assert (N : no_help evs1) by (intros o v [H|[H|[]]]; [injection H as <- <-; discriminate|discriminate]).
  split; [intros argv e files; reflexivity|]. split; [exact R|]. split; [exact N|]. split; [lacks|]. split; [not_there|]. split; [settle|].
  destruct (load_args_reads no_digit no_uni disk1 20 path_str _ _ _ _ (proj1 C73_ex_top) R N) as (s & E & M).
  vm_compute in E. injection E as <-. exact M.
Qed.
Example C73_ex_gen_line :
  runs_program python4 ($"/gc" ++ $"/gen_config.py") config4 /\
  runs_program python4 (($"/gc" ++ $"/LoadEnv") ++ $"/load_env.py") (load4 $"/gc/LoadEnv/load-env.ini" $"m1-login2") /\
  reading (fun c => digit no_digit c = true) gen_options true [$"--ci-mode"; $"gnu_mpi_cuda"] evs2 /\ no_help evs2 /\
  ~ flagged $"--list-config-flags" evs2 /\ ~ flagged $"--list-configs" evs2 /\ flagged $"--ci-mode" evs2 /\
  given $"--save-load-env-args" evs2 None /\ given $"--cmake-fragment" evs2 None /\
  exists s, s = GenSettings $"/gc/flags.ini" $"/gc/ini/configs.ini" $"/gc/systems.ini" $"/gc/envs.ini" $"/gc/specs.ini" false false None None false true
      false $"gnu_mpi_cuda" /\
    gen_means path_str $"/gc/gen-config.ini" [($"supported-config-flags", Some $"flags.ini"); ($"config-specs", Some $"ini//configs.ini")]
      (top_d "systems.ini" "envs.ini" "specs.ini") evs2 s /\
    Forall bare_word [gs_systems s; gs_envs s; gs_envspecs s; gs_build s; $"/tmp/u/args"] /\
    Forall (fun w => ~ starts [45%N] w) [gs_systems s; gs_envs s; gs_envspecs s; gs_build s] /\
    Forall (settled path_str) [gs_systems s; gs_envs s; gs_envspecs s; saved_args term1; loc_file $"7"] /\
    has_loadenv no_uni disk1 20 path_str $"/gc/LoadEnv/load-env.ini" s.
Proof.
  assert (R : reading (fun c => digit no_digit c = true) gen_options true [$"--ci-mode"; $"gnu_mpi_cuda"] evs2).
  { apply rd_flag; [apply gen_spelled; reflexivity|discriminate|]. apply rd_build; [left; intros (r & E); discriminate|constructor]. }
  assert (N : no_help evs2) by (intros o v [H|[H|[]]]; [injection H as <- <-; discriminate|discriminate]).
  split; [intros argv e files; reflexivity|]. split; [intros argv e files; reflexivity|].
  split; [exact R|]. split; [exact N|]. split; [lacks|]. split; [lacks|].
  split; [exists ci2; split; [vm_compute; auto|now left]|]. split; [not_there|]. split; [not_there|].
  destruct (gen_args_reads no_digit no_uni disk1 20 (fun _ => true) path_str _ _ _ _ _ C73_ex_gen_top R N) as (s & E & M).
  vm_compute in E. injection E as <-. eexists. split; [reflexivity|]. split; [exact M|]. cbn [gs_systems gs_envs gs_envspecs gs_build].
  assert (ND : Forall (fun w => ~ starts [45%N] w) [$"/gc/systems.ini"; $"/gc/envs.ini"; $"/gc/specs.ini"; $"gnu_mpi_cuda"]).
  { repeat (constructor; [intros (r & H); discriminate|]). constructor. }
  split; [repeat constructor; (apply bare_word_check; [discriminate|reflexivity])|]. split; [exact ND|].
  split; [repeat (constructor; [settle|]); constructor|].
  exists (top_d "a.ini" "a.ini" "a.ini"). split; [exact (proj2 C73_ex_top)|]. split; [exact ND|]. split; settle.
Qed.
(** The files, the section, and what is asked there. *)
Example C73_ex_section : exists i z o2,
  has_file disk1 (new_set $"/le/specs.ini") i /\ no_finalize_options i /\
  assert_file (SetEnvironment no_uni) disk1 20 (snd (set_level 5 (new_set $"/le/specs.ini"))) = (Ok z, o2) /\
  fst (lexec no_re (systems4 $"/le/systems.ini") $"m1-login7" (envs4 $"/le/envs.ini") LParsed (new_loadenv $"intel-19_debug" false)) =
    Ok $"machine-1_intel-19.0.4" /\
  ini_has_section i $"machine-1_intel-19.0.4" = true.
Proof.
  do 3 eexists. split; [vm_compute; reflexivity|]. split; [apply no_finalize_check; vm_compute; reflexivity|]. split; [vm_compute; reflexivity|].
  split; vm_compute; reflexivity.
Qed.

(** ** What does not hold *)

(** [load_env.py --help] reads the top-level file first: if a value is missing
    there, it prints no help. [gen_config.py --help] does not read it. *)
Theorem C73_help_refuted :
  exists fs, fs $"/le/load-env.ini" <> None /\
    forall e files, load_program no_digit no_uni fs 20 path_str $"/le/load-env.ini" systems4 envs4 no_re $"h" no_programs (returning 0) no_other
      (fun _ => []) $"t" (fun _ => true) [$"--help"] e files = (1%N, files).
Proof.
  exists (fun p => if str_eqb p $"/le/load-env.ini" then Some (file_of ["[load-env]"; "supported-systems : s.ini"; "supported-envs : e.ini"]) else None).
  split; [vm_compute; discriminate|]. intros e files. vm_compute. reflexivity.
Qed.
Print Assumptions C73_help_refuted.

(** Two lists, two statuses: that of the configurations ends with success, that of
    the flags with an error. *)
Theorem C73_lists_succeed_refuted :
  config4 [$"--list-configs"; $"gnu"] [] [] = (0%N, []) /\ config4 [$"--list-config-flags"; $"gnu"] [] [] = (1%N, []).
Proof. split; vm_compute; reflexivity. Qed.
Print Assumptions C73_lists_succeed_refuted.
