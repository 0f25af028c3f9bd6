(** * The unit tests of KeywordParser, DetermineSystem, LoadEnv and GenConfig, on
    the model.

    Each [Example] repeats what a test asserts (the name of the test is given),
    with the files of the tests in [RepoData.v]; of the tests that look at a
    message only those are repeated whose message is modelled. What needs
    [SetProgramOptionsCMake], which is not in the repository, is left out. *)
From Coq Require Import String NArith ZArith List Bool.
Import ListNotations.
From Verif Require Import PyBase EnvVar Regex IniView IniRead ExcControl Cpe SetEnv Keyword KeywordFile DetSys EnvKeyword LoadEnv
  TopLevel Messages LoadRun FileObjects SpecFlags SpecLoadEnv SpecObjects Samples RepoData.
Local Open Scope string_scope.
Local Open Scope list_scope.

Fixpoint starts_text (t s : str) : bool :=
  match t, s with
  | [], _ => true
  | a :: t', b :: s' => N.eqb a b && starts_text t' s'
  | _, [] => false
  end.
Fixpoint holds (t s : str) : bool := starts_text t s || match s with [] => false | _ :: s' => holds t s' end.
Definition text (l : list string) : str := join newline (map lit l).

Notation K := (base_class no_uni).
Definition disk (l : list (string * str)) (p : str) : option str := dget p (map (fun x => (lit (fst x), snd x)) l).

Definition no_other (p s : str) : res bool := Err ValueError.

(** ** [wip/keywordparser/tests/test_keyword_parser.py] *)
Definition kp_values (t : str) (s k : string) : res (list str) :=
  fst (get_values_on K (disk [("f.ini", t)]) 20 (lit s) (lit k) (open_ini $"f.ini")).
Definition kp_key (t : str) (s v : string) : res str :=
  fst (get_key_on K (disk [("f.ini", t)]) 20 (lit s) (lit v) (open_ini $"f.ini")).
Example keyword_values_test :
  match kp_values kp_envs_ini "machine-type-1" "intel-19.0.4-mpich-7.7.15-hsw-openmp" with
  | Ok l => In $"default-env-hsw" l
  | Err _ => False
  end /\
  fst (get_values_on K (fun _ => None) 20 $"machine-type-1" $"k" (open_ini $"f.ini")) = Err IOError.
Proof. split; [vm_compute; tauto|vm_compute; reflexivity]. Qed.

(** [test_values_do_not_contain_whitespace], [test_values_are_unique],
    [test_values_do_not_match_any_keys] *)
Definition bad_values (bad : string) : str :=
  file_of ["[machine-type-1]"; "intel-18.0.5-mpich-7.7.15: # Comment here"; "    intel-18               # Comment here";
           bad; "intel-19.0.4-mpich-7.7.15-knl-openmp:"; "    intel-19"].
Definition key_values (k : string) : str :=
  file_of ["[machine-type-1]"; "intel-18.0.5-mpich-7.7.15: # Comment here"; "    intel-18"; "    intel-default";
           "intel-19.0.4-mpich-7.7.15-knl-openmp:"; k].
Example bad_values_test :
  kp_values (bad_values "    intel 18") "machine-type-1" "intel-18.0.5-mpich-7.7.15" = Err SystemExit /\
  kp_values (bad_values "    intel-18") "machine-type-1" "intel-18.0.5-mpich-7.7.15" = Err SystemExit /\
  kp_values (key_values "    intel-18.0.5-mpich-7.7.15  # Matches a key! Bad!") "machine-type-1"
    "intel-19.0.4-mpich-7.7.15-knl-openmp" = Err SystemExit /\
  kp_values (key_values "    intel-19.0.4-mpich-7.7.15-knl-openmp  # Matches a key! Bad!") "machine-type-1"
    "intel-19.0.4-mpich-7.7.15-knl-openmp" = Err SystemExit.
Proof. computed. Qed.

(** [test_general_value_matches_correct_key],
    [test_matched_value_not_in_config_section_raises] *)
Definition general : list string :=
  ["intel-18.0.5-mpich-7.7.15: # Comment here"; "    intel-18              # Comment here";
   "    intel                 # This is the general value"; "    default-env           # It's the default"].
Definition specific : list string := ["intel-19.0.4-mpich-7.7.15:"; "    intel-19"].
Example general_value_test :
  kp_key (text ("[machine-type-1]" :: general ++ specific)) "machine-type-1" "intel" = Ok $"intel-18.0.5-mpich-7.7.15" /\
  kp_key (text ("[machine-type-1]" :: specific ++ general)) "machine-type-1" "intel" = Ok $"intel-18.0.5-mpich-7.7.15" /\
  kp_key kp_envs_ini "machine-type-1" "bad_value" = Err SystemExit.
Proof. computed. Qed.

(** [test_get_msg_for_list_works_correctly],
    [test_get_formatted_msg_trims_trailing_whitespace] *)
Example messages_test :
  holds (text ["|   ERROR:  Message here."; "|     - item1"; "|     - item2"; "|     - item3"; "|"; "|   Extra message here."])
    (get_msg_for_list $"Message here." [$"item1"; $"item2"; $"item3"] $"ERROR" (newline ++ $"Extra message here.")) = true /\
  holds (text ["|   ERROR:  Message here."; "|   Extra"]) (get_formatted_msg $"Message here." $"ERROR" $"Extra   ") = true /\
  holds $"Extra   " (get_formatted_msg $"Message here." $"ERROR" $"Extra   ") = false.
Proof. computed. Qed.

(** ** [wip/determinesystem/tests] *)
Definition system (t : str) (host build : string) (force : bool) : res (option str) :=
  fst (f_system_name no_uni (disk [("s.ini", t)]) 20 no_other (lit host) (f_new_detsys $"s.ini" (lit build) force)).
Definition ds := system ds_systems_ini.
Example system_test :
  fst (f_sys_names no_uni (disk [("s.ini", ds_systems_ini)]) 20 (open_ini $"s.ini")) =
    Ok [$"machine-type-1"; $"machine-type-2"; $"machine-type-3"; $"rhel7"; $"machine-type-4"] /\
  ds "machine-prefix-1" "build-name" false = Ok (Some $"machine-type-1") /\
  ds "machine-prefix-2" "build-name" false = Ok (Some $"machine-type-2") /\
  ds "machine-prefix-3" "build-name" false = Ok (Some $"machine-type-3") /\
  ds "machine-prefix-4007" "build-name" false = Ok (Some $"rhel7") /\
  ds "machine-prefix-5004" "build-name" false = Ok (Some $"rhel7") /\
  ds "machine-prefix-5005" "build-name" false = Ok (Some $"rhel7").
Proof. computed. Qed.
Example system_in_build_name_test :
  ds "machine-prefix-1" "machine-type-1_build-name" false = Ok (Some $"machine-type-1") /\
  ds "machine-prefix-6" "machine-type-1_build-name" false = Err SystemExit /\
  ds "machine-prefix-6" "machine-type-1_build-name" true = Ok (Some $"machine-type-1") /\
  ds "unsupported_hostname" "some-prefix-machine-type-1_build-name" false = Err SystemExit /\
  ds "unsupported_hostname" "machine-type-1_rhel7_build-name" false = Err SystemExit /\
  ds "machine-prefix-1" "machine-type-1_rhel7_build-name" false = Err SystemExit /\
  ds "unsupported_hostname" "no-system-here" false = Err SystemExit.
Proof. computed. Qed.

(** ** [wip/genconfig/tests/test_unit_config_keyword_parser.py] *)
Definition ckp_run (t : str) (build : string) (h : list kop) : list (res kans) :=
  match f_new_ckp no_uni (disk [("c.ini", t)]) 20 $"c.ini" (lit build) with
  | Ok p => replies (fkexec no_uni (disk [("c.ini", t)]) 20) h p
  | Err e => [Err e]
  end.
Definition ckp_ask (build : string) := ckp_run gc_supported_config_flags_ini build.
Definition selected (m n : string) (p : selection) : res kans :=
  Ok (ASel [($"use-mpi", One (lit m)); ($"node-type", One (lit n)); ($"package-enables", p)]).
Example keyword_parser_matches_test :
  ckp_ask "machine-type-5_mpi_serial_empire" [KSelected] = [selected "mpi" "serial" (One $"empire")] /\
  ckp_ask "machine-type-3_no-mpi_openmp_sparc_empire" [KSelected] = [selected "no-mpi" "openmp" (Many [$"empire"; $"sparc"])] /\
  ckp_ask "machine-type-3_openmp" [KSelected] = [selected "mpi" "openmp" (One $"none")] /\
  ckp_ask "machine-type-3" [KSelected] = [selected "mpi" "serial" (One $"none")] /\
  ckp_ask "machine-type-5" [KString] = [Ok (AStr $"_mpi_serial_none")] /\
  ckp_ask "machine-type-5_openmp_muelu_sparc_no-mpi" [KString] = [Ok (AStr $"_no-mpi_openmp_muelu_sparc")] /\
  ckp_ask "machine-type-5_mpi_no-mpi_serial_empire" [KSelected] = [Err ValueError] /\
  ckp_ask "machine-type-5_mpi_serial_openmp_empire" [KSelected] = [Err ValueError].
Proof. computed. Qed.
Example keyword_parser_reused_test :
  ckp_ask "machine-type-5" [KSelected; KString; KName $"machine-type-5_openmp_muelu_empire_sparc"; KSelected; KString] =
    [selected "mpi" "serial" (One $"none"); Ok (AStr $"_mpi_serial_none"); Ok ANone;
     selected "mpi" "openmp" (Many [$"empire"; $"muelu"; $"sparc"]); Ok (AStr $"_mpi_openmp_empire_muelu_sparc")] /\
  map (fun o => ckp_ask "machine-type-5" [KDefault o]) [$"no-mpi"; $"mpi"; $"muelu"; $"none"; $"openmp"; $"serial"] =
    map (fun b => [Ok (ABool b)]) [false; true; false; true; false; true].
Proof. computed. Qed.

(** [test_flag_without_type_in_config_ini_raises],
    [test_options_are_unique_for_all_flags], [test_supported_flags_shown_correctly],
    [test_list_config_flags] *)
Definition table (t : str) (s : str) : res (dict (option str)) := fst (getitem K (disk [("f.ini", t)]) 20 s (open_ini $"f.ini")).
Definition flags_shown (t : str) (file msg kind : string) : res str :=
  match f_new_ckp no_uni (disk [("f.ini", t)]) 20 $"f.ini" $"machine-type-5" with
  | Ok p => supported_flags_msg (table t) (lit file) (lit msg) (lit kind) (snd p)
  | Err e => Err e
  end.
Definition no_type : str :=
  file_of ["[configure-flags]"; "use-mpi:  # No type specified here"; "    mpi"; "    no-mpi";
           "node-type:  SELECT_ONE"; "    serial"; "    openmp"].
Definition repeated (multiple : bool) : str :=
  file_of (["[configure-flags]"; "kokkos-arch:  SELECT_MANY"; "    none"; "    KNC"; "    KNL";
            "package-enables:  SELECT_MANY"; "    none"; "    empire"; "    sparc"] ++ if multiple then ["    KNC"] else []).
Definition two_flags : str :=
  file_of ["[configure-flags]"; "use-mpi:  SELECT_ONE"; "    mpi"; "    no-mpi";
           "node-type:  SELECT_ONE"; "    serial"; "    openmp"].
Example flags_errors_test :
  flags_shown no_type "f.ini" "Message here." "ERROR" = Err ValueError /\
  ckp_run (repeated false) "machine-type-5" [KString] = [Err SystemExit] /\
  ckp_run (repeated true) "machine-type-5" [KString] = [Err SystemExit].
Proof. computed. Qed.
Definition shows (ls : list str) (r : res str) : bool :=
  match r with Ok m => forallb (fun l => holds l m) ls | Err _ => false end.
Example flags_shown_test :
  shows [text ["|   ERROR:  Message here."; "|"; "|   - Supported Flags Are:"; "|     - use-mpi";
               "|       * Options (SELECT_ONE):"; "|         - mpi (default)"; "|         - no-mpi";
               "|     - node-type"; "|       * Options (SELECT_ONE):"; "|         - serial (default)"; "|         - openmp"];
         $"|   See test_supported_flags_shown_correctly.ini for details."]
    (flags_shown two_flags "test_supported_flags_shown_correctly.ini" "Message here." "ERROR") = true /\
  shows [$"Supported Flags Are:"; $"use-mpi"; $"mpi (default)"; $"no-mpi"; $"node-type"; $"serial (default)"; $"openmp"]
    (fst (list_flags_text (table gc_supported_config_flags_ini) $"f.ini" (new_genconfig [] false))) = true.
Proof. computed. Qed.

(** ** [wip/loadenv/loadenv/unittests/test_unit_env_keyword_parser.py] *)
Definition env_of (sys build : string) : res str :=
  match f_new_ekp no_uni (disk [("e.ini", le_supported_envs_ini)]) 20 $"e.ini" (lit build) (lit sys) with
  | Ok p => fst (f_qualified_env_name no_uni (disk [("e.ini", le_supported_envs_ini)]) 20 no_other p)
  | Err e => Err e
  end.
Example env_matches_test :
  env_of "machine-type-1" "machine-type-1_intel-19.0.4-mpich-7.7.15-hsw-openmp_static_dbg" =
    Ok $"machine-type-1_intel-19.0.4-mpich-7.7.15-hsw-openmp" /\
  env_of "machine-type-1" "default-env-knl" = Ok $"machine-type-1_intel-19.0.4-mpich-7.7.15-knl-openmp" /\
  env_of "machine-type-1" "intel_hsw" = Ok $"machine-type-1_intel-19.0.4-mpich-7.7.15-hsw-openmp" /\
  env_of "machine-type-4" "machine-type-4_arm-20.1" = Ok $"machine-type-4_arm-20.1-openmpi-4.0.3-openmp" /\
  env_of "machine-type-4" "arm-serial" = Ok $"machine-type-4_arm-20.0-openmpi-4.0.2-serial".
Proof. computed. Qed.
(** [test_nonexistent_env_name_or_alias_raises],
    [test_unsupported_versions_are_rejected],
    [test_unsupported_node_types_are_rejected] *)
Example env_rejected_test :
  forallb (fun p => match env_of (fst p) (snd p) with Err SystemExit => true | _ => false end)
    [("machine-type-1", "bad-kw-str"); ("machine-type-1", "intel-20"); ("machine-type-1", "intel-19-mpich-7.2");
     ("machine-type-4", "arm-20.2"); ("machine-type-4", "arm-20.1-openmpi-4.0.2");
     ("machine-type-1", "intel-20.0.4-mpich-8.7.15-hsw-1.2.3-openmp-4.5.6");
     ("machine-type-1", "intel-hsw-serial"); ("machine-type-1", "intel-serial"); ("test-system", "env-name-openmp");
     ("test-sys-1", "cuda-serial"); ("test-sys-1", "cuda-10-openmp")] = true.
Proof. computed. Qed.
(** [test_alias_values_are_unique], [test_env_name_without_alias_okay] *)
Definition same_alias (bad : string) : str :=
  file_of ["[machine-type-1]"; "intel-18.0.5-mpich-7.7.15: # Comment here"; "    intel-18              # Comment here";
           "    intel                 # Comment here too"; "    default-env           # It's the default";
           "intel-19.0.4-mpich-7.7.15:"; "    intel-19"; bad].
Definition envs_shown (t : str) (sys rel msg kind : string) : res str :=
  match f_new_ekp no_uni (disk [("f.ini", t)]) 20 $"f.ini" $"build-name" (lit sys) with
  | Ok p => supported_envs_msg (table t) (lit rel) (lit msg) (lit kind) (snd p)
  | Err e => Err e
  end.
Example aliases_test :
  f_new_ekp no_uni (disk [("e.ini", same_alias "    intel")]) 20 $"e.ini" $"default-env" $"machine-type-1" = Err SystemExit /\
  f_new_ekp no_uni (disk [("e.ini", same_alias "    intel-18")]) 20 $"e.ini" $"default-env" $"machine-type-1" = Err SystemExit /\
  shows [text ["|   - Supported Environments for 'test-system':"; "|     - another-env"; "|       * Aliases:";
               "|         - with-an-alias"; "|     - env-name-aliases-empty-string"; "|     - env-name-aliases-none";
               "|     - env-name-serial"; "|       * Aliases:"; "|         - env-name"];
         $"|   See `test_supported_envs.ini` for details"]
    (envs_shown le_supported_envs_ini "test-system" "test_supported_envs.ini"
       "Ensuring environment names without aliases don't cause problems." "TEST") = true.
Proof. computed. Qed.

(** ** [wip/loadenv/loadenv/unittests/test_integration_load_env.py] *)
Definition le_disk := disk [("s.ini", le_supported_systems_ini); ("e.ini", le_supported_envs_ini)].
Definition le_run (host build : string) (force : bool) (h : list lop) : list (res str) :=
  replies (flexec no_uni le_disk 20 no_other (lit host) $"s.ini" $"e.ini") h (f_new_loadenv $"e.ini" (lit build) force).
Example load_env_names_test :
  le_run "machine-type-1_host" "intel-hsw" false [LParsed] = [Ok $"machine-type-1_intel-19.0.4-mpich-7.7.15-hsw-openmp"] /\
  le_run "machine-type-4_host" "arm" false [LParsed] = [Ok $"machine-type-4_arm-20.0-openmpi-4.0.2-openmp"] /\
  forallb (fun b => match le_run "any" b true [LStripped; LStripped] with
                    | [Ok a; Ok b] => str_eqb a $"config_options_here" && str_eqb b $"config_options_here"
                    | _ => false
                    end)
    ["rhel7_cuda_config_options_here"; "machine-type-1_intel-19.0.4-mpich-7.7.15-hsw-openmp_config_options_here";
     "machine-type-1_intel_config_options_here"; "machine-type-1_intel-hsw_config_options_here";
     "machine-type-4_arm-openmp_config_options_here"] = true.
Proof. computed. Qed.
(** [test_loadenv_obj_can_be_reused_for_multiple_build_names]: the host changes
    before the second name. *)
Example load_env_reused_test :
  let ask host := flexec no_uni le_disk 20 no_other (lit host) $"s.ini" $"e.ini" in
  let p := f_new_loadenv $"e.ini" $"intel-hsw_config_options_here" false in
  let run l p := fold_left (fun q o => let (r, p') := ask (fst o) (snd o) (snd q) in (fst q ++ [r], p')) l ([], p) in
  fst (run [("machine-type-1_host", LName $"intel-hsw_config_options_here"); ("machine-type-1_host", LParsed);
            ("machine-type-1_host", LSystem); ("machine-type-1_host", LStripped);
            ("machine-type-4_host", LName $"arm-serial_config_options_here_2"); ("machine-type-4_host", LParsed);
            ("machine-type-4_host", LSystem); ("machine-type-4_host", LStripped);
            ("machine-type-1_host", LName $"intel-knl_config_options_here_2"); ("machine-type-1_host", LParsed);
            ("machine-type-1_host", LSystem); ("machine-type-1_host", LStripped)] p)
  = [Ok $"intel-hsw_config_options_here"; Ok $"machine-type-1_intel-19.0.4-mpich-7.7.15-hsw-openmp";
     Ok $"machine-type-1"; Ok $"config_options_here";
     Ok $"arm-serial_config_options_here_2"; Ok $"machine-type-4_arm-20.0-openmpi-4.0.2-serial";
     Ok $"machine-type-4"; Ok $"config_options_here_2";
     Ok $"intel-knl_config_options_here_2"; Ok $"machine-type-1_intel-19.0.4-mpich-7.7.15-knl-openmp";
     Ok $"machine-type-1"; Ok $"config_options_here_2"].
Proof. computed. Qed.

(** [test_list_envs] *)
Definition le_systems : list (str * list str) :=
  map (fun s => (s, match table le_supported_systems_ini s with Ok d => dkeys d | Err _ => [] end))
    [$"rhel7"; $"machine-type-1"; $"test-sys-1"; $"machine-type-4"; $"test-system"].
Definition envs_listed (sys : string) : res str :=
  fst (list_envs_text no_other le_systems $"any" (table le_supported_envs_ini) $"e.ini" (new_loadenv (lit sys) true)).
Example list_envs_test :
  fst (f_sys_names no_uni le_disk 20 (open_ini $"s.ini")) = Ok (map fst le_systems) /\
  shows [$"Supported Environments for 'machine-type-1':"; $"intel-19.0.4-mpich-7.7.15-hsw-openmp"; $"intel-hsw-openmp";
         $"intel-19.0.4-mpich-7.7.15-knl-openmp"; $"default-env-knl"] (envs_listed "machine-type-1") = true /\
  shows [$"Supported Environments for 'test-system':"; $"env-name-aliases-empty-string"; $"env-name-aliases-none";
         $"env-name-serial"; $"env-name"] (envs_listed "test-system") = true.
Proof. computed. Qed.

(** [test_correct_commands_are_saved] *)
Definition specs_disk := disk [("specs.ini", le_environment_specs_ini)].
Definition saved (host build : string) : res unit * lworld :=
  write_env no_other le_systems (lit host) (table le_supported_envs_ini) no_uni specs_disk 30 (fun _ => []) $"specs.ini" $"tmp" None
    (fun _ => true) (new_lworld (lit build) false [] []).
Definition saves (host build : string) (l : list string) : bool :=
  let (r, w) := saved host build in
  match r, dget $"tmp" (r_out w) with
  | Ok _, Some t => forallb (fun c => holds (lit c) t) l
  | _, _ => false
  end.
Example commands_saved_test :
  saves "machine-type-1_host" "intel-hsw"
    ["module load sparc-dev/intel-19.0.4_mpich-7.7.15_hsw"; "envvar_op set ""OMP_NUM_THREADS"" ""2""";
     "envvar_op unset ""OMP_PLACES"""; "envvar_op prepend ""PATH"" ""/path/to/atdm/ninja-1.8.2/bin""";
     "envvar_op set ""LDFLAGS"" ""-L/path/to/gcc/x86_64-suse-linux/8.3.0/ -lpthread ${LDFLAGS}""";
     "envvar_op set ""LDFLAGS"" ""-L${MPI_ROOT}/lib -lmpich -lrt ${ATP_INSTALL_DIR}/lib/libAtpSigHandler.a ${ATP_INSTALL_DIR}/lib/libbreakpad_client_nostdlib.a ${LDFLAGS}""";
     "envvar_op find_in_path ""MPICXX"" ""CC"""; "envvar_op find_in_path ""MPICC"" ""cc""";
     "envvar_op find_in_path ""MPIF90"" ""ftn"""; "envvar_op set ""CXX"" ""${MPICXX}""";
     "envvar_op set ""CC"" ""${MPICC}"""; "envvar_op set ""F77"" ""${MPIF90}"""; "envvar_op set ""FC"" ""${MPIF90}""";
     "envvar_op set ""F90"" ""${MPIF90}"""] = true /\
  saves "machine-type-4_host" "arm"
    ["module purge"; "module load devpack-arm/1.2.3"; "module unload yaml-cpp"; "module load ninja";
     "module load cmake/3.17.1"; "envvar_op set ""MPI_ROOT"" ""${MPI_DIR}"""; "envvar_op set ""BLAS_ROOT"" ""${ARMPL_DIR}""";
     "envvar_op set ""HDF5_ROOT"" ""${HDF5_DIR}"""; "envvar_op set ""NETCDF_ROOT"" ""${NETCDF_DIR}""";
     "envvar_op set ""PNETCDF_ROOT"" ""${PNETCDF_DIR}"""; "envvar_op set ""ZLIB_ROOT"" ""${ZLIB_DIR}""";
     "envvar_op set ""CGNS_ROOT"" ""${CGNS_DIR}"""; "envvar_op set ""BOOST_ROOT"" ""${BOOST_DIR}""";
     "envvar_op set ""METIS_ROOT"" ""${METIS_DIR}"""; "envvar_op set ""PARMETIS_ROOT"" ""${PARMETIS_DIR}""";
     "envvar_op set ""SUPERLUDIST_ROOT"" ""${SUPLERLU_DIST_DIR}"""; "envvar_op set ""BINUTILS_ROOT"" ""${BINUTILS_DIR}""";
     "envvar_op unset ""HWLOC_LIBS"""; "envvar_op set ""CC"" ""mpicc"""; "envvar_op set ""CXX"" ""mpicxx""";
     "envvar_op set ""FC"" ""mpif77"""; "envvar_op set ""F90"" ""mpif90"""; "envvar_op set ""FC"" ""mpif90""";
     "envvar_op find_in_path ""MPICC"" ""mpicc"""; "envvar_op find_in_path ""MPICXX"" ""mpicxx""";
     "envvar_op find_in_path ""MPIF90"" ""mpif90"""; "envvar_op set ""OMP_NUM_THREADS"" ""2"""] = true.
Proof. computed. Qed.

(** [test_invalid_operations_raises] *)
Definition specs_with (l : list string) : str :=
  file_of (["[ATS1]"; "module-load cmake: 3.18.0"; ""; "[machine-type-1_intel-19.0.4-mpich-7.7.15-hsw-openmp]"] ++ l).
Definition loads (l : list string) : res unit :=
  fst (load_set no_uni (disk [("specs.ini", specs_with l)]) 30 $"specs.ini" (new_lworld $"machine-type-1_intel" true [] [])).
Example invalid_operations_test :
  loads ["use ATS1"] = Ok tt /\
  loads ["use ATS1"; "invalid-operation params for op: here"] = Err ValueError /\
  loads ["invalid-operation params for op: here"; "invalid-operation-2 params for op: here"] = Err ValueError /\
  loads ["use ATS1"; "invalidOperationNoDashes params for op: here"] = Err ValueError.
Proof. computed. Qed.

(** ** [wip/genconfig/tests/test_integration_gen_config.py] *)
Definition gc_disk := disk [("s.ini", gc_supported_systems_ini); ("e.ini", gc_supported_envs_ini);
                            ("f.ini", gc_supported_config_flags_ini); ("c.ini", gc_config_specs_ini)].
Definition gc_run (specs : list str) (build : string) (h : list gop) : list (res gans) :=
  replies (fgexec no_uni gc_disk 20 no_other $"any" $"s.ini" $"e.ini" $"f.ini" specs (fun c => Ok [c])) h
    (f_new_genconfig $"e.ini" $"f.ini" (lit build) true).
Definition gc_specs : list str :=
  match fst (data_sections K gc_disk 20 (PBool false) (open_ini $"c.ini")) with Ok l => l | Err _ => [] end.
(** [test_list_configs_shows_correct_sections],
    [test_complete_config_generated_correctly] *)
Example list_configs_test :
  length gc_specs = 9 /\
  gc_run gc_specs "machine-type-5" [GList] =
    [Ok (GOpts [$"machine-type-5"; $"machine-type-5-EMPIRE";
                $"machine-type-5_intel-19.0.4-mpich-7.7.15-hsw-openmp_mpi_serial_none";
                $"machine-type-5_intel-19.0.4-mpich-7.7.15-hsw-openmp_mpi_serial_sparc";
                $"machine-type-5_intel-19.0.4-mpich-7.7.15-hsw-openmp_no-mpi_serial_sparc";
                $"machine-type-5_intel-19.0.4-mpich-7.7.15-hsw-openmp_mpi_serial_empire_sparc"])] /\
  gc_run gc_specs "machine-type-4" [GList] =
    [Ok (GOpts [$"machine-type-4"; $"machine-type-4_intel-19.0.4-mpich-7.7.15-hsw-openmp_no-mpi_serial_sparc";
                $"machine-type-4_intel-19.0.4-mpich-7.7.15-hsw-openmp_mpi_serial_empire_sparc"])] /\
  gc_run gc_specs "machine-type-5_intel-hsw" [GConfig] =
    [Ok (GStr $"machine-type-5_intel-19.0.4-mpich-7.7.15-hsw-openmp_mpi_serial_none")].
Proof. computed. Qed.

(** The tests of the validation *)
Definition validates (l : list string) : list (res gans) := gc_run (map lit l) "machine-type-5_any_build_name" [GValidate].
Example validation_test :
  validates ["machine-type-5_intel-19.0.4-mpich-7.7.15-hsw-openmp_mpi_serial_sparc"] = [Ok GDone] /\
  forallb (fun s => match validates [s] with [Err ValueError] => true | _ => false end)
    ["machine-type-5_intel-19.0.4-mpich-7.7.15-hsw-openmp_serial_sparc";
     "machine-type-5_intel-19.0.4-mpich-7.7.15-hsw-openmp_sparc";
     "machine-type-5_intel-19.0.4-mpich-7.7.15-hsw-openmp_serial_mpi_sparc";
     "machine-type-5_intel-19.0.4-mpich-7.7.15-hsw-openmp_sparc_serial_mpi";
     "machine-type-5_intel-19.0.4-mpich-7.7.15-hsw-openmp_mpi_serial_sparc_not-an-option"] = true /\
  validates ["machine-type-5_intel-19.0.4-mpich-7.7.15-hsw-openmp_serial_sparc";
             "machine-type-5_intel-19.0.4-mpich-7.7.15-hsw-openmp_mpi_sparc_serial";
             "machine-type-5_intel-19.0.4-mpich-7.7.15-hsw-openmp_mpi_serial_sparc_not-an-option"] = [Err ValueError].
Proof. computed. Qed.

(** [test_bash_cmake_flags_generated_correctly] and the tests of the fragment file
    give the program [test-config-specs.ini]. Its sections [machine-type-5],
    [machine-type-5-EMPIRE] and [machine-type-4] are meant to be supporting
    sections, but their names are not in capitals, and no environment is named in
    them: the validation exits. These tests cannot pass as they stand. *)
Example cmake_flags_test :
  gc_run gc_specs "machine-type-5_intel-hsw" [GFlags] = [Err SystemExit] /\
  gc_run (filter (fun s => negb (str_mem s [$"machine-type-5"; $"machine-type-5-EMPIRE"; $"machine-type-4"])) gc_specs)
    "machine-type-5_intel-hsw_sparc" [GFlags] =
    [Ok (GOpts [$"machine-type-5_intel-19.0.4-mpich-7.7.15-hsw-openmp_mpi_serial_sparc"])].
Proof. computed. Qed.
