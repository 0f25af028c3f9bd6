(** * The unit tests of SetEnvironment, on the model.

    Each [Example] repeats what a test in
    [wip/setenvironment/src/setenvironment/unittests/test_SetEnvironment.py]
    asserts (the name of the test is given), with the file of the tests and the
    recorded outputs in [RepoData.v]. They show that the model agrees with the
    program where the repository says what the program does. *)
From Coq Require Import String NArith ZArith List Bool.
Import ListNotations.
From Verif Require Import PyBase EnvVar IniView IniRead ExcControl Cpe SetEnv Samples PropertiesSetEnv RepoData.
Local Open Scope string_scope.
Local Open Scope list_scope.

Definition one_file (t : str) (p : str) : option str := if str_eqb p $"f.ini" then Some t else None.
Definition tests := one_file setenv_ini.
Definition parsed (s : string) := fst (parse_section_str class tests 20 (lit s) true true new_setenv).
Definition actions (s : string) : res (list action) :=
  fst (actions_get (lit s) (snd (parse_section_str class tests 20 (lit s) true true new_setenv))).

(** [parse_all_sections] *)
Example parse_all_sections_test :
  let (r, o) := parse_all_sections class tests 20 new_setenv in
  match r with Ok _ => True | Err _ => False end /\
  actions_get $"ENVVAR_SET_FOO" o = (Ok [AEnv $"envvar_set" $"FOO" (Some $"BAR")], o).
Proof. vm_compute. split; reflexivity. Qed.

(** [property_actions_default] *)
Example property_actions_default_test : o_user new_setenv = [].
Proof. reflexivity. Qed.

(** [handler_envvar_remove] *)
Example handler_envvar_remove_test :
  actions "CONFIG_TEST_ENVVAR_REMOVE" =
    Ok [AMod $"module_use" None (Some $"/foo/bar/baz"); AEnv $"envvar_set" $"BAR" (Some $"foo")].
Proof. computed. Qed.

(** [parse_section_generic_options_missing] and [_exist] *)
Definition actions_config_a : list action :=
  [AEnv $"envvar_set" $"FOO" (Some $"bar"); AEnv $"envvar_append" $"FOO" (Some $"baz");
   AEnv $"envvar_prepend" $"FOO" (Some $"foo"); AEnv $"envvar_set" $"BAR" (Some $"foo");
   AEnv $"envvar_remove_substr" $"FOO" (Some $"bar"); AEnv $"envvar_unset" $"FOO" None].
Example generic_options_missing_test :
  let (d, o) := getitem class tests 20 $"CONFIG_A" new_setenv in
  d = Ok [] /\ fst (actions_get $"CONFIG_A" o) = Ok actions_config_a /\
  actions "CONFIG_A" = Ok actions_config_a /\ parsed "CONFIG_A" = Ok (Some actions_config_a).
Proof. vm_compute. repeat split; reflexivity. Qed.
Definition actions_generic : list action :=
  [AEnv $"envvar_set" $"FOO" (Some $"bar"); AEnv $"envvar_append" $"FOO" (Some $"baz");
   AEnv $"envvar_prepend" $"FOO" (Some $"foo")].
Example generic_options_exist_test :
  let (d, o) := getitem class tests 20 $"CONFIG_ENVVAR_WITH_GENERIC_OPTION" new_setenv in
  d = Ok [($"key1", Some $"value1")] /\ fst (actions_get $"CONFIG_ENVVAR_WITH_GENERIC_OPTION" o) = Ok actions_generic /\
  actions "CONFIG_ENVVAR_WITH_GENERIC_OPTION" = Ok actions_generic /\
  parsed "CONFIG_ENVVAR_WITH_GENERIC_OPTION" = Ok (Some actions_generic).
Proof. vm_compute. repeat split; reflexivity. Qed.

(** ** [apply] *)
Definition finds (e : environ) (x : str) : option str := if str_eqb x $"ls" then Some $"/bin/ls" else None.
Definition applied_with (mods : list str -> environ -> res Z * environ) (level : Z) (s : string) (e : environ) : res Z * environ :=
  let (r, w) := apply finds mods no_other no_uni tests 20 (lit s) (World (Samples.at_level level new_setenv) e) in (r, w_env w).
Definition applied := applied_with (returning 0) 4.
Definition value_after (s x : string) : option str := dget (lit x) (snd (applied s [])).

(** [apply_envvar_test_01] and [_02] *)
Example apply_envvar_test : value_after "CONFIG_A" "BAR" = Some $"foo" /\ value_after "ENVVAR_UNSET_TEST" "FOO" = None.
Proof. computed. Qed.

(** [apply_module_use_badpath] and [apply_module_load_noexist]: the module
    command fails. *)
Example apply_module_fails_test :
  fst (applied_with (returning 1) 4 "MODULE_USE_BADPATH" []) = Err RuntimeError /\
  fst (applied_with (returning 1) 4 "MODULE_LOAD_NOEXIST" []) = Err RuntimeError.
Proof. computed. Qed.

(** [apply_envvar_expansion] *)
Example apply_envvar_expansion_test :
  value_after "ENVVAR_VAR_EXPANSION" "ENVVAR_PARAM_01" = Some $"AAA" /\
  value_after "ENVVAR_VAR_EXPANSION" "ENVVAR_PARAM_02" = Some $"BAAAB" /\
  value_after "ENVVAR_VAR_EXPANSION" "ENVVAR_PARAM_03" = Some $"AAA -- BAAAB -- ${ADFASF}".
Proof. computed. Qed.

(** [handler_envvar_set_if_empty_01] *)
Example set_if_empty_test :
  value_after "ENVVAR_SET_IF_EMPTY_01" "FOO_VAR" = Some $"FOO_VAL" /\
  value_after "ENVVAR_SET_IF_EMPTY_01" "BAR_VAR" = Some $"BAR_VAL" /\
  value_after "ENVVAR_SET_IF_EMPTY_01" "BAZ_VAR" = Some $"BAZ_VAL" /\
  value_after "ENVVAR_SET_IF_EMPTY_01" "BIF_VAR" = Some [].
Proof. computed. Qed.

(** [handler_envvar_remove_substr], [_envvar_missing] and
    [handler_envvar_remove_path_entry] *)
Example remove_substr_test :
  value_after "ENVVAR_REMOVE_SUBSTR_TEST" "FOO" = Some $"BB" /\
  value_after "ENVVAR_REMOVE_SUBSTR_TEST_NO_ENVVAR" "FOO" = None.
Proof. computed. Qed.
Example remove_path_entry_test :
  value_after "ENVVAR_REMOVE_PATH_ENTRY_TEST" "TEST_PATH1" = Some $"/foo:/bar/baz:/bif" /\
  value_after "ENVVAR_REMOVE_PATH_ENTRY_TEST" "TEST_PATH2" = Some $"/foo:/bar:/bar/baz:/bar:/bif" /\
  value_after "ENVVAR_REMOVE_PATH_ENTRY_TEST" "TEST_PATH3" = Some $"/foo:/bar:/bar:/bif".
Proof. computed. Qed.

(** [handler_envvar_assert_not_empty_01] and [_02] *)
Example assert_not_empty_test :
  fst (applied "ENVVAR_ASSERT_NOT_EMPTY" []) = Err ValueError /\ fst (applied "ENVVAR_ASSERT_NOT_EMPTY_02" []) = Err ValueError.
Proof. computed. Qed.

(** [handler_envvar_find_in_path] *)
Example find_in_path_test :
  value_after "ENVVAR_FIND_IN_PATH_TEST" "TEST_ENVVAR_PATH" = Some $"/bin/ls" /\
  value_after "ENVVAR_FIND_IN_PATH_TEST" "TEST_ENVVAR_NOTFOUND" = Some [].
Proof. computed. Qed.

(** [module_load_default]: the actions, and the calls of the module command (it
    fails on what the test would not call). *)
Definition calls (l : list str) (e : environ) : res Z * environ :=
  (Ok 0%Z, dset $"CALLS" (match dget $"CALLS" e with Some v => v | None => [] end ++ join $" " l ++ $";") e).
Example module_load_default_test :
  actions "MODULE_LOAD_NO_VERSION" =
    Ok [AMod $"module_unload" (Some $"gcc") None; AMod $"module_unload" (Some $"boost") None;
        AMod $"module_load" (Some $"gcc") None; AMod $"module_load" (Some $"boost") (Some []);
        AEnv $"envvar_assert_not_empty" $"TEST_SETENVIRONMENT_GCC_VER" (Some [])] /\
  dget $"CALLS" (snd (applied_with calls 4 "MODULE_LOAD_NO_VERSION" [($"TEST_SETENVIRONMENT_GCC_VER", $"7.3.0")]))
    = Some $"unload gcc;unload boost;load gcc;load boost;".
Proof. computed. Qed.

(** ** The free functions: [helper_envvar_set_if_empty_01], [helper_envvar_op_01],
    [freefunc_envvar_assign], [freefunc_envvar_op] *)
Example free_functions_test :
  fst (envvar_op finds $"set_if_empty" $"FOO" [] false []) = Err ValueError /\
  envvar_op finds $"set" $"FOO" [] true [] = (Ok 0%Z, [($"FOO", [])]) /\
  fst (envvar_op finds $"set" $"FOO" [] false []) = Err ValueError /\
  fst (envvar_op finds $"non-existent-operation" $"FOO" [] true []) = Err ValueError.
Proof. computed. Qed.

(** [helper_gen_actioncmd_module_badnumargs], [helper_remove_prefix] and the
    [badinterp] tests, as far as the model has the arguments. *)
Example gen_actioncmd_test :
  fst (gen_module $"module_purge" None None $"python" new_setenv) = Ok $"ModuleHelper.module(""purge"")" /\
  fst (gen_module $"module_load" (Some $"gcc") (Some $"7.2.0") $"bad interpreter name" new_setenv) = Err ValueError /\
  fst (gen_envvar $"envvar_set" $"FOO" (Some $"BAR") $"bad interpreter name" new_setenv) = Err ValueError /\
  fst (gen_envvar $"envvar_unknown" $"FOO" (Some $"BAR") $"python" new_setenv) = Err ValueError /\
  fst (gen_module $"module_undefined" (Some $"gcc") (Some $"7.3.0") $"python" new_setenv) = Err ValueError /\
  remove_prefix $"envvar_use" $"envvar_" = $"use" /\ remove_prefix $"envvar_use" $"varuse" = $"envvar_use".
Proof. computed. Qed.

(** ** Scripts *)

(** The headers, from the recorded files that contain nothing else. *)
Definition without_end (t : str) : str := firstn (length t - 2) t.
Definition recorded_header (interp : str) : str :=
  without_end (if str_eqb interp $"bash" then truth_config_bash_iee else truth_config_python_iee).
Definition script (s : string) (hdr body bang : bool) (interp : string) : res str :=
  fst (generate_script no_uni tests 20 recorded_header (lit s) hdr body bang (lit interp) new_setenv).
Definition written (s : string) (hdr body bang : bool) (interp : string) : res (option str * Z) :=
  fst (write_actions no_uni tests 20 recorded_header (lit s) hdr body bang (lit interp) new_setenv).

(** [generate_actions_script], [helper_gen_actions_script_nohdr] and [_badinterp] *)
Example script_test :
  script "CONFIG_A" false true false "bash" =
    Ok (banner ++ $"envvar_op set ""FOO"" ""bar""" ++ newline ++ $"envvar_op append ""FOO"" ""baz""" ++ newline ++
        $"envvar_op prepend ""FOO"" ""foo""" ++ newline ++ $"envvar_op set ""BAR"" ""foo""" ++ newline ++
        $"envvar_op remove_substr ""FOO"" ""bar""" ++ newline ++ $"envvar_op unset ""FOO""" ++ newline ++ newline ++ newline) /\
  fst (generate_script no_uni tests 20 recorded_header $"CONFIG_A" true true true $"invalid_interpreter"
         (Samples.at_level 5 new_setenv)) = Err ValueError /\
  fst (generate_script no_uni tests 20 recorded_header $"CONFIG_A" true true true $"invalid_interpreter"
         (Samples.at_level 2 new_setenv)) = Ok [].
Proof. computed. Qed.

(** [write_actions_to_file]: the sixteen recorded files. *)
Example write_bash_test :
  written "CONFIG_A+" true true true "bash" = Ok (Some truth_config_bash_iii, 0%Z) /\
  written "CONFIG_A+" true true false "bash" = Ok (Some truth_config_bash_iie, 0%Z) /\
  written "CONFIG_A+" true false true "bash" = Ok (Some truth_config_bash_iei, 0%Z) /\
  written "CONFIG_A+" true false false "bash" = Ok (Some truth_config_bash_iee, 0%Z) /\
  written "CONFIG_A+" false true true "bash" = Ok (Some truth_config_bash_eii, 0%Z) /\
  written "CONFIG_A+" false true false "bash" = Ok (Some truth_config_bash_eie, 0%Z) /\
  written "CONFIG_A+" false false true "bash" = Ok (Some truth_config_bash_eei, 0%Z) /\
  written "CONFIG_A+" false false false "bash" = Ok (Some truth_config_bash_eee, 0%Z).
Proof. computed. Qed.
Example write_python_test :
  written "CONFIG_A+" true true true "python" = Ok (Some truth_config_python_iii, 0%Z) /\
  written "CONFIG_A+" true true false "python" = Ok (Some truth_config_python_iie, 0%Z) /\
  written "CONFIG_A+" true false true "python" = Ok (Some truth_config_python_iei, 0%Z) /\
  written "CONFIG_A+" true false false "python" = Ok (Some truth_config_python_iee, 0%Z) /\
  written "CONFIG_A+" false true true "python" = Ok (Some truth_config_python_eii, 0%Z) /\
  written "CONFIG_A+" false true false "python" = Ok (Some truth_config_python_eie, 0%Z) /\
  written "CONFIG_A+" false false true "python" = Ok (Some truth_config_python_eei, 0%Z) /\
  written "CONFIG_A+" false false false "python" = Ok (Some truth_config_python_eee, 0%Z).
Proof. computed. Qed.

(** The recorded files of [handler_envvar_set_if_empty_01],
    [handler_envvar_assert_not_empty_01] and
    [bash_env_val_with_special_chars_not_interpreted] *)
Example write_others_test :
  written "ENVVAR_SET_IF_EMPTY_01" true true true "bash" = Ok (Some truth_sie_bash_iii, 0%Z) /\
  written "ENVVAR_SET_IF_EMPTY_01" true true true "python" = Ok (Some truth_sie_python_iii, 0%Z) /\
  written "ENVVAR_ASSERT_NOT_EMPTY" true true true "bash" = Ok (Some truth_ane_bash_iii, 0%Z) /\
  written "ENVVAR_ASSERT_NOT_EMPTY" true true true "python" = Ok (Some truth_ane_python_iii, 0%Z) /\
  written "BASH_ENV_VAL_WITH_SPECIAL_CHARS_NOT_INTERPRETED" true true true "bash" = Ok (Some truth_special_chars_bash_iii, 0%Z).
Proof. computed. Qed.

(** [write_actions_to_file_bad_interp] *)
Example write_bad_interp_test :
  fst (write_actions no_uni tests 20 recorded_header $"CONFIG_A+" true true true $"not a valid interpreter"
         (Samples.at_level 5 new_setenv)) = Err ValueError /\
  fst (write_actions no_uni tests 20 recorded_header $"CONFIG_A+" true true true $"not a valid interpreter"
         (Samples.at_level 2 new_setenv)) = Ok (None, 1%Z).
Proof. computed. Qed.
