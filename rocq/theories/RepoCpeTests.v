(** * The unit tests of ConfigParserEnhanced, on the model.

    Each [Example] repeats what a test in
    [src/configparserenhanced/unittests/test_ConfigParserEnhanced.py] asserts
    (the name of the test is given), with the files of the tests in
    [RepoData.v]. The last ones are about [examples/ConfigParserEnhanced-example-01]
    and its recorded output. *)
From Coq Require Import String NArith ZArith List Bool.
Import ListNotations.
From Verif Require Import PyBase IniView IniRead ExcControl Cpe Samples RepoData.
Local Open Scope string_scope.
Local Open Scope list_scope.

Definition one_file (t : str) (p : str) : option str := if str_eqb p $"f.ini" then Some t else None.
Definition tests := one_file cpe_ini.
Notation "m >> k" := (bind m (fun _ => k)) (at level 60, right associativity).

(** A parser for the file of the tests, at the two levels a test sets. *)
Definition parser (debug level : Z) : obj unit unit :=
  snd ((set_debug_level debug >> set_level level) (fresh tt)).
Definition fresh_parser : obj unit unit := fresh tt.

Definition parse_in {Sh Us} (K : pyclass Sh Us) (s : string) : SM (obj Sh Us) Sh :=
  parse_section_str K tests 20 (lit s) true true.
Definition parse (s : string) := parse_in base s.
Definition data (s : string) := getitem base tests 20 (lit s).
Definition get (s : string) (k : option string) := data_get base tests 20 (lit s) (option_map lit k).
Definition strs (l : list string) : list str := map lit l.
Definition kv (k v : string) : str * option str := (lit k, Some (lit v)).

Definition logged {A} (m : SM (obj unit unit) A) (o : obj unit unit) : list logent :=
  match o_log (snd (m o)) with Some l => l | None => [] end.
Definition entered (l : list logent) : list str := flat_map (fun e => match e with LSecEntry n => [n] | _ => [] end) l.
Definition left_ (l : list logent) : list str := flat_map (fun e => match e with LSecExit n => [n] | _ => [] end) l.
Definition called (l : list logent) : list str := flat_map (fun e => match e with LHEntry n _ => [n] | _ => [] end) l.
Definition returned (l : list logent) : list str := flat_map (fun e => match e with LHExit n _ => [n] | _ => [] end) l.
Definition operations (l : list logent) : list (str * list str) :=
  flat_map (fun e => match e with LOperation n p => [(n, p)] | _ => [] end) l.

(** [Template], [debug_default] *)
Example template_test :
  fst (parse "SECTION-A" (parser 5 5)) = Ok tt /\ fst (parse "SECTION-A" fresh_parser) = Ok tt.
Proof. vm_compute. split; reflexivity. Qed.

(** [property_config] *)
Example property_config_test :
  let has s := fst (bind (get_cpd tests) (fun i => ret (existsb (str_eqb (lit s)) (ini_sections i))) (parser 5 4)) in
  has "SECTION-A" = Ok true /\ has "SECTION-B" = Ok true /\ has "SECTION C" = Ok true /\
  has "SECTION-A+" = Ok true /\ has "SECTION-B+" = Ok true /\ has "SECTION C+" = Ok true.
Proof. vm_compute. repeat split; reflexivity. Qed.

(** [property_inifilepath] and [property_inifilepath_changed] *)
Example property_inifilepath_test :
  let o := snd ((set_inifilepath (FOne $"f.ini") >> set_debug_level 1 >> parse "SECTION-A") (new_obj tt)) in
  let o' := snd (set_inifilepath (FOne $"foobar") o) in
  (o_log o <> None /\ o_cpd o <> None) /\ (o_log o' = None /\ o_cpd o' = None).
Proof. vm_compute. repeat split; try discriminate. Qed.

(** [property_inifilepath_empty] *)
Example property_inifilepath_empty_test :
  fst ((set_inifilepath (FMany []) >> get_cpd tests) (parser 1 4)) = Err ValueError.
Proof. vm_compute. reflexivity. Qed.

(** [property_inifilepath_invalid_entry] (the second half sets a private
    attribute) and [assert_inifilepath_not_str] *)
Example property_inifilepath_invalid_entry_test :
  fst (set_inifilepath (FMany [None]) (parser 1 4)) = Err TypeError /\
  fst (set_inifilepath FBad fresh_parser) = Err TypeError.
Proof. vm_compute. split; reflexivity. Qed.

(** [assert_inifilepath_missing] and [assert_inifilepath_filenotfound] *)
Example inifilepath_missing_test :
  fst (get_files (new_obj tt : obj unit unit)) = Err ValueError /\
  fst (get_cpd tests (set_files (Some [$"./filenotfound.ini"]) fresh_parser)) = Err IOError.
Proof. vm_compute. split; reflexivity. Qed.

(** [operand_variations_test] *)
Example operand_variations_test :
  operations (logged (parse "OPERAND_TEST") (parser 5 4)) =
    map (fun p => (lit (fst p), strs (snd p)))
      [("op1", []); ("op1", ["op2"]); ("op1", ["op2"]); ("op1", ["op 2"]); ("op1", ["op2"; "op3"]);
       ("op1", ["op2"; "op3"]); ("op_1", []); ("op_1", ["op2"]); ("op_1", ["op2"; "op3"]); ("op_1", ["op2"]);
       ("op_1", ["op2"; "op3"]); ("op_1", ["op 2"]); ("op_1", ["op 2"; "op3"]); ("op_1", ["op-2"]);
       ("op_1", ["op_2"]); ("op1", ["op2"]); ("op1", ["op2"; "+++"]); ("opA", []); ("op_A", [])].
Proof. vm_compute. reflexivity. Qed.

(** [keyword_use] *)
Example keyword_use_test :
  let (r, o) := (parse "SECTION C+" >> get "SECTION C+" None) (parser 5 4) in
  r = Ok (GotSection [kv "key 1" "value 1"; kv "key 2" "value 2"; kv "key 3" "value 3"; kv "key 4" "value 4"]) /\
  let l := logged (ret tt) o in
  entered l = rev (left_ l) /\
  called l = strs ["handler_initialize"; "_handler_use"; "_generic_option_handler"; "_generic_option_handler";
                   "_generic_option_handler"; "_generic_option_handler"; "handler_finalize"] /\
  returned l = strs ["handler_initialize"; "_generic_option_handler"; "_generic_option_handler";
                     "_generic_option_handler"; "_handler_use"; "_generic_option_handler"; "handler_finalize"].
Proof. vm_compute. repeat split; reflexivity. Qed.

(** [keyword_use_cycle_exists] *)
Example keyword_use_cycle_exists_test :
  entered (logged (parse "CYCLE_TEST_A") (parser 5 4)) =
    strs ["CYCLE_TEST_A"; "CYCLE_TEST_B"; "CYCLE_TEST_C"; "CYCLE_TEST_B"; "CYCLE_TEST_C"].
Proof. vm_compute. reflexivity. Qed.

(** [parse_section_launch]: not a string, empty, and the log is reset *)
Example parse_section_launch_test :
  fst (parse_section base tests 20 None true true (parser 5 4)) = Err TypeError /\
  fst (parse "" (parser 5 4)) = Err ValueError /\
  logged (parse "SECTION-A") (set_log (Some [LSecEntry $"1"]) (parser 5 4)) = logged (parse "SECTION-A") (parser 5 4).
Proof. vm_compute. repeat split; reflexivity. Qed.

(** Subclasses with one handler. *)
Definition returning (z : Z) : hbody unit unit := fun _ _ sh us => (Ok (Some z), sh, us).
Definition with_handlers (l : list (string * attr unit unit)) : pyclass unit unit :=
  PyClass (map (fun p => (lit (fst p), snd p)) l) tt no_uni.

(** [parse_section_handler_fail_01], [_5] and [_11], and [parser_handler_rval_reserved_warning] *)
Example handler_fail_test :
  let run n z level := parse_in (with_handlers [(n, AUser Decorated (returning z))]) "HANDLER_FAIL_TEST" (parser 5 level) in
  fst (run "_handler_test_handler_fail" 1%Z 5%Z) = Err RuntimeError /\
  fst (run "handler_test_handler_fail" 5%Z 5%Z) = Err RuntimeError /\
  fst (run "_handler_test_handler_fail" 11%Z 5%Z) = Err RuntimeError /\
  let (r, o) := run "handler_test_handler_fail" 5%Z 4%Z in
  r = Ok tt /\ exists w, o_out o = [OutWarn w].
Proof. vm_compute. repeat split; try reflexivity. eexists; reflexivity. Qed.

(** [parser_handler_private], [_public] and [_ambiguous] *)
Example handler_names_test :
  let run l := fst (parse_in (with_handlers l) "AMBIGUOUS_HANDLER_TEST" (parser 5 4)) in
  run [("_handler_operation", AUser Decorated (returning 0))] = Ok tt /\
  run [("handler_operation", AUser Plain (returning 0))] = Ok tt /\
  run [("handler_operation", AUser Decorated (returning 0));
       ("_handler_operation", AUser Decorated (returning 0))] = Err AmbiguousHandlerError.
Proof. vm_compute. repeat split; reflexivity. Qed.

(** [assert_parsesection_r_section_missing] (through the public method) and
    [assert_parsesection_r_op_bad_char] *)
Example parsesection_test :
  fst (parse "blah blah blah" (parser 1 4)) = Err KeyError /\ fst (parse "BAD_CHAR_IN_OP" (parser 1 4)) = Ok tt.
Proof. vm_compute. split; reflexivity. Qed.

(** The names the tests expect, in the order of the file. *)
Definition all_names : list str :=
  strs ["SECTION-A"; "SECTION-B"; "SECTION C"; "SECTION-A+"; "SECTION-B+"; "SECTION C+"; "OPERAND_TEST";
        "BAD_CHAR_IN_OP"; "CYCLE_TEST_A"; "CYCLE_TEST_B"; "CYCLE_TEST_C"; "ENVVAR-PREPEND-TEST";
        "HANDLER_FAIL_TEST"; "DEP-TEST-A"; "DEP-TEST-B"; "AMBIGUOUS_HANDLER_TEST"; "NOVALUE_TEST";
        "KEY_VARIANT_TEST"; "SEC_EMPTY"; "SEC_ALL_HANDLED"; "TEST_SECTION-0.1.0"; "TEST_SECTION-0.2.0";
        "EMPTY_SECTION"].

(** [property_configparserdata_parsed] *)
Example configparserdata_parsed_test :
  let o := snd (data_items_all base tests 20 (parser 1 1)) in
  fst (data_keys tests o) = Ok all_names /\ fst (data_len tests o) = Ok (length all_names) /\
  fst (data "NonExistentSection" o) = Err KeyError /\
  fst (data "SECTION-B" o) = Ok [kv "key1" "value 1"; kv "key2" "value 2"; kv "key3" "value 3"] /\
  fst (data_options base tests 20 $"SECTION-A" o) = Ok [kv "key1" "value1"; kv "key2" "value2"; kv "key3" "value3"] /\
  fst (data_options base tests 20 $"NonExistentSection" o) = Err KeyError.
Proof. vm_compute. repeat split; reflexivity. Qed.

(** [property_configparserenhanceddata_has_option] and
    [ConfigParserDataEnhanced_has_option] *)
Example has_option_test :
  let has k := fst (has_option base tests 20 $"SECTION-A" (lit k) (parser 1 1)) in
  has "key1" = Ok true /\ has "Nonexistent Key" = Ok false /\ has "key4" = Ok false.
Proof. vm_compute. repeat split; reflexivity. Qed.

(** [property_configparserenhanceddata_get] and [method_get_01] *)
Example get_test :
  fst (get "SECTION-A" (Some "key1") (parser 1 1)) = Ok (GotValue (Some $"value1")) /\
  fst (get "SECTION-A" (Some "nonexistentkey") (parser 1 1)) = Err KeyError /\
  fst (get "Nonexistent Section" (Some "key1") (parser 1 1)) = Err KeyError /\
  fst (get "SECTION-A" None (parser 3 5)) = Ok (GotSection [kv "key1" "value1"; kv "key2" "value2"; kv "key3" "value3"]) /\
  fst (get "SECTION-A" (Some "key2") (parser 3 5)) = Ok (GotValue (Some $"value2")) /\
  fst (get "SECTION-A" (Some "key400") (parser 3 5)) = Err KeyError.
Proof. vm_compute. repeat split; reflexivity. Qed.

(** [property_configparserenhanceddata_deptest] *)
Example deptest_test :
  let items s := data_items base tests 20 (lit s) in
  let value s k := fst ((items "DEP-TEST-A" >> items "DEP-TEST-B" >> get s (Some k)) (parser 1 1)) in
  let value' s k := fst ((items "DEP-TEST-A" >> get s (Some k)) (parser 1 1)) in
  (value' "DEP-TEST-A" "key1" = Ok (GotValue (Some $"value1-A")) /\
   value' "DEP-TEST-A" "key2" = Ok (GotValue (Some $"value2-A"))) /\
  value "DEP-TEST-A" "key1" = Ok (GotValue (Some $"value1-A")) /\
  value "DEP-TEST-A" "key2" = Ok (GotValue (Some $"value2-A")) /\
  value "DEP-TEST-B" "key1" = Ok (GotValue (Some $"value1-B")) /\
  value "DEP-TEST-B" "key2" = Ok (GotValue (Some $"value2-A")).
Proof. vm_compute. repeat split; reflexivity. Qed.

(** [configparser_IdenticalKeyError] *)
Example identical_key_test :
  let p s := parse_section_str base (one_file cpe_badkeys_ini) 20 (lit s) true true in
  fst (p "SECTION-A" (parser 1 0)) = Err DuplicateOptionError /\
  fst (p "SECTION-B" (snd (p "SECTION-A" (parser 1 0)))) = Err DuplicateOptionError.
Proof. vm_compute. split; reflexivity. Qed.

(** [ini_NoValue], [test_key_variants] and [method_getitem_03] *)
Example no_value_test :
  fst (data "NOVALUE_TEST" (parser 1 0)) = Ok [kv "key1" ""; ($"key2", None); kv "key3" "value3"] /\
  fst (data "KEY_VARIANT_TEST" (parser 0 0)) =
    Ok [kv "key1" "value1"; kv "key two" "value two"; kv "key 'three A'" "value string"; kv "key four" "";
        ($"key five", None)].
Proof. vm_compute. split; reflexivity. Qed.

(** [handler_use_issue010] *)
Example issue010_test :
  fst ((parse "TEST_SECTION-0.2.0" >> data "TEST_SECTION-0.2.0") (parser 5 5)) =
    Ok [kv "key-0.1.0" "value-0.1.0"; kv "key-0.2.0" "value-0.2.0"].
Proof. vm_compute. reflexivity. Qed.

(** [write] (that it ends, and the missing section) and [unroll_to_str] *)
Example write_test :
  let w s spaces := unroll_to_str base tests 20 (option_map lit s) spaces true in
  (exists t, fst (w None true fresh_parser) = Ok t) /\ (exists t, fst (w (Some "SECTION-A+") true fresh_parser) = Ok t) /\
  (exists t, fst (w None false fresh_parser) = Ok t) /\ fst (w (Some "ASDFASDFASDFASDF") false fresh_parser) = Err KeyError.
Proof. vm_compute. repeat split; try reflexivity; eexists; reflexivity. Qed.
Example unroll_to_str_test :
  fst (unroll_to_str base tests 20 (Some $"SECTION-A") false false (parser 5 5)) =
    Ok $"[SECTION-A]
key1:value1
key2:value2
key3:value3
".
Proof. vm_compute. reflexivity. Qed.

(** [DEFAULT_parsed] *)
Example default_parsed_test :
  let fs := one_file cpe_default_ini in
  let p := parse_section_str base fs 20 $"SECTION-A+" true true in
  let g s := data_get base fs 20 (lit s) None in
  fst ((p >> g "SECTION-A+") (parser 5 5)) =
    Ok (GotSection [kv "Key D1" "value A+D1"; kv "key A1" "value A1"; kv "key A2" "value A2"; kv "key A3" "value A+3";
                    kv "key A+4" "value A+4"]) /\
  fst ((p >> g "SECTION-A+" >> g "SECTION-A") (parser 5 5)) =
    Ok (GotSection [kv "Key D1" "value D1"; kv "key A1" "value A1"; kv "key A2" "value A2"; kv "key A3" "value A3"]).
Proof. vm_compute. split; reflexivity. Qed.

(** [EMPTY_SECTION], [ini_section_has_empty_section] and
    [ini_section_has_no_generic_entries] *)
Example empty_section_test :
  fst (get "EMPTY_SECTION" None (parser 5 5)) = Ok (GotSection []) /\
  fst (data "SEC_EMPTY" (parser 3 5)) = Ok [] /\ fst (data "SEC_ALL_HANDLED" (parser 3 5)) = Ok [].
Proof. vm_compute. repeat split; reflexivity. Qed.

(** [VALIDATOR_01], [_02] and [_03] *)
Example validator_01_test :
  let fs := one_file cpe_validation_01_ini in
  fst (assert_section base fs 20 $"SECTION B" true (parser 0 5)) = Ok None /\
  fst ((assert_section base fs 20 $"SECTION B" true >> assert_file base fs 20) (parser 0 5)) = Ok 0%Z.
Proof. vm_compute. split; reflexivity. Qed.
Definition failing_file (fs : str -> option str) (o : obj unit unit) : Prop :=
  let o1 := snd (assert_section base fs 20 $"SECTION B" true o) in
  let o2 := snd (assert_section base fs 20 $"SECTION C" true o1) in
  fst (assert_section base fs 20 $"SECTION B" true o) = Ok None /\
  fst (assert_section base fs 20 $"SECTION C" true o1) = Err ValueError /\ fst (assert_file base fs 20 o2) = Err ValueError.
Example validator_02_test : failing_file (one_file cpe_validation_02_ini) (parser 0 5).
Proof. vm_compute. repeat split; reflexivity. Qed.
Example validator_03_test :
  failing_file (fun p => if str_eqb p $"a.ini" then Some cpe_validation_03a_ini
                         else if str_eqb p $"b.ini" then Some cpe_validation_03b_ini else None)
               (set_files (Some [$"a.ini"; $"b.ini"]) (parser 0 5)).
Proof. vm_compute. repeat split; reflexivity. Qed.

(** [get_known_operations] (with what the comment in the test says) *)
Example known_operations_test :
  let K := with_handlers [("_handler_handlebars_are_cool", AUser Decorated (returning 0))] in
  fst (get_known_operations K (one_file cpe_validation_02_ini) (parser 0 5)) = Ok (strs ["handlebars-are-cool"; "use"]).
Proof. vm_compute. reflexivity. Qed.

(** [property_configparser_delimiters] *)
Example delimiters_test :
  o_delims fresh_parser = strs ["="; ":"] /\
  o_delims (snd (set_configparser_delimiters (Some [$"="]) (parser 3 5))) = strs ["="] /\
  fst (set_configparser_delimiters None (parser 3 5)) = Err TypeError.
Proof. vm_compute. repeat split; reflexivity. Qed.

(** [method_parse_all_sections] *)
Example parse_all_sections_test : fst (parse_all_sections base tests 20 (parser 1 3)) = Ok tt.
Proof. vm_compute. reflexivity. Qed.

(** [method_getitem_01], [_02] and [_04] *)
Example getitem_test :
  fst (data "SECTION-A" (parser 3 5)) = Ok [kv "key1" "value1"; kv "key2" "value2"; kv "key3" "value3"] /\
  fst (data "SECTION-A+" (parser 3 5)) =
    Ok [kv "key1" "value1"; kv "key2" "value2"; kv "key3" "value3"; kv "key4" "value4"] /\
  fst (getitem base tests 20 (o_intname fresh_parser) (parser 3 5)) = Err KeyError.
Proof. vm_compute. repeat split; reflexivity. Qed.

(** [len_01] *)
Example len_test :
  let n := length all_names in
  let o1 := snd (parse "SECTION-A" (parser 3 5)) in
  let o2 := snd (parse "SECTION-A+" o1) in
  let o3 := snd (parse "SECTION-B+" o2) in
  let o4 := snd (parse "SEC_EMPTY" o3) in
  let o5 := snd (parse "SEC_ALL_HANDLED" o4) in
  map (fun o => fst (data_len tests o)) [o1; o2; o3; o4; o5] = repeat (Ok n) 5.
Proof. vm_compute. reflexivity. Qed.

(** [keys] and [sections] *)
Example keys_test :
  fst (data_keys tests (parser 5 5)) = Ok all_names /\
  fst (data_sections base tests 20 (PBool false) (parser 3 5)) = Ok all_names.
Proof. vm_compute. split; reflexivity. Qed.

(** [sections_arg_parse] *)
Example sections_arg_parse_test :
  let sections p := data_sections base tests 20 p in
  let (r1, o1) := sections (PBool true) (parser 3 4) in
  let l1 := logged (ret tt) o1 in
  let (r2, o2) := sections (PBool true) (set_log None o1) in
  let (r3, o3) := sections (PStr $"force") (set_log None o2) in
  (r1 = Ok all_names /\ entered l1 = rev (left_ l1) /\ (0 < length (entered l1))%nat) /\
  (r2 = Ok all_names /\ o_log o2 = None) /\
  (r3 = Ok all_names /\ entered (logged (ret tt) o3) = rev (left_ l1)) /\
  fst (sections PBad o3) = Err TypeError /\ fst (sections (PStr $"definitely not the right value") o3) = Err ValueError.
Proof. vm_compute. repeat split; try reflexivity; repeat constructor. Qed.

(** [has_section] and [has_section_no_parse] *)
Example has_section_test :
  fst (has_section base tests 20 $"SECTION-A" (parser 3 5)) = Ok true /\
  fst (has_section base tests 20 $"JELLY DOUGHNUT" (parser 3 5)) = Ok false /\
  fst (has_section_no_parse $"SECTION-A" (parser 3 5)) = Ok false /\
  fst (has_section_no_parse $"SECTION-A" (snd (data "SECTION-A" (parser 3 5)))) = Ok true.
Proof. vm_compute. repeat split; reflexivity. Qed.

(** [items] *)
Example items_test :
  let (r1, o1) := data_items_all base tests 20 (parser 5 4) in
  let (r2, o2) := data_items_all base tests 20 o1 in
  match r1, r2, fst (data_items base tests 20 $"SECTION-A" o2) with
  | Ok _, Ok l, Ok d => length l = length all_names /\ length d = 3
  | _, _, _ => False
  end.
Proof. vm_compute. split; reflexivity. Qed.

(** ** [examples/ConfigParserEnhanced-example-01.py]: the program (14-43), and
    what it printed. *)
Definition line (l : list str) : str := concat l ++ newline.
Definition shown_value (v : option str) : str := match v with Some t => t | None => $"None" end.
(** [repr] of a dict of texts without a quote, a backslash or an unprintable
    character. *)
Definition dict_repr (d : dict (option str)) : str :=
  $"{" ++ join $", " (map (fun p => $"'" ++ fst p ++ $"': " ++ match snd p with Some v => $"'" ++ v ++ $"'" | None => $"None" end) d) ++ $"}".
Definition example_program (filename : str) : SM (obj unit unit) str :=
  let fs p := if str_eqb p $"example-01.ini" then Some example_ini else None in
  set_inifilepath (FOne filename) >>
  parse_section_str base fs 20 $"SECTION-B" true true >>
  bind (getitem base fs 20 $"SECTION-B") (fun section =>
  bind (data_sections base fs 20 (PBool false)) (fun names =>
  bind (data_items_all base fs 20) (fun all =>
  ret (line [$"Using filename: `"; filename; $"`"; newline] ++
       line [$"Section data for `SECTION-B`:"] ++ line [dict_repr section] ++
       line [] ++ line [$"Section List:"] ++ concat (map (fun n => line [$"- "; n]) names) ++
       line [] ++ line [$"Section Details:"] ++
       concat (map (fun p => line [$"["; fst p; $"]"] ++
                             concat (map (fun q => line [fst q; $" : "; shown_value (snd q)]) (snd p)) ++ line []) all) ++
       line [$"Done."])))).
Example example_01 : fst (example_program $"example-01.ini" (new_obj tt)) = Ok example_log.
Proof. vm_compute. reflexivity. Qed.
