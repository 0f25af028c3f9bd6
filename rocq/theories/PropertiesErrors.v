(** * Property C90: the messages of the errors. *)
From Coq Require Import String NArith List Bool.
Import ListNotations.
From Verif Require Import PyBase EnvVar Regex Keyword DetSys EnvKeyword LoadEnv Messages Errors SpecText SpecKeyword SpecFlags SpecSystem SpecMessages
  SpecLoadEnv SpecErrors KeywordProofs SearchProofs SystemProofs MsgProofs4 ErrorProofs2 ErrorProofs4 ErrorProofs5 PropertiesKeyword PropertiesLoadEnv.
Local Open Scope string_scope.
Local Open Scope list_scope.

(** The model with messages is the model without them, apart from the messages. *)
Theorem C90_same_outcomes_options :
  forall set_list, set_order set_list -> forall file conf p,
    (forall section key, without_text (e_get_values set_list file conf section key) = get_values conf section key) /\
    (forall section value, without_text (e_get_key set_list file conf section value) = get_key conf section value) /\
    (without_text (fst (e_selected_options set_list file conf p)), snd (e_selected_options set_list file conf p)) = selected_options conf p /\
    (without_text (fst (e_selected_options_str set_list file conf p)), snd (e_selected_options_str set_list file conf p))
    = selected_options_str conf p.
Proof. exact outcomes_options. Qed.
Print Assumptions C90_same_outcomes_options.

Theorem C90_same_outcomes_load :
  forall set_list, set_order set_list ->
  forall other_re systems hostname envs_file envs_rel envs fill systems_file build force h,
    let p := lafter other_re systems hostname envs h (new_loadenv build force) in
    let sys := e_le_system_name other_re systems hostname fill systems_file in
    let par := e_le_parsed_env_name set_list other_re systems hostname envs_file envs_rel envs fill systems_file in
    (without_text (fst (sys p)), snd (sys p)) = le_system_name other_re systems hostname p /\
    (without_text (fst (par p)), snd (par p)) = le_parsed_env_name other_re systems hostname envs p.
Proof. exact outcomes_load. Qed.
Print Assumptions C90_same_outcomes_load.

Theorem C90_same_outcomes_gen :
  forall set_list, set_order set_list ->
  forall other_re systems hostname envs_file envs_rel envs fill systems_file flags_file flags_name specs_name flags specs gen build force h,
    let p := gafter other_re systems hostname envs flags specs gen h (new_genconfig build force) in
    let con := e_complete_config set_list other_re systems hostname envs_file envs_rel envs fill systems_file flags_file flags in
    let val := e_validate set_list other_re systems hostname envs_file envs_rel envs fill systems_file flags_file flags_name specs_name flags specs in
    (without_text (fst (con p)), snd (con p)) = complete_config other_re systems hostname envs flags p /\
    (without_text (fst (val p)), snd (val p)) = validate other_re systems hostname envs flags specs p.
Proof. exact outcomes_gen. Qed.
Print Assumptions C90_same_outcomes_gen.

(** ** Values and options *)

(** The values of a key are answered, or the message names exactly those that
    are wrong. *)
Theorem C90_values :
  forall set_list, set_order set_list -> forall file conf section key d v l,
    conf section = Ok d -> dget key d = Some v -> tidy_text (SpecKeyword.text_of v) -> lists (SpecKeyword.text_of v) l ->
    unbroken file -> unbroken section -> unbroken key -> Forall unbroken l ->
    acceptable d l /\ e_get_values set_list file conf section key = EOk l \/
    ~ acceptable d l /\
    exists lines, value_report file section key d l lines /\ says (e_get_values set_list file conf section key) SystemExit lines.
Proof. exact values_report. Qed.
Print Assumptions C90_values.

(** The first flag with neither [SELECT_ONE] nor [SELECT_MANY] is named. *)
Theorem C90_flag_type :
  forall set_list, set_order set_list -> forall file conf d fs1 f fs2 t o build p h,
    conf $"configure-flags" = Ok d -> dkeys d = fs1 ++ f :: fs2 ->
    (forall g, In g fs1 -> exists (many : bool) l, get_values conf $"configure-flags" g = Ok ((if many then select_many else select_one) :: l)) ->
    get_values conf $"configure-flags" f = Ok (t :: o) -> t <> select_one -> t <> select_many ->
    unbroken file -> unbroken f -> new_ckp conf build = Ok p ->
    says (fst (e_selected_options set_list file conf (kafter conf h p))) ValueError (flag_type_report file f) /\
    says (fst (e_selected_options_str set_list file conf (kafter conf h p))) ValueError (flag_type_report file f).
Proof. exact type_history. Qed.
Print Assumptions C90_flag_type.

(** Exactly the options of several flags are named. *)
Theorem C90_options_twice :
  forall set_list, set_order set_list -> forall file conf T build p h,
    describes conf T -> ~ NoDup (flat_map options_of T) ->
    unbroken file -> (forall f m o, In (f, (m, o)) T -> unbroken f /\ Forall unbroken o) -> new_ckp conf build = Ok p ->
    exists items, repeated (flat_map options_of T) items /\
      says (fst (e_selected_options set_list file conf (kafter conf h p))) SystemExit (options_twice_report file items) /\
      says (fst (e_selected_options_str set_list file conf (kafter conf h p))) SystemExit (options_twice_report file items).
Proof. exact twice_history. Qed.
Print Assumptions C90_options_twice.

(** The first flag of which the build name has two options is named, and they
    are, in the order of the file. *)
Theorem C90_two_options_of_a_flag :
  forall set_list, set_order set_list -> forall file conf T build p h,
    describes conf T -> valid_table T ->
    unbroken file -> (forall f m o, In (f, (m, o)) T -> unbroken f /\ Forall unbroken o) -> new_ckp conf build = Ok p ->
    conflict (last_name h build) T ->
    exists flag chosen, first_conflict (last_name h build) T flag chosen /\
      says (fst (e_selected_options set_list file conf (kafter conf h p))) ValueError (conflict_report flag chosen) /\
      says (fst (e_selected_options_str set_list file conf (kafter conf h p))) ValueError (conflict_report flag chosen).
Proof. exact conflict_history. Qed.
Print Assumptions C90_two_options_of_a_flag.

(** Two ways to order a set. *)
Definition set1 : list str -> list str := nodup (list_eq_dec N.eq_dec).
Definition set2 (l : list str) : list str := rev (set1 l).
Example C90_ex_sets : set_order set1 /\ set_order set2.
Proof.
  split; intros l.
  - split; [apply NoDup_nodup|intros x; apply nodup_In].
  - split; [apply NoDup_rev, NoDup_nodup|]. intros x. unfold set2. rewrite <- in_rev. apply nodup_In.
Qed.

Definition values_of (l : list string) : eres (list str) :=
  let conf := conf_of [($"s", [($"k", lines l); ($"other", None)])] in e_get_values set1 $"f.ini" conf $"s" $"k".
Definition message (e : exc) (l : list string) {A} (r : eres A) : Prop := r = EErr e (Some (ended ([] :: rule :: map lit l ++ [rule]))).
Example C90_ex_values :
  message SystemExit
    ["|   ERROR:  Values for 'f.ini'['s']['k'] contains duplicates:";
     "|     - b";
     "|     - a"] (values_of ["a"; "b"; "c"; "b"; "a"; "a"]) /\
  message SystemExit
    ["|   ERROR:  The following values contain whitespace or the delimiter '_':";
     "|     - x y";
     "|     - a_b"] (values_of ["x y"; "SELECT_ONE"; "a_b"; "c"]) /\
  message SystemExit
    ["|   ERROR:  The following value contains whitespace or the delimiter '_':";
     "|     - a_b"] (values_of ["a_b"; "other"]) /\
  message SystemExit
    ["|   ERROR:  Value found for 's' that matches a key:";
     "|     - other"] (values_of ["a"; "other"]) /\
  values_of ["a"; "b"] = EOk [$"a"; $"b"].
Proof. unfold message. repeat split; vm_compute; reflexivity. Qed.

Definition options_of_name (conf : str -> res (dict (option str))) (build : string) : eres str :=
  match new_ckp conf (lit build) with
  | Ok p => fst (e_selected_options_str set2 $"flags.ini" conf p)
  | Err e => EErr e None
  end.
Definition conf_twice := conf_of [($"configure-flags",
  [($"a", lines ["SELECT_ONE"; "x"; "y"; "w"]); ($"b", lines ["SELECT_MANY"; "y"; "z"; "x"])])].
Definition conf_twice1 := conf_of [($"configure-flags", [($"a", lines ["SELECT_ONE"; "x"]); ($"b", lines ["SELECT_MANY"; "x"; "z"])])].
Example C90_ex_options :
  message ValueError
    ["|   ERROR:  The options for the 'x' flag must begin with either";
     "|           'SELECT_ONE' or 'SELECT_MANY'.  For example:";
     "|";
     "|       x:  SELECT_ONE";
     "|         option_1";
     "|         option_2";
     "|";
     "|   Please modify your config file accordingly:";
     "|     'flags.ini'."] (options_of_name (confd ["static"]) "gnu") /\
  message SystemExit
    ["|   ERROR:  The following options appear for multiple flags in";
     "|           'flags.ini':";
     "|     - x";
     "|     - y";
     "|   Please change these to be unique for each flag";
     "|   in which it appears."] (options_of_name conf_twice "gnu") /\
  message SystemExit
    ["|   ERROR:  The following options appear for multiple flags in";
     "|           'flags.ini':";
     "|     - x";
     "|   Please change this to be unique for each flag";
     "|   in which they appear."] (options_of_name conf_twice1 "gnu") /\
  message ValueError
    ["|   ERROR:  Multiple options found in build name for SELECT_ONE flag 'build-type':";
     "|     - debug";
     "|     - release"] (options_of_name conf1 "release_debug_shared_static").
Proof. unfold message. repeat split; vm_compute; reflexivity. Qed.
Example C90_ex_conflict :
  conflict $"release_debug_shared_static" table1 /\
  first_conflict $"release_debug_shared_static" table1 $"build-type" [$"debug"; $"release"].
Proof.
  assert (N : forall o, In o [$"debug"; $"release"] -> named $"release_debug_shared_static" o).
  { intros o I. apply KeywordText.named_iff. in_cases I; vm_compute; auto. }
  split.
  - exists $"build-type", [$"debug"; $"release"], $"debug", $"release". split; [now left|].
    split; [discriminate|]. split; [now left|]. split; [right; now left|]. split; apply N; [now left|right; now left].
  - exists [], [$"debug"; $"release"], (tl table1). split; [reflexivity|]. split; [intros (f & o & a & b & [] & _)|]. split; [|apply le_n].
    constructor; [apply N; now left|]. constructor; [apply N; right; now left|]. constructor.
Qed.

(** ** Systems and environments *)

Theorem C90_two_systems :
  forall set_list, set_order set_list ->
  forall other_re systems hostname envs_file envs_rel envs fill systems_file,
    readable_keys other_re systems hostname ->
    forall build force h names,
      kept (fun n => n <> $"DEFAULT" /\ named (lower (last_build h build)) n) (map fst systems) names -> 2 <= length names ->
      Forall unbroken (map fst systems) ->
      says (fst (e_le_system_name other_re systems hostname fill systems_file (lafter other_re systems hostname envs h (new_loadenv build force))))
        SystemExit (two_systems_report names) /\
      says (fst (e_le_parsed_env_name set_list other_re systems hostname envs_file envs_rel envs fill systems_file
          (lafter other_re systems hostname envs h (new_loadenv build force)))) SystemExit (two_systems_report names).
Proof. exact two_history. Qed.
Print Assumptions C90_two_systems.

(** [fill] is the wrapping of lines; the message has what it gives. *)
Theorem C90_unknown_system :
  forall set_list, set_order set_list ->
  forall other_re systems hostname envs_file envs_rel envs fill systems_file,
    readable_keys other_re systems hostname ->
    forall build force h ls,
      host_system other_re systems hostname None -> (forall n, ~ names_system systems (last_build h build) n) ->
      lines_of (fill false (unknown_system_text hostname systems_file)) ls ->
      says (fst (e_le_system_name other_re systems hostname fill systems_file (lafter other_re systems hostname envs h (new_loadenv build force))))
        SystemExit (error_text ls []) /\
      says (fst (e_le_parsed_env_name set_list other_re systems hostname envs_file envs_rel envs fill systems_file
          (lafter other_re systems hostname envs h (new_loadenv build force)))) SystemExit (error_text ls []).
Proof. exact unknown_history. Qed.
Print Assumptions C90_unknown_system.

Theorem C90_other_system :
  forall set_list, set_order set_list ->
  forall other_re systems hostname envs_file envs_rel envs fill systems_file,
    readable_keys other_re systems hostname -> NoDup (map fst systems) ->
    forall build h found n ls,
      host_system other_re systems hostname found -> found <> Some n ->
      names_system systems (last_build h build) n -> (forall m, names_system systems (last_build h build) m -> m = n) ->
      lines_of (fill true (other_system_text hostname (match found with Some m => m | None => $"None" end) systems_file n)) ls ->
      says (fst (e_le_system_name other_re systems hostname fill systems_file (lafter other_re systems hostname envs h (new_loadenv build false))))
        SystemExit (error_text ls []) /\
      says (fst (e_le_parsed_env_name set_list other_re systems hostname envs_file envs_rel envs fill systems_file
          (lafter other_re systems hostname envs h (new_loadenv build false)))) SystemExit (error_text ls []).
Proof. exact other_history. Qed.
Print Assumptions C90_other_system.

(** Exactly the aliases that are used twice for the system are named. *)
Theorem C90_aliases_twice :
  forall set_list, set_order set_list ->
  forall other_re systems hostname envs_file envs_rel envs fill systems_file,
    readable_keys other_re systems hostname -> NoDup (map fst systems) ->
    forall build force h s E,
      system_of other_re systems hostname (last_build h build) force (Ok (Some s)) ->
      env_describes envs s E -> ~ NoDup (flat_map snd E) -> unbroken s -> Forall unbroken (flat_map snd E) ->
      exists items, repeated (flat_map snd E) items /\
        says (fst (e_le_parsed_env_name set_list other_re systems hostname envs_file envs_rel envs fill systems_file
          (lafter other_re systems hostname envs h (new_loadenv build force)))) SystemExit (aliases_twice_report s items).
Proof. exact aliases_history. Qed.
Print Assumptions C90_aliases_twice.

(** Without an environment in the build name the message has all that there
    are, each with its aliases. *)
Theorem C90_no_environment :
  forall set_list, set_order set_list ->
  forall other_re systems hostname envs_file envs_rel envs fill systems_file,
    readable_keys other_re systems hostname -> NoDup (map fst systems) ->
    forall build force h s E,
      system_of other_re systems hostname (last_build h build) force (Ok (Some s)) ->
      env_describes envs s E -> valid_envs E ->
      readable_names other_re (map fst E) (last_build h build) -> readable_names other_re (flat_map snd E) (last_build h build) ->
      env_of other_re E (last_build h build) (Err SystemExit) ->
      unbroken s -> unbroken (last_build h build) -> unbroken envs_rel ->
      (forall n l, In (n, l) E -> unbroken n /\ Forall unbroken l) ->
      exists names blocks, in_order (map fst E) names /\
        Forall2 (fun n bl => exists l l', In (n, l) E /\ in_order l l' /\ bl = env_block n l') names blocks /\
        says (fst (e_le_parsed_env_name set_list other_re systems hostname envs_file envs_rel envs fill systems_file
          (lafter other_re systems hostname envs h (new_loadenv build force))))
          SystemExit (no_environment_report s (last_build h build) envs_rel blocks).
Proof. exact no_env_history. Qed.
Print Assumptions C90_no_environment.

(** [complete_config] fails with the same messages. *)
Theorem C90_complete_config :
  forall set_list other_re systems hostname envs_file envs_rel envs fill systems_file flags_file flags build force e lines k,
    new_ckp flags build = Ok k ->
    let par := e_le_parsed_env_name set_list other_re systems hostname envs_file envs_rel envs fill systems_file in
    let con := e_complete_config set_list other_re systems hostname envs_file envs_rel envs fill systems_file flags_file flags in
    (says (fst (par (new_loadenv build force))) e lines -> says (fst (con (new_genconfig build force))) e lines) /\
    (forall n, fst (par (new_loadenv build force)) = EOk n -> says (fst (e_selected_options_str set_list flags_file flags k)) e lines ->
       says (fst (con (new_genconfig build force))) e lines).
Proof. exact config_says. Qed.
Print Assumptions C90_complete_config.

Definition fill1 (spaced : bool) (t : str) : str := t.
Definition envs_twice := conf_of [($"machine-1", [($"gnu-8", lines ["gnu"; "g"]); ($"intel-18", lines ["g"; "gnu"; "i"])])].
Definition loads (envs : str -> res (dict (option str))) (host build : string) : eres str :=
  fst (e_le_parsed_env_name set1 no_re systems3 (lit host) $"/a/envs.ini" $"envs.ini" envs fill1 $"systems.ini" (new_loadenv (lit build) false)).
Example C90_ex_load :
  message SystemExit
    ["|   ERROR:  Cannot specify more than one system name in the build name";
     "|           You specified";
     "|     - machine-1";
     "|     - machine-2"] (loads envs3 "m2" "Machine-2_machine-1_gnu") /\
  message SystemExit
    ["|   ERROR:  Unable to find valid system name in the build name or for the hostname 'pc' in 'systems.ini'. Double-check that any system name in the build name is only surrounded by an underscore '_'."]
    (loads envs3 "pc" "gnu") /\
  message SystemExit
    ["|   ERROR:  Hostname 'pc' matched to system 'None' in 'systems.ini', but you specified 'machine-1' in the build name.  If you want to force the use of 'machine-1', add the --force flag."]
    (loads envs3 "pc" "machine-1_gnu") /\
  message SystemExit
    ["|   ERROR:  Aliases for 'machine-1' contains duplicates:";
     "|     - g";
     "|     - gnu"] (loads envs_twice "m1-login" "gnu") /\
  message SystemExit
    ["|   ERROR:  Unable to find alias or environment name for system 'machine-1' in";
     "|           build name 'clang'.";
     "|";
     "|   - Supported Environments for 'machine-1':";
     "|     - gnu-8";
     "|       * Aliases:";
     "|         - gnu";
     "|     - intel-18-mpich";
     "|       * Aliases:";
     "|         - intel";
     "|         - intel-18";
     "|";
     "|   See `envs.ini` for details on the available environments.";
     "|";
     "|   To force-load an environment see the guidance in the `--help` output.";
     "|"] (loads envs3 "m1-login" "clang").
Proof. unfold message. repeat split; vm_compute; reflexivity. Qed.

(** ** Sections *)

(** Validation names exactly the sections with another name than the
    canonical one, and this one. *)
Theorem C90_sections :
  forall set_list, set_order set_list ->
  forall other_re systems hostname envs_file envs_rel envs fill systems_file flags_file flags_name specs_name flags specs gen fd,
    flags $"configure-flags" = Ok fd ->
    forall build force h bad,
      wrong_names other_re systems hostname envs flags specs bad -> bad <> [] ->
      unbroken flags_name -> unbroken specs_name -> Forall (fun sc => unbroken (fst sc) /\ unbroken (snd sc)) bad ->
      says (fst (e_validate set_list other_re systems hostname envs_file envs_rel envs fill systems_file flags_file flags_name specs_name flags specs
          (gafter other_re systems hostname envs flags specs gen h (new_genconfig build force))))
        ValueError (sections_report flags_name specs_name bad).
Proof. exact wrong_says. Qed.
Print Assumptions C90_sections.

(** A section with two options of a flag: the message about it, in a box. *)
Theorem C90_section_with_two_options :
  forall set_list, set_order set_list ->
  forall other_re systems hostname envs_file envs_rel envs fill systems_file flags_file flags_name specs_name flags specs gen fd,
    flags $"configure-flags" = Ok fd ->
    forall build force h l1 s l2 T flag chosen,
      specs = l1 ++ s :: l2 ->
      (forall x, In x l1 -> upper x <> x -> exists c, config_name other_re systems hostname envs flags x true c) ->
      upper s <> s ->
      describes flags T -> valid_table T -> first_conflict s T flag chosen ->
      unbroken flags_file -> unbroken specs_name -> (forall f m o, In (f, (m, o)) T -> unbroken f /\ Forall unbroken o) ->
      says (fst (e_validate set_list other_re systems hostname envs_file envs_rel envs fill systems_file flags_file flags_name specs_name flags specs
          (gafter other_re systems hostname envs flags specs gen h (new_genconfig build force))))
        ValueError (nested_report specs_name (conflict_report flag chosen)).
Proof. exact nested_says. Qed.
Print Assumptions C90_section_with_two_options.

(** If the sections are renamed as the message asks, they are all right. *)
Theorem C90_corrected :
  forall other_re systems hostname envs flags specs fd,
    flags $"configure-flags" = Ok fd ->
    forall bad specs' T,
      wrong_names other_re systems hostname envs flags specs bad -> corrected bad specs specs' ->
      NoDup (map fst systems) -> readable_keys other_re systems hostname -> describes flags T -> valid_table T ->
      (forall b s, In b specs -> system_of other_re systems hostname b true (Ok (Some s)) ->
         exists E, env_describes envs s E /\ valid_envs E /\ apart systems s E T /\
           forall b, readable_names other_re (flat_map snd E) b) ->
      canonical_sections other_re systems hostname envs flags specs'.
Proof. exact corrected_canonical. Qed.
Print Assumptions C90_corrected.

Definition validates (specs : list string) : eres unit :=
  fst (e_validate set1 no_re systems3 $"m1-login" $"/a/envs.ini" $"envs.ini" envs3 fill1 $"systems.ini" $"/a/flags.ini" $"flags.ini" $"specs.ini"
    conf1 (map lit specs) (new_genconfig $"gnu" false)).
Example C90_ex_sections :
  message ValueError
    ["|   ERROR:  The following section(s) in your config-specs.ini file";
     "|           should be formatted in the following manner to include only valid";
     "|           options and to match the order of supported flags/options in";
     "|           'flags.ini':";
     "|";
     "|           -  {current_section_name}";
     "|           -> {formatted_section_name}";
     "|";
     "|           -  machine-1_gnu_release";
     "|           -> machine-1_gnu-8_release_static_no-tpl";
     "|";
     "|           -  machine-1_gnu-8_static_debug";
     "|           -> machine-1_gnu-8_debug_static_no-tpl";
     "|";
     "|   Please correct these sections in 'specs.ini'."]
    (validates ["COMMON"; "machine-1_gnu_release"; "machine-1_gnu-8_debug_static_cuda_mpi"; "machine-1_gnu-8_static_debug"]) /\
  message ValueError
    ["|   ERROR:  When validating sections in";
     "|           `specs.ini`,";
     "|           the following error was encountered:";
     "|";
     "|           " ++ "+==============================================================================+";
     "|           |   ERROR:  Multiple options found in build name for SELECT_ONE flag 'build-type':";
     "|           |     - debug";
     "|           |     - release";
     "|           " ++ "+==============================================================================+"]%string
    (validates ["machine-1_gnu"; "machine-1_gnu_release_debug"]) /\
  validates ["machine-1_gnu-8_debug_static_cuda_mpi"] = EOk tt.
Proof. unfold message. repeat split; vm_compute; reflexivity. Qed.
Example C90_ex_wrong :
  wrong_names no_re systems3 $"m1-login" envs3 conf1 [$"COMMON"; $"machine-1_gnu_release"; $"machine-1_gnu-8_debug_static_cuda_mpi"]
    [($"machine-1_gnu_release", $"machine-1_gnu-8_release_static_no-tpl")].
Proof.
  assert (N : forall s c, fst (complete_config no_re systems3 $"m1-login" envs3 conf1 (new_genconfig s true)) = Ok c ->
    config_name no_re systems3 $"m1-login" envs3 conf1 s true c).
  { intros s c H. apply (C59_complete_config no_re systems3 $"m1-login" envs3 conf1 [] gen1 flags1 eq_refl). cbn [gexec]. unfold bind.
    destruct (complete_config _ _ _ _ _ _) as [r q]. cbn [fst] in H. now subst r. }
  apply wn_upper; [reflexivity|]. apply wn_wrong; [discriminate|apply N; vm_compute; reflexivity|discriminate|].
  apply wn_right; [discriminate|apply N; vm_compute; reflexivity|]. constructor.
Qed.

(** Two sections may be asked to take the same name. *)
Theorem C90_corrected_names_distinct_refuted :
  exists s1 s2 c, s1 <> s2 /\
    wrong_names no_re systems3 $"m1-login" envs3 conf1 [s1; s2] [(s1, c); (s2, c)].
Proof.
  assert (N : forall s c, fst (complete_config no_re systems3 $"m1-login" envs3 conf1 (new_genconfig s true)) = Ok c ->
    config_name no_re systems3 $"m1-login" envs3 conf1 s true c).
  { intros s c H. apply (C59_complete_config no_re systems3 $"m1-login" envs3 conf1 [] gen1 flags1 eq_refl). cbn [gexec]. unfold bind.
    destruct (complete_config _ _ _ _ _ _) as [r q]. cbn [fst] in H. now subst r. }
  exists $"machine-1_gnu_debug", $"machine-1_gnu_static", $"machine-1_gnu-8_debug_static_no-tpl". split; [discriminate|].
  do 2 (apply wn_wrong; [discriminate|apply N; vm_compute; reflexivity|discriminate|]). constructor.
Qed.
Print Assumptions C90_corrected_names_distinct_refuted.
