(** * C61-C63: the bash scripts that [SetEnvironment] writes.

    Statements and examples only. *)
From Coq Require Import String NArith ZArith List Bool.
Import ListNotations.
From Verif Require Import PyBase PyFacts Shlex IniView IniRead ExcControl Cpe EnvVar Bash SetEnv SpecWalk SpecRun SpecEnv
  SpecSetEnv SpecBash Samples SetEnvProofs SetEnvProofs2 SetEnvProofs3 BashProofs BashTextProofs PropertiesSetEnv.
Local Open Scope string_scope.
Local Open Scope list_scope.

(** ** C61 *)

(** [glob], ..., [other_command]: parts of the system that bash uses.
    [which] and [mods]: programs and the module command as [apply] sees them.
    If [apply] succeeds and every action is portable where it is performed, the
    script's commands leave the same environment. *)
Theorem C61_script_does_what_apply_does :
  forall glob subst_pattern sed_other echo_option which_prints module_command other_command
         which mods other uniword fs i fuel header,
    (forall e v, chomp (which_prints e [v]) = match which e v with Some p => p | None => [] end) ->
    (forall args e, module_command args e = snd (mods args e)) ->
    forall s (o : sobj) d l e bang z w,
      has_file fs o i -> str_mem s (checked_of o) = true -> section_of o s = Some d ->
      dget s (o_user o) = Some l -> Forall asked_action l -> Forall plain_action l -> (2 <= level_of o)%Z ->
      portable_all which mods l e ->
      apply which mods other uniword fs fuel s (World o e) = (Ok z, w) ->
      exists text,
        generate_script uniword fs fuel header s false true bang $"bash" o = (Ok text, o) /\
        run_bash glob subst_pattern sed_other echo_option which_prints module_command other_command text e =
          (Ok tt, w_env w).
Proof. exact script_does_what_apply_does. Qed.
Print Assumptions C61_script_does_what_apply_does.

(** Where [apply] stops at an [envvar-assert-not-empty], the script exits, with
    the same environment. *)
Theorem C61_script_stops_where_apply_stops :
  forall glob subst_pattern sed_other echo_option which_prints module_command other_command
         which mods other uniword fs i fuel header,
    (forall e v, chomp (which_prints e [v]) = match which e v with Some p => p | None => [] end) ->
    (forall args e, module_command args e = snd (mods args e)) ->
    forall s (o : sobj) d l1 n v l2 e e1 bang,
      has_file fs o i -> str_mem s (checked_of o) = true -> section_of o s = Some d ->
      let l := l1 ++ AEnv $"envvar_assert_not_empty" n (Some v) :: l2 in
      dget s (o_user o) = Some l -> Forall asked_action l -> Forall plain_action l ->
      portable_all which mods l e ->
      all_done which mods l1 e e1 -> dget n e1 = None \/ dget n e1 = Some [] ->
      (exists o', apply which mods other uniword fs fuel s (World o e) = (Err ValueError, World o' e1)) /\
      forall text o', generate_script uniword fs fuel header s false true bang $"bash" o = (Ok text, o') ->
        run_bash glob subst_pattern sed_other echo_option which_prints module_command other_command text e =
          (Err ScriptExit, e1).
Proof. exact script_stops_where_apply_stops. Qed.
Print Assumptions C61_script_stops_where_apply_stops.

(** [apply] with section A of the file [l] in environment [e] gives [r1] and
    [e1]; the script of that section gives [r2] and [e2], on every system whose
    module command does what [mods] does. *)
Definition results (mods : list str -> environ -> res Z * environ) (l : list string) (e : environ)
  (r1 : res Z) (e1 : environ) (r2 : res unit) (e2 : environ) : Prop :=
  (exists o', apply no_programs mods no_other no_uni (disk l) 9 $"A" (World new_setenv e) = (r1, World o' e1)) /\
  exists text,
    fst (generate_script no_uni (disk l) 9 (fun _ => []) $"A" false true false $"bash" new_setenv) = Ok text /\
    forall glob subst_pattern sed_other echo_option which_prints other_command,
      run_bash glob subst_pattern sed_other echo_option which_prints (fun args e => snd (mods args e)) other_command text e =
        (r2, e2).

(** A module command that fails stops [apply] but not the script. *)
Theorem C61_module_failure_stops_script_refuted :
  results (returning 1) ["[A]"; "module-load gcc : 9"; "envvar-set CC : gcc"] []
    (Err RuntimeError) [] (Ok tt) [($"CC", $"gcc")].
Proof. split; [eexists; vm_compute; reflexivity|]. eexists. split; [vm_compute; reflexivity|]. intros. vm_compute. reflexivity. Qed.
Print Assumptions C61_module_failure_stops_script_refuted.

(** A reference to a variable that is not set: Python keeps its text, bash drops it. *)
Theorem C61_unset_reference_refuted :
  results (returning 0) ["[A]"; "envvar-set X : a$NO"] []
    (Ok 0%Z) [($"X", $"a$NO")] (Ok tt) [($"X", $"a")].
Proof. split; [eexists; vm_compute; reflexivity|]. eexists. split; [vm_compute; reflexivity|]. intros. vm_compute. reflexivity. Qed.
Print Assumptions C61_unset_reference_refuted.

(** Variables whose names the functions of the script use for themselves are
    not set. *)
Theorem C61_every_variable_refuted :
  results (returning 0) ["[A]"; "envvar-set op : 1"; "envvar-set message : 2"; "envvar-set X : 3"] []
    (Ok 0%Z) [($"op", $"1"); ($"message", $"2"); ($"X", $"3")] (Ok tt) [($"message", $"2"); ($"X", $"3")].
Proof. split; [eexists; vm_compute; reflexivity|]. eexists. split; [vm_compute; reflexivity|]. intros. vm_compute. reflexivity. Qed.
Print Assumptions C61_every_variable_refuted.

(** Appending an empty text ends the script. *)
Theorem C61_empty_value_refuted :
  results (returning 0) ["[A]"; "envvar-append P : $E"; "envvar-set X : 3"] [($"P", $"p"); ($"E", [])]
    (Ok 0%Z) [($"P", $"p:"); ($"E", []); ($"X", $"3")] (Err ScriptExit) [($"P", $"p"); ($"E", [])].
Proof. split; [eexists; vm_compute; reflexivity|]. eexists. split; [vm_compute; reflexivity|]. intros. vm_compute. reflexivity. Qed.
Print Assumptions C61_empty_value_refuted.

(** The text of a module's name may hold several words for bash. *)
Theorem C61_module_words_refuted :
  let log := fun args (e : environ) => (Ok 0%Z : res Z, dset $"LOG" (join $"|" args) e) in
  results log ["[A]"; "module-use : /a b"] []
    (Ok 0%Z) [($"LOG", $"use|/a b")] (Ok tt) [($"LOG", $"use|/a|b")].
Proof. split; [eexists; vm_compute; reflexivity|]. eexists. split; [vm_compute; reflexivity|]. intros. vm_compute. reflexivity. Qed.
Print Assumptions C61_module_words_refuted.

(** The hypotheses hold for section A of the sample file. *)
Example C61_ex :
  let o := snd (getitem class (disk env_file) 9 $"A" new_setenv) in
  dget $"A" (o_user o) = Some actions_A /\ level_of o = 4%Z /\
  Forall asked_action actions_A /\ Forall plain_action actions_A /\
  portable_all no_programs (returning 0) actions_A [($"PATH", $"/bin")] /\
  (exists o', apply no_programs (returning 0) no_other no_uni (disk env_file) 9 $"A" (World o [($"PATH", $"/bin")]) =
    (Ok 0%Z, World o' [($"PATH", $"/opt/bin:/bin"); ($"OLD", $"/opt/bin:/bin")])).
Proof.
  cbv zeta. split; [vm_compute; reflexivity|]. split; [vm_compute; reflexivity|].
  split.
  { repeat constructor.
    - exists (Req $"module_load" [$"gcc"] (Some $"9")). apply (as_module _ [$"gcc"]). cbn; tauto.
    - exists (Req $"envvar_prepend" [$"PATH"] (Some $"/opt/bin")). constructor. cbn; tauto.
    - exists (Req $"module_load" [$"mpi"] (Some $"4.1")). apply (as_module _ [$"mpi"]). cbn; tauto.
    - exists (Req $"envvar_set" [$"OLD"] (Some $"$PATH")). constructor. cbn; tauto. }
  split.
  { assert (P : forall s, forallb (fun c => negb (existsb (N.eqb c) [0; 10; 13; 34; 92]%N) && (c <? 128)%N) s = true -> plain_text s).
    { intros s B. apply Forall_forall. intros c I. rewrite forallb_forall in B. specialize (B c I).
      apply andb_true_iff in B as [B L]. apply N.ltb_lt in L. apply negb_true_iff in B. split.
      - intros J. assert (X : existsb (N.eqb c) [0; 10; 13; 34; 92]%N = true); [|congruence].
        apply existsb_exists. exists c. split; auto. apply N.eqb_refl.
      - intros [J _]. apply N.lt_nge in L. apply L. eapply N.le_trans; [|exact J]. discriminate. }
    repeat (apply Forall_cons; [split; apply P; reflexivity|]). constructor. }
  split; [|eexists; vm_compute; reflexivity].
  eapply portable_next.
  { apply po_load_version; bare. }
  { apply pf_load_version; [discriminate|]. vm_compute. reflexivity. }
  eapply portable_next.
  { apply (po_path _ $"prepend" _ _ $"/opt/bin"); [auto|apply variable_check; reflexivity|apply stands_for_check; reflexivity|discriminate]. }
  { apply (pf_envvar _ _ $"prepend"); [cbn; tauto|discriminate|]. vm_compute. reflexivity. }
  eapply portable_next.
  { apply po_load_version; bare. }
  { apply pf_load_version; [discriminate|]. vm_compute. reflexivity. }
  eapply portable_next; [| |constructor].
  { apply (po_value _ $"set" _ _ ($"/opt/bin:/bin" ++ [])); [auto|apply variable_check; reflexivity|].
    apply (sf_name _ $"PATH" $"/opt/bin:/bin" [] []); [now apply identifier_spec| |exact I|reflexivity|constructor].
    intros X. apply str_mem_In in X. discriminate. }
  { apply (pf_envvar _ _ $"set"); [cbn; tauto|discriminate|]. vm_compute. reflexivity. }
Qed.

(** ** C62 *)

(** [envvar-remove-path-entry] in a bash script: what it does to the value. *)
Theorem C62_bash_remove_path_entry :
  forall glob subst_pattern sed_other echo_option which_prints module_command other_command n v t old e line,
    variable n -> stands_for e v t -> t <> [] -> ~ In 58%N t -> unsplit t -> unsplit old ->
    dget n e = Some old \/ (dget n e = None /\ old = []) ->
    bash_line (AEnv $"envvar_remove_path_entry" n (Some v)) line ->
    exists new, bash_path t old new /\
      run_bash glob subst_pattern sed_other echo_option which_prints module_command other_command (line ++ newline) e =
        (Ok tt, dset n new e).
Proof. exact remove_path_entry_line. Qed.
Print Assumptions C62_bash_remove_path_entry.

Theorem C62_value_is_determined :
  forall t old a b, ~ In 58%N t -> bash_path t old a -> bash_path t old b -> a = b.
Proof. exact bash_path_det. Qed.
Print Assumptions C62_value_is_determined.

(** If no two neighbours are equal to the entry, and something remains that
    does not begin with [1]: the value that [apply] computes (C43), between two
    colons. *)
Theorem C62_same_entries_between_colons :
  forall glob subst_pattern sed_other echo_option which_prints module_command other_command n v t old l l' e line,
    variable n -> stands_for e v t -> t <> [] -> ~ In 58%N t -> unsplit t -> unsplit old -> dget n e = Some old ->
    entries l old -> no_neighbours t l -> without t l l' -> l' <> [] -> (forall r, join $":" l' <> $"1" ++ r) ->
    bash_line (AEnv $"envvar_remove_path_entry" n (Some v)) line ->
    run_bash glob subst_pattern sed_other echo_option which_prints module_command other_command (line ++ newline) e =
      (Ok tt, dset n ($":" ++ join $":" l' ++ $":") e).
Proof. exact remove_path_entry_wrapped. Qed.
Print Assumptions C62_same_entries_between_colons.

(** The value is not the one [apply] computes; an entry can stay; a value can
    lose a character; a variable that is not set becomes set. *)
Theorem C62_same_as_apply_refuted :
  results (returning 0) ["[A]"; "envvar-remove-path-entry P : /b"] [($"P", $"/a:/b:/c")]
    (Ok 0%Z) [($"P", $"/a:/c")] (Ok tt) [($"P", $":/a:/c:")].
Proof. split; [eexists; vm_compute; reflexivity|]. eexists. split; [vm_compute; reflexivity|]. intros. vm_compute. reflexivity. Qed.
Print Assumptions C62_same_as_apply_refuted.
Theorem C62_entry_removed_refuted :
  results (returning 0) ["[A]"; "envvar-remove-path-entry P : /b"] [($"P", $"/a:/b:/b")]
    (Ok 0%Z) [($"P", $"/a")] (Ok tt) [($"P", $":/a:/b:")].
Proof. split; [eexists; vm_compute; reflexivity|]. eexists. split; [vm_compute; reflexivity|]. intros. vm_compute. reflexivity. Qed.
Print Assumptions C62_entry_removed_refuted.
Theorem C62_other_entries_stay_refuted :
  results (returning 0) ["[A]"; "envvar-remove-path-entry P : /b"] [($"P", $"10.0:/b")]
    (Ok 0%Z) [($"P", $"10.0")] (Ok tt) [($"P", $"0.0:")].
Proof. split; [eexists; vm_compute; reflexivity|]. eexists. split; [vm_compute; reflexivity|]. intros. vm_compute. reflexivity. Qed.
Print Assumptions C62_other_entries_stay_refuted.
Theorem C62_unset_stays_unset_refuted :
  results (returning 0) ["[A]"; "envvar-remove-path-entry P : /b"] []
    (Ok 0%Z) [] (Ok tt) [($"P", $"::")].
Proof. split; [eexists; vm_compute; reflexivity|]. eexists. split; [vm_compute; reflexivity|]. intros. vm_compute. reflexivity. Qed.
Print Assumptions C62_unset_stays_unset_refuted.

Example C62_ex :
  variable $"P" /\ stands_for [($"P", $"/a:/b:/c")] $"/b" $"/b" /\ unsplit $"/b" /\ unsplit $"/a:/b:/c" /\
  entries [$"/a"; $"/b"; $"/c"] $"/a:/b:/c" /\ no_neighbours $"/b" [$"/a"; $"/b"; $"/c"] /\
  without $"/b" [$"/a"; $"/b"; $"/c"] [$"/a"; $"/c"] /\
  bash_path $"/b" $"/a:/b:/b" $":/a:/b:" /\ bash_path $"/b" $"10.0:/b" $"0.0:".
Proof.
  assert (E : forall l, l <> [] -> forallb (fun x => negb (char_mem 58%N x)) l = true -> entries l (join $":" l)).
  { intros l N F. split; auto. split; auto. apply Forall_forall. intros x J C. rewrite forallb_forall in F.
    specialize (F x J). apply negb_true_iff in F. apply char_mem_In in C. congruence. }
  split; [apply variable_check; reflexivity|]. split; [apply stands_for_check; reflexivity|].
  split; [apply unsplit_check; reflexivity|]. split; [apply unsplit_check; reflexivity|].
  split; [apply (E [$"/a"; $"/b"; $"/c"]); [discriminate|reflexivity]|].
  split; [apply nn_cons; [left; discriminate|]; apply nn_cons; [right; discriminate|]; apply nn_one|].
  split; [apply wo_keep; [discriminate|]; apply wo_drop; apply wo_keep; [discriminate|]; constructor|].
  split.
  - apply (bp_value _ _ [$"/a"; $"/b"; $"/b"] [$"/a"; $"/b"]); [apply E; [discriminate|reflexivity]| | |reflexivity].
    + apply sk_keep; [discriminate|]. apply sk_hit. constructor.
    + intros r. discriminate.
  - apply (bp_one _ _ [$"10.0"; $"/b"] [$"10.0"]); [apply E; [discriminate|reflexivity]| |reflexivity].
    apply sk_keep; [discriminate|]. apply sk_last.
Qed.

(** ** C63 *)

(** [envvar-remove-substr] in a bash script: for ordinary text, the occurrences
    of the text are removed, as [apply] does (C43). *)
Theorem C63_bash_remove_substr :
  forall glob subst_pattern sed_other echo_option which_prints module_command other_command n v t old e line,
    variable n -> stands_for e v t -> t <> [] -> sed_text t -> unsplit t -> echo_text old ->
    dget n e = Some old \/ (dget n e = None /\ old = []) ->
    bash_line (AEnv $"envvar_remove_substr" n (Some v)) line ->
    exists new, erases t old new /\
      run_bash glob subst_pattern sed_other echo_option which_prints module_command other_command (line ++ newline) e =
        (Ok tt, dset n new e).
Proof. exact remove_substr_line. Qed.
Print Assumptions C63_bash_remove_substr.

(** A variable that is not set becomes set; text with [#] is not removed; a
    value of several words keeps its first word only. *)
Theorem C63_unset_stays_unset_refuted :
  results (returning 0) ["[A]"; "envvar-remove-substr P : b"] []
    (Ok 0%Z) [] (Ok tt) [($"P", [])].
Proof. split; [eexists; vm_compute; reflexivity|]. eexists. split; [vm_compute; reflexivity|]. intros. vm_compute. reflexivity. Qed.
Print Assumptions C63_unset_stays_unset_refuted.
Theorem C63_hash_removed_refuted :
  results (returning 0) ["[A]"; "envvar-remove-substr P : a#b"] [($"P", $"xa#by")]
    (Ok 0%Z) [($"P", $"xy")] (Ok tt) [($"P", $"xa#by")].
Proof. split; [eexists; vm_compute; reflexivity|]. eexists. split; [vm_compute; reflexivity|]. intros. vm_compute. reflexivity. Qed.
Print Assumptions C63_hash_removed_refuted.
Theorem C63_words_stay_refuted :
  results (returning 0) ["[A]"; "envvar-remove-substr FLAGS : -g"] [($"FLAGS", $"O2 -g x")]
    (Ok 0%Z) [($"FLAGS", $"O2  x")] (Ok tt) [($"FLAGS", $"O2")].
Proof. split; [eexists; vm_compute; reflexivity|]. eexists. split; [vm_compute; reflexivity|]. intros. vm_compute. reflexivity. Qed.
Print Assumptions C63_words_stay_refuted.

Example C63_ex :
  variable $"P" /\ stands_for [] $"-g" $"-g" /\ sed_text $"-g" /\ unsplit $"-g" /\ echo_text $"O2-g-gx" /\
  erases $"-g" $"O2-g-gx" $"O2x".
Proof.
  split; [apply variable_check; reflexivity|]. split; [apply stands_for_check; reflexivity|].
  split; [intros c J K; cbn in J; repeat destruct J as [<-|J]; try (cbn in K; intuition discriminate); destruct J|].
  split; [apply unsplit_check; reflexivity|].
  split; [split; [apply unsplit_check; reflexivity|discriminate]|].
  apply er_miss; [discriminate|]. apply er_miss; [discriminate|].
  apply (er_hit $"-g" $"-gx"). apply (er_hit $"-g" $"x"). apply er_miss; [discriminate|]. constructor.
Qed.
