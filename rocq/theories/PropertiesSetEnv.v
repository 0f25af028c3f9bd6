(** * C45-C50: the class [SetEnvironment].

    Statements and examples only. *)
From Coq Require Import String NArith ZArith List Bool.
Import ListNotations.
From Verif Require Import PyBase PyFacts Shlex IniView IniRead ExcControl Cpe EnvVar SetEnv SpecWalk SpecRun SpecEnv
  SpecSetEnv Samples SetEnvProofs SetEnvProofs2 SetEnvProofs3.
Local Open Scope string_scope.
Local Open Scope list_scope.

(** Sample: a file, a new object, a system without programs, and a module
    command that only returns a number. *)
Definition env_file : list string :=
  ["[TOOLS]"; "module-load gcc : 9"; "envvar-set CC : gcc";
   "[A]"; "use TOOLS"; "envvar-prepend PATH : /opt/bin"; "envvar-remove CC :"; "module-load mpi : 4.1";
   "envvar-set OLD : $PATH";
   "[B]"; "envvar-set X : 1"; "envvar-set Y"; "envvar-set Z : 2"].
Definition new_setenv : sobj := fresh [].
Notation class := (SetEnvironment no_uni).
Definition no_programs : environ -> str -> option str := fun _ _ => None.
Definition returning (z : Z) (_ : list str) (e : environ) : res Z * environ := (Ok z, e).
Definition no_other (_ : str) (e : environ) : res Z * environ := (Err (UserExc 0%N), e).
Definition actions_A : list action :=
  [AMod $"module_load" (Some $"gcc") (Some $"9"); AEnv $"envvar_prepend" $"PATH" (Some $"/opt/bin");
   AMod $"module_load" (Some $"mpi") (Some $"4.1"); AEnv $"envvar_set" $"OLD" (Some $"$PATH")].

(** ** C45 *)

(** A successful parse records the actions the section asks for, in order,
    without those that a later option removes. *)
Theorem C45_recorded_actions :
  forall uniword fs i fuel s (o : sobj) v o',
    has_file fs o i -> level_ok o ->
    parse_section_str (SetEnvironment uniword) fs fuel s true true o = (Ok v, o') ->
    exists evs n l, parse_walk (SetEnvironment uniword) i (o_defname o) s true true evs n /\
      remain (requests evs) l /\ v = Some l /\ dget s (o_user o') = Some l /\
      (forall t, t <> s -> ~ finalizes t evs -> dget t (o_user o') = dget t (o_user o)).
Proof. exact recorded. Qed.
Print Assumptions C45_recorded_actions.

Theorem C45_actions_are_determined :
  forall l r r', remain l r -> remain l r' -> r = r'.
Proof. exact remain_det. Qed.
Print Assumptions C45_actions_are_determined.

(** A parse that fails records nothing, unless an option calls [finalize]. *)
Theorem C45_failure_records_nothing :
  forall uniword fs i fuel s (o : sobj) x o',
    s <> [] -> has_file fs o i -> level_ok o -> default_ok (SetEnvironment uniword) i (o_defname o) s true ->
    length (ini_sections i) + 3 <= fuel ->
    parse_section_str (SetEnvironment uniword) fs fuel s true true o = (Err x, o') ->
    exists evs n, parse_walk (SetEnvironment uniword) i (o_defname o) s true true evs n /\
      ((forall q, In q (requests evs) -> q_op q <> $"finalize") -> o_user o' = o_user o).
Proof. exact recorded_on_failure. Qed.
Print Assumptions C45_failure_records_nothing.

(** [module-remove] is documented to remove the operations on one module. It
    also removes operations on other modules whose version contains the name. *)
Theorem C45_remove_one_module_refuted :
  exists l o', parse_section_str class (disk l) 9 $"A" true true new_setenv = (Ok (Some []), o') /\
    l = ["[A]"; "module-load mpi : 4.1-gcc"; "module-remove gcc :"]%string.
Proof. eexists. eexists. split; [|reflexivity]. vm_compute. reflexivity. Qed.
Print Assumptions C45_remove_one_module_refuted.

Example C45_ex :
  (exists i, has_file (disk env_file) new_setenv i /\ default_ok class i $"DEFAULT" $"A" true) /\
  level_ok new_setenv /\
  (exists o', parse_section_str class (disk env_file) 9 $"A" true true new_setenv = (Ok (Some actions_A), o') /\
              dget $"A" (o_user o') = Some actions_A) /\
  fst (parse_section_str class (disk ["[A]"; "envvar-set X : 1"; "envvar-unset :"]%string) 9 $"A" true true
         (at_level 4 new_setenv)) = Err IndexError.
Proof.
  split; [|split; [computed|split; [eexists; split; vm_compute; reflexivity|computed]]].
  eexists. split; [vm_compute; reflexivity|].
  apply (default_ok_check _ _ [$"DEFAULT"]); vm_compute; reflexivity.
Qed.

(** ** C46 *)

(** [apply] on a section that has not been parsed yet performs the actions the
    file asks for, in order, and the second time the same actions on the
    environment of that time. *)
Theorem C46_apply_in_order :
  forall which mods other uniword fs i fuel s (o : sobj) d o1,
    has_file fs o i -> level_ok o -> ini_has_section i s = true -> str_mem s (checked_of o) = false ->
    getitem (SetEnvironment uniword) fs fuel s o = (Ok d, o1) ->
    exists evs n l, parse_walk (SetEnvironment uniword) i (o_defname o) s true true evs n /\
      remain (requests evs) l /\
      (Forall plain_action l -> forall e, exists r e' o',
         apply which mods other uniword fs fuel s (World o e) = (r, World o' e') /\
         performs_all which mods (level_of o) l 0 e r e' /\
         forall e2, exists r2 e2' o2,
           apply which mods other uniword fs fuel s (World o' e2) = (r2, World o2 e2') /\
           performs_all which mods (level_of o) l 0 e2 r2 e2').
Proof. exact apply_first. Qed.
Print Assumptions C46_apply_in_order.

Theorem C46_outcome_is_determined :
  forall which mods lvl l m e r e', performs_all which mods lvl l m e r e' ->
    forall r' e'', performs_all which mods lvl l m e r' e'' -> r = r' /\ e' = e''.
Proof. exact performs_all_det. Qed.
Print Assumptions C46_outcome_is_determined.

(** If the section could not be parsed, [apply] raises and the environment
    stays as it is. *)
Theorem C46_nothing_to_apply :
  forall which mods other uniword fs fuel s (o : sobj) e,
    dget s (o_user (snd (getitem (SetEnvironment uniword) fs fuel s o))) = None ->
    exists x o', apply which mods other uniword fs fuel s (World o e) = (Err x, World o' e).
Proof. exact apply_without_actions. Qed.
Print Assumptions C46_nothing_to_apply.

(** [apply] is not all or nothing: the actions before one that fails stay. *)
Theorem C46_atomic_refuted :
  exists l s e x o' e', apply no_programs (returning 0) no_other no_uni (disk l) 9 s (World new_setenv e) =
    (Err x, World o' e') /\ e' <> e.
Proof. exists env_file, $"B", []. do 3 eexists. split; [vm_compute; reflexivity|discriminate]. Qed.
Print Assumptions C46_atomic_refuted.

Example C46_ex :
  (exists d o1, getitem class (disk env_file) 9 $"A" new_setenv = (Ok d, o1)) /\
  (exists i, has_file (disk env_file) new_setenv i /\ ini_has_section i $"A" = true) /\
  str_mem $"A" (checked_of new_setenv) = false /\ Forall plain_action actions_A /\
  (exists o', apply no_programs (returning 0) no_other no_uni (disk env_file) 9 $"A"
                (World new_setenv [($"PATH", $"/bin")]) =
              (Ok 0%Z, World o' [($"PATH", $"/opt/bin:/bin"); ($"OLD", $"/opt/bin:/bin")])) /\
  dget $"C" (o_user (snd (getitem class (disk env_file) 9 $"C" new_setenv))) = None.
Proof.
  split; [do 2 eexists; vm_compute; reflexivity|].
  split; [eexists; split; vm_compute; reflexivity|]. split; [computed|]. split.
  - assert (P : forall s : str, forallb (fun c => negb (existsb (N.eqb c) [0; 10; 13; 34; 92]%N) && (c <? 55296)%N) s = true ->
              plain_text s).
    { intros s H. rewrite forallb_forall in H. apply Forall_forall. intros c C. specialize (H c C).
      apply andb_prop in H as [A B]. apply N.ltb_lt in B. split.
      - intros X. apply negb_true_iff in A. assert (T : existsb (N.eqb c) [0; 10; 13; 34; 92]%N = true)
          by (apply existsb_exists; exists c; split; auto; apply N.eqb_refl). congruence.
      - intros [X _]. apply N.lt_nge in B. contradiction. }
    repeat (apply Forall_cons; [split; cbn [plain_opt]; apply P; vm_compute; reflexivity|]). apply Forall_nil.
  - split; [eexists; vm_compute; reflexivity|computed].
Qed.

(** ** C47 *)

(** For an action whose texts are plain, the generated Python text, executed,
    performs that action: names and values arrive as they are. *)
Theorem C47_plain_text_arrives :
  forall which mods other a (o : sobj) e, asked_action a -> plain_action a ->
    match gen_action a $"python" o with
    | (Ok cmd, o') => o' = o /\
        forall r e', exec_command which mods other cmd e = (r, e') -> performs which mods a e r e'
    | (Err x, o') => o' = o /\ x = TypeError /\ performs which mods a e (Err TypeError) e
    end.
Proof. exact text_performs. Qed.
Print Assumptions C47_plain_text_arrives.

(** Other values do not arrive: a quote ends the value early, a backslash
    begins an escape sequence. *)
Theorem C47_values_arrive_refuted :
  (exists l o', apply no_programs (returning 0) no_other no_uni (disk l) 9 $"A" (World new_setenv []) =
     (Ok 0%Z, World o' [($"X", $"a")]) /\ l = ["[A]"; "envvar-set X = a"")#b"]%string) /\
  (exists l o', apply no_programs (returning 0) no_other no_uni (disk l) 9 $"A" (World new_setenv []) =
     (Ok 0%Z, World o' [($"X", $"C:" ++ [9%N] ++ $"emp")]) /\ l = ["[A]"; "envvar-set X = C:\temp"]%string).
Proof. split; eexists; eexists; (split; [|reflexivity]); vm_compute; reflexivity. Qed.
Print Assumptions C47_values_arrive_refuted.

(** A value in the file can make [apply] execute any other Python text. *)
Theorem C47_only_documented_commands_refuted :
  exists l, l = ["[A]"; "envvar-set X = a"");danger()#"]%string /\
  forall which mods other e,
    w_env (snd (apply which mods other no_uni (disk l) 9 $"A" (World new_setenv e))) =
    snd (other $"envvar_op(""set"",""X"",""a"");danger()#"")" e).
Proof.
  eexists. split; [reflexivity|]. exact injected.
Qed.
Print Assumptions C47_only_documented_commands_refuted.

Example C47_ex :
  let a := AEnv $"envvar_set" $"X" (Some $"it's #1, a) $HOME") in
  asked_action a /\ plain_text $"it's #1, a) $HOME" /\
  fst (gen_action a $"python" new_setenv) = Ok $"envvar_op(""set"",""X"",""it's #1, a) $HOME"")" /\
  exec_command no_programs (returning 0) no_other $"envvar_op(""set"",""X"",""it's #1, a) $HOME"")" [($"HOME", $"/u")] =
    (Ok 0%Z, [($"HOME", $"/u"); ($"X", $"it's #1, a) /u")]).
Proof.
  cbv zeta. split; [exists (Req $"envvar_set" [$"X"] (Some $"it's #1, a) $HOME")); apply as_envvar; cbn; auto 10|].
  split; [|computed].
  repeat (apply Forall_cons; [split; [intros X; cbn in X; intuition discriminate|intros [X _]; now apply X]|]).
  apply Forall_nil.
Qed.

(** ** C48 *)

(** At exception control levels 2 and above (the default is 4), [apply] returns
    a number only if every action was performed and returned 0, and then that
    number is 0. *)
Theorem C48_success_means_done :
  forall which mods other uniword fs i fuel s (o : sobj) d l e,
    has_file fs o i -> str_mem s (checked_of o) = true -> section_of o s = Some d ->
    dget s (o_user o) = Some l -> Forall asked_action l -> Forall plain_action l -> (2 <= level_of o)%Z ->
    (forall z w, apply which mods other uniword fs fuel s (World o e) = (Ok z, w) ->
       z = 0%Z /\ all_done which mods l e (w_env w)) /\
    (forall e', all_done which mods l e e' ->
       exists o', apply which mods other uniword fs fuel s (World o e) = (Ok 0%Z, World o' e')).
Proof. exact apply_result. Qed.
Print Assumptions C48_success_means_done.

(** Below level 2 a module command that was killed by a signal, which has a
    negative return code, counts as success. *)
Theorem C48_failure_reported_refuted :
  exists o', apply no_programs (returning (-9)) no_other no_uni (disk env_file) 9 $"A"
    (World (at_level 1 new_setenv) []) = (Ok 0%Z, World o' [($"PATH", $"/opt/bin"); ($"OLD", $"/opt/bin")]).
Proof. eexists. vm_compute. reflexivity. Qed.
Print Assumptions C48_failure_reported_refuted.

Example C48_ex :
  let o := snd (getitem class (disk env_file) 9 $"A" new_setenv) in
  str_mem $"A" (checked_of o) = true /\ (exists d, section_of o $"A" = Some d) /\
  dget $"A" (o_user o) = Some actions_A /\ level_of o = 4%Z /\
  (exists i, has_file (disk env_file) o i) /\
  fst (apply no_programs (returning 3) no_other no_uni (disk env_file) 9 $"A" (World o [])) = Err RuntimeError.
Proof.
  cbv zeta. split; [computed|]. split; [eexists; vm_compute; reflexivity|]. split; [computed|]. split; [computed|].
  split; [eexists; vm_compute; reflexivity|computed].
Qed.

(** ** C49 *)

(** The script of a section whose actions are recorded: one line per action,
    in order; [TypeError] if an action lacks an argument. *)
Theorem C49_script_of_recorded_actions :
  forall uniword fs fuel header s l hdr bang interp (o : sobj),
    dget s (o_user o) = Some l -> Forall asked_action l -> interp = $"python" \/ interp = $"bash" ->
    (Exists incomplete l /\ generate_script uniword fs fuel header s hdr true bang interp o = (Err TypeError, o)) \/
    (~ Exists incomplete l /\ exists t, script_lines interp l t /\
       generate_script uniword fs fuel header s hdr true bang interp o =
         (Ok (heading header interp hdr bang ++ banner ++ t ++ newline ++ newline), o)).
Proof. exact script_known. Qed.
Print Assumptions C49_script_of_recorded_actions.

(** Otherwise the section is parsed first. *)
Theorem C49_script_of_section :
  forall uniword fs fuel header i s hdr bang interp (o : sobj) v o1,
    has_file fs o i -> level_ok o -> dget s (o_user o) = None ->
    parse_section_str (SetEnvironment uniword) fs fuel s true true o = (Ok v, o1) ->
    interp = $"python" \/ interp = $"bash" ->
    exists evs n l, parse_walk (SetEnvironment uniword) i (o_defname o) s true true evs n /\
      remain (requests evs) l /\
      ((Exists incomplete l /\ generate_script uniword fs fuel header s hdr true bang interp o = (Err TypeError, o1)) \/
       (~ Exists incomplete l /\ exists t, script_lines interp l t /\
         generate_script uniword fs fuel header s hdr true bang interp o =
           (Ok (heading header interp hdr bang ++ banner ++ t ++ newline ++ newline), o1))).
Proof. exact script_first. Qed.
Print Assumptions C49_script_of_section.

Theorem C49_lines_are_determined :
  forall interp a t t', script_line interp a t -> script_line interp a t' -> t = t'.
Proof. exact script_line_det. Qed.
Print Assumptions C49_lines_are_determined.

Example C49_ex :
  fst (generate_script no_uni (disk env_file) 9 (fun _ => []) $"A" false true true $"bash" new_setenv) =
    Ok ($"#!/usr/bin/env bash" ++ newline ++ banner ++
        $"module load gcc/9" ++ newline ++ $"envvar_op prepend ""PATH"" ""/opt/bin""" ++ newline ++
        $"module load mpi/4.1" ++ newline ++ $"envvar_op set ""OLD"" ""$PATH""" ++ newline ++ newline ++ newline) /\
  fst (generate_script no_uni (disk env_file) 9 (fun _ => []) $"B" false true true $"bash" new_setenv) = Err TypeError.
Proof. computed. Qed.

(** ** C50 *)

(** Assigning another file, or other delimiters, does not change the script of
    a section whose actions are recorded, whatever the files contain now. *)
Theorem C50_script_stays :
  forall uniword fs fs' fuel fuel' header s l hdr bang interp (o o1 : sobj),
    dget s (o_user o) = Some l -> Forall asked_action l -> interp = $"python" \/ interp = $"bash" ->
    (exists a, o1 = snd (set_inifilepath a o)) \/ (exists v, o1 = snd (set_configparser_delimiters v o)) ->
    fst (generate_script uniword fs' fuel' header s hdr true bang interp o1) =
    fst (generate_script uniword fs fuel header s hdr true bang interp o).
Proof. exact script_is_kept. Qed.
Print Assumptions C50_script_stays.

(** So the script and [apply] can disagree: after other delimiters have been
    assigned, [apply] reads the file again and the script shows the old
    actions. *)
Theorem C50_script_agrees_with_apply_refuted :
  exists l a b w, let o := snd (getitem class (disk l) 9 $"A" new_setenv) in
    let o1 := snd (set_configparser_delimiters a o) in
    fst (generate_script no_uni (disk l) 9 (fun _ => []) $"A" false true false $"python" o1) =
      Ok (banner ++ $"envvar_op(""set"",""X"",""1:2"")" ++ newline ++ newline ++ newline) /\
    apply no_programs (returning 0) no_other no_uni (disk l) 9 $"A" (World o1 []) = (b, w) /\
    w_env w = [($"X", $"2")].
Proof.
  exists ["[A]"; "envvar-set X = 1:2"]%string, (Some [$":"]). do 2 eexists. cbv zeta. split; [|split]; vm_compute; reflexivity.
Qed.
Print Assumptions C50_script_agrees_with_apply_refuted.

Example C50_ex :
  let o := snd (getitem class (disk env_file) 9 $"A" new_setenv) in
  dget $"A" (o_user o) = Some actions_A /\ Forall asked_action actions_A /\
  fst (generate_script no_uni (fun _ => None) 9 (fun _ => []) $"A" false true false $"bash"
         (snd (set_inifilepath (FOne $"other.ini") o))) =
  fst (generate_script no_uni (disk env_file) 9 (fun _ => []) $"A" false true false $"bash" o) /\
  fst (generate_script no_uni (fun _ => None) 9 (fun _ => []) $"A" false true false $"bash"
         (snd (set_inifilepath (FOne $"other.ini") new_setenv))) <>
  fst (generate_script no_uni (disk env_file) 9 (fun _ => []) $"A" false true false $"bash" o).
Proof.
  cbv zeta. split; [computed|]. split; [|computed].
  unfold actions_A.
  apply Forall_cons; [exists (Req $"module_load" [$"gcc"] (Some $"9")); apply (as_module $"module_load"); cbn; auto 10|].
  apply Forall_cons; [exists (Req $"envvar_prepend" [$"PATH"] (Some $"/opt/bin")); apply as_envvar; cbn; auto 10|].
  apply Forall_cons; [exists (Req $"module_load" [$"mpi"] (Some $"4.1")); apply (as_module $"module_load"); cbn; auto 10|].
  apply Forall_cons; [exists (Req $"envvar_set" [$"OLD"] (Some $"$PATH")); apply as_envvar; cbn; auto 10|]. apply Forall_nil.
Qed.
