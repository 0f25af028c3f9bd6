(** * C70: loading an environment into the shell.

    Statements and examples only. *)
From Coq Require Import String NArith ZArith List Bool.
Import ListNotations.
From Verif Require Import PyBase PyFacts IniView IniRead ExcControl Cpe EnvVar Bash SetEnv DetSys EnvKeyword LoadEnv LoadRun
  SpecText SpecWalk SpecRun SpecApi SpecEnv SpecSetEnv SpecBash SpecLoadEnv SpecLoadRun SpecGenRun Samples
  BashTextProofs LoadRunProofs LoadRunProofs3 LoadSh SpecSh ShProofs ShProofs2
  PropertiesKeyword PropertiesSetEnv PropertiesLoadEnv PropertiesLoadRun.
Local Open Scope string_scope.
Local Open Scope list_scope.

Section C70.
(** What the script meets: see [LoadSh.v]. *)
Variable glob : str -> list str.
Variable odd_test : list str -> bool.
Variable odd_status : str -> N.
Variable which_python3 too_old : environ -> str.
Variable python3 : list str -> environ -> dict str -> N * dict str.
Variable interactive : list str -> environ -> dict str -> dict str.
Variable run_text run_function : str -> sh unit.
Variable here random : str.
Notation load_env_sh :=
  (load_env_sh glob odd_test odd_status which_python3 too_old python3 interactive run_text run_function here random).

(** Inside a loaded environment nothing is loaded, and nothing is changed. *)
Theorem C70_refused :
  forall args t mode, dget $"LOAD_ENV_INTERACTIVE_MODE" (t_vars t) = Some mode -> bare_word mode ->
    load_env_sh true args t = (Ok 1%N, t).
Proof. exact (refused glob odd_test odd_status which_python3 too_old python3 interactive run_text run_function here random). Qed.

(** Without a suitable [python3]: no program is started, and variables, functions
    and files are as before but for the names of the script and its files. *)
Theorem C70_needs_python :
  forall args t,
    dget $"LOAD_ENV_INTERACTIVE_MODE" (t_vars t) = None \/ dget $"LOAD_ENV_INTERACTIVE_MODE" (t_vars t) = Some [] ->
    which_python3 (t_vars t) = [] \/ too_old (t_vars t) = $"True" ->
    unsplit (user_of t) -> dget $"cleanup" (t_vars t) = None -> dget $"env_file" (t_vars t) = None ->
    exists t', load_env_sh true args t = (Ok 1%N, t') /\
      leaves (t_vars t) (t_funs t) (t_files t) (tmp_paths t ++ [$"rc"]) t' /\ t_calls t' = t_calls t.
Proof. exact (no_python glob odd_test odd_status which_python3 too_old python3 interactive run_text run_function here random). Qed.

(** Without arguments: the help. *)
Theorem C70_help :
  forall t, ready which_python3 too_old t -> unsplit here ->
    exists e, same_but load_names (t_vars t) e /\
    forall r fs, python3 [$"-E"; $"-s"; here ++ $"/load_env.py"; $"--help"] e (t_files t) = (r, fs) ->
    exists t', load_env_sh true [] t = (Ok 1%N, t') /\
      leaves (t_vars t) (t_funs t) fs (tmp_paths t ++ [$"rc"]) t' /\
      t_calls t' = t_calls t ++ [[$"python3"; $"-E"; $"-s"; here ++ $"/load_env.py"; $"--help"]].
Proof. exact (helps_only glob odd_test odd_status which_python3 too_old python3 interactive run_text run_function here random). Qed.

(** [load_env.py] gets the arguments that the user wrote. If it fails, its status
    is that of the script; if the script it names is missing, the status is 1; if
    it names none, it is 0. Each time the variables and functions of the user are
    as before, and no other program was started. *)
Theorem C70_not_loaded :
  forall args t, ready which_python3 too_old t -> unsplit here -> unsplit random -> args <> [] -> Forall bare_word args ->
    exists e, same_but load_names (t_vars t) e /\
    forall r fs, python3 (load_command here random args) e (t_files t) = (r, fs) ->
      (r <> 0%N -> (r < 256)%N ->
         exists t', load_env_sh true args t = (Ok r, t') /\
           leaves (t_vars t) (t_funs t) fs (tmp_paths t ++ [$"rc"]) t' /\
           t_calls t' = t_calls t ++ [$"python3" :: load_command here random args]) /\
      (r = 0%N -> dget (loc_file random) fs = None ->
         exists t', load_env_sh true args t = (Ok 0%N, t') /\
           leaves (t_vars t) (t_funs t) fs (tmp_paths t ++ [$"rc"]) t' /\
           t_calls t' = t_calls t ++ [$"python3" :: load_command here random args]) /\
      (forall env_file stem, r = 0%N -> dget (loc_file random) fs = Some env_file -> script_file env_file stem ->
         dget env_file fs = None ->
         exists t', load_env_sh true args t = (Ok 1%N, t') /\
           leaves (t_vars t) (t_funs t) fs (tmp_paths t ++ [env_file; stem ++ $"rc"]) t' /\
           t_calls t' = t_calls t ++ [$"python3" :: load_command here random args]).
Proof. exact (runs glob odd_test odd_status which_python3 too_old python3 interactive run_text run_function here random). Qed.

(** [--ci-mode]: the text of the script that [load_env.py] wrote is executed once,
    in the shell of the user, and what it did to the shell remains; the script and
    its companion are removed. *)
Theorem C70_current_shell :
  forall args t, ready which_python3 too_old t -> unsplit here -> unsplit random -> args <> [] -> Forall bare_word args ->
    exists e, same_but load_names (t_vars t) e /\
    forall fs env_file stem text, python3 (load_command here random args) e (t_files t) = (0%N, fs) ->
      dget (loc_file random) fs = Some env_file -> script_file env_file stem -> dget env_file fs = Some text -> asks_ci args ->
    exists t3, prepared t fs (stem ++ $"rc") ($"python3" :: load_command here random args) t3 /\
      (forall x t4, run_text text t3 = (Err x, t4) -> load_env_sh true args t = (Err x, t4)) /\
      (forall t4 t5, run_text text t3 = (Ok tt, t4) -> then_helper run_function t4 t5 -> keeps_names t3 t5 ->
         exists t', load_env_sh true args t = (Ok 0%N, t') /\
           leaves (t_vars t5) (t_funs t5) (t_files t5) (tmp_paths t ++ [env_file; stem ++ $"rc"]) t' /\ t_calls t' = t_calls t5).
Proof. exact (loads glob odd_test odd_status which_python3 too_old python3 interactive run_text run_function here random). Qed.

(** Otherwise: a new shell is started that reads the script first and will refuse
    to load another environment; the user's shell keeps its variables. *)
Theorem C70_new_shell :
  forall args t, ready which_python3 too_old t -> unsplit here -> unsplit random -> args <> [] -> Forall bare_word args ->
    exists e, same_but load_names (t_vars t) e /\
    forall fs env_file stem text, python3 (load_command here random args) e (t_files t) = (0%N, fs) ->
      dget (loc_file random) fs = Some env_file -> script_file env_file stem -> dget env_file fs = Some text -> ~ asks_ci args ->
    exists t3 t' init rest, prepared t fs (stem ++ $"rc") ($"python3" :: load_command here random args) t3 /\
      dget (stem ++ $"rc") (t_files t3) = Some init /\
      cut_at 10%N init (($"source " ++ env_file) :: rest) /\ In $"export LOAD_ENV_INTERACTIVE_MODE=""True""" rest /\
      load_env_sh true args t = (Ok 0%N, t') /\
      leaves (t_vars t) (t_funs t) (interactive [stem ++ $"rc"] (t_vars t3) (t_files t3)) (tmp_paths t ++ [env_file; stem ++ $"rc"]) t' /\
      t_calls t' = t_calls t ++ [$"python3" :: load_command here random args; [$"/bin/bash"; $"--init-file"; stem ++ $"rc"; $"-i"]].
Proof. exact (opens glob odd_test odd_status which_python3 too_old python3 interactive run_text run_function here random). Qed.

(** With [load_env.py] as in C67 and bash as in C61, and [--ci-mode]: if the
    program fails, the variables are as before and the status is 1; otherwise they
    are those that the actions of the section lead to, performed once, in order,
    with [LOADED_ENV_NAME]. *)
Theorem C70_environment :
  forall other_re systems hostname envs which mods other uniword fs fuel header specs_file env_file output list_flag writable i
         subst_pattern sed_other echo_option which_prints module_command other_command args build force stem t,
    is_load_env python3 (load_command here random args)
      (fun e files => load_main other_re systems hostname envs which mods other uniword fs fuel header specs_file env_file output
         (Some (loc_file random)) list_flag writable (new_lworld build force e files)) ->
    is_bash run_text (heading header $"bash" true true)
      (run_bash glob subst_pattern sed_other echo_option which_prints module_command other_command) ->
    (forall e v, chomp (which_prints e [v]) = match which e v with Some p => p | None => [] end) ->
    (forall a e, module_command a e = snd (mods a e)) ->
    has_file fs (new_set specs_file) i -> no_finalize_options i ->
    ready which_python3 too_old t -> unsplit here -> unsplit random -> args <> [] -> Forall bare_word args ->
    asks_ci args -> script_file env_file stem -> env_file <> loc_file random -> dget $"gen_config_helper" (t_funs t) = None ->
    (forall n l, fst (lexec other_re systems hostname envs LParsed (new_loadenv build force)) = Ok n -> section_asks uniword i n l ->
       bare_text n /\ Forall plain_action l /\
       forall e, same_but load_names (t_vars t) e ->
         portable_all which mods l e /\ exists e', all_done which mods l e e' /\ keeps load_names e e') ->
    exists e, same_but load_names (t_vars t) e /\
      let (r, w) := load_main other_re systems hostname envs which mods other uniword fs fuel header specs_file env_file output
                      (Some (loc_file random)) list_flag writable (new_lworld build force e (t_files t)) in
      match r with
      | Err _ => exists t', load_env_sh true args t = (Ok 1%N, t') /\ same_but load_names (t_vars t) (t_vars t')
      | Ok _ =>
          exists n l e3 e' t',
            fst (lexec other_re systems hostname envs LParsed (new_loadenv build force)) = Ok n /\ section_asks uniword i n l /\
            same_but load_names (t_vars t) e3 /\ all_done which mods l e3 e' /\
            load_env_sh true args t = (Ok 0%N, t') /\
            same_but load_names (dset $"LOADED_ENV_NAME" n e') (t_vars t') /\
            (forall x, In x removed_names -> dget x (t_vars t') = None) /\
            dget env_file (t_files t') = None
      end.
Proof. exact (environment glob odd_test odd_status which_python3 too_old python3 interactive run_text run_function here random). Qed.
End C70.
Print Assumptions C70_refused.
Print Assumptions C70_needs_python.
Print Assumptions C70_help.
Print Assumptions C70_not_loaded.
Print Assumptions C70_current_shell.
Print Assumptions C70_new_shell.
Print Assumptions C70_environment.

(** ** Examples *)

(** Texts are executed as [run_bash] does, without the heading; no other text does
    anything. *)
Definition heading1 : str := heading (fun _ => $"# header") $"bash" true true.
Definition bash1 : str -> environ -> res unit * environ :=
  run_bash (fun s => [s]) (fun _ _ => []) (fun _ _ => []) (fun _ => []) (fun _ _ => []) (fun _ e => e) (fun _ e => (Ok tt, e)).
Definition text1 (s : str) : sh unit := fun t =>
  if str_eqb (firstn (length heading1) s) heading1 then
    let (r, e) := bash1 (skipn (length heading1) s) (t_vars t) in
    (r, Term e (dset $"envvar_op" $"..." (t_funs t)) (t_trap t) (t_files t) (t_calls t))
  else (Ok tt, t).
(** A shell with this [python3]. *)
Definition shell1 (python3 : list str -> environ -> dict str -> N * dict str) : bool -> list str -> sh N :=
  load_env_sh (fun s => [s]) (fun _ => false) (fun _ => 2%N) (fun _ => $"/usr/bin/python3") (fun _ => $"False") python3
    (fun _ _ fs => dset $"made" $"in the new shell" fs) text1 (fun _ => ret tt) $"/le" $"7".
(** [load_env.py] with the file of C67; the build name is its last argument. *)
Definition main1 (build : str) (e : environ) (files : dict str) :=
  load_main no_re systems1 $"m1-login7" envs1 no_programs (returning 0) no_other no_uni (disk specs1) 20 (fun _ => $"# header")
    $"f.ini" $"/tmp/u/env.sh" None (Some $".load_matching_env_loc.7") false (fun _ => true) (new_lworld build false e files).
Definition load1 (line : list str) (e : environ) (files : dict str) : N * dict str :=
  (match fst (main1 (last line []) e files) with Ok _ => 0%N | Err _ => 1%N end, r_out (snd (main1 (last line []) e files))).
Definition user1 : environ := [($"USER", $"u"); ($"PATH", $"/bin")].
Definition term1 : term := Term user1 [($"ll", $"ls -l")] None [($"notes", $"mine")] [].

Example C70_ex : exists t',
  shell1 load1 true [$"--ci-mode"; $"intel-19_debug"] term1 = (Ok 0%N, t') /\
  dget $"PATH" (t_vars t') = Some $"/bin:/opt" /\ dget $"A" (t_vars t') = Some $"1" /\
  dget $"LOADED_ENV_NAME" (t_vars t') = Some $"machine-1_intel-19.0.4" /\
  t_files t' = [($"notes", $"mine"); ($".load_matching_env_loc.7", $"/tmp/u/env.sh")] /\
  dget $"ll" (t_funs t') = Some $"ls -l" /\
  t_calls t' = [[$"python3"; $"-E"; $"-s"; $"/le/load_env.py"; $"--load-matching-env-location"; $".load_matching_env_loc.7";
                 $"--ci-mode"; $"intel-19_debug"]].
Proof. eexists. split; [vm_compute; reflexivity|]. repeat split; vm_compute; reflexivity. Qed.
Example C70_ex_failure : exists t',
  shell1 load1 true [$"--ci-mode"; $"unknown"] term1 = (Ok 1%N, t') /\ t_files t' = [($"notes", $"mine")] /\
  dget $"PATH" (t_vars t') = Some $"/bin" /\ dget $"A" (t_vars t') = None.
Proof. eexists. split; [vm_compute; reflexivity|]. repeat split; vm_compute; reflexivity. Qed.
Example C70_ex_new_shell : exists t',
  shell1 load1 true [$"intel-19_debug"] term1 = (Ok 0%N, t') /\
  dget $"PATH" (t_vars t') = Some $"/bin" /\ dget $"A" (t_vars t') = None /\
  dget $"made" (t_files t') = Some $"in the new shell" /\
  last (t_calls t') [] = [$"/bin/bash"; $"--init-file"; $"/tmp/u/env.rc"; $"-i"].
Proof. eexists. split; [vm_compute; reflexivity|]. repeat split; vm_compute; reflexivity. Qed.
Example C70_ex_help : exists t', shell1 load1 true [] term1 = (Ok 1%N, t') /\ length (t_calls t') = 1.
Proof. eexists. split; vm_compute; reflexivity. Qed.
Example C70_ex_refused : exists t, dget $"LOAD_ENV_INTERACTIVE_MODE" (t_vars t) = Some $"True" /\ bare_word $"True".
Proof. exists (Term [($"LOAD_ENV_INTERACTIVE_MODE", $"True")] [] None [] []). split; [reflexivity|]. apply bare_word_check; [discriminate|reflexivity]. Qed.

(** The hypotheses of the theorems, for these commands. *)
Example C70_ex_hypotheses :
  ready (fun _ => $"/usr/bin/python3") (fun _ => $"False") term1 /\ unsplit $"/le" /\ unsplit $"7" /\
  Forall bare_word [$"--ci-mode"; $"intel-19_debug"] /\ asks_ci [$"--ci-mode"; $"intel-19_debug"] /\ ~ asks_ci [$"intel-19_debug"] /\
  script_file $"/tmp/u/env.sh" $"/tmp/u/env." /\
  is_load_env load1 (load_command $"/le" $"7" [$"--ci-mode"; $"intel-19_debug"]) (main1 $"intel-19_debug") /\
  is_bash text1 heading1 bash1 /\
  exists i, has_file (disk specs1) (new_set $"f.ini") i /\ no_finalize_options i /\
    forall n l, fst (lexec no_re systems1 $"m1-login7" envs1 LParsed (new_loadenv $"intel-19_debug" false)) = Ok n ->
      section_asks no_uni i n l ->
      bare_text n /\ Forall plain_action l /\
      forall e, same_but load_names user1 e ->
        portable_all no_programs (returning 0) l e /\
        exists e', all_done no_programs (returning 0) l e e' /\ keeps load_names e e'.
Proof.
  split.
  { constructor; try (left; reflexivity); try reflexivity; [split; discriminate|]. now apply unsplit_check. }
  split; [now apply unsplit_check|]. split; [now apply unsplit_check|].
  split; [repeat constructor; (apply bare_word_check; [discriminate|reflexivity])|].
  split; [apply ci_iff; reflexivity|]. split; [intros X; apply ci_iff in X; discriminate|].
  split. { constructor; [now exists 115%N, 104%N|discriminate|(apply bare_word_check; [discriminate|reflexivity])]. }
  split; [intros e files; reflexivity|]. split.
  { intros c t. unfold text1. rewrite firstn_app, firstn_all, PeanoNat.Nat.sub_diag. cbn [firstn]. rewrite app_nil_r, str_eqb_refl.
    rewrite skipn_app, skipn_all, PeanoNat.Nat.sub_diag. cbn [skipn app].
    destruct (bash1 c (t_vars t)) as [r e]. eexists. split; [reflexivity|]. now apply dget_dset_other. }
  eexists. split; [vm_compute; reflexivity|]. split; [apply no_finalize_check; vm_compute; reflexivity|].
  intros n l N SA.
  assert (NE : n = $"machine-1_intel-19.0.4") by (vm_compute in N; injection N as <-; reflexivity). subst n.
  assert (LE : l = [AEnv $"envvar_set" $"A" (Some $"1"); AMod $"module_load" (Some $"intel") (Some $"19");
                    AEnv $"envvar_append" $"PATH" (Some $"/opt")]).
  { eapply (asks_computed no_uni (disk specs1) 20 $"f.ini" _ $"machine-1_intel-19.0.4" _ l (new_lworld $"x" false [] [])).
    - vm_compute. reflexivity.
    - apply no_finalize_check. vm_compute. reflexivity.
    - reflexivity.
    - vm_compute. reflexivity.
    - vm_compute. reflexivity.
    - vm_compute. reflexivity.
    - vm_compute. reflexivity.
    - exact SA. }
  subst l. split; [bare|]. split; [repeat (constructor; [split; try exact I; apply plain_text_check; reflexivity|]); constructor|].
  intros e SE.
  assert (PA : dget $"PATH" e = Some $"/bin") by (rewrite SE; [reflexivity|cbn; intuition discriminate]).
  assert (P1 : performs no_programs (returning 0) (AEnv $"envvar_set" $"A" (Some $"1")) e (Ok 0%Z) (dset $"A" $"1" e)).
  { apply (pf_envvar _ _ $"set"); [cbn; tauto|discriminate|reflexivity]. }
  assert (P2 : forall e, performs no_programs (returning 0) (AMod $"module_load" (Some $"intel") (Some $"19")) e (Ok 0%Z) e).
  { intros e0. apply pf_load_version; [discriminate|reflexivity]. }
  assert (P3 : performs no_programs (returning 0) (AEnv $"envvar_append" $"PATH" (Some $"/opt")) (dset $"A" $"1" e) (Ok 0%Z)
    (dset $"PATH" $"/bin:/opt" (dset $"A" $"1" e))).
  { apply (pf_envvar _ _ $"append"); [cbn; tauto|discriminate|].
    assert (PA' : dget $"PATH" (dset $"A" $"1" e) = Some $"/bin") by (rewrite dget_dset_other by discriminate; exact PA).
    unfold envvar_op. cbn [negb andb]. unfold bind, get. rewrite PA'. reflexivity. }
  split.
  - eapply portable_next; [|exact P1|].
    { apply (po_value _ $"set" _ _ $"1"); [auto|apply variable_check; reflexivity|apply stands_for_check; reflexivity]. }
    eapply portable_next; [|apply P2|].
    { apply po_load_version; bare. }
    eapply portable_next; [|exact P3|constructor].
    apply (po_path _ $"append" _ _ $"/opt"); [auto|apply variable_check; reflexivity|apply stands_for_check; reflexivity|discriminate].
  - exists (dset $"PATH" $"/bin:/opt" (dset $"A" $"1" e)). split.
    + eapply ad_cons; [exact P1|]. eapply ad_cons; [apply P2|]. eapply ad_cons; [exact P3|constructor].
    + intros x X. rewrite !dget_dset_other; auto; intros ->; cbn in X; intuition discriminate.
Qed.

(** ** What does not hold *)

(** A file of the user that is called [rc] is lost when nothing was loaded. *)
Theorem C70_user_file_kept_refuted :
  exists t t', dget $"rc" (t_files t) = Some $"mine" /\
    shell1 load1 true [$"--ci-mode"; $"unknown"] t = (Ok 1%N, t') /\ dget $"rc" (t_files t') = None.
Proof. exists (Term user1 [] None [($"rc", $"mine")] []). eexists. split; [reflexivity|]. split; vm_compute; reflexivity. Qed.
Print Assumptions C70_user_file_kept_refuted.

(** If the user has a variable [env_file], so is the file that it names. *)
Theorem C70_named_file_kept_refuted :
  exists t t', dget $"settings.sh" (t_files t) = Some $"mine" /\
    shell1 load1 true [$"--ci-mode"; $"unknown"] t = (Ok 1%N, t') /\ dget $"settings.sh" (t_files t') = None.
Proof.
  exists (Term (($"env_file", $"settings.sh") :: user1) [] None [($"settings.sh", $"mine")] []). eexists.
  split; [reflexivity|]. split; vm_compute; reflexivity.
Qed.
Print Assumptions C70_named_file_kept_refuted.

(** The file with the location stays in the current directory. *)
Theorem C70_nothing_left_behind_refuted :
  exists t t', t_files t = [] /\ shell1 load1 true [$"--ci-mode"; $"intel-19_debug"] t = (Ok 0%N, t') /\
    t_files t' = [($".load_matching_env_loc.7", $"/tmp/u/env.sh")].
Proof. exists (Term user1 [] None [] []). eexists. split; [reflexivity|]. split; vm_compute; reflexivity. Qed.
Print Assumptions C70_nothing_left_behind_refuted.

(** Variables and functions of the user with the names of the script are lost,
    and so is the handler of signals. *)
Theorem C70_user_names_kept_refuted :
  exists t t', dget $"ret" (t_vars t) = Some $"5" /\ dget $"cleanup" (t_funs t) = Some $"rm -r build" /\ t_trap t = Some $"exit" /\
    shell1 load1 true [$"--ci-mode"; $"intel-19_debug"] t = (Ok 0%N, t') /\
    dget $"ret" (t_vars t') = None /\ dget $"cleanup" (t_funs t') = None /\ t_trap t' = None.
Proof.
  exists (Term (($"ret", $"5") :: user1) [($"cleanup", $"rm -r build")] (Some $"exit") [] []). eexists.
  split; [reflexivity|]. split; [reflexivity|]. split; [reflexivity|]. split; [vm_compute; reflexivity|].
  split; [vm_compute; reflexivity|]. split; vm_compute; reflexivity.
Qed.
Print Assumptions C70_user_names_kept_refuted.

(** And the script's own variables stay. *)
Theorem C70_no_new_variables_refuted :
  exists t t', dget $"env_file_rc" (t_vars t) = None /\ shell1 load1 true [$"intel-19_debug"] t = (Ok 0%N, t') /\
    dget $"env_file_rc" (t_vars t') = Some $"/tmp/u/env.rc".
Proof. exists term1. eexists. split; [reflexivity|]. split; vm_compute; reflexivity. Qed.
Print Assumptions C70_no_new_variables_refuted.

(** The environment is loaded into the user's shell only if the option is given:
    not so, it may be a part of another argument. *)
Theorem C70_only_with_option_refuted :
  exists args t t', ~ In $"--ci-mode" args /\ shell1 load1 true args t = (Ok 0%N, t') /\
    dget $"A" (t_vars t) = None /\ dget $"A" (t_vars t') = Some $"1".
Proof.
  exists [$"--comment=no--ci-mode"; $"intel-19_debug"], term1. eexists. split; [cbn; intuition discriminate|].
  split; [vm_compute; reflexivity|]. split; vm_compute; reflexivity.
Qed.
Print Assumptions C70_only_with_option_refuted.

(** An argument with a blank arrives as two. *)
Theorem C70_arguments_arrive_refuted :
  exists args t t', shell1 load1 true args t = (Ok 0%N, t') /\ t_calls t = [] /\
    t_calls t' <> [$"python3" :: load_command $"/le" $"7" args].
Proof.
  exists [$"--ci-mode"; $"--environment-specs=/my dir/f.ini"; $"intel-19_debug"], term1. eexists.
  split; [vm_compute; reflexivity|]. split; [reflexivity|]. vm_compute. discriminate.
Qed.
Print Assumptions C70_arguments_arrive_refuted.

(** A status of 0 means that an environment was loaded: not if [load_env.py]
    wrote nothing, as for [--help]. *)
Theorem C70_loaded_or_reported_refuted :
  exists python3 args t t', shell1 python3 true args t = (Ok 0%N, t') /\ dget $"LOADED_ENV_NAME" (t_vars t') = None.
Proof.
  exists (fun _ _ files => (0%N, files)), [$"--ci-mode"; $"--help"], term1. eexists. split; vm_compute; reflexivity.
Qed.
Print Assumptions C70_loaded_or_reported_refuted.

(** The script that was written is executed: not if its name ends in [rc]. It is
    overwritten with a text that sources it. *)
Theorem C70_script_executed_refuted :
  exists text t t',
    shell1 (fun _ _ _ => (0%N, [($".load_matching_env_loc.7", $"/home/u/envrc"); ($"/home/u/envrc", text)])) true [$"--ci-mode"; $"x"] t =
      (Ok 0%N, t') /\
    (exists e, text1 text t = (Ok tt, Term e (dset $"envvar_op" $"..." (t_funs t)) (t_trap t) (t_files t) (t_calls t)) /\ dget $"A" e = Some $"1") /\
    dget $"A" (t_vars t') = None.
Proof.
  exists (heading1 ++ $"export A=1"), term1. eexists. split; [vm_compute; reflexivity|]. split; [|vm_compute; reflexivity].
  eexists. split; vm_compute; reflexivity.
Qed.
Print Assumptions C70_script_executed_refuted.
