(** * C71: configuring a build from the shell.

    Statements and examples only. *)
From Coq Require Import String NArith ZArith List Bool.
Import ListNotations.
From Verif Require Import PyBase PyFacts IniView IniRead ExcControl Cpe EnvVar Bash SetEnv DetSys EnvKeyword LoadEnv LoadRun GenRun
  SpecText SpecWalk SpecRun SpecApi SpecEnv SpecSetEnv SpecBash SpecLoadEnv SpecLoadRun SpecGenRun Samples
  BashTextProofs LoadRunProofs LoadRunProofs3 LoadSh SpecSh ShProofs ShProofs2 GenSh SpecGenSh GenShProofs GenShProofs2
  PropertiesKeyword PropertiesSetEnv PropertiesLoadEnv PropertiesLoadRun PropertiesGenRun PropertiesSh.
Local Open Scope string_scope.
Local Open Scope list_scope.

Section C71.
(** What the script meets: see [LoadSh.v] and [GenSh.v]. *)
Variable glob : str -> list str.
Variable odd_test : list str -> bool.
Variable odd_status : str -> N.
Variable which_python3 too_old : environ -> str.
Variable python3 : list str -> environ -> dict str -> N * dict str.
Variable interactive : list str -> environ -> dict str -> dict str.
Variable run_text run_function : str -> sh unit.
Variable here random : str.
Variable directory : str -> bool.
Variable cmake : list str -> environ -> dict str -> dict str.
Variable odd_source : list str -> sh N.
Notation gen_config_sh := (gen_config_sh glob odd_test odd_status which_python3 too_old python3 interactive run_text run_function
  here random directory cmake odd_source).
Notation load_line m := (load_command (here ++ $"/LoadEnv") random m).

(** The last argument has to be a directory, unless a fragment is asked for:
    otherwise no program is started and the status is 1. *)
Theorem C71_needs_source :
  forall t init src, gen_ready which_python3 too_old t -> bare_word src -> directory src = false ->
    ~ mentions $"--help" (init ++ [src]) -> ~ mentions $"--cmake-fragment" (init ++ [src]) ->
    exists t', gen_config_sh true (init ++ [src]) t = (Ok 1%N, t') /\
      gen_leaves (t_vars t) (t_funs t) (t_files t) (gen_paths t) t' /\ t_calls t' = t_calls t.
Proof.
  exact (source_needed glob odd_test odd_status which_python3 too_old python3 interactive run_text run_function here random
    directory cmake odd_source).
Qed.

(** [gen_config.py] gets the other arguments. If it fails, nothing else is
    started. *)
Theorem C71_generation_fails :
  forall t init src, gen_ready which_python3 too_old t -> unsplit here -> Forall bare_word init -> bare_word src ->
    ~ mentions $"--help" (init ++ [src]) -> directory src = true ->
    forall r fs, ends python3 t (gen_command here init) (t_files t) r fs -> r <> 0%N ->
    exists t', gen_config_sh true (init ++ [src]) t = (Ok 0%N, t') /\ gen_leaves (t_vars t) (t_funs t) fs (gen_paths t) t' /\
      t_calls t' = t_calls t ++ [$"python3" :: gen_command here init].
Proof.
  exact (generation_fails glob odd_test odd_status which_python3 too_old python3 interactive run_text run_function here random
    directory cmake odd_source).
Qed.

(** It is started a second time, to save the command line of LoadEnv. If that
    fails, nothing else is started. *)
Theorem C71_saving_fails :
  forall t init src, gen_ready which_python3 too_old t -> unsplit here -> Forall bare_word init -> bare_word src ->
    ~ mentions $"--help" (init ++ [src]) -> directory src = true ->
    forall fs1 args_file, ends python3 t (gen_command here init) (t_files t) 0%N fs1 ->
    dget (args_loc t) fs1 = Some args_file -> bare_word args_file ->
    forall r fs, ends python3 t (gen_command here (init ++ save_options t)) fs1 r fs -> r <> 0%N ->
    exists t', gen_config_sh true (init ++ [src]) t = (Ok 0%N, t') /\ gen_leaves (t_vars t) (t_funs t) fs (gen_paths t) t' /\
      t_calls t' = t_calls t ++ [$"python3" :: gen_command here init; $"python3" :: gen_command here (init ++ save_options t)].
Proof.
  exact (saving_fails glob odd_test odd_status which_python3 too_old python3 interactive run_text run_function here random
    directory cmake odd_source).
Qed.

(** Then [load_env.py] gets the saved words. If it fails, cmake is not started and
    the variables are as before. *)
Theorem C71_loading_fails :
  forall t init src, gen_ready which_python3 too_old t -> unsplit here -> unsplit random -> Forall bare_word init -> bare_word src ->
    ~ mentions $"--help" (init ++ [src]) -> directory src = true ->
    forall fs1 args_file, ends python3 t (gen_command here init) (t_files t) 0%N fs1 ->
    dget (args_loc t) fs1 = Some args_file -> bare_word args_file ->
    forall fs2 m, ends python3 t (gen_command here (init ++ save_options t)) fs1 0%N fs2 ->
    dget (saved_args t) fs2 = Some (join $" " m) -> m <> [] -> Forall bare_word m ->
    exists e, same_but gen_names (t_vars t) e /\
    forall r fs, python3 (load_line m) e fs2 = (r, fs) -> r <> 0%N -> (r < 256)%N ->
    exists t', gen_config_sh true (init ++ [src]) t = (Ok 0%N, t') /\
      gen_leaves (t_vars t) (t_funs t) fs ((tmp_paths t ++ [$"rc"]) ++ gen_paths t) t' /\
      t_calls t' = t_calls t ++ [$"python3" :: gen_command here init; $"python3" :: gen_command here (init ++ save_options t);
        $"python3" :: load_line m].
Proof.
  exact (loading_fails glob odd_test odd_status which_python3 too_old python3 interactive run_text run_function here random
    directory cmake odd_source).
Qed.

(** [--ci-mode]: the script of the environment is executed in the user's shell,
    and then, in that environment, cmake, once, with the options of the file that
    [gen_config.py] named (with a backslash between any two) and the directory. *)
Theorem C71_configures :
  forall t init src, gen_ready which_python3 too_old t -> unsplit here -> unsplit random -> Forall bare_word init -> bare_word src ->
    ~ mentions $"--help" (init ++ [src]) -> directory src = true ->
    forall fs1 args_file, ends python3 t (gen_command here init) (t_files t) 0%N fs1 ->
    dget (args_loc t) fs1 = Some args_file -> bare_word args_file ->
    forall fs2 m, ends python3 t (gen_command here (init ++ save_options t)) fs1 0%N fs2 ->
    dget (saved_args t) fs2 = Some (join $" " m) -> m <> [] -> Forall bare_word m ->
    exists e, same_but gen_names (t_vars t) e /\
    forall fs3 env_file stem text opts, python3 (load_line m) e fs2 = (0%N, fs3) ->
      dget (loc_file random) fs3 = Some env_file -> script_file env_file stem -> dget env_file fs3 = Some text ->
      asks_ci m -> Forall bare_word opts -> glob $"\" = [$"\"] ->
    exists t3, same_but gen_names (t_vars t) (t_vars t3) /\ same_but gen_functions (t_funs t) (t_funs t3) /\
      same_but [stem ++ $"rc"] fs3 (t_files t3) /\
      t_calls t3 = t_calls t ++ [$"python3" :: gen_command here init; $"python3" :: gen_command here (init ++ save_options t);
        $"python3" :: load_line m] /\
      forall t4, run_text text t3 = (Ok tt, t4) -> keeps gen_names (t_vars t3) (t_vars t4) ->
        dget $"gen_config_helper" (t_funs t4) = dget $"gen_config_helper" (t_funs t3) ->
        dget args_file (t_files t4) = Some (args_text opts) ->
        exists t' e, gen_config_sh true (init ++ [src]) t = (Ok 0%N, t') /\ same_but [$"cmake_args"] (t_vars t4) e /\
          t_calls t' = t_calls t4 ++ [$"cmake" :: slashed opts ++ [src]] /\
          gen_leaves (t_vars t4) (t_funs t4) (cmake (slashed opts ++ [src]) e (t_files t4))
            ((tmp_paths t ++ [env_file; stem ++ $"rc"]) ++ gen_paths t) t'.
Proof.
  exact (configures glob odd_test odd_status which_python3 too_old python3 interactive run_text run_function here random
    directory cmake odd_source).
Qed.

(** Otherwise: a new shell is started, which reads the script of the environment
    first and a call of [gen_config_helper] last. That function starts cmake in
    the same way. *)
Theorem C71_new_shell :
  forall t init src, gen_ready which_python3 too_old t -> unsplit here -> unsplit random -> Forall bare_word init -> bare_word src ->
    ~ mentions $"--help" (init ++ [src]) -> directory src = true ->
    forall fs1 args_file, ends python3 t (gen_command here init) (t_files t) 0%N fs1 ->
    dget (args_loc t) fs1 = Some args_file -> bare_word args_file ->
    forall fs2 m, ends python3 t (gen_command here (init ++ save_options t)) fs1 0%N fs2 ->
    dget (saved_args t) fs2 = Some (join $" " m) -> m <> [] -> Forall bare_word m ->
    exists e, same_but gen_names (t_vars t) e /\
    forall fs3 env_file stem text, python3 (load_line m) e fs2 = (0%N, fs3) ->
      dget (loc_file random) fs3 = Some env_file -> script_file env_file stem -> dget env_file fs3 = Some text ->
      ~ asks_ci m ->
    exists t3 t' start rest body, same_but gen_names (t_vars t) (t_vars t3) /\ same_but gen_functions (t_funs t) (t_funs t3) /\
      same_but [stem ++ $"rc"] fs3 (t_files t3) /\
      dget (stem ++ $"rc") (t_files t3) = Some start /\
      cut_at 10%N start (($"source " ++ env_file) :: rest ++
        [$"declare -f -F gen_config_helper >/dev/null && [ $? -eq 0 ] && gen_config_helper || true"; []]) /\
      dget $"gen_config_helper" (t_funs t3) = Some body /\
      (forall t4 opts, keeps [$"cmake_args_file"; $"path_to_src"] (t_vars t3) (t_vars t4) ->
         dget args_file (t_files t4) = Some (args_text opts) -> Forall bare_word opts -> glob $"\" = [$"\"] ->
         exists t5, function_body glob run_function cmake body t4 = (Ok tt, t5) /\
           t_calls t5 = t_calls t4 ++ [$"cmake" :: slashed opts ++ [src]]) /\
      gen_config_sh true (init ++ [src]) t = (Ok 0%N, t') /\
      gen_leaves (t_vars t) (t_funs t) (interactive [stem ++ $"rc"] (t_vars t3) (t_files t3))
        ((tmp_paths t ++ [env_file; stem ++ $"rc"]) ++ gen_paths t) t' /\
      t_calls t' = t_calls t ++ [$"python3" :: gen_command here init; $"python3" :: gen_command here (init ++ save_options t);
        $"python3" :: load_line m; [$"/bin/bash"; $"--init-file"; stem ++ $"rc"; $"-i"]].
Proof.
  exact (starts_shell glob odd_test odd_status which_python3 too_old python3 interactive run_text run_function here random
    directory cmake odd_source).
Qed.

(** [--cmake-fragment] without a directory: the environment is loaded, and cmake
    is not started. *)
Theorem C71_fragment :
  forall t init last_arg fs1 fs2 m,
    gen_ready which_python3 too_old t -> unsplit here -> unsplit random -> Forall bare_word (init ++ [last_arg]) ->
    ~ mentions $"--help" (init ++ [last_arg]) -> mentions $"--cmake-fragment" (init ++ [last_arg]) -> directory last_arg = false ->
    dget $"path_to_src" (t_vars t) = None ->
    ends python3 t (gen_command here (init ++ [last_arg])) (t_files t) 0%N fs1 -> dget (args_loc t) fs1 = None ->
    ends python3 t (gen_command here ((init ++ [last_arg]) ++ save_options t)) fs1 0%N fs2 ->
    dget (saved_args t) fs2 = Some (join $" " m) -> m <> [] -> Forall bare_word m ->
    exists e, same_but gen_names (t_vars t) e /\
    forall fs3 env_file stem text, python3 (load_line m) e fs2 = (0%N, fs3) ->
      dget (loc_file random) fs3 = Some env_file -> script_file env_file stem -> dget env_file fs3 = Some text -> asks_ci m ->
    exists t3, same_but gen_names (t_vars t) (t_vars t3) /\ same_but gen_functions (t_funs t) (t_funs t3) /\
      same_but [stem ++ $"rc"] fs3 (t_files t3) /\
      t_calls t3 = t_calls t ++ [$"python3" :: gen_command here (init ++ [last_arg]);
        $"python3" :: gen_command here ((init ++ [last_arg]) ++ save_options t); $"python3" :: load_line m] /\
      forall t4, run_text text t3 = (Ok tt, t4) -> keeps gen_names (t_vars t3) (t_vars t4) ->
        dget $"gen_config_helper" (t_funs t4) = dget $"gen_config_helper" (t_funs t3) ->
        exists t', gen_config_sh true (init ++ [last_arg]) t = (Ok 0%N, t') /\ t_calls t' = t_calls t4 /\
          gen_leaves (t_vars t4) (t_funs t4) (t_files t4) ((tmp_paths t ++ [env_file; stem ++ $"rc"]) ++ gen_paths t) t'.
Proof.
  exact (fragment_only glob odd_test odd_status which_python3 too_old python3 interactive run_text run_function here random
    directory cmake odd_source).
Qed.

(** With [gen_config.py] as in C68, [load_env.py] as in C67 and bash as in C61,
    and [--ci-mode]: if the build name has options and its environment can be
    loaded, cmake is started once, with exactly those options, after the actions
    of the environment were performed in the shell. *)
Theorem C71_build_configured :
  forall other_re systems hostname envs flags specs gen yes sf ef pf args_file writable1 answers
    which mods other uniword fs fuel header env_file output writable2 i
    subst_pattern sed_other echo_option which_prints module_command other_command t init src build force stem,
  (* the programs *)
  is_gen_config python3 (gen_command here init)
    (fun files => gen_main other_re systems hostname envs flags specs gen false false None None yes true sf ef pf args_file (args_loc t)
       writable1 (new_gworld build force files answers)) ->
  is_gen_config python3 (gen_command here (init ++ save_options t))
    (fun files => gen_main other_re systems hostname envs flags specs gen false false (Some (saved_args t)) None yes true sf ef pf args_file
       (args_loc t) writable1 (new_gworld build force files answers)) ->
  (forall m, loadenv_command sf ef pf force true build m -> is_load_env python3 (load_line m)
    (fun e files => load_main other_re systems hostname envs which mods other uniword fs fuel header pf env_file output
       (Some (loc_file random)) false writable2 (new_lworld build force e files))) ->
  is_bash run_text (heading header $"bash" true true)
    (run_bash glob subst_pattern sed_other echo_option which_prints module_command other_command) ->
  (forall e v, chomp (which_prints e [v]) = match which e v with Some p => p | None => [] end) ->
  (forall a e, module_command a e = snd (mods a e)) -> glob $"\" = [$"\"] ->
  (* the shell and the command *)
  gen_ready which_python3 too_old t -> unsplit here -> unsplit random -> Forall bare_word init -> bare_word src ->
  ~ mentions $"--help" (init ++ [src]) -> directory src = true ->
  (* the files *)
  Forall bare_word [sf; ef; pf; build; args_file] -> script_file env_file stem -> env_file <> loc_file random ->
  ~ In args_file [args_loc t; saved_args t; env_file; loc_file random; stem ++ $"rc"] -> output <> Some args_file ->
  (forall p, In p [args_file; args_loc t; saved_args t] -> writable1 p = true) ->
  has_file fs (new_set pf) i -> no_finalize_options i ->
  (* the build has options, and its environment can be loaded *)
  (exists l, options_for other_re systems hostname envs flags specs gen $"bash" build force l) ->
  (forall l, options_for other_re systems hostname envs flags specs gen $"bash" build force l -> Forall bare_word l) ->
  (forall e files, same_but gen_names (t_vars t) e ->
     exists w, load_main other_re systems hostname envs which mods other uniword fs fuel header pf env_file output
       (Some (loc_file random)) false writable2 (new_lworld build force e files) = (Ok tt, w)) ->
  (forall n l, fst (lexec other_re systems hostname envs LParsed (new_loadenv build force)) = Ok n -> section_asks uniword i n l ->
     bare_text n /\ Forall plain_action l /\
     forall e, same_but gen_names (t_vars t) e ->
       portable_all which mods l e /\ exists e', all_done which mods l e e' /\ keeps gen_names e e') ->
  exists opts n l m e3 e' ec files t',
    options_for other_re systems hostname envs flags specs gen $"bash" build force opts /\
    fst (lexec other_re systems hostname envs LParsed (new_loadenv build force)) = Ok n /\ section_asks uniword i n l /\
    same_but gen_names (t_vars t) e3 /\ all_done which mods l e3 e' /\
    loadenv_command sf ef pf force true build m /\
    gen_config_sh true (init ++ [src]) t = (Ok 0%N, t') /\
    same_but gen_names (dset $"LOADED_ENV_NAME" n e') (t_vars t') /\
    same_but gen_names (dset $"LOADED_ENV_NAME" n e') ec /\
    t_calls t' = t_calls t ++ [$"python3" :: gen_command here init; $"python3" :: gen_command here (init ++ save_options t);
      $"python3" :: load_line m; $"cmake" :: slashed opts ++ [src]] /\
    dget args_file files = Some (args_text opts) /\
    same_but ((tmp_paths t ++ [env_file; stem ++ $"rc"]) ++ gen_paths t) (cmake (slashed opts ++ [src]) ec files) (t_files t').
Proof.
  exact (build_configured glob odd_test odd_status which_python3 too_old python3 interactive run_text run_function here random
    directory cmake odd_source).
Qed.
End C71.
Print Assumptions C71_needs_source.
Print Assumptions C71_generation_fails.
Print Assumptions C71_saving_fails.
Print Assumptions C71_loading_fails.
Print Assumptions C71_configures.
Print Assumptions C71_new_shell.
Print Assumptions C71_fragment.
Print Assumptions C71_build_configured.

(** ** Examples *)

(** The two programs with the files of C68 and this [environment-specs.ini]; the
    build name is the last argument, or the last before the saving option. *)
Definition specs3 : list string := ["[machine-1_gnu-8]"; "envvar-set A = 1"; "envvar-append PATH = /opt"].
Definition generate (save fragment : option str) (ci : bool) (build : str) (files : dict str) :=
  gen_main no_re systems3 $"m1-login2" envs3 conf1 specs2 gen2 false false save fragment true ci $"s.ini" $"e.ini" $"f.ini"
    $"/tmp/u/args" $"/tmp/u/.bash_cmake_args_loc" (fun _ => true) (new_gworld build false files []).
Notation main3 build e files :=
  (load_main no_re systems3 $"m1-login2" envs3 no_programs (returning 0) no_other no_uni (disk specs3) 20 (fun _ => $"# header")
    $"f.ini" $"/tmp/u/env.sh" None (Some $".load_matching_env_loc.7") false (fun _ => true) (new_lworld build false e files)).
Definition python2 (line : list str) (e : environ) (files : dict str) : N * dict str :=
  if str_eqb (nth 2 line []) $"/gc/gen_config.py" then
    let save := str_mem $"--save-load-env-args" line in
    let r := generate (if save then Some $"/tmp/u/.load_env_args" else None)
               (if str_mem $"--cmake-fragment" line then Some $"frag.cmake" else None) (str_mem $"--ci-mode" line)
               (nth (length line - (if save then 3 else 1)) line []) files in
    (match fst r with Ok _ => 0%N | Err _ => 1%N end, v_out (snd r))
  else
    (match fst (main3 (last line []) e files) with Ok _ => 0%N | Err _ => 1%N end, r_out (snd (main3 (last line []) e files))).
Definition shell2 (python3 : list str -> environ -> dict str -> N * dict str) : list str -> sh N :=
  gen_config_sh (fun s => [s]) (fun _ => false) (fun _ => 2%N) (fun _ => $"/usr/bin/python3") (fun _ => $"False") python3
    (fun _ _ fs => dset $"made" $"in the new shell" fs) text1 (fun _ => ret tt) $"/gc" $"7" (str_eqb $"src")
    (fun _ _ fs => dset $"CMakeCache.txt" $"configured" fs) (fun _ => ret 0%N) true.
Definition words2 : list str := [$"--ci-mode"; $"gnu_mpi_cuda"].

Example C71_ex : exists t',
  shell2 python2 (words2 ++ [$"src"]) term1 = (Ok 0%N, t') /\
  last (t_calls t') [] = [$"cmake"; $"-DA=1"; $"\"; $"-DB=2"; $"src"] /\ length (t_calls t') = 4 /\
  dget $"PATH" (t_vars t') = Some $"/bin:/opt" /\ dget $"LOADED_ENV_NAME" (t_vars t') = Some $"machine-1_gnu-8" /\
  dkeys (t_files t') = [$"notes"; $"/tmp/u/args"; $".load_matching_env_loc.7"; $"CMakeCache.txt"].
Proof. eexists. split; [vm_compute; reflexivity|]. repeat split; vm_compute; reflexivity. Qed.
Example C71_ex_no_source : exists t', shell2 python2 words2 term1 = (Ok 1%N, t') /\ t_calls t' = [].
Proof. eexists. split; vm_compute; reflexivity. Qed.
Example C71_ex_unknown : exists t',
  shell2 python2 [$"--ci-mode"; $"unknown"; $"src"] term1 = (Ok 0%N, t') /\ length (t_calls t') = 1 /\
  dget $"CMakeCache.txt" (t_files t') = None.
Proof. eexists. split; [vm_compute; reflexivity|]. split; vm_compute; reflexivity. Qed.
Example C71_ex_new_shell : exists t',
  shell2 python2 [$"gnu_mpi_cuda"; $"src"] term1 = (Ok 0%N, t') /\ length (t_calls t') = 4 /\
  last (t_calls t') [] = [$"/bin/bash"; $"--init-file"; $"/tmp/u/env.rc"; $"-i"] /\ dget $"PATH" (t_vars t') = Some $"/bin".
Proof. eexists. split; [vm_compute; reflexivity|]. split; [|split]; vm_compute; reflexivity. Qed.
Example C71_ex_fragment : exists t',
  shell2 python2 ([$"--cmake-fragment"; $"frag.cmake"] ++ words2) term1 = (Ok 0%N, t') /\
  length (t_calls t') = 3 /\ dget $"frag.cmake" (t_files t') = Some ($"set(A 1)" ++ newline ++ $"set(B 2)") /\
  dget $"PATH" (t_vars t') = Some $"/bin:/opt".
Proof. eexists. split; [vm_compute; reflexivity|]. split; [|split]; vm_compute; reflexivity. Qed.

(** The hypotheses of the theorems, for these programs. *)
Example C71_ex_ready : gen_ready (fun _ => $"/usr/bin/python3") (fun _ => $"False") term1.
Proof.
  constructor; [reflexivity|intros; split; discriminate|now apply unsplit_check|].
  intros x [<-|[<-|[<-|[<-|[]]]]]; reflexivity.
Qed.
Example C71_ex_words :
  Forall bare_word words2 /\ bare_word $"src" /\ ~ mentions $"--help" (words2 ++ [$"src"]) /\
  ~ mentions $"--cmake-fragment" (words2 ++ [$"src"]) /\ asks_ci words2 /\ script_file $"/tmp/u/env.sh" $"/tmp/u/env." /\
  Forall bare_word [$"s.ini"; $"e.ini"; $"f.ini"; $"gnu_mpi_cuda"; $"/tmp/u/args"].
Proof.
  split; [repeat constructor; (apply bare_word_check; [discriminate|reflexivity])|].
  split; [apply bare_word_check; [discriminate|reflexivity]|].
  split; [intros X; apply mentions_iff in X; discriminate|]. split; [intros X; apply mentions_iff in X; discriminate|].
  split; [apply mentions_iff; reflexivity|].
  split; [constructor; [now exists 115%N, 104%N|discriminate|apply bare_word_check; [discriminate|reflexivity]]|].
  repeat constructor; (apply bare_word_check; [discriminate|reflexivity]).
Qed.
Example C71_ex_programs :
  is_gen_config python2 (gen_command $"/gc" words2)
    (fun files => gen_main no_re systems3 $"m1-login2" envs3 conf1 specs2 gen2 false false None None true true $"s.ini" $"e.ini" $"f.ini"
       $"/tmp/u/args" (args_loc term1) (fun _ => true) (new_gworld $"gnu_mpi_cuda" false files [])) /\
  is_gen_config python2 (gen_command $"/gc" (words2 ++ save_options term1))
    (fun files => gen_main no_re systems3 $"m1-login2" envs3 conf1 specs2 gen2 false false (Some (saved_args term1)) None true true
       $"s.ini" $"e.ini" $"f.ini" $"/tmp/u/args" (args_loc term1) (fun _ => true) (new_gworld $"gnu_mpi_cuda" false files [])) /\
  (forall m, loadenv_command $"s.ini" $"e.ini" $"f.ini" false true $"gnu_mpi_cuda" m ->
     is_load_env python2 (load_command ($"/gc" ++ $"/LoadEnv") $"7" m) (fun e files => main3 $"gnu_mpi_cuda" e files)) /\
  (exists l, options_for no_re systems3 $"m1-login2" envs3 conf1 specs2 gen2 $"bash" $"gnu_mpi_cuda" false l) /\
  (forall l, options_for no_re systems3 $"m1-login2" envs3 conf1 specs2 gen2 $"bash" $"gnu_mpi_cuda" false l -> Forall bare_word l).
Proof.
  split; [intros e files; reflexivity|]. split; [intros e files; reflexivity|]. split.
  { intros m (o & -> & _) e files. unfold python2.
    replace (str_eqb (nth 2 (load_command ($"/gc" ++ $"/LoadEnv") $"7"
      ([$"--supported-systems"; $"s.ini"; $"--supported-envs"; $"e.ini"; $"--environment-specs"; $"f.ini"] ++ o ++ [$"gnu_mpi_cuda"])) [])
      $"/gc/gen_config.py") with false by reflexivity.
    unfold load_command. rewrite !app_assoc. rewrite last_last. reflexivity. }
  split; [apply C68_ex_options; now left|].
  intros l (_ & c & _ & G). unfold gen2 in G. destruct (str_eqb c $"machine-1_gnu-8_debug_static_cuda_mpi"); [|discriminate].
  injection G as <-. repeat constructor; (apply bare_word_check; [discriminate|reflexivity]).
Qed.
Example C71_ex_environment :
  exists i, has_file (disk specs3) (new_set $"f.ini") i /\ no_finalize_options i /\
  (forall e files, same_but gen_names user1 e -> exists w, main3 $"gnu_mpi_cuda" e files = (Ok tt, w)) /\
  forall n l, fst (lexec no_re systems3 $"m1-login2" envs3 LParsed (new_loadenv $"gnu_mpi_cuda" false)) = Ok n ->
    section_asks no_uni i n l ->
    bare_text n /\ Forall plain_action l /\
    forall e, same_but gen_names user1 e ->
      portable_all no_programs (returning 0) l e /\
      exists e', all_done no_programs (returning 0) l e e' /\ keeps gen_names e e'.
Proof.
  assert (H : exists i, has_file (disk specs3) (new_set $"f.ini") i /\ no_finalize_options i /\
    ini_has_section i $"machine-1_gnu-8" = true /\
    forall l, section_asks no_uni i $"machine-1_gnu-8" l ->
      l = [AEnv $"envvar_set" $"A" (Some $"1"); AEnv $"envvar_append" $"PATH" (Some $"/opt")]).
  { eexists. split; [vm_compute; reflexivity|]. split; [apply no_finalize_check; vm_compute; reflexivity|].
    split; [vm_compute; reflexivity|]. intros l SA.
    eapply (asks_computed no_uni (disk specs3) 20 $"f.ini" _ $"machine-1_gnu-8" _ l (new_lworld $"x" false [] [])).
    - vm_compute. reflexivity.
    - apply no_finalize_check. vm_compute. reflexivity.
    - reflexivity.
    - vm_compute. reflexivity.
    - vm_compute. reflexivity.
    - vm_compute. reflexivity.
    - vm_compute. reflexivity.
    - exact SA. }
  destruct H as (i & HF & NF & HS & LQ). exists i. split; [exact HF|]. split; [exact NF|].
  assert (NE : forall n, fst (lexec no_re systems3 $"m1-login2" envs3 LParsed (new_loadenv $"gnu_mpi_cuda" false)) = Ok n ->
    n = $"machine-1_gnu-8") by (intros n N; vm_compute in N; injection N as <-; reflexivity).
  assert (D : forall e, same_but gen_names user1 e ->
    performs no_programs (returning 0) (AEnv $"envvar_set" $"A" (Some $"1")) e (Ok 0%Z) (dset $"A" $"1" e) /\
    performs no_programs (returning 0) (AEnv $"envvar_append" $"PATH" (Some $"/opt")) (dset $"A" $"1" e) (Ok 0%Z)
      (dset $"PATH" $"/bin:/opt" (dset $"A" $"1" e))).
  { intros e SE. assert (PA : dget $"PATH" e = Some $"/bin") by (rewrite SE; [reflexivity|cbn; intuition discriminate]). split.
    - apply (pf_envvar _ _ $"set"); [cbn; tauto|discriminate|reflexivity].
    - apply (pf_envvar _ _ $"append"); [cbn; tauto|discriminate|].
      assert (PA' : dget $"PATH" (dset $"A" $"1" e) = Some $"/bin") by (rewrite dget_dset_other by discriminate; exact PA).
      unfold envvar_op. cbn [negb andb]. unfold bind, get. rewrite PA'. reflexivity. }
  assert (PL : Forall plain_action [AEnv $"envvar_set" $"A" (Some $"1"); AEnv $"envvar_append" $"PATH" (Some $"/opt")]).
  { repeat (constructor; [split; try exact I; apply plain_text_check; reflexivity|]); constructor. }
  assert (AD : forall e, same_but gen_names user1 e -> all_done no_programs (returning 0)
    [AEnv $"envvar_set" $"A" (Some $"1"); AEnv $"envvar_append" $"PATH" (Some $"/opt")] e (dset $"PATH" $"/bin:/opt" (dset $"A" $"1" e))).
  { intros e SE. destruct (D e SE) as [P1 P2]. eapply ad_cons; [exact P1|]. eapply ad_cons; [exact P2|constructor]. }
  split.
  - intros e files SE.
    assert (X : exists w, main3 $"gnu_mpi_cuda" user1 [] = (Ok tt, w)) by (eexists; vm_compute; reflexivity).
    destruct X as (w & X).
    destruct (C67_success _ _ _ _ _ _ _ _ _ _ _ _ _ _ _ _ _ i HF NF _ _ _ _ _ X) as (_ & _ & n & l & N & _ & SA & _).
    pose proof N as N0. apply NE in N. subst n. pose proof SA as SA0. apply LQ in SA. subst l.
    assert (Y : exists z o2, assert_file (SetEnvironment no_uni) (disk specs3) 20 (snd (set_level 5 (new_set $"f.ini"))) = (Ok z, o2))
      by (do 2 eexists; vm_compute; reflexivity).
    destruct Y as (z & o2 & Y).
    eapply (C67_gets_to_the_end _ _ _ _ _ _ _ _ _ _ _ _ _ _ _ _ _ i HF NF); eauto.
  - intros n l N SA. apply NE in N. subst n. apply LQ in SA. subst l. split; [bare|]. split; [exact PL|].
    intros e SE. destruct (D e SE) as [P1 P2]. split.
    + eapply portable_next; [|exact P1|].
      { apply (po_value _ $"set" _ _ $"1"); [auto|apply variable_check; reflexivity|apply stands_for_check; reflexivity]. }
      eapply portable_next; [|exact P2|constructor].
      apply (po_path _ $"append" _ _ $"/opt"); [auto|apply variable_check; reflexivity|apply stands_for_check; reflexivity|discriminate].
    + exists (dset $"PATH" $"/bin:/opt" (dset $"A" $"1" e)). split; [now apply AD|].
      intros x X. rewrite !dget_dset_other; auto; intros ->; cbn in X; intuition discriminate.
Qed.

(** ** What does not hold *)

(** A build that was not configured is reported: not so. The status is 0 when
    [gen_config.py] refuses the build name, *)
Theorem C71_unknown_build_reported_refuted :
  exists t t', shell2 python2 [$"--ci-mode"; $"unknown"; $"src"] t = (Ok 0%N, t') /\
    fst (python2 (gen_command $"/gc" [$"--ci-mode"; $"unknown"]) (t_vars t) (t_files t)) = 1%N /\
    dget $"CMakeCache.txt" (t_files t') = None.
Proof. exists term1. eexists. split; [vm_compute; reflexivity|]. split; vm_compute; reflexivity. Qed.
Print Assumptions C71_unknown_build_reported_refuted.

(** and when [load_env.py] fails. *)
Theorem C71_failed_environment_reported_refuted :
  exists python3 t t', shell2 python3 (words2 ++ [$"src"]) t = (Ok 0%N, t') /\
    (forall line e files, ~ In $"/gc/gen_config.py" line -> python3 line e files = (1%N, files)) /\
    dget $"CMakeCache.txt" (t_files t') = None.
Proof.
  exists (fun line e files => if str_mem $"/gc/gen_config.py" line then python2 line e files else (1%N, files)), term1. eexists.
  split; [vm_compute; reflexivity|]. split; [|vm_compute; reflexivity].
  intros line e files N. destruct (str_mem $"/gc/gen_config.py" line) eqn:E; [|reflexivity].
  apply str_mem_In in E. contradiction.
Qed.
Print Assumptions C71_failed_environment_reported_refuted.

(** The variables of the user keep their values: not those with the script's names. *)
Theorem C71_user_names_kept_refuted :
  exists t t', dget $"path_to_src" (t_vars t) = Some $"/home/u/src" /\ dget $"cmake_args" (t_vars t) = Some $"-G Ninja" /\
    shell2 python2 (words2 ++ [$"src"]) t = (Ok 0%N, t') /\
    dget $"path_to_src" (t_vars t') = None /\ dget $"cmake_args" (t_vars t') <> Some $"-G Ninja".
Proof.
  exists (Term ([($"path_to_src", $"/home/u/src"); ($"cmake_args", $"-G Ninja")] ++ user1) [] None [] []). eexists.
  split; [reflexivity|]. split; [reflexivity|]. split; [vm_compute; reflexivity|]. split; [vm_compute; reflexivity|].
  vm_compute. discriminate.
Qed.
Print Assumptions C71_user_names_kept_refuted.

(** Without a directory, cmake is not started: it is, with the directory of the
    user's variable [path_to_src] and the options left by an earlier run. *)
Theorem C71_fragment_only_refuted :
  exists t t', shell2 python2 ([$"--cmake-fragment"; $"frag.cmake"] ++ words2) t = (Ok 0%N, t') /\
    last (t_calls t') [] = [$"cmake"; $"-DOLD=1"; $"/home/u/src"].
Proof.
  exists (Term (($"path_to_src", $"/home/u/src") :: user1) [] None
    [($"/tmp/u/.bash_cmake_args_loc", $"/tmp/u/old"); ($"/tmp/u/old", $"-DOLD=1")] []). eexists.
  split; vm_compute; reflexivity.
Qed.
Print Assumptions C71_fragment_only_refuted.
