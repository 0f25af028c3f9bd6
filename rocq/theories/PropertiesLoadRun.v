(** * C67: loading an environment.

    Statements and examples only. *)
From Coq Require Import String NArith ZArith List Bool.
Import ListNotations.
From Verif Require Import PyBase PyFacts Shlex IniView IniRead ExcControl Cpe EnvVar Bash SetEnv Regex Keyword DetSys EnvKeyword
  LoadEnv LoadRun SpecWalk SpecRun SpecApi SpecEnv SpecSetEnv SpecBash SpecLoadEnv SpecLoadRun Samples
  LoadRunProofs LoadRunProofs2 LoadRunProofs3 PropertiesKeyword PropertiesSetEnv PropertiesLoadEnv.
Local Open Scope string_scope.
Local Open Scope list_scope.

(** If the program ends without an error: every option of
    [environment-specs.ini] is an operation; the section of the environment that
    the build name means is in that file; every action it asks for was performed
    once, in order, and returned 0; both scripts contain the line of each action
    and the name; the location file contains the path of the first. *)
Theorem C67_success :
  forall other_re systems hostname envs which mods other uniword fs fuel header specs_file tmp_file output location
         list_flag writable i,
    has_file fs (new_set specs_file) i -> no_finalize_options i ->
    forall build force e out w,
      load_main other_re systems hostname envs which mods other uniword fs fuel header specs_file tmp_file output location
        list_flag writable (new_lworld build force e out) = (Ok tt, w) ->
      list_flag = false /\ all_operations uniword i /\
      exists n l,
        fst (lexec other_re systems hostname envs LParsed (new_loadenv build force)) = Ok n /\
        ini_has_section i n = true /\ section_asks uniword i n l /\
        (Forall plain_action l ->
         all_done which mods l e (r_env w) /\
         exists t, script_lines $"bash" l t /\
           (forall p, p = tmp_file \/ output = Some p -> location <> Some p ->
              dget p (r_out w) = Some (heading header $"bash" true true ++ commands t n)) /\
           (forall p, location = Some p -> dget p (r_out w) = Some tmp_file)).
Proof. exact main_success. Qed.
Print Assumptions C67_success.

(** Conversely: if the file passes the check, the name is in it, and every action
    can be performed, the program ends without an error. *)
Theorem C67_gets_to_the_end :
  forall other_re systems hostname envs which mods other uniword fs fuel header specs_file tmp_file output location
         list_flag writable i,
    has_file fs (new_set specs_file) i -> no_finalize_options i ->
    forall build force e out n l e' z o2,
      assert_file (SetEnvironment uniword) fs fuel (snd (set_level 5 (new_set specs_file))) = (Ok z, o2) ->
      list_flag = false ->
      fst (lexec other_re systems hostname envs LParsed (new_loadenv build force)) = Ok n ->
      ini_has_section i n = true -> section_asks uniword i n l -> Forall plain_action l ->
      all_done which mods l e e' ->
      (forall p, p = tmp_file \/ output = Some p \/ location = Some p -> writable p = true) ->
      exists w, load_main other_re systems hostname envs which mods other uniword fs fuel header specs_file tmp_file output
        location list_flag writable (new_lworld build force e out) = (Ok tt, w).
Proof. exact main_works. Qed.
Print Assumptions C67_gets_to_the_end.

(** If one option of the file, in any section, is not an operation, nothing is
    changed: no variable and no file. *)
Theorem C67_invalid_file :
  forall other_re systems hostname envs which mods other uniword fs fuel header specs_file tmp_file output location
         list_flag writable i,
    has_file fs (new_set specs_file) i -> no_finalize_options i ->
    forall build force e out, ~ all_operations uniword i ->
      exists x w,
        load_main other_re systems hostname envs which mods other uniword fs fuel header specs_file tmp_file output location
          list_flag writable (new_lworld build force e out) = (Err x, w) /\ r_env w = e /\ r_out w = out.
Proof. exact invalid_file. Qed.
Print Assumptions C67_invalid_file.

(** The same for a file that cannot be read. *)
Theorem C67_unreadable_file :
  forall other_re systems hostname envs which mods other uniword fs fuel header specs_file tmp_file output location
         list_flag writable build force e out,
    (forall i, ~ has_file fs (new_set specs_file) i) ->
    exists x w,
      load_main other_re systems hostname envs which mods other uniword fs fuel header specs_file tmp_file output location
        list_flag writable (new_lworld build force e out) = (Err x, w) /\ r_env w = e /\ r_out w = out.
Proof. exact unreadable_file. Qed.
Print Assumptions C67_unreadable_file.

(** Applying the environment writes no file, whatever happens; the program
    writes no file but the three. *)
Theorem C67_files :
  forall other_re systems hostname envs which mods other uniword fs fuel header specs_file tmp_file output location
         list_flag writable w,
    r_out (snd (apply_env other_re systems hostname envs which mods other uniword fs fuel specs_file w)) = r_out w /\
    forall p, p <> tmp_file -> output <> Some p -> location <> Some p ->
      dget p (r_out (snd (load_main other_re systems hostname envs which mods other uniword fs fuel header specs_file tmp_file
        output location list_flag writable w))) = dget p (r_out w).
Proof. exact files_written. Qed.
Print Assumptions C67_files.

(** The commands of the script, in the environment in which the program was
    started, lead to the environment that it checked, with [LOADED_ENV_NAME]. *)
Theorem C67_script :
  forall glob subst_pattern sed_other echo_option which_prints module_command other_command which mods,
    (forall e v, chomp (which_prints e [v]) = match which e v with Some p => p | None => [] end) ->
    (forall args e, module_command args e = snd (mods args e)) ->
    forall l t n e e',
      portable_all which mods l e -> script_lines $"bash" l t -> all_done which mods l e e' -> bare_text n ->
      run_bash glob subst_pattern sed_other echo_option which_prints module_command other_command (commands t n) e =
        (Ok tt, dset $"LOADED_ENV_NAME" n e').
Proof. exact commands_run. Qed.
Print Assumptions C67_script.

(** ** Examples *)

(** The program on host [m1-login7] with this [environment-specs.ini]. *)
Definition run_main (file : list string) (build : string) (e : environ) (out : dict str) :=
  load_main no_re systems1 $"m1-login7" envs1 no_programs (returning 0) no_other no_uni (disk file) 20 (fun _ => $"# header")
    $"f.ini" $"tmp.sh" (Some $"out.sh") (Some $"where") false (fun _ => true) (new_lworld (lit build) false e out).
Definition specs1 : list string :=
  ["[COMMON]"; "envvar-set A = 1"; "[machine-1_intel-19.0.4]"; "use COMMON"; "module-load intel = 19"; "envvar-append PATH = /opt";
   "[machine-1_gnu-8]"; "envvar-set B = $A"].
Example C67_ex : exists w,
  run_main specs1 "intel-19_debug" [($"PATH", $"/bin")] [($"notes", $"x"); ($"out.sh", $"old")] = (Ok tt, w) /\
  r_env w = [($"PATH", $"/bin:/opt"); ($"A", $"1")] /\
  dkeys (r_out w) = [$"notes"; $"tmp.sh"; $"out.sh"; $"where"] /\
  dget $"where" (r_out w) = Some $"tmp.sh" /\
  dget $"tmp.sh" (r_out w) = Some
    ($"#!/usr/bin/env bash" ++ newline ++ $"# header" ++ newline ++ newline ++ banner ++
     $"envvar_op set ""A"" ""1""" ++ newline ++ $"module load intel/19" ++ newline ++ $"envvar_op append ""PATH"" ""/opt""" ++
     newline ++ newline ++ newline ++ $"export LOADED_ENV_NAME=machine-1_intel-19.0.4") /\
  dget $"out.sh" (r_out w) = dget $"tmp.sh" (r_out w).
Proof. eexists. split; [vm_compute; reflexivity|]. repeat split; vm_compute; reflexivity. Qed.
Example C67_ex_hypotheses : exists i, has_file (disk specs1) (new_set $"f.ini") i /\ no_finalize_options i /\
  (exists o2, assert_file (SetEnvironment no_uni) (disk specs1) 20 (snd (set_level 5 (new_set $"f.ini"))) = (Ok 0%Z, o2)) /\
  fst (lexec no_re systems1 $"m1-login7" envs1 LParsed (new_loadenv $"intel-19_debug" false)) = Ok $"machine-1_intel-19.0.4" /\
  ini_has_section i $"machine-1_intel-19.0.4" = true.
Proof.
  eexists. split; [vm_compute; reflexivity|]. split; [apply no_finalize_check; vm_compute; reflexivity|].
  split; [eexists; vm_compute; reflexivity|]. split; vm_compute; reflexivity.
Qed.
(** An option that is no operation, in a section that is not asked for. *)
Example C67_ex_invalid : exists w,
  run_main (specs1 ++ ["oops = 1"]) "intel-19_debug" [($"PATH", $"/bin")] [($"out.sh", $"old")] = (Err ValueError, w) /\
  r_env w = [($"PATH", $"/bin")] /\ r_out w = [($"out.sh", $"old")].
Proof. eexists. split; [vm_compute; reflexivity|]. split; vm_compute; reflexivity. Qed.
(** The environment has no section. *)
Example C67_ex_no_section : exists w,
  run_main specs1 "x_gnu_8" [($"PATH", $"/bin")] [] = (Err KeyError, w) /\ r_env w = [($"PATH", $"/bin")] /\ r_out w = [].
Proof. eexists. split; [vm_compute; reflexivity|]. split; vm_compute; reflexivity. Qed.

(** The check is not repeated: after it failed, the next call applies the
    environment. *)
Definition apply_with (file : list string) : SM lworld unit :=
  apply_env no_re systems1 $"m1-login7" envs1 no_programs (returning 0) no_other no_uni (disk file) 20 $"f.ini".
Theorem C67_invalid_file_never_applied_refuted :
  exists file w w1 w2,
    apply_with file w = (Err ValueError, w1) /\ r_env w1 = r_env w /\
    apply_with file w1 = (Ok tt, w2) /\ r_env w = [] /\ r_env w2 = [($"B", $"2")].
Proof.
  exists ["[machine-1_gnu-8]"; "envvar-set B = 2"; "[other]"; "oops = 1"], (new_lworld $"gnu" false [] []).
  do 2 eexists. split; [vm_compute; reflexivity|]. split; [reflexivity|]. split; [vm_compute; reflexivity|]. split; reflexivity.
Qed.
Print Assumptions C67_invalid_file_never_applied_refuted.

(** A script that cannot be generated: the one that was there is gone. *)
Theorem C67_old_script_kept_refuted :
  exists file w w1 x,
    dget $"tmp.sh" (r_out w) = Some $"the script" /\
    write_env no_re systems1 $"m1-login7" envs1 no_uni (disk file) 20 (fun _ => $"# header")
      $"f.ini" $"tmp.sh" None (fun _ => true) w = (Err x, w1) /\
    dget $"tmp.sh" (r_out w1) = None.
Proof.
  exists ["[machine-1_gnu-8]"; "module-use"], (new_lworld $"gnu" false [] [($"tmp.sh", $"the script")]).
  do 2 eexists. split; [vm_compute; reflexivity|]. split; [vm_compute; reflexivity|]. reflexivity.
Qed.
Print Assumptions C67_old_script_kept_refuted.
