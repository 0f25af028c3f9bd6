(** * C68: the files that GenConfig writes.

    Statements and examples only. *)
From Coq Require Import String NArith List Bool.
Import ListNotations.
From Verif Require Import PyBase EnvVar Regex Keyword DetSys EnvKeyword LoadEnv GenRun Bash SpecBash SpecLoadEnv SpecGenRun
  GenRunProofs PropertiesKeyword PropertiesLoadEnv.
Local Open Scope string_scope.
Local Open Scope list_scope.

(** ** [--cmake-fragment] *)

(** The program ends without an error if and only if the sections are canonical,
    the build name means a configuration that has options, the file can be
    written, and is a new one unless replacing it was allowed. *)
Theorem C68_fragment_written_iff :
  forall other_re systems hostname envs flags specs gen yes ci sf ef pf args_file loc_file writable p build force out answers,
    (exists w, gen_main other_re systems hostname envs flags specs gen false false None (Some p) yes ci sf ef pf args_file loc_file
       writable (new_gworld build force out answers) = (Ok tt, w)) <->
    (exists l, options_for other_re systems hostname envs flags specs gen $"cmake_fragment" build force l) /\
    may_replace p out yes answers /\ writable p = true.
Proof. exact fragment_iff. Qed.
Print Assumptions C68_fragment_written_iff.

(** Then it contains the options of the configuration, one in each line, and no
    other file was changed. *)
Theorem C68_fragment_contents :
  forall other_re systems hostname envs flags specs gen yes ci sf ef pf args_file loc_file writable p build force out answers w,
    gen_main other_re systems hostname envs flags specs gen false false None (Some p) yes ci sf ef pf args_file loc_file
      writable (new_gworld build force out answers) = (Ok tt, w) ->
    exists l, options_for other_re systems hostname envs flags specs gen $"cmake_fragment" build force l /\
      dget p (v_out w) = Some (join newline l) /\ same_but [p] out (v_out w).
Proof. exact fragment_contents. Qed.
Print Assumptions C68_fragment_contents.

(** If the program fails, all files are as before. *)
Theorem C68_fragment_kept_on_failure :
  forall other_re systems hostname envs flags specs gen yes ci sf ef pf args_file loc_file writable p build force out answers x w,
    gen_main other_re systems hostname envs flags specs gen false false None (Some p) yes ci sf ef pf args_file loc_file
      writable (new_gworld build force out answers) = (Err x, w) ->
    writable p = true -> v_out w = out.
Proof. exact fragment_failure. Qed.
Print Assumptions C68_fragment_kept_on_failure.

(** If the answer is no, the program exits, and all files are as before. *)
Theorem C68_refused :
  forall other_re systems hostname envs flags specs gen yes ci sf ef pf args_file loc_file writable p build force out answers,
    (exists l, options_for other_re systems hostname envs flags specs gen $"cmake_fragment" build force l) ->
    dget p out <> None -> yes = false -> refused answers ->
    exists w, gen_main other_re systems hostname envs flags specs gen false false None (Some p) yes ci sf ef pf args_file loc_file
      writable (new_gworld build force out answers) = (Err SystemExit, w) /\ (writable p = true -> v_out w = out).
Proof. exact fragment_refused. Qed.
Print Assumptions C68_refused.

(** A second call of the method, whatever has become of the files, does nothing. *)
Theorem C68_fragment_written_once :
  forall other_re systems hostname envs flags specs gen yes writable p w q w1 out2 in2,
    write_fragment other_re systems hostname envs flags specs gen yes writable p w = (Ok q, w1) ->
    write_fragment other_re systems hostname envs flags specs gen yes writable p (GWorld (v_gc w1) (v_fragment w1) out2 in2) =
      (Ok q, GWorld (v_gc w1) (v_fragment w1) out2 in2).
Proof. exact fragment_again. Qed.
Print Assumptions C68_fragment_written_once.

(** ** The arguments of cmake *)

Theorem C68_arguments_written_iff :
  forall other_re systems hostname envs flags specs gen yes ci sf ef pf args_file loc_file writable build force out answers,
    args_file <> loc_file ->
    (exists w, gen_main other_re systems hostname envs flags specs gen false false None None yes ci sf ef pf args_file loc_file
       writable (new_gworld build force out answers) = (Ok tt, w)) <->
    (exists l, options_for other_re systems hostname envs flags specs gen $"bash" build force l) /\
    writable args_file = true /\ writable loc_file = true.
Proof. exact default_iff. Qed.
Print Assumptions C68_arguments_written_iff.

(** The text of the options, and the path of the file with the text. *)
Theorem C68_arguments_contents :
  forall other_re systems hostname envs flags specs gen yes ci sf ef pf args_file loc_file writable build force out answers w,
    args_file <> loc_file ->
    gen_main other_re systems hostname envs flags specs gen false false None None yes ci sf ef pf args_file loc_file
      writable (new_gworld build force out answers) = (Ok tt, w) ->
    exists l, options_for other_re systems hostname envs flags specs gen $"bash" build force l /\
      dget args_file (v_out w) = Some (args_text l) /\ dget loc_file (v_out w) = Some args_file /\
      same_but [args_file; loc_file] out (v_out w).
Proof. exact default_contents. Qed.
Print Assumptions C68_arguments_contents.

(** If the program fails, the location is as before: gen-config.sh never gets
    the path of a text that was not completed. *)
Theorem C68_location_kept_on_failure :
  forall other_re systems hostname envs flags specs gen yes ci sf ef pf args_file loc_file writable build force out answers x w,
    args_file <> loc_file ->
    gen_main other_re systems hostname envs flags specs gen false false None None yes ci sf ef pf args_file loc_file
      writable (new_gworld build force out answers) = (Err x, w) ->
    same_but [args_file] out (v_out w).
Proof. exact default_failure. Qed.
Print Assumptions C68_location_kept_on_failure.

(** But a file with no text stays behind, every time. *)
Theorem C68_empty_file_left :
  forall other_re systems hostname envs flags specs gen yes ci sf ef pf args_file loc_file writable build force out answers,
    args_file <> loc_file ->
    (~ exists l, options_for other_re systems hostname envs flags specs gen $"bash" build force l) ->
    writable args_file = true ->
    exists x w, gen_main other_re systems hostname envs flags specs gen false false None None yes ci sf ef pf args_file loc_file
      writable (new_gworld build force out answers) = (Err x, w) /\ dget args_file (v_out w) = Some [].
Proof. exact default_leftover. Qed.
Print Assumptions C68_empty_file_left.

(** The words of the text, unquoted, in bash: each option, and the backslashes
    that were to continue the line. *)
Theorem C68_cmake_words :
  forall glob l, glob $"\" = [$"\"] -> Forall bare_word l -> fields glob [U (args_text l)] = slashed l.
Proof. exact slashed_words. Qed.
Print Assumptions C68_cmake_words.

(** ** [--save-load-env-args] *)

(** The command line of LoadEnv: the same files, build name and [--force]. *)
Theorem C68_saved_arguments :
  forall other_re systems hostname envs flags specs gen fragment yes ci sf ef pf args_file loc_file writable p build force out
         answers,
    writable p = true ->
    exists w l, gen_main other_re systems hostname envs flags specs gen false false (Some p) fragment yes ci sf ef pf args_file
        loc_file writable (new_gworld build force out answers) = (Ok tt, w) /\
      loadenv_command sf ef pf force ci build l /\
      dget p (v_out w) = Some (join $" " l) /\ same_but [p] out (v_out w).
Proof. exact saved. Qed.
Print Assumptions C68_saved_arguments.
(** Their words, unquoted, in bash. *)
Theorem C68_saved_words :
  forall glob l, Forall bare_word l -> fields glob [U (join $" " l)] = l.
Proof. exact spaced_words. Qed.
Print Assumptions C68_saved_words.

(** ** Nothing else is written, in any state, whatever happens *)
Theorem C68_files :
  forall other_re systems hostname envs flags specs gen list_flags list_confs save fragment yes ci sf ef pf args_file loc_file
         writable w,
    same_but (touched list_flags list_confs save fragment args_file loc_file) (v_out w)
      (v_out (snd (gen_main other_re systems hostname envs flags specs gen list_flags list_confs save fragment yes ci sf ef pf
        args_file loc_file writable w))).
Proof. exact only_touched. Qed.
Print Assumptions C68_files.

(** ** Examples *)
Definition gen2 (kind config : str) : res (list str) :=
  if str_eqb config $"machine-1_gnu-8_debug_static_cuda_mpi" then
    if str_eqb kind $"bash" then Ok [$"-DA=1"; $"-DB=2"] else Ok [$"set(A 1)"; $"set(B 2)"]
  else Err ValueError.
Definition specs2 : list str := [$"COMMON"; $"machine-1_gnu-8_debug_static_cuda_mpi"].
Definition run_gen (save fragment : option str) (build : str) (out : dict str) (answers : list str) :=
  gen_main no_re systems3 $"m1-login2" envs3 conf1 specs2 gen2 false false save fragment false false
    $"/c/systems.ini" $"/c/envs.ini" $"/c/specs.ini" $"args" $"loc" (fun _ => true) (new_gworld build false out answers).
Example C68_ex_options : forall kind, kind = $"bash" \/ kind = $"cmake_fragment" ->
  exists l, options_for no_re systems3 $"m1-login2" envs3 conf1 specs2 gen2 kind $"gnu_mpi_cuda" false l.
Proof.
  intros kind K.
  assert (C : forall b f, (b = $"gnu_mpi_cuda" /\ f = false) \/ (b = $"machine-1_gnu-8_debug_static_cuda_mpi" /\ f = true) ->
    config_name no_re systems3 $"m1-login2" envs3 conf1 b f $"machine-1_gnu-8_debug_static_cuda_mpi").
  { intros b f [[-> ->]|[-> ->]]; do 3 eexists;
      (split; [vm_compute; reflexivity|]; split; [vm_compute; reflexivity|]; split; vm_compute; reflexivity). }
  assert (S : canonical_sections no_re systems3 $"m1-login2" envs3 conf1 specs2).
  { intros s [<-|[<-|[]]] N; [exfalso; apply N; reflexivity|]. apply C. auto. }
  destruct K as [->| ->]; eexists; (split; [exact S|]; eexists; split; [apply C; auto|reflexivity]).
Qed.
Example C68_ex_new : exists w,
  run_gen None (Some $"frag") $"gnu_mpi_cuda" [($"x", $"y")] [] = (Ok tt, w) /\
  v_out w = [($"x", $"y"); ($"frag", $"set(A 1)" ++ newline ++ $"set(B 2)")].
Proof. eexists. split; vm_compute; reflexivity. Qed.
Example C68_ex_agreed : exists w,
  run_gen None (Some $"frag") $"gnu_mpi_cuda" [($"frag", $"old"); ($"x", $"y")] [$"what"; $"Yes"; $"no"] = (Ok tt, w) /\
  dget $"frag" (v_out w) = Some ($"set(A 1)" ++ newline ++ $"set(B 2)") /\ v_in w = [$"no"].
Proof. eexists. split; [vm_compute; reflexivity|]. split; vm_compute; reflexivity. Qed.
Example C68_ex_refused : exists w,
  run_gen None (Some $"frag") $"gnu_mpi_cuda" [($"frag", $"old"); ($"x", $"y")] [$"what"; $"No"] = (Err SystemExit, w) /\
  v_out w = [($"frag", $"old"); ($"x", $"y")].
Proof. eexists. split; vm_compute; reflexivity. Qed.
Example C68_ex_answers : agreed [$"what"; $"Yes"; $"no"] /\ refused [$"what"; $"No"].
Proof.
  assert (W : unclear $"what").
  { split; [discriminate|]. split; intros (c & t & [= <- <-] & [E|E]); discriminate. }
  split; [exists [$"what"], $"Yes", [$"no"]|exists [$"what"], $"No", []]; (split; [reflexivity|]; split; [auto|]).
  - eexists _, _. split; [reflexivity|auto].
  - eexists _, _. split; [reflexivity|auto].
Qed.
Example C68_ex_arguments : exists w,
  run_gen None None $"gnu_mpi_cuda" [] [] = (Ok tt, w) /\
  v_out w = [($"args", $"-DA=1 \" ++ newline ++ $"    -DB=2"); ($"loc", $"args")].
Proof. eexists. split; vm_compute; reflexivity. Qed.
Example C68_ex_saved : exists w,
  run_gen (Some $"save") None $"gnu_mpi_cuda" [] [] = (Ok tt, w) /\
  v_out w = [($"save", $"--supported-systems /c/systems.ini --supported-envs /c/envs.ini --environment-specs /c/specs.ini gnu_mpi_cuda")].
Proof. eexists. split; vm_compute; reflexivity. Qed.
Example C68_ex_words : forall glob,
  fields glob [U (join $" " [$"--supported-systems"; $"/c/systems.ini"; $"gnu"])] = [$"--supported-systems"; $"/c/systems.ini"; $"gnu"].
Proof. reflexivity. Qed.

(** ** What does not hold *)

(** An empty answer is not asked again: the program fails. *)
Theorem C68_empty_answer_is_unclear_refuted :
  exists w, run_gen None (Some $"frag") $"gnu_mpi_cuda" [($"frag", $"old")] [[]; $"y"] = (Err IndexError, w).
Proof. eexists. vm_compute. reflexivity. Qed.
Print Assumptions C68_empty_answer_is_unclear_refuted.

(** A failed run leaves no file: not so. *)
Theorem C68_failure_leaves_no_file_refuted :
  exists w, run_gen None None $"unknown" [] [] = (Err SystemExit, w) /\ v_out w = [($"args", [])].
Proof. eexists. split; vm_compute; reflexivity. Qed.
Print Assumptions C68_failure_leaves_no_file_refuted.

(** cmake gets the options and nothing else: not so. *)
Theorem C68_cmake_gets_the_options_refuted :
  exists l, Forall bare_word l /\ forall glob, glob $"\" = [$"\"] -> fields glob [U (args_text l)] <> l.
Proof.
  assert (B : Forall bare_word [$"-DA=1"; $"-DB=2"]).
  { repeat constructor; try discriminate; intros c I J; vm_compute in I, J;
      repeat (destruct I as [<-|I]; [repeat (destruct J as [J|J]; [discriminate J|]); exact J|]); exact I. }
  exists [$"-DA=1"; $"-DB=2"]. split; [exact B|].
  intros glob G. rewrite C68_cmake_words; auto. discriminate.
Qed.
Print Assumptions C68_cmake_gets_the_options_refuted.

(** The saved arguments are those of LoadEnv: not with a blank in a path, nor
    without a build name. *)
Theorem C68_saved_arguments_split_refuted :
  forall glob,
    fields glob [U (join $" " (load_env_args false $"/my dir/s.ini" $"/e.ini" $"/p.ini" (new_genconfig $"gnu" false)))] <>
      load_env_args false $"/my dir/s.ini" $"/e.ini" $"/p.ini" (new_genconfig $"gnu" false) /\
    fields glob [U (join $" " (load_env_args false $"/s.ini" $"/e.ini" $"/p.ini" (new_genconfig [] false)))] <>
      load_env_args false $"/s.ini" $"/e.ini" $"/p.ini" (new_genconfig [] false).
Proof. intros glob. split; vm_compute; discriminate. Qed.
Print Assumptions C68_saved_arguments_split_refuted.
