(** * C72: command lines.

    Statements and examples only. *)
From Coq Require Import String NArith List Bool.
Import ListNotations.
From Verif Require Import PyBase PyFacts SpecText Samples SpecGenRun SpecSh GenRun ShProofs GenShProofs2 ArgParse SpecArgs ArgProofs ArgProofs2 ArgProofs3 ArgProofs4.
Local Open Scope string_scope.
Local Open Scope list_scope.

Section C72.
(** The digits outside ASCII, and [Path(...).resolve()]. *)
Variable uni_digit : pychar -> bool.
Variable resolve : str -> str.
Notation is_digit := (fun c => digit uni_digit c = true).

(** ** Any program *)
Section AnyTable.
Variable t : list opt.
Variable positional : str.
Hypothesis G : good_table is_digit t.
Hypothesis P : ~ In positional (map o_dest t).
Notation parse_args := (parse_args uni_digit resolve t positional).
Notation reading := (reading is_digit t).

(** A line is accepted just if it can be read and does not ask for help. *)
Theorem C72_accepts_iff :
  forall l, (exists ns, parse_args l = Done ns) <-> exists evs, reading true l evs /\ no_help evs.
Proof. exact (parse_accepts uni_digit resolve t positional G P). Qed.
(** The settings are those that the line says; of several values of an option the
    last counts, and what is not mentioned has its default. *)
Theorem C72_settings :
  forall l evs ns, reading true l evs -> parse_args l = Done ns -> no_help evs -> settles resolve t positional evs ns.
Proof. exact (parse_settles uni_digit resolve t positional G P). Qed.
(** Every line has a result; one that is not accepted ends the program, with
    status 2, or 0 if a word asks for help. *)
Theorem C72_result :
  forall l, (exists ns, parse_args l = Done ns) \/ parse_args l = Exit 2 \/ parse_args l = Exit 0 /\ help_asked t l.
Proof. exact (parse_exits uni_digit resolve t positional G P). Qed.
(** Help is given whatever follows, but for words that could be several options. *)
Theorem C72_help :
  forall l l2 evs, reading true l evs -> ~ In $"--" l -> some_help evs -> clear_line t l2 -> parse_args (l ++ l2) = Exit 0.
Proof. exact (parse_help uni_digit resolve t positional G). Qed.
(** An option with a value can be put in front of any line. *)
Theorem C72_in_front :
  forall w o v l, long_word t w o None -> takes o -> plain is_digit t v ->
    (forall ns, parse_args l = Done ns -> exists ns', parse_args (w :: v :: l) = Done ns' /\ in_front resolve (o_dest o) v ns ns') /\
    (forall ns', parse_args (w :: v :: l) = Done ns' -> exists ns, parse_args l = Done ns /\ in_front resolve (o_dest o) v ns ns').
Proof. exact (front_accepts uni_digit resolve t positional G P). Qed.
End AnyTable.

(** ** The two programs *)

(** The above holds of both. *)
Theorem C72_programs :
  (good_table is_digit load_options /\ ~ In $"build_name" (map o_dest load_options)) /\
  (good_table is_digit gen_options /\ ~ In $"build_name" (map o_dest gen_options)).
Proof. exact (conj (load_table uni_digit) (gen_table uni_digit)). Qed.

(** The line that [load-env.sh] makes from that of the user is accepted just if
    that of the user is, and means the same. *)
Theorem C72_script_line :
  forall args loc, plain is_digit load_options loc ->
    (forall ns, load_parse uni_digit resolve args = Done ns ->
       exists ns', load_parse uni_digit resolve ($"--load-matching-env-location" :: loc :: args) = Done ns' /\
         in_front resolve $"load_matching_env_location" loc ns ns') /\
    (forall ns', load_parse uni_digit resolve ($"--load-matching-env-location" :: loc :: args) = Done ns' ->
       exists ns, load_parse uni_digit resolve args = Done ns /\ in_front resolve $"load_matching_env_location" loc ns ns').
Proof. exact (script_line uni_digit resolve). Qed.

(** The line that [GenConfig] saves is accepted by [load_env.py], with the same
    files, build name and [--force], and without a file to write. *)
Theorem C72_saved_line :
  forall sf ef pf force ci build m, loadenv_command sf ef pf force ci build m ->
    Forall (plain is_digit load_options) [sf; ef; pf; build] ->
    exists ns, load_parse uni_digit resolve m = Done ns /\
      dget $"supported_systems_file" ns = Some (VPath (resolve sf)) /\ dget $"supported_envs_file" ns = Some (VPath (resolve ef)) /\
      dget $"environment_specs_file" ns = Some (VPath (resolve pf)) /\ dget $"build_name" ns = Some (VStr build) /\
      dget $"force" ns = Some (VBool force) /\ dget $"list_envs" ns = Some (VBool false) /\ dget $"output" ns = Some VNone /\
      dget $"load_matching_env_location" ns = Some VNone.
Proof. exact (saved_line uni_digit resolve). Qed.

(** A line for [gen_config.py] without [--] means the same with the option that
    [gen-config.sh] adds at the end. *)
Theorem C72_saving_line :
  forall args f evs, reading is_digit gen_options true args evs -> ~ In $"--" args -> plain is_digit gen_options f ->
    reading is_digit gen_options true (args ++ [$"--save-load-env-args"; f])
      (evs ++ [EOption (Opt [$"--save-load-env-args"] $"save_load_env_args" KStore) (Some f)]).
Proof. exact (saving_line uni_digit). Qed.

(** ** Refuted *)

(** Not every way to write an option is seen by the scripts: [--ci] is
    [--ci-mode] for [load_env.py], but not for [load-env.sh]. *)
Theorem C72_script_sees_ci_mode_refuted :
  exists args, load_parse uni_digit resolve args = load_parse uni_digit resolve [$"--ci-mode"; $"gnu"] /\
    (exists ns, load_parse uni_digit resolve args = Done ns) /\ ~ asks_ci args.
Proof.
  exists [$"--ci"; $"gnu"]. split; [vm_compute; reflexivity|]. split; [eexists; vm_compute; reflexivity|].
  intros M. apply mentions_iff in M. vm_compute in M. discriminate.
Qed.
Theorem C72_script_sees_fragment_refuted :
  exists args, gen_parse uni_digit resolve args = gen_parse uni_digit resolve [$"--cmake-fragment"; $"f.cmake"; $"gnu"] /\
    (exists ns, gen_parse uni_digit resolve args = Done ns) /\ ~ mentions $"--cmake-fragment" args.
Proof.
  exists [$"--cmake"; $"f.cmake"; $"gnu"]. split; [vm_compute; reflexivity|]. split; [eexists; vm_compute; reflexivity|].
  intros M. apply mentions_iff in M. vm_compute in M. discriminate.
Qed.
(** [gen-config.sh] does not see [-h], for which [gen_config.py] gives the help. *)
Theorem C72_script_sees_help_refuted :
  exists args, gen_parse uni_digit resolve args = gen_parse uni_digit resolve [$"--help"] /\ ~ mentions $"--help" args.
Proof. exists [$"-h"]. split; [vm_compute; reflexivity|]. intros M. apply mentions_iff in M. vm_compute in M. discriminate. Qed.
(** The line that [GenConfig] saves is not accepted, or means something else, for
    some build names that [gen_config.py] accepts. *)
Theorem C72_every_saved_line_refuted :
  (exists args ns m, gen_parse uni_digit resolve args = Done ns /\ dget $"build_name" ns = Some (VStr $"-b") /\
     loadenv_command $"/s" $"/e" $"/p" false false $"-b" m /\ load_parse uni_digit resolve m = Exit 2) /\
  (exists args ns m ns', gen_parse uni_digit resolve args = Done ns /\ dget $"build_name" ns = Some (VStr $"-o x") /\
     loadenv_command $"/s" $"/e" $"/p" false false $"-o x" m /\ load_parse uni_digit resolve m = Done ns' /\
     dget $"build_name" ns' = Some (VStr []) /\ dget $"output" ns' = Some (VPath (resolve $" x"))).
Proof.
  split.
  - exists [$"--"; $"-b"]. eexists. eexists. split; [vm_compute; reflexivity|]. split; [vm_compute; reflexivity|]. split.
    + exists []. split; [reflexivity|]. split; [split; [intros []|discriminate]|]. split; [split; [intros []|discriminate]|]. split; [constructor|intros o []].
    + vm_compute. reflexivity.
  - exists [$"-o x"]. eexists. eexists. eexists. split; [vm_compute; reflexivity|]. split; [vm_compute; reflexivity|]. split.
    + exists []. split; [reflexivity|]. split; [split; [intros []|discriminate]|]. split; [split; [intros []|discriminate]|]. split; [constructor|intros o []].
    + split; [vm_compute; reflexivity|]. split; vm_compute; reflexivity.
Qed.
(** With [--] the option that [gen-config.sh] adds makes an accepted line one that
    is not. *)
Theorem C72_every_saving_line_refuted :
  exists args f, (exists ns, gen_parse uni_digit resolve args = Done ns) /\
    gen_parse uni_digit resolve (args ++ [$"--save-load-env-args"; f]) = Exit 2.
Proof. exists [$"gnu"; $"--"], $"/tmp/u/.load_env_args". split; [eexists; vm_compute; reflexivity|vm_compute; reflexivity]. Qed.
(** The place of an option is not free: between the build name and [--] it makes
    the line one that is not accepted. *)
Theorem C72_order_of_options_refuted :
  exists a o b, (exists ns, load_parse uni_digit resolve (o :: a ++ b) = Done ns) /\ (exists ns, load_parse uni_digit resolve (a ++ b) = Done ns) /\
    load_parse uni_digit resolve (a ++ o :: b) = Exit 2.
Proof.
  exists [$"gnu"], $"-f", [$"--"]. split; [eexists; vm_compute; reflexivity|]. split; [eexists; vm_compute; reflexivity|]. vm_compute. reflexivity.
Qed.
End C72.
Print Assumptions C72_accepts_iff.
Print Assumptions C72_settings.
Print Assumptions C72_result.
Print Assumptions C72_help.
Print Assumptions C72_in_front.
Print Assumptions C72_programs.
Print Assumptions C72_script_line.
Print Assumptions C72_saved_line.
Print Assumptions C72_saving_line.
Print Assumptions C72_script_sees_ci_mode_refuted.
Print Assumptions C72_script_sees_fragment_refuted.
Print Assumptions C72_script_sees_help_refuted.
Print Assumptions C72_every_saved_line_refuted.
Print Assumptions C72_every_saving_line_refuted.
Print Assumptions C72_order_of_options_refuted.

(** ** Examples *)
Definition no_digit : pychar -> bool := fun _ => false.
Definition in_home (s : str) : str := $"/home/" ++ s.
Definition line1 : list str := [$"-fo"; $"out"; $"--env"; $"a.ini"; $"--environment-specs=b.ini"; $"gnu"; $"-l"].
(** Letters together, a shortened name, a value after ["="], and the last value
    counts. *)
Example C72_ex :
  exists ns, load_parse no_digit in_home line1 = Done ns /\
    dget $"force" ns = Some (VBool true) /\ dget $"list_envs" ns = Some (VBool true) /\
    dget $"output" ns = Some (VPath $"/home/out") /\ dget $"environment_specs_file" ns = Some (VPath $"/home/b.ini") /\
    dget $"supported_envs_file" ns = Some VNone /\ dget $"build_name" ns = Some (VStr $"gnu").
Proof. eexists. split; [vm_compute; reflexivity|]. repeat split; vm_compute; reflexivity. Qed.
(** So that line can be read. *)
Example C72_ex_read : exists evs, reading (fun c => digit no_digit c = true) load_options true line1 evs /\ no_help evs.
Proof.
  apply (C72_accepts_iff no_digit in_home load_options $"build_name" (proj1 (proj1 (C72_programs no_digit))) (proj2 (proj1 (C72_programs no_digit)))).
  eexists. vm_compute. reflexivity.
Qed.
(** Lines that are not: a word that could be two options, an option without its
    value, a flag with one, an unknown option, two build names; and help. *)
Example C72_ex_exits :
  map (load_parse no_digit in_home)
    [[$"--supported"; $"a"; $"gnu"]; [$"gnu"; $"-o"]; [$"--force=yes"; $"gnu"]; [$"-x"; $"gnu"]; [$"gnu"; $"intel"]; [$"gnu"; $"-fh"; $"-o"]] =
    [Exit 2; Exit 2; Exit 2; Exit 2; Exit 2; Exit 0].
Proof. vm_compute. reflexivity. Qed.
(** A negative number and a text with a blank are words, not options. *)
Example C72_ex_words : exists ns, load_parse no_digit in_home [$"--output"; $"-5"; $"-a b"] = Done ns /\
  dget $"output" ns = Some (VPath $"/home/-5") /\ dget $"build_name" ns = Some (VStr $"-a b").
Proof. eexists. split; [vm_compute; reflexivity|]. split; vm_compute; reflexivity. Qed.
(** Files and names that do not begin with a dash are plain. *)
Example C72_ex_plain : Forall (plain (fun c => digit no_digit c = true) load_options) [$"/s.ini"; $"/e.ini"; $"/p.ini"; $"gnu"; []].
Proof. repeat (constructor; [left; intros (r & E); discriminate|]). constructor. Qed.
Example C72_ex_help : exists evs, reading (fun c => digit no_digit c = true) load_options true [$"gnu"; $"--help"] evs /\ some_help evs /\
  load_parse no_digit in_home ([$"gnu"; $"--help"] ++ [$"-x"; $"--"; $"--supported"]) = Exit 0.
Proof.
  exists [EBuild $"gnu"; EOption help_option None]. split; [|split].
  - apply rd_build; [left; intros (r & E); discriminate|]. apply rd_flag; [|discriminate|constructor]. apply load_spelled; reflexivity.
  - exists help_option, None. split; [right; now left|reflexivity].
  - vm_compute. reflexivity.
Qed.
