(** * Properties C56-C60: the system, the environment and the configuration a
    build name means. *)
From Coq Require Import String NArith List Bool.
Import ListNotations.
From Verif Require Import PyBase EnvVar Regex Keyword DetSys EnvKeyword LoadEnv SpecKeyword KeywordText SpecFlags SpecSystem SpecLoadEnv
  KeywordProofs SearchProofs SystemProofs EnvNameProofs LoadEnvProofs GenConfigProofs FixedProofs PropertiesKeyword.
Local Open Scope string_scope.
Local Open Scope list_scope.

(** No expression but the simple ones. *)
Definition no_re (key text : str) : res bool := Err ValueError.

(** ** C56 *)

(** The system a new [DetermineSystem] object answers, and when it exits. *)
Theorem C56_system :
  forall other_re systems hostname,
    NoDup (map fst systems) -> readable_keys other_re systems hostname ->
    forall build force r,
      fst (system_name other_re systems hostname (new_detsys build force)) = r <->
      system_of other_re systems hostname build force r.
Proof. exact system_of_iff. Qed.
Print Assumptions C56_system.

(** A name that was answered is answered again. *)
Theorem C56_again :
  forall other_re systems hostname p n q,
    system_name other_re systems hostname p = (Ok n, q) -> system_name other_re systems hostname q = (Ok n, q).
Proof. exact system_again. Qed.
Print Assumptions C56_again.

(** What counts of a key in the file: up to the first white space, [#] or [^]. *)
Theorem C56_key_of_file : forall key, host_key key = key_word key.
Proof. exact host_key_word. Qed.
Print Assumptions C56_key_of_file.

(** After an exit the next read does not exit. *)
Theorem C56_after_exit :
  forall other_re systems hostname build force q h,
    NoDup (map fst systems) -> readable_keys other_re systems hostname -> host_system other_re systems hostname h ->
    system_name other_re systems hostname (new_detsys build force) = (Err SystemExit, q) ->
    exists r, fst (system_name other_re systems hostname q) = Ok r /\
      (forall n, names_system systems build n -> (forall m, names_system systems build m -> m = n) -> r = Some n) /\
      ((forall n, ~ names_system systems build n) -> r = None) /\
      (forall n m, names_system systems build n -> names_system systems build m -> n <> m -> r = h).
Proof. exact system_after_exit. Qed.
Print Assumptions C56_after_exit.

Definition systems1 : list (str * list str) :=
  [($"machine-1", [$"m1-login.*"; $"m1.node  # the nodes"]);
   ($"machine-2", [$"m2"]);
   ($"other", [])].
Definition system_in (host build : string) (force : bool) : res (option str) :=
  fst (system_name no_re systems1 (lit host) (new_detsys (lit build) force)).
Example C56_ex :
  system_in "m1-login7" "intel_debug" false = Ok (Some $"machine-1") /\
  system_in "xm1-node" "Machine-1_intel" false = Ok (Some $"machine-1") /\
  system_in "m2" "machine-1_intel" false = Err SystemExit /\
  system_in "m2" "machine-1_intel" true = Ok (Some $"machine-1") /\
  system_in "laptop" "other_intel" false = Err SystemExit /\
  system_in "laptop" "other_intel" true = Ok (Some $"other") /\
  system_in "laptop" "intel" true = Err SystemExit /\
  system_in "m2" "machine-1_machine-2" true = Err SystemExit.
Proof. repeat split; vm_compute; reflexivity. Qed.
Example C56_ex_hypotheses :
  NoDup (map fst systems1) /\ forall host, readable_keys no_re systems1 host.
Proof.
  split; [apply has_duplicates_NoDup; vm_compute; reflexivity|].
  intros host name keys k I J. left. apply simple_plain. unfold systems1 in I. cbn [In] in I.
  repeat (destruct I as [I|I]; [injection I as <- <-; cbn [In] in J;
    repeat (destruct J as [J|J]; [subst k; vm_compute; reflexivity|]); destruct J|]). destruct I.
Qed.

(** The object does not keep exiting. *)
Theorem C56_exit_again_refuted :
  exists systems hostname build p,
    system_name no_re systems hostname (new_detsys build false) = (Err SystemExit, p) /\
    fst (system_name no_re systems hostname p) = Ok (Some $"machine-1").
Proof. exists systems1, $"m2", $"machine-1_intel". eexists. split; vm_compute; reflexivity. Qed.
Print Assumptions C56_exit_again_refuted.

(** A key with an anchor at its start counts as empty, and names every host. *)
Theorem C56_anchored_key_refuted :
  exists systems hostname,
    systems = [($"machine-1", [$"^m1-login"])] /\ hostname = $"laptop" /\
    fst (system_name no_re systems hostname (new_detsys $"intel" false)) = Ok (Some $"machine-1").
Proof. do 2 eexists. repeat split; vm_compute; reflexivity. Qed.
Print Assumptions C56_anchored_key_refuted.

(** A system whose name has an upper-case letter is not found in the build name. *)
Theorem C56_system_in_build_name_refuted :
  exists systems hostname build,
    In $"RHEL7" (map fst systems) /\ named build $"RHEL7" /\
    fst (system_name no_re systems hostname (new_detsys build true)) = Err SystemExit.
Proof.
  exists [($"RHEL7", [$"rhel"])], $"laptop", $"RHEL7_intel". split; [now left|]. split; [apply named_iff; now left|].
  vm_compute. reflexivity.
Qed.
Print Assumptions C56_system_in_build_name_refuted.

(** ** C57 *)

(** The environment a build name means on a system: the longest name that
    appears, else the environment of the longest alias that appears. *)
Theorem C57_environment :
  forall other_re conf system E build p r,
    env_describes conf system E -> valid_envs E ->
    readable_names other_re (map fst E) build -> readable_names other_re (flat_map snd E) build ->
    new_ekp conf build system = Ok p ->
    (fst (qualified_env_name other_re conf p) = qualified system r <-> env_of other_re E build r).
Proof. exact env_name_spec. Qed.
Print Assumptions C57_environment.

(** The parser can be made iff no alias is listed twice for the system. *)
Theorem C57_aliases_unique :
  forall conf system E build,
    env_describes conf system E ->
    (NoDup (flat_map snd E) /\ exists p, new_ekp conf build system = Ok p) \/
    (~ NoDup (flat_map snd E) /\ new_ekp conf build system = Err SystemExit).
Proof. exact env_made. Qed.
Print Assumptions C57_aliases_unique.

(** A name without special characters and underscores appears in a build name of
    one line iff it is one of its words. *)
Theorem C57_words :
  forall other_re name build,
    literal_name name -> ~ In 95%N name -> ~ In 10%N build ->
    (appears other_re name build <-> named build name).
Proof. exact appears_word. Qed.
Print Assumptions C57_words.

Theorem C57_again :
  forall other_re conf p n q,
    qualified_env_name other_re conf p = (Ok n, q) -> qualified_env_name other_re conf q = (Ok n, q).
Proof. exact env_again. Qed.
Print Assumptions C57_again.

Definition envs_m1 : dict (option str) :=
  [($"intel-18.0.5-mpich", lines ["intel-18"; "intel  # default"]);
   ($"intel-19.0.4", lines ["intel-19"]);
   ($"gnu_8", None);
   ($"gnu-8", lines ["gnu"])].
Definition envs1 := conf_of [($"machine-1", envs_m1); ($"machine-2", [($"clang", None)])].
Definition table_m1 : env_table :=
  [($"intel-18.0.5-mpich", [$"intel-18"; $"intel"]); ($"intel-19.0.4", [$"intel-19"]); ($"gnu_8", []); ($"gnu-8", [$"gnu"])].
Definition env_in (build : string) : res str :=
  match new_ekp envs1 (lit build) $"machine-1" with Ok p => fst (qualified_env_name no_re envs1 p) | Err e => Err e end.
Example C57_ex :
  env_in "machine-1_intel_debug" = Ok $"machine-1_intel-18.0.5-mpich" /\
  env_in "intel-19_intel" = Ok $"machine-1_intel-19.0.4" /\
  env_in "intel_gnu-8" = Ok $"machine-1_gnu-8" /\
  env_in "x_gnu_8" = Ok $"machine-1_gnu_8" /\
  env_in "gnu-8_intel-19.0.4" = Ok $"machine-1_intel-19.0.4" /\
  env_in "intel-1" = Err SystemExit.
Proof. repeat split; vm_compute; reflexivity. Qed.
Example C57_ex_table :
  env_describes envs1 $"machine-1" table_m1 /\ valid_envs table_m1 /\
  (forall b, readable_names no_re (map fst table_m1) b /\ readable_names no_re (flat_map snd table_m1) b).
Proof.
  split; [split|split; [split|]].
  - exists envs_m1. split; reflexivity.
  - intros n l I. unfold table_m1 in I. cbn [In] in I.
    repeat (destruct I as [I|I]; [injection I as <- <-; vm_compute; reflexivity|]). destruct I.
  - apply has_duplicates_NoDup. vm_compute. reflexivity.
  - apply has_duplicates_NoDup. vm_compute. reflexivity.
  - intros b. split; intros n I; left; apply simple_plain; vm_compute in I;
      repeat (destruct I as [<-|I]; [vm_compute; reflexivity|]); destruct I.
Qed.

(** A dot in the name of an environment stands for any character. *)
Theorem C57_only_the_name_refuted :
  exists conf system E build p n,
    env_describes conf system E /\ valid_envs E /\ new_ekp conf build system = Ok p /\
    In n (map fst E) /\ ~ named build n /\ (forall a, In a (flat_map snd E) -> ~ named build a) /\
    fst (qualified_env_name no_re conf p) = Ok (system ++ [95%N] ++ n).
Proof.
  exists envs1, $"machine-1", table_m1, $"intel-19x0y4". eexists. exists $"intel-19.0.4".
  split; [apply C57_ex_table|]. split; [apply C57_ex_table|]. split; [vm_compute; reflexivity|].
  split; [right; now left|].
  assert (W : forall w, named $"intel-19x0y4" w <-> w = $"intel-19x0y4").
  { intros w. rewrite named_iff. unfold words. vm_compute. intuition. }
  split; [rewrite W; discriminate|]. split; [|vm_compute; reflexivity].
  intros a I. rewrite W. intros ->. vm_compute in I. repeat (destruct I as [I|I]; [discriminate|]). exact I.
Qed.
Print Assumptions C57_only_the_name_refuted.

(** ** C58 *)

(** Whatever was read and whichever build names were assigned before, the answers
    are those of a new object for the name assigned last. *)
Theorem C58_reads_follow_build_name :
  forall other_re systems hostname envs build force h o,
    fst (lexec other_re systems hostname envs o (lafter other_re systems hostname envs h (new_loadenv build force)))
    = fst (lexec other_re systems hostname envs o (new_loadenv (last_build h build) force)).
Proof. exact load_history. Qed.
Print Assumptions C58_reads_follow_build_name.

(** The environment is that of C57 on the system of C56. *)
Theorem C58_parsed_name :
  forall other_re systems hostname envs build force,
    NoDup (map fst systems) -> readable_keys other_re systems hostname ->
    forall s E,
      system_of other_re systems hostname build force (Ok (Some s)) ->
      env_describes envs s E -> valid_envs E ->
      readable_names other_re (map fst E) build -> readable_names other_re (flat_map snd E) build ->
      forall r, fst (lexec other_re systems hostname envs LParsed (new_loadenv build force)) = qualified s r <->
                env_of other_re E build r.
Proof. exact parsed_spec. Qed.
Print Assumptions C58_parsed_name.

(** [env_stripped_build_name]: the words that name neither a system nor an
    environment nor an alias, in order. *)
Theorem C58_stripped_name :
  forall other_re systems hostname envs build force,
    NoDup (map fst systems) -> readable_keys other_re systems hostname ->
    forall s E,
      system_of other_re systems hostname build force (Ok (Some s)) ->
      env_describes envs s E -> valid_envs E ->
      exists l, fst (lexec other_re systems hostname envs LStripped (new_loadenv build force)) = Ok (join [95%N] l) /\
        kept (other_word systems E) (words build) l.
Proof. exact stripped_spec. Qed.
Print Assumptions C58_stripped_name.

Definition load_in (host build : string) (h : list lop) (o : lop) : res str :=
  fst (lexec no_re systems1 (lit host) envs1 o (lafter no_re systems1 (lit host) envs1 h (new_loadenv (lit build) false))).
Example C58_ex :
  load_in "m1-login1" "debug_intel_machine-1_shared" [] LParsed = Ok $"machine-1_intel-18.0.5-mpich" /\
  load_in "m1-login1" "debug_intel_machine-1_shared" [LParsed] LStripped = Ok $"debug_shared" /\
  load_in "m1-login1" "gnu" [LParsed; LStripped; LName $"intel-19_x"; LSystem] LParsed = Ok $"machine-1_intel-19.0.4" /\
  load_in "m1-login1" "gnu" [LParsed; LName $"clang"] LParsed = Err SystemExit.
Proof. repeat split; vm_compute; reflexivity. Qed.

(** A system found in the build name need not be removed from it, nor an
    environment. *)
Theorem C58_stripped_refuted :
  exists systems hostname envs build,
    fst (lexec no_re systems hostname envs LParsed (new_loadenv build true)) = Ok $"machine-1_gnu_8" /\
    fst (lexec no_re systems hostname envs LStripped (new_loadenv build true)) = Ok $"Machine-1_8_debug".
Proof. exists systems1, $"laptop", envs1, $"Machine-1_gnu_8_debug". split; vm_compute; reflexivity. Qed.
Print Assumptions C58_stripped_refuted.

(** ** C59 *)

(** Validation succeeds iff every section that is to be checked has the canonical
    name, whatever was done before. *)
Theorem C59_validation :
  forall other_re systems hostname envs flags specs gen fd,
    flags $"configure-flags" = Ok fd ->
    forall build force h,
      fst (gexec other_re systems hostname envs flags specs gen GValidate
             (gafter other_re systems hostname envs flags specs gen h (new_genconfig build force))) = Ok GDone <->
      canonical_sections other_re systems hostname envs flags specs.
Proof. exact validate_iff. Qed.
Print Assumptions C59_validation.

(** Then no answer depends on what was done before. *)
Theorem C59_reads_independent :
  forall other_re systems hostname envs flags specs gen fd,
    flags $"configure-flags" = Ok fd ->
    forall build force h o,
      canonical_sections other_re systems hostname envs flags specs ->
      fst (gexec other_re systems hostname envs flags specs gen o
             (gafter other_re systems hostname envs flags specs gen h (new_genconfig build force)))
      = fst (gexec other_re systems hostname envs flags specs gen o (new_genconfig build force)).
Proof. exact gen_history. Qed.
Print Assumptions C59_reads_independent.

(** No flags are generated from a file with another section name. *)
Theorem C59_no_flags_unless_valid :
  forall other_re systems hostname envs flags specs gen fd,
    flags $"configure-flags" = Ok fd ->
    forall build force h l,
      fst (gexec other_re systems hostname envs flags specs gen GFlags
             (gafter other_re systems hostname envs flags specs gen h (new_genconfig build force))) = Ok (GOpts l) ->
      canonical_sections other_re systems hostname envs flags specs.
Proof. exact no_flags. Qed.
Print Assumptions C59_no_flags_unless_valid.

(** The answers of a new object. *)
Theorem C59_complete_config :
  forall other_re systems hostname envs flags specs gen fd,
    flags $"configure-flags" = Ok fd ->
    forall build force c,
      fst (gexec other_re systems hostname envs flags specs gen GConfig (new_genconfig build force)) = Ok (GStr c) <->
      config_name other_re systems hostname envs flags build force c.
Proof. exact config_answer. Qed.
Print Assumptions C59_complete_config.

Theorem C59_flags_of_config :
  forall other_re systems hostname envs flags specs gen fd,
    flags $"configure-flags" = Ok fd ->
    forall build force c,
      canonical_sections other_re systems hostname envs flags specs ->
      config_name other_re systems hostname envs flags build force c ->
      fst (gexec other_re systems hostname envs flags specs gen GFlags (new_genconfig build force))
      = rbind (gen c) (fun l => Ok (GOpts l)).
Proof. exact flags_answer. Qed.
Print Assumptions C59_flags_of_config.

Theorem C59_listed_configs :
  forall other_re systems hostname envs flags specs gen build force s,
      NoDup (map fst systems) -> readable_keys other_re systems hostname ->
      system_of other_re systems hostname build force (Ok (Some s)) ->
      exists l, fst (gexec other_re systems hostname envs flags specs gen GList (new_genconfig build force)) = Ok (GOpts l) /\
        kept (fun x => exists y, x = s ++ y) specs l.
Proof. exact (fun re sy h en fl sp g => list_answer re sy h en fl sp g []). Qed.
Print Assumptions C59_listed_configs.

Definition gen1 (c : str) : res (list str) := Ok [$"-DBUILD=" ++ c].
Definition specs1 : list str :=
  [$"COMMON"; $"machine-1_intel-19.0.4_debug_static_no-tpl"; $"machine-2_clang_release_shared_cuda_mpi"].
Definition config_in (specs : list str) (host build : string) (h : list gop) (o : gop) : res gans :=
  let p := gafter no_re systems1 (lit host) envs1 conf1 specs gen1 h (new_genconfig (lit build) false) in
  fst (gexec no_re systems1 (lit host) envs1 conf1 specs gen1 o p).
Example C59_ex :
  config_in specs1 "m1-login1" "mpi_gnu_release" [] GConfig = Ok (GStr $"machine-1_gnu-8_release_static_mpi") /\
  config_in specs1 "m1-login1" "mpi_gnu_release" [GValidate] GConfig = Ok (GStr $"machine-1_gnu-8_release_static_mpi") /\
  config_in specs1 "m1-login1" "mpi_gnu_release" [] GFlags = Ok (GOpts [$"-DBUILD=machine-1_gnu-8_release_static_mpi"]) /\
  config_in specs1 "m1-login1" "gnu" [] GList = Ok (GOpts [$"machine-1_intel-19.0.4_debug_static_no-tpl"]) /\
  config_in [$"machine-1_gnu-8_debug"] "m1-login1" "gnu" [] GFlags = Err ValueError.
Proof. repeat split; vm_compute; reflexivity. Qed.
Example C59_ex_canonical : canonical_sections no_re systems1 $"m1-login1" envs1 conf1 specs1.
Proof.
  apply (C59_validation no_re systems1 $"m1-login1" envs1 conf1 specs1 gen1 flags1 eq_refl $"gnu" false []).
  vm_compute. reflexivity.
Qed.

(** A failed validation leaves the name of the last section behind: the
    configuration read afterwards is that of another build. *)
Theorem C59_failed_validation_restores_refuted :
  exists specs,
    config_in specs "m1-login1" "gnu" [] GConfig = Ok (GStr $"machine-1_gnu-8_debug_static_no-tpl") /\
    config_in specs "m1-login1" "gnu" [] GValidate = Err ValueError /\
    config_in specs "m1-login1" "gnu" [GValidate] GConfig = Ok (GStr $"machine-2_clang_debug_shared_no-tpl").
Proof. exists [$"machine-2_clang_shared"]. repeat split; vm_compute; reflexivity. Qed.
Print Assumptions C59_failed_validation_restores_refuted.

(** The configurations of another system are listed if its name starts alike. *)
Theorem C59_listed_for_other_system_refuted :
  exists systems host specs s l,
    fst (system_name no_re systems host (new_detsys $"gnu" false)) = Ok (Some s) /\
    fst (gexec no_re systems host envs1 conf1 specs gen1 GList (new_genconfig $"gnu" false)) = Ok (GOpts l) /\
    In $"ats10" (map fst systems) /\ s <> $"ats10" /\ In $"ats10_gnu_debug" l.
Proof.
  exists [($"ats1", [$"login"]); ($"ats10", [$"node"])], $"login1", [$"ats10_gnu_debug"], $"ats1". eexists.
  split; [vm_compute; reflexivity|]. split; [vm_compute; reflexivity|]. split; [right; now left|].
  split; [discriminate|now left].
Qed.
Print Assumptions C59_listed_for_other_system_refuted.

(** ** C60 *)

(** The canonical name of a configuration, used as a build name, gives itself. *)
Theorem C60_canonical_name_is_fixed :
  forall other_re systems hostname envs flags,
    NoDup (map fst systems) -> readable_keys other_re systems hostname ->
    forall s E T,
      env_describes envs s E -> valid_envs E -> describes flags T -> valid_table T ->
      apart systems s E T ->
      (forall b, readable_names other_re (flat_map snd E) b) ->
      forall build force c,
        system_of other_re systems hostname build force (Ok (Some s)) ->
        config_name other_re systems hostname envs flags build force c ->
        config_name other_re systems hostname envs flags c force c.
Proof. exact fixed_point. Qed.
Print Assumptions C60_canonical_name_is_fixed.

Definition systems2 : list (str * list str) := [($"m", [$"m1"])].
Definition envs2 := conf_of [($"m", [($"gnu", lines ["g"]); ($"openmp", None)])].
Definition flags2 := conf_of [($"configure-flags", [($"nodes", lines ["SELECT_ONE"; "openmp"; "serial"])])].
(** Not so if an option of the flags is called like an environment. *)
Theorem C60_overlapping_names_refuted :
  exists systems hostname envs flags build c c',
    config_name no_re systems hostname envs flags build false c /\
    config_name no_re systems hostname envs flags c false c' /\ c' <> c.
Proof.
  exists systems2, $"m1", envs2, flags2, $"g", $"m_gnu_openmp", $"m_openmp_openmp".
  split; [|split]; [| |discriminate].
  all: do 3 eexists; split; [vm_compute; reflexivity|]; split; [vm_compute; reflexivity|]; split; vm_compute; reflexivity.
Qed.
Print Assumptions C60_overlapping_names_refuted.

Definition systems3 : list (str * list str) := [($"machine-1", [$"m1-login.*"]); ($"machine-2", [$"m2"])].
Definition table3 : env_table := [($"intel-18-mpich", [$"intel-18"; $"intel"]); ($"gnu-8", [$"gnu"])].
Definition envs3 := conf_of [($"machine-1", [($"intel-18-mpich", lines ["intel-18"; "intel"]); ($"gnu-8", lines ["gnu"])])].
Ltac in_cases I := vm_compute in I; repeat (destruct I as [<-|I]; [|]); [..|destruct I].
Ltac not_in := let H := fresh in intros H; vm_compute in H; repeat (destruct H as [H|H]; [discriminate H|]); exact H.
Example C60_ex_apart : apart systems3 $"machine-1" table3 table1.
Proof.
  constructor.
  - split; [split; not_in|reflexivity].
  - intros n I. in_cases I; (split; [split; not_in|]; split; [split; [not_in|]|]; [|split; [discriminate|split; not_in]]).
    all: intros c J; apply ordinary_spec; in_cases J; vm_compute; reflexivity.
  - intros o I. in_cases I; (split; [discriminate|split; [split; not_in|split; [discriminate|not_in]]]).
Qed.
Example C60_ex :
  config_name no_re systems3 $"m1-login2" envs3 conf1 $"gnu_mpi_cuda" false $"machine-1_gnu-8_debug_static_cuda_mpi" /\
  config_name no_re systems3 $"m1-login2" envs3 conf1 $"machine-1_gnu-8_debug_static_cuda_mpi" false
    $"machine-1_gnu-8_debug_static_cuda_mpi".
Proof.
  split; do 3 eexists; (split; [vm_compute; reflexivity|]; split; [vm_compute; reflexivity|]; split; vm_compute; reflexivity).
Qed.
