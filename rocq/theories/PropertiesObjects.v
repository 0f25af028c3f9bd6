(** * Property C88: the objects of the programs read their files through parsers
    that cache; they answer as if each file were a table. *)
From Coq Require Import String NArith ZArith List Bool.
Import ListNotations.
From Verif Require Import PyBase EnvVar Regex IniView IniRead ExcControl Cpe SpecWalk SpecRun SpecParse SpecApi Samples SamplesApi
  Keyword DetSys EnvKeyword LoadEnv TopLevel FileObjects SpecFlags SpecLoadEnv SpecObjects ObjectProofs3.
Local Open Scope string_scope.
Local Open Scope list_scope.

(** A file whose sections can be parsed has one table of options and one list of
    sections with keys. *)
Theorem C88_tables :
  forall uniword fs fuel file i, readable uniword fs fuel file i ->
    (exists conf, table_of uniword i conf) /\ (exists systems, keys_of uniword i systems).
Proof. exact tables_exist. Qed.
Print Assumptions C88_tables.
Theorem C88_tables_unique :
  forall uniword fs fuel file i conf conf' systems systems', readable uniword fs fuel file i ->
    (table_of uniword i conf -> table_of uniword i conf' -> forall s, conf s = conf' s) /\
    (keys_of uniword i systems -> keys_of uniword i systems' -> systems = systems').
Proof. exact tables_unique. Qed.
Print Assumptions C88_tables_unique.

(** [ConfigKeywordParser]: the constructor, and any calls on the new object. *)
Theorem C88_flags :
  forall uniword fs fuel file i conf build, readable uniword fs fuel file i -> table_of uniword i conf ->
    match f_new_ckp uniword fs fuel file build, new_ckp conf build with
    | Ok p, Ok k => forall h, replies (fkexec uniword fs fuel) h p = replies (kexec conf) h k
    | Err e, Err e' => e = e'
    | _, _ => False
    end.
Proof. exact flags_object. Qed.
Print Assumptions C88_flags.

(** [EnvKeywordParser] *)
Theorem C88_environment :
  forall uniword fs fuel other_re file i conf build system, readable uniword fs fuel file i -> table_of uniword i conf ->
    match f_new_ekp uniword fs fuel file build system, new_ekp conf build system with
    | Ok p, Ok k => snd p = k /\
        forall n, replies (fun _ => f_qualified_env_name uniword fs fuel other_re) (repeat tt n) p
                = replies (fun _ => qualified_env_name other_re conf) (repeat tt n) k
    | Err e, Err e' => e = e'
    | _, _ => False
    end.
Proof. exact env_object. Qed.
Print Assumptions C88_environment.

(** [DetermineSystem] *)
Theorem C88_system :
  forall uniword fs fuel other_re hostname file i systems build force,
    readable uniword fs fuel file i -> keys_of uniword i systems ->
    forall n, replies (fun _ => f_system_name uniword fs fuel other_re hostname) (repeat tt n) (f_new_detsys file build force)
            = replies (fun _ => system_name other_re systems hostname) (repeat tt n) (new_detsys build force).
Proof. exact system_object. Qed.
Print Assumptions C88_system.

(** [LoadEnv] *)
Theorem C88_load_env :
  forall uniword fs fuel other_re hostname sfile efile is ie systems envs build force,
    readable uniword fs fuel sfile is -> readable uniword fs fuel efile ie ->
    keys_of uniword is systems -> table_of uniword ie envs ->
    forall h, replies (flexec uniword fs fuel other_re hostname sfile efile) h (f_new_loadenv efile build force)
            = replies (lexec other_re systems hostname envs) h (new_loadenv build force).
Proof. exact load_object. Qed.
Print Assumptions C88_load_env.

(** [GenConfig] *)
Theorem C88_gen_config :
  forall uniword fs fuel other_re hostname sfile efile ffile is ie jf systems envs flags specs gen build force,
    readable uniword fs fuel sfile is -> readable uniword fs fuel efile ie -> readable uniword fs fuel ffile jf ->
    keys_of uniword is systems -> table_of uniword ie envs -> table_of uniword jf flags ->
    forall h, replies (fgexec uniword fs fuel other_re hostname sfile efile ffile specs gen) h
                (f_new_genconfig efile ffile build force)
            = replies (gexec other_re systems hostname envs flags specs gen) h (new_genconfig build force).
Proof. exact gen_object. Qed.
Print Assumptions C88_gen_config.

(** A section that cannot be parsed, or a file that is not there, is an error only
    the first time: a [DetermineSystem] object that is asked again says something
    else. *)
Definition no_other (p s : str) : res bool := Err ValueError.
Definition bad_disk (f : str) : option str :=
  if str_eqb f $"systems.ini" then Some (file_of ["[m1]"; "use missing:"; "m1-.*:"; "[m2]"; "m1-login.*:"]) else None.
Theorem C88_unparsable_refuted :
  exists fs fuel hostname,
    replies (fun _ => f_system_name no_uni fs fuel no_other hostname) [tt; tt] (f_new_detsys $"systems.ini" $"gnu" false)
    = [Err KeyError; Ok (Some $"m2")].
Proof. exists bad_disk, 20, $"m1-login7". vm_compute. reflexivity. Qed.
Print Assumptions C88_unparsable_refuted.
Theorem C88_missing_file_refuted :
  exists fs fuel hostname,
    fs $"systems.ini" = None /\
    replies (fun _ => f_system_name no_uni fs fuel no_other hostname) [tt; tt] (f_new_detsys $"systems.ini" $"gnu" false)
    = [Err IOError; Err SystemExit].
Proof. exists (fun _ => None), 20, $"m1-login7". split; vm_compute; reflexivity. Qed.
Print Assumptions C88_missing_file_refuted.

(** Three files with [use] and comments; the environments of two machines share a
    section. *)
Definition three (f : str) : option str :=
  if str_eqb f $"systems.ini" then Some (file_of ["[m1]"; "m1-.*:"; "[m2]"; "use m1:"; "m2-login[0-9] # the login nodes"; "m2-login7"])
  else if str_eqb f $"envs.ini" then Some (file_of
    ["[common]"; "gnu-8:"; "    gnu  # the usual one"; "[m1]"; "use common:"; "intel-19.0.4:"; "    intel-19"; "    intel";
     "[m2]"; "use common:"; "use m1:"; "gnu-8: gnu-8.2"])
  else if str_eqb f $"flags.ini" then Some (file_of
    ["[configure-flags]"; "use 'more flags':"; "use-mpi: SELECT_ONE"; "  mpi"; "  no-mpi";
     "[more flags]"; "kokkos: SELECT_MANY"; "  serial  # the default"; "  openmp"; "  cuda"])
  else None.
Ltac is_readable :=
  split; [vm_compute; reflexivity|]; split; [apply PeanoNat.Nat.leb_le; vm_compute; reflexivity|];
  apply (all_parsable_check _ _ _ [$"DEFAULT"]); vm_compute; reflexivity.
Example C88_ex_readable : exists is ie jf,
  readable no_uni three 20 $"systems.ini" is /\ readable no_uni three 20 $"envs.ini" ie /\
  readable no_uni three 20 $"flags.ini" jf.
Proof. do 3 eexists. split; [is_readable|]. split; is_readable. Qed.
Example C88_ex_load_env :
  replies (flexec no_uni three 20 no_other $"m1-login7" $"systems.ini" $"envs.ini")
    [LParsed; LSystem; LStripped; LName $"gnu_m1_cuda"; LParsed; LStripped; LName $"none"; LParsed; LName $"m2_intel"; LSystem]
    (f_new_loadenv $"envs.ini" $"intel-19_no-mpi" false)
  = [Ok $"m1_intel-19.0.4"; Ok $"m1"; Ok $"no-mpi"; Ok $"gnu_m1_cuda"; Ok $"m1_gnu-8"; Ok $"cuda"; Ok $"none"; Err SystemExit;
     Ok $"m2_intel"; Err SystemExit].
Proof. vm_compute. reflexivity. Qed.
Example C88_ex_gen_config :
  replies (fgexec no_uni three 20 no_other $"m1-login7" $"systems.ini" $"envs.ini" $"flags.ini"
             [$"m1_gnu-8_cuda_serial_mpi"; $"BASE"; $"m1_intel-19.0.4_openmp_no-mpi"] (fun c => Ok [c]))
    [GConfig; GFlags; GConfig; GList] (f_new_genconfig $"envs.ini" $"flags.ini" $"intel_openmp_no-mpi" false)
  = [Ok (GStr $"m1_intel-19.0.4_openmp_no-mpi"); Ok (GOpts [$"m1_intel-19.0.4_openmp_no-mpi"]);
     Ok (GStr $"m1_intel-19.0.4_openmp_no-mpi"); Ok (GOpts [$"m1_gnu-8_cuda_serial_mpi"; $"m1_intel-19.0.4_openmp_no-mpi"])].
Proof. vm_compute. reflexivity. Qed.
Example C88_ex_objects :
  match f_new_ckp no_uni three 20 $"flags.ini" $"x_openmp_serial" with
  | Ok p => replies (fkexec no_uni three 20) [KString; KName $"no-mpi_mpi"; KString; KDefault $"serial"; KName $"cuda"; KString] p
            = [Ok (AStr $"_openmp_serial_mpi"); Ok ANone; Err ValueError; Ok (ABool true); Ok ANone; Ok (AStr $"_cuda_mpi")]
  | Err _ => False
  end /\
  f_new_ekp no_uni three 20 $"envs.ini" $"gnu" $"m3" = Err KeyError /\
  match f_new_ekp no_uni three 20 $"envs.ini" $"gnu-8.2_debug" $"m2" with
  | Ok p => fst (f_qualified_env_name no_uni three 20 no_other p) = Ok $"m2_gnu-8"
  | Err _ => False
  end.
Proof. vm_compute. repeat split. Qed.
