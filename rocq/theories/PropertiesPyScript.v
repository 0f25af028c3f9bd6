(** * C64: the Python scripts that [SetEnvironment] writes.

    Statements and examples only. *)
From Coq Require Import String NArith ZArith List Bool.
Import ListNotations.
From Verif Require Import PyBase PyFacts Shlex IniView IniRead ExcControl Cpe EnvVar SetEnv PyScript SpecWalk SpecRun SpecEnv
  SpecSetEnv Samples SetEnvProofs SetEnvProofs2 SetEnvProofs3 PyScriptProofs PropertiesSetEnv.
Local Open Scope string_scope.
Local Open Scope list_scope.

(** ** C64 *)

(** Running the commands performs the recorded actions in order; the first
    exception ends it, and the numbers that the calls return are ignored (this
    is what [performs_all] says for level 0). *)
Theorem C64_python_script :
  forall which mods other_program uniword fs fuel header s l bang (o : sobj) text o',
    dget s (o_user o) = Some l -> Forall asked_action l -> Forall plain_action l ->
    generate_script uniword fs fuel header s false true bang $"python" o = (Ok text, o') ->
    forall e, exists r e', performs_all which mods 0 l 0 e r e' /\
      run_python which mods other_program text e = (match r with Ok _ => Ok tt | Err x => Err x end, e').
Proof. exact python_script. Qed.
Print Assumptions C64_python_script.

(** If [apply] returns, at any exception control level, the script can be
    generated and leaves the same environment in its process. *)
Theorem C64_script_does_what_apply_does :
  forall which mods other_program uniword fs fuel header other i s (o : sobj) d l e bang z w,
    has_file fs o i -> str_mem s (checked_of o) = true -> section_of o s = Some d ->
    dget s (o_user o) = Some l -> Forall asked_action l -> Forall plain_action l ->
    apply which mods other uniword fs fuel s (World o e) = (Ok z, w) ->
    exists text,
      generate_script uniword fs fuel header s false true bang $"python" o = (Ok text, o) /\
      run_python which mods other_program text e = (Ok tt, w_env w).
Proof. exact python_script_does_what_apply_does. Qed.
Print Assumptions C64_script_does_what_apply_does.

(** [apply] with section A of the file [l] in environment [e] gives [r1] and
    [e1]; the Python script of that section gives [r2] and [e2]. *)
Definition py_results (mods : list str -> environ -> res Z * environ) (l : list string) (e : environ)
  (r1 : res Z) (e1 : environ) (r2 : res unit) (e2 : environ) : Prop :=
  (exists o', apply no_programs mods no_other no_uni (disk l) 9 $"A" (World new_setenv e) = (r1, World o' e1)) /\
  exists text,
    fst (generate_script no_uni (disk l) 9 (fun _ => []) $"A" false true true $"python" new_setenv) = Ok text /\
    run_python no_programs mods (fun _ e => (Err (UserExc 1%N), e)) text e = (r2, e2).

(** A module command that fails stops [apply] at the standard level, not the
    script. *)
Theorem C64_module_failure_stops_script_refuted :
  py_results (returning 1) ["[A]"; "module-load gcc : 9"; "envvar-set CC : gcc"] []
    (Err RuntimeError) [] (Ok tt) [($"CC", $"gcc")].
Proof. split; [eexists; vm_compute; reflexivity|]. eexists. split; vm_compute; reflexivity. Qed.
Print Assumptions C64_module_failure_stops_script_refuted.

(** A value of two lines is not one line of Python: [apply] performs the actions
    before it; the script is one program, which is another one ([UserExc 1]
    stands for the [SyntaxError]). *)
Theorem C64_same_place_of_failure_refuted :
  py_results (returning 0) ["[A]"; "envvar-set X : 1"; "envvar-set Y : a"; "  b"] []
    (Err (UserExc 0%N)) [($"X", $"1")] (Err (UserExc 1%N)) [].
Proof. split; [eexists; vm_compute; reflexivity|]. eexists. split; vm_compute; reflexivity. Qed.
Print Assumptions C64_same_place_of_failure_refuted.

(** Section A of the sample file; a refused action. *)
Example C64_ex :
  py_results (returning 0) env_file [($"PATH", $"/bin")]
    (Ok 0%Z) [($"PATH", $"/opt/bin:/bin"); ($"OLD", $"/opt/bin:/bin")]
    (Ok tt) [($"PATH", $"/opt/bin:/bin"); ($"OLD", $"/opt/bin:/bin")] /\
  py_results (returning 0) ["[A]"; "envvar-set X : 1"; "envvar-assert-not-empty Y"; "envvar-set Z : 1"] []
    (Err ValueError) [($"X", $"1")] (Err ValueError) [($"X", $"1")].
Proof.
  split; (split; [eexists; vm_compute; reflexivity|]; eexists; split; vm_compute; reflexivity).
Qed.
