(** * C100: no answer has an option that is not in the file. *)
From Coq Require Import String NArith ZArith List Bool.
Import ListNotations.
From Verif Require Import PyBase Shlex IniView IniRead ExcControl Debuggable Cpe SpecFile SpecWalk SpecRun SpecParse SpecApi
  Samples SpecTruth TruthProofs SamplesTruth.
Local Open Scope list_scope.

(** ** C100 *)

(** For every class, every file that can be read, whether or not its sections can be
    parsed, and after all calls, whether or not they raised: an option in an answer is in
    the file, in the section that was asked for, in one that it uses, or in the default
    section or one that it uses, with the value of the answer, and no handler is for it. *)
Theorem C100_answers :
  forall (Sh Us : Type) (K : pyclass Sh Us) fs i dname fuel h c (o : obj Sh Us) a,
    has_file fs o i -> o_defname o = dname -> o_edata o = None ->
    fst (exec_op K fs fuel c (after K fs fuel h o)) = Ok a -> truthful K i dname c a.
Proof. exact (fun Sh Us K fs i dname fuel h c o a => history_truthful K fs i dname fuel h c o a). Qed.
Print Assumptions C100_answers.

(** In the file only the options before the defect can be found. *)
Example C100_ex :
  exists i, has_file (disk file100) (fresh tt : obj unit unit) i /\
  let o := after base (disk file100) 9 [OParseAll; OItem $"B"; OParse $"B"] (fresh tt) in
  fst (exec_op base (disk file100) 9 OParseAll (fresh tt)) = Err KeyError /\
  fst (exec_op base (disk file100) 9 (OItem $"A") o) = Ok (RDict [($"w", Some $"0"); ($"x", Some $"1")]) /\
  fst (exec_op base (disk file100) 9 (OItem $"B") o) = Ok (RDict [($"w", Some $"0"); ($"x", Some $"1")]) /\
  fst (exec_op base (disk file100) 9 (OHasOption $"B" $"y") o) = Ok (RBool false).
Proof.
  eexists. split; [vm_compute; reflexivity|]. cbv zeta.
  split; [vm_compute; reflexivity|]. split; [vm_compute; reflexivity|]. split; vm_compute; reflexivity.
Qed.
