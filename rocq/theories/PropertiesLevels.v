(** * C83, C84: what the debug level and the exception control level change.

    Statements and examples only. A history is a list of calls, [replies h o] what
    they return or raise and the object afterwards ([SpecLevels.v]). *)
From Coq Require Import String NArith ZArith List Bool.
Import ListNotations.
From Verif Require Import PyBase Shlex IniView IniRead ExcControl Debuggable Cpe SpecRun SpecApi SpecLevels
  Samples LevelsProofs.
Local Open Scope Z_scope.

(** A cycle, and an option nobody handles. *)
Definition file9 : list string :=
  ["[A]"; "x : 1"; "use B"; "[B]"; "y : 2"; "use A"; "[C]"; "z : 3"]%string.

(** ** C83 *)

(** Two objects that differ in debug level and log give the same replies to any
    calls, exceptions included, print the same, and still differ in these only. *)
Theorem C83_debug_level :
  forall (Sh Us : Type) (K : pyclass Sh Us) fs fuel h (o o' : obj Sh Us),
    same_but_debug o o' ->
    fst (replies K fs fuel h o') = fst (replies K fs fuel h o) /\
    same_but_debug (snd (replies K fs fuel h o)) (snd (replies K fs fuel h o')).
Proof. exact (@debug_sim). Qed.
Print Assumptions C83_debug_level.

(** Assignments to [debug_level] may be taken out of a history: the other calls
    get the same replies. *)
Theorem C83_debug_calls :
  forall (Sh Us : Type) (K : pyclass Sh Us) fs fuel h (o o' : obj Sh Us),
    same_but_debug o o' ->
    fst (replies K fs fuel (undebugged h) o') = replies_to h (fst (replies K fs fuel h o)) /\
    same_but_debug (snd (replies K fs fuel h o)) (snd (replies K fs fuel (undebugged h) o')).
Proof. exact (@undebugged_sim). Qed.
Print Assumptions C83_debug_calls.

Example C83_ex :
  let h := [CApi (ODebug 3); CApi (OItem $"A"); CApi (ODebug 0); CParse (Some $"Z") true true; CApi OAssertFile] in
  let o := fresh tt : obj unit unit in
  let '(l, o1) := replies base (disk file9) 9 h o in
  l = [Ok (ReplyApi RDone); Ok (ReplyApi (RDict [($"x", Some $"1"); ($"y", Some $"2")]));
       Ok (ReplyApi RDone); Err KeyError; Err ValueError] /\
  undebugged h = [CApi (OItem $"A"); CParse (Some $"Z") true true; CApi OAssertFile] /\
  replies_to h l = [nth 1 l (Err KeyError); Err KeyError; Err ValueError] /\
  o_log (snd (replies base (disk file9) 9 [CApi (ODebug 3); CApi (OItem $"C")] o)) <>
  o_log (snd (replies base (disk file9) 9 [CApi (OItem $"C")] o)).
Proof. vm_compute. repeat split; try reflexivity. discriminate. Qed.

(** ** C84 *)

(** Calls that succeed at some exception control level succeed with the same
    replies at every lower one, and leave the same contents. *)
Theorem C84_lenient :
  forall (Sh Us : Type) (K : pyclass Sh Us) fs fuel h (o o' : obj Sh Us),
    same_contents o o' -> level_ok o -> level_ok o' -> level_of o' <= level_of o ->
    succeeded (fst (replies K fs fuel h o)) ->
    fst (replies K fs fuel h o') = fst (replies K fs fuel h o) /\
    same_contents (snd (replies K fs fuel h o)) (snd (replies K fs fuel h o')).
Proof. exact (@lenient_all). Qed.
Print Assumptions C84_lenient.

(** A higher level only turns warnings into exceptions: calls that succeed without
    a warning, at a level at which warnings are printed, succeed with the same
    replies at every level. *)
Theorem C84_strict :
  forall (Sh Us : Type) (K : pyclass Sh Us) fs fuel h (o o' : obj Sh Us),
    same_contents o o' -> level_ok o -> level_ok o' ->
    1 <= level_of o -> ec_silent (o_ec o) = false ->
    succeeded (fst (replies K fs fuel h o)) -> warnings (snd (replies K fs fuel h o)) = warnings o ->
    fst (replies K fs fuel h o') = fst (replies K fs fuel h o) /\
    same_contents (snd (replies K fs fuel h o)) (snd (replies K fs fuel h o')).
Proof. exact (@strict_all). Qed.
Print Assumptions C84_strict.

(** The cycle: an exception at level 5, a warning at level 4, nothing at level 0. *)
Definition at_level (z : Z) : obj unit unit :=
  set_ec (ec_set_level z (o_ec (fresh tt : obj unit unit))) (fresh tt).
Example C84_ex :
  same_contents (at_level 4) (at_level 0) /\ same_contents (at_level 4) (at_level 5) /\
  succeeded (fst (replies base (disk file9) 9 [CApi (OItem $"A")] (at_level 4))) /\
  fst (replies base (disk file9) 9 [CApi (OItem $"A")] (at_level 5)) = [Err ValueError] /\
  length (warnings (snd (replies base (disk file9) 9 [CApi (OItem $"A")] (at_level 4)))) = 1%nat /\
  warnings (snd (replies base (disk file9) 9 [CApi (OItem $"A")] (at_level 0))) = [] /\
  fst (replies base (disk file9) 9 [CApi (OItem $"A")] (at_level 0)) =
    [Ok (ReplyApi (RDict [($"x", Some $"1"); ($"y", Some $"2")]))].
Proof.
  split; [repeat split|]. split; [repeat split|].
  split; [|repeat split; vm_compute; reflexivity].
  intros r H. vm_compute in H. destruct H as [<-|[]]. eexists; reflexivity.
Qed.
Example C84_ex_quiet :
  let h := [CApi (OItem $"C"); CSet $"C" $"k" None; CApi (OUnroll (Some $"C") true)] in
  succeeded (fst (replies base (disk file9) 9 h (at_level 4))) /\
  warnings (snd (replies base (disk file9) 9 h (at_level 4))) = warnings (at_level 4) /\
  fst (replies base (disk file9) 9 h (at_level 5)) =
    [Ok (ReplyApi (RDict [($"z", Some $"3")])); Ok ReplyUnit;
     Ok (ReplyApi (RText ($"[C]" ++ newline ++ $"z : 3" ++ newline ++ $"k :" ++ newline)))].
Proof.
  split; [|split; vm_compute; reflexivity].
  intros r H. vm_compute in H. repeat (destruct H as [<-|H]; [eexists; reflexivity|]). destruct H.
Qed.
