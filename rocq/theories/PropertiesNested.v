(** * C98: reads of handlers that lead to further reads come to an end. *)
From Coq Require Import String NArith ZArith List Bool Lia.
Import ListNotations.
From Verif Require Import PyBase Shlex IniView IniRead ExcControl Debuggable Cpe SpecRun
  Samples Reentrant SpecNested NestedProofs SamplesReentrant SamplesNested.
Local Open Scope list_scope.

(** ** C98 *)

(** Whatever the handlers of a class read, and when: reads are nested no deeper than the
    number of sections in the file. What would be done ([beyond]) if they were one level
    deeper is never done, whether a section is read or parsed. *)
Theorem C98_reads :
  forall (Sh Us : Type) (R : rclass (Sh := Sh)) fs i fuel n beyond levels s (o : obj Sh Us),
    has_file fs o i -> length (ini_sections i) < n -> length (ini_sections i) < levels ->
    nested_read R fs beyond fuel levels s o = r_read R fs fuel n s o.
Proof. exact (fun Sh Us R fs i fuel n beyond levels s o => read_bounded R fs i fuel n beyond levels s o). Qed.
Print Assumptions C98_reads.

Theorem C98_parses :
  forall (Sh Us : Type) (R : rclass (Sh := Sh)) fs i fuel n beyond levels s (o : obj Sh Us),
    has_file fs o i -> length (ini_sections i) < n -> length (ini_sections i) < levels ->
    nested_parse R fs beyond fuel levels s o = r_parse R fs fuel n s o.
Proof. exact (fun Sh Us R fs i fuel n beyond levels s o => parse_bounded R fs i fuel n beyond levels s o). Qed.
Print Assumptions C98_parses.

(** This stays so after any parses and reads: the object still has its file, and is the
    same whatever the limit is. *)
Theorem C98_history :
  forall (Sh Us : Type) (R : rclass (Sh := Sh)) fs i fuel n m l (o : obj Sh Us),
    length (ini_sections i) < n -> length (ini_sections i) < m -> has_file fs o i ->
    r_after R fs fuel n l o = r_after R fs fuel m l o /\ has_file fs (r_after R fs fuel n l o) i.
Proof. exact (fun Sh Us R fs i fuel n m l o L M => after_levels R fs i fuel n m l L M o). Qed.
Print Assumptions C98_history.

(** Three sections that look at each other in a circle, the first also at itself. *)
Example C98_ex :
  has_file (disk file98) (fresh tt : obj shared unit) ini98 /\ length (ini_sections ini98) = 3 /\
  (forall beyond, fst (nested_parse peek_class (disk file98) beyond 7 4 $"A" (fresh tt : obj shared unit)) =
     Ok [[($"y", Some $"3")]; [($"x", Some $"1")]]) /\
  (** with fewer levels it would be otherwise *)
  fst (nested_parse peek_class (disk file98) (fun _ => raise RecursionError) 7 2 $"A" (fresh tt : obj shared unit)) = Err RecursionError.
Proof.
  split; [vm_compute; reflexivity|]. split; [vm_compute; reflexivity|].
  split; [intros beyond; vm_compute; reflexivity|]. vm_compute. reflexivity.
Qed.
