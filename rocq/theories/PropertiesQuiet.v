(** * C101: handlers that read sections do not make the parser run out of recursion. *)
From Coq Require Import String NArith ZArith List Bool Lia.
Import ListNotations.
From Verif Require Import PyBase PyFacts Shlex IniView IniRead ExcControl Debuggable Cpe SpecFile SpecWalk SpecRun SpecParse
  Samples ApiProofs Reentrant SpecSound SpecQuiet CalmProofs SamplesReentrant SamplesNested SamplesQuiet.
Local Open Scope list_scope.

(** ** C101 *)

(** Sections may [use] each other and be read by each other's handlers in any way, also in
    circles; only the default section must not lead to sections that are parsed. If the
    handlers do not themselves raise [RecursionError], then no read and no parse does,
    whatever was parsed and read before and however that ended. It is enough that [use]s
    can be nested three deeper, and reads one deeper, than there are sections. *)
Theorem C101_reads :
  forall (Sh Us : Type) (R : rclass (Sh := Sh)) fs i dname fuel depth l s (o : obj Sh Us),
    quiet_class R -> has_file fs o i -> o_defname o = dname ->
    (forall t, ini_has_section i t = true -> default_ok (unread_class R) i dname t true) ->
    length (ini_sections i) + 3 <= fuel -> length (ini_sections i) < depth -> parses_in i l ->
    fst (r_read R fs fuel depth s (r_after R fs fuel depth l o)) <> Err RecursionError.
Proof. exact (fun Sh Us R fs i dname fuel depth l s o => reads_end R fs i dname fuel depth l s o). Qed.
Print Assumptions C101_reads.

Theorem C101_parses :
  forall (Sh Us : Type) (R : rclass (Sh := Sh)) fs i dname fuel depth l s (o : obj Sh Us),
    quiet_class R -> has_file fs o i -> o_defname o = dname ->
    (forall t, ini_has_section i t = true -> default_ok (unread_class R) i dname t true) ->
    length (ini_sections i) + 3 <= fuel -> length (ini_sections i) < depth -> parses_in i l -> ini_has_section i s = true ->
    fst (r_parse R fs fuel depth s (r_after R fs fuel depth l o)) <> Err RecursionError.
Proof. exact (fun Sh Us R fs i dname fuel depth l s o => parses_end R fs i dname fuel depth l s o). Qed.
Print Assumptions C101_parses.

(** Four sections: three use each other in a circle, and all read others or themselves. *)
Example C101_ex :
  quiet_class peek_class /\ has_file (disk file101) (fresh tt : obj shared unit) ini101 /\ length (ini_sections ini101) = 4 /\
  (forall t, ini_has_section ini101 t = true -> default_ok (unread_class peek_class) ini101 $"DEFAULT" t true) /\
  fst (r_parse peek_class (disk file101) 7 5 $"A" (fresh tt : obj shared unit)) =
    Ok [[($"d", Some $"0")];
        [($"d", Some $"0"); ($"x", Some $"1"); ($"y", Some $"2"); ($"z", Some $"3")];
        [($"d", Some $"0"); ($"x", Some $"1"); ($"z", Some $"3")];
        [($"d", Some $"0"); ($"x", Some $"1"); ($"z", Some $"3"); ($"y", Some $"2")]] /\
  (** when the default section uses the section that is parsed, there is no end *)
  fst (r_parse peek_class (disk file101b) 30 30 $"A" (fresh tt : obj shared unit)) = Err RecursionError.
Proof.
  split; [apply peek_quiet|]. split; [vm_compute; reflexivity|]. split; [vm_compute; reflexivity|]. split.
  - assert (S : ini_sections ini101 = [$"DEFAULT"; $"A"; $"B"; $"C"]) by (vm_compute; reflexivity).
    intros t H. apply in_sections in H. rewrite S in H. destruct H as [<-|[<-|[<-|[<-|[]]]]]; [intros _ _ X; contradiction| | |];
    (apply (default_ok_check _ _ [$"DEFAULT"]); vm_compute; reflexivity).
  - split; vm_compute; reflexivity.
Qed.
