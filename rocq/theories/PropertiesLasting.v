(** * C102: options that have been answered stay. *)
From Coq Require Import String NArith ZArith List Bool.
Import ListNotations.
From Verif Require Import PyBase Shlex IniView IniRead ExcControl Debuggable Cpe SpecRun SpecApi
  Samples Reentrant LastingProofs LastingProofs2 SamplesReentrant SamplesNested SamplesLasting.
Local Open Scope list_scope.

(** ** C102 *)

(** For every class and every state of an object whose file can be read, also with
    sections that were given up half way: once [data[s]] has been answered it is answered
    after all further calls, whether or not those raise, and the answer has the same
    options in the same order, perhaps followed by others. *)
Theorem C102_answers_last :
  forall (Sh Us : Type) (K : pyclass Sh Us) fs i fuel h s (o : obj Sh Us) d,
    has_file fs o i -> fst (exec_op K fs fuel (OItem s) o) = Ok (RDict d) ->
    exists d' more,
      fst (exec_op K fs fuel (OItem s) (after K fs fuel h (snd (exec_op K fs fuel (OItem s) o)))) = Ok (RDict d') /\
      map fst d' = map fst d ++ more.
Proof. exact (fun Sh Us K fs i fuel h s o d => answers_last K fs i fuel h s o d). Qed.
Print Assumptions C102_answers_last.

(** The same with handlers that read sections while the parser is running; the further
    calls are parses and reads. *)
Theorem C102_reading_handlers :
  forall (Sh Us : Type) (R : rclass (Sh := Sh)) fs i fuel n m l s (o : obj Sh Us) d,
    has_file fs o i -> fst (r_read R fs fuel (S n) s o) = Ok d ->
    exists d' more,
      fst (r_read R fs fuel (S m) s (r_after R fs fuel m l (snd (r_read R fs fuel (S n) s o)))) = Ok d' /\
      map fst d' = map fst d ++ more.
Proof. exact (fun Sh Us R fs i fuel n m l s o d => reads_last R fs i fuel n m l s o d). Qed.
Print Assumptions C102_reading_handlers.

(** It need not be the same answer: there can be more options and other values, when the
    section was given up before and is parsed again at another level. *)
Theorem C102_same_refuted :
  ~ (forall (Sh Us : Type) (K : pyclass Sh Us) fs i fuel h s (o : obj Sh Us) d,
       has_file fs o i -> fst (exec_op K fs fuel (OItem s) o) = Ok (RDict d) ->
       fst (exec_op K fs fuel (OItem s) (after K fs fuel h (snd (exec_op K fs fuel (OItem s) o)))) = Ok (RDict d)).
Proof.
  intros H.
  assert (F : exists i, has_file (disk file102) given_up i) by (eexists; vm_compute; reflexivity). destruct F as [i F].
  assert (E : fst (exec_op base (disk file102) 9 (OItem $"A") given_up) = Ok (RDict [($"x", Some $"1")])) by (vm_compute; reflexivity).
  pose proof (H _ _ base (disk file102) i 9 [OLevel 4; OParse $"A"] $"A" given_up _ F E) as Q.
  assert (N : fst (exec_op base (disk file102) 9 (OItem $"A") (after base (disk file102) 9 [OLevel 4; OParse $"A"]
    (snd (exec_op base (disk file102) 9 (OItem $"A") given_up)))) = Ok (RDict [($"x", Some $"2"); ($"z", Some $"4"); ($"y", Some $"3")]))
    by (vm_compute; reflexivity).
  rewrite N in Q. discriminate Q.
Qed.
Print Assumptions C102_same_refuted.

Example C102_ex :
  exists i, has_file (disk file102) given_up i /\
  fst (exec_op base (disk file102) 9 (OItem $"A") given_up) = Ok (RDict [($"x", Some $"1")]) /\
  let o := snd (exec_op base (disk file102) 9 (OItem $"A") given_up) in
  fst (exec_op base (disk file102) 9 (OItem $"A") (after base (disk file102) 9 [OParse $"A"; OItem $"C"; OParseAll] o)) =
    Ok (RDict [($"x", Some $"1")]) /\
  fst (exec_op base (disk file102) 9 (OItem $"A") (after base (disk file102) 9 [OLevel 4; OParse $"A"] o)) =
    Ok (RDict [($"x", Some $"2"); ($"z", Some $"4"); ($"y", Some $"3")]).
Proof.
  eexists. split; [vm_compute; reflexivity|]. split; [vm_compute; reflexivity|]. cbv zeta. split; vm_compute; reflexivity.
Qed.

Example C102_ex_reading :
  has_file (disk file98) (fresh tt : obj shared unit) ini98 /\
  fst (r_read peek_class (disk file98) 7 5 $"A" (fresh tt : obj shared unit)) = Ok [($"x", Some $"1"); ($"y", Some $"2")] /\
  fst (r_read peek_class (disk file98) 7 5 $"A" (r_after peek_class (disk file98) 7 4 [RParse $"C"; RRead $"D"; RParse $"A"]
    (snd (r_read peek_class (disk file98) 7 5 $"A" (fresh tt : obj shared unit))))) = Ok [($"x", Some $"1"); ($"y", Some $"2")].
Proof. split; [vm_compute; reflexivity|]. split; vm_compute; reflexivity. Qed.
