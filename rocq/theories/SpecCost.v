(** * How often handlers are called. *)
From Coq Require Import String NArith ZArith List Bool.
Import ListNotations.
From Verif Require Import PyBase Cpe.

(** A class whose handler for [note] counts its calls. *)
Definition count_body : hbody unit N := fun _ _ sh us => (Ok (Some 0%Z), sh, (us + 1)%N).
Definition count_class (uniword : pychar -> bool) : pyclass unit N :=
  PyClass [($"handler_note", AUser Decorated count_body)] tt uniword.

(** A file of [3 * n + 2] lines; each section but the last uses the next one twice:
<<
    [aaa]
    use aa
    use aa again
    [aa]
    use a
    use a again
    [a]
    note
>> *)
Definition name (k : nat) : str := repeat 97%N (S k).
Fixpoint tower (n : nat) : list str :=
  match n with
  | O => [$"[a]"; $"note"]
  | S m => ($"[" ++ name n ++ $"]") :: ($"use " ++ name m) :: ($"use " ++ name m ++ $" again") :: tower m
  end.
