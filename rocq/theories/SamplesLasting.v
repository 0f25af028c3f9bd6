(** * A section that uses itself, for the examples. *)
From Coq Require Import String NArith ZArith List Bool.
Import ListNotations.
From Verif Require Import PyBase Shlex IniView IniRead ExcControl Debuggable Cpe Samples SpecApi.

Definition file102 : list string := ["[A]"; "x : 1"; "use A"; "use B"; "y : 3"; "[B]"; "x : 2"; "z : 4"]%string.
(** After a parse of [A] that was given up at its cycle. *)
Definition given_up : obj unit unit := after base (disk file102) 9 [OLevel 5; OParse $"A"] (fresh tt).
