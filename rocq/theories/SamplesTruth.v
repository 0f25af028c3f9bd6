(** * A file with a defect, for the example. *)
From Coq Require Import String List.
Import ListNotations.
From Verif Require Import PyBase Samples.

(** [A] cannot be parsed, [B] neither; the options before the defect are there. *)
Definition file100 : list string :=
  ["[DEFAULT]"; "w : 0"; "[A]"; "x : 1"; "use NOWHERE"; "y : 2"; "[B]"; "use A"; "z : 3"]%string.
