(** * Handlers that do not themselves end in [RecursionError]. *)
From Coq Require Import String NArith ZArith List Bool.
Import ListNotations.
From Verif Require Import PyBase IniView Cpe Reentrant.

Section S.
Context {Sh : Type}.

(** The handler does not raise [RecursionError] unless one of its reads did. *)
Inductive quiet : hprog (Sh := Sh) -> Prop :=
| quiet_done r sh : r <> Err RecursionError -> quiet (HDone r sh)
| quiet_read s k : (forall r, r <> Err RecursionError -> quiet (k r)) -> quiet (HRead s k).
Definition quiet_class (R : rclass (Sh := Sh)) : Prop :=
  forall name k f, dget name (rk_over R) = Some (RUser k f) -> forall sec hp sh, quiet (f sec hp sh).

(** The sections that are parsed, not read, are in the file. *)
Definition parses_in (i : ini) (l : list rcall) : Prop := forall s, In (RParse s) l -> ini_has_section i s = true.
End S.
