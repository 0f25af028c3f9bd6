(** * Where the options that handlers are given come from. *)
From Coq Require Import String NArith ZArith List Bool.
Import ListNotations.
From Verif Require Import PyBase IniView Cpe SpecFile SpecWalk SpecParse Reentrant.

Section S.
Context {Sh : Type} (R : rclass (Sh := Sh)) (i : ini) (dname : str).

(** For what options mean it does not matter what the handlers would read. *)
Definition unread_class : pyclass Sh unit := told_class (fun _ => []) R.

(** A section from which [root] gets options has the option [k] with value [v], and it
    is not for a handler. *)
Definition origin (root k : str) (v : option str) : Prop :=
  exists sec items item op, contributes unread_class i dname root true sec /\
    section_shows i sec items /\ In item items /\ meaning unread_class sec item (MStep (Plain sec op k v)).

(** If the handler is given such options only, though perhaps not all of them, or an
    exception, then the shared dict satisfies [P] when it returns. *)
Inductive safe (P : Sh -> Prop) : hprog (Sh := Sh) -> Prop :=
| safe_return z sh : P sh -> safe P (HDone (Ok z) sh)
| safe_raise e sh : safe P (HDone (Err e) sh)
| safe_read s k : (forall d, (forall x v, In (x, v) d -> origin s x v) -> safe P (k (Ok d))) ->
    (forall e, safe P (k (Err e))) -> safe P (HRead s k).
End S.
