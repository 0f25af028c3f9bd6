(** * Where the options in answers come from, whatever happened before. *)
From Coq Require Import String NArith ZArith List Bool.
Import ListNotations.
From Verif Require Import PyBase IniView Cpe SpecFile SpecWalk SpecParse SpecApi.

Section S.
Context {Sh Us : Type} (K : pyclass Sh Us) (i : ini) (dname : str).

(** A section from which [root] gets options has the option [k] with value [v], and it
    is not for a handler. *)
Definition written_for (root k : str) (v : option str) : Prop :=
  exists sec items item op, contributes K i dname root true sec /\
    section_shows i sec items /\ In item items /\ meaning K sec item (MStep (Plain sec op k v)).
Definition all_written (root : str) (d : dict (option str)) : Prop := forall k v, In (k, v) d -> written_for root k v.

(** What a call may answer. *)
Definition truthful (c : op) (a : answer) : Prop :=
  match c, a with
  | (OItem s | OOptions s | OItemsOf s | OGet s None), RDict d => all_written s d
  | OGet s (Some k), RValue v => written_for s k v
  | OHasOption s k, RBool true => exists v, written_for s k v
  | OItems, RData l => forall s d, dget s l = Some d -> all_written s d
  | _, _ => True
  end.
End S.
