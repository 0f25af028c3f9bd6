(** * Files that agree where it matters. *)
From Coq Require Import String NArith List Bool.
Import ListNotations.
From Verif Require Import PyBase IniView Cpe SpecFile SpecWalk SpecParse.

Section L.
Context {Sh Us : Type} (K : pyclass Sh Us).
(** The same defaults, and the same text for every section that a parse of [s] in the
    first file comes to (and for the default section [dname], if it is to be read). *)
Definition agree_for (i i' : ini) (dname s : str) (init : bool) : Prop :=
  i_defname i = i_defname i' /\ i_defs i = i_defs i' /\
  (forall u, contributes K i dname s init u -> dget u (i_secs i) = dget u (i_secs i')) /\
  (init = true -> dget dname (i_secs i) = dget dname (i_secs i')).
End L.

(** ** Pasting *)

Section P.
Context {Sh Us : Type} (K : pyclass Sh Us).
(** In the second file the options that [b] shows stand in section [a] in the place of
    an option that says [use b]; nothing else is different. *)
Definition pasted (i i' : ini) (a b : str) : Prop :=
  ini_sections i = ini_sections i' /\
  (exists before item rest more h k v,
     section_shows i a (before ++ item :: rest) /\ meaning K a item (MUse b h k v) /\ section_shows i b more /\
     section_shows i' a (before ++ more ++ rest)) /\
  (forall u, u <> a -> forall items, section_shows i u items <-> section_shows i' u items).

(** No operation has two handlers. *)
Definition unambiguous : Prop :=
  forall op, has_attr K (public_name op) = None \/ has_attr K (private_name op) = None.
(** The handlers that are called for options do not look at the section the option is
    written in. *)
Definition blind (f : hbody Sh Us) : Prop := forall s s' hp sh us, f s hp sh us = f s' hp sh us.
Definition calls_blind (i : ini) (dname s : str) (init : bool) : Prop :=
  forall u items item h kind f k v, contributes K i dname s init u -> section_shows i u items -> In item items ->
    meaning K u item (MStep (Call u h kind f k v)) -> blind f.
End P.
