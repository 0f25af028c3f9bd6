(** * Vocabulary of the operations properties. *)
From Coq Require Import String NArith List Bool.
Import ListNotations.
From Verif Require Import PyBase IniView Cpe SpecWalk.

(** An operation as [get_known_operations] writes it. *)
Definition dashed (w : str) : str := map (fun c => if N.eqb c 95 then 45%N else c) w.

Section O.
Context {Sh Us : Type} (K : pyclass Sh Us).

(** The attribute is a bound method. *)
Definition bound_method (name : str) : Prop :=
  find_attr K name = Some AUse \/ exists f, find_attr K name = Some (AUser Decorated f) \/ find_attr K name = Some (AUser Cpe.Plain f).

(** Attribute names are identifiers: no dash in them. *)
Definition identifiers : Prop := forall n, find_attr K n <> None -> ~ In 45%N n.

(** Whatever is found under a handler's name is a method. *)
Definition only_methods : Prop := forall op n, n = public_name op \/ n = private_name op ->
  has_attr K n <> None -> bound_method n.

(** The class has something to run for the operation. *)
Definition has_handler (op : str) : Prop :=
  has_attr K (public_name op) <> None \/ has_attr K (private_name op) <> None.
End O.
