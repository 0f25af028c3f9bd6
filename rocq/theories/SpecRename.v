(** * Files that differ in the names of their sections. *)
From Coq Require Import String NArith List Bool.
Import ListNotations.
From Verif Require Import PyBase IniView Cpe SpecFile SpecWalk SpecParse SpecApi.

Section R.
Context {Sh Us : Type} (K : pyclass Sh Us) (rho : str -> str).

(** The same option, or one that uses the section under its new name. *)
Inductive item_renamed (s : str) : str * res (option str) -> str * res (option str) -> Prop :=
| ir_same item e : meaning K s item (MStep e) -> item_renamed s item item
| ir_use item item' t h k v h' k' v' :
    meaning K s item (MUse t h k v) -> meaning K (rho s) item' (MUse (rho t) h' k' v') -> h_op h' = h_op h ->
    item_renamed s item item'.

(** Section [s] of the first file is section [rho s] of the second. *)
Definition renamed_file (i i' : ini) : Prop :=
  (forall a b, rho a = rho b -> a = b) /\ (forall s, rho s = [] -> s = []) /\
  (forall s, ini_has_section i' (rho s) = ini_has_section i s) /\
  (forall u, ini_has_section i' u = true -> exists s, u = rho s) /\
  (forall s items, section_shows i s items -> exists items', section_shows i' (rho s) items' /\ Forall2 (item_renamed s) items items') /\
  (forall s, present i' (rho s) -> present i s).

(** The handlers of the class make no other difference between the names. *)
Definition params_renamed (hp : hparams) : hparams :=
  Hp (rho (hp_root hp)) (hp_raw hp) (hp_op hp) (hp_params hp) (hp_value hp) (hp_name hp).
Definition follows (f : hbody Sh Us) : Prop := forall s hp sh us, f (rho s) (params_renamed hp) sh us = f s hp sh us.
Definition class_follows : Prop := forall name kind f, find_attr K name = Some (AUser kind f) -> follows f.

(** The calls about one section, under its new name. *)
Inductive call_renamed : op -> op -> Prop :=
| cr_parse s : call_renamed (OParse s) (OParse (rho s))
| cr_item s : call_renamed (OItem s) (OItem (rho s))
| cr_options s : call_renamed (OOptions s) (OOptions (rho s))
| cr_get s k : call_renamed (OGet s k) (OGet (rho s) k)
| cr_has_section s : call_renamed (OHasSection s) (OHasSection (rho s))
| cr_has_option s k : call_renamed (OHasOption s k) (OHasOption (rho s) k)
| cr_items_of s : call_renamed (OItemsOf s) (OItemsOf (rho s)).
End R.
