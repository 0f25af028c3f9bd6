(** * What is seen of a value that can change: a tree, and the lists it is made of. *)
From Coq Require Import List Arith.
Import ListNotations.
From Verif Require Import PyBase Sharing.

Inductive tree := TAtom (a : atom) | TList (l : list tree).

(** What [v] looks like. *)
Inductive reads (h : heap) : hval -> tree -> Prop :=
| reads_atom a : reads h (HAtom a) (TAtom a)
| reads_list a items l : nth_error h a = Some items -> reads_all h items l -> reads h (HRef a) (TList l)
with reads_all (h : heap) : list hval -> list tree -> Prop :=
| reads_nil : reads_all h [] []
| reads_cons v t items l : reads h v t -> reads_all h items l -> reads_all h (v :: items) (t :: l).

(** The lists that can be got at from [v]. *)
Inductive reach (h : heap) : hval -> nat -> Prop :=
| reach_here a : reach h (HRef a) a
| reach_item a items v b : nth_error h a = Some items -> In v items -> reach h v b -> reach h (HRef a) b.

(** How deep a tree is. *)
Fixpoint depth (t : tree) : nat :=
  match t with
  | TAtom _ => 0
  | TList l => S (fold_right (fun t n => Nat.max (depth t) n) 0 l)
  end.

(** The value of the property of object [o]. *)
Definition value_of (w : hworld) (o : nat) (v : hval) : Prop :=
  exists p, nth_error (w_objs w) o = Some p /\ p_var p = Some v.

(** The lists that can be got at from the variables and from the objects other
    than those in [hidden]. *)
Definition in_use (hidden : nat -> Prop) (w : hworld) (a : nat) : Prop :=
  (exists x, reach (w_heap w) (w_vars w x) a) \/
  (exists o v, ~ hidden o /\ value_of w o v /\ reach (w_heap w) v a).
Definition nobody (o : nat) : Prop := False.
Definition only (o : nat) : nat -> Prop := fun o' => o' = o.

(** A program that does not touch the property of object [o]. *)
Definition leaves (o : nat) (s : stmt) : Prop :=
  match s with
  | SGet _ o' | SSet o' _ | SDel o' => o' <> o
  | _ => True
  end.

(** A program has just defined the class: there are no objects, and its variables
    have no reference to a list. *)
Definition begins (h : heap) : hworld := HWorld h [] (fun _ => HAtom ANone).
