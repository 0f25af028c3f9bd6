(** * [src/configparserenhanced/TypedProperty.py] *)
From Coq Require Import String NArith ZArith List Bool.
Import ListNotations.
From Verif Require Import PyBase.

(** A declaration [typed_property(name, expected_type, default, ...)],
    lines 55-64. Functions supplied by the user may raise. The default factory
    is a constant outcome; [deepcopy] and object identity are not modelled
    (values are immutable here). *)
Record tp_decl (V : Type) := TpDecl {
  tp_isinstance : V -> bool;                       (** [expected_type] *)
  tp_default : option V;                           (** [None] is [SENTINEL] *)
  tp_factory : option (res V);                     (** [None]: not callable *)
  tp_req : bool;                                   (** [req_assign_before_use] *)
  tp_internal : option (V -> res V);               (** [internal_type] *)
  tp_transform : option (option (V -> res V));     (** [Some None]: not callable *)
  tp_validator : option (option (V -> res bool))   (** [Some None]: not callable *)
}.
Arguments TpDecl {V}.
Arguments tp_isinstance {V}. Arguments tp_default {V}. Arguments tp_factory {V}.
Arguments tp_req {V}. Arguments tp_internal {V}. Arguments tp_transform {V}.
Arguments tp_validator {V}.

(** The two attributes stored on the object: [varname] and [varname_set]. *)
Record tp_state (V : Type) := TpState {
  tp_var : option V;
  tp_isset : option bool
}.
Arguments TpState {V}. Arguments tp_var {V}. Arguments tp_isset {V}.

Definition tp_init {V} : tp_state V := TpState None None.

Section Ops.
Context {V : Type} (d : tp_decl V).

(** Getter, lines 101-116. *)
Definition tp_get : SM (tp_state V) V := fun s =>
  let flag := match tp_isset s with None => false | Some b => b end in
  let s1 := TpState (tp_var s) (Some flag) in
  if tp_req d && negb flag then (Err UnboundLocalError, s1)
  else match tp_var s1 with
       | Some v => (Ok v, s1)
       | None =>
           match tp_default d with
           | Some v => (Ok v, TpState (Some v) (tp_isset s1))
           | None =>
               match tp_factory d with
               | None => (Err TypeError, s1)
               | Some (Err e) => (Err e, s1)
               | Some (Ok v) => (Ok v, TpState (Some v) (tp_isset s1))
               end
           end
       end.

(** The value computed by the setter before it is stored, lines 120-149. *)
Definition tp_convert (v : V) : res V :=
  match tp_internal d with None => Ok v | Some f => f v end.

Definition tp_apply_transform (v : V) : res V :=
  match tp_transform d with
  | None => Ok v
  | Some None => Err TypeError
  | Some (Some f) => match f v with
                     | Ok v' => tp_convert v'
                     | Err e => Err e
                     end
  end.

Definition tp_validate (v : V) : res V :=
  match tp_validator d with
  | None => Ok v
  | Some None => Err TypeError
  | Some (Some f) => match f v with
                     | Ok true => Ok v
                     | Ok false => Err ValueError
                     | Err e => Err e
                     end
  end.

Definition tp_prepare (v : V) : res V :=
  if tp_isinstance d v then
    match tp_convert v with
    | Err e => Err e
    | Ok v1 => match tp_apply_transform v1 with
               | Err e => Err e
               | Ok v2 => tp_validate v2
               end
    end
  else Err TypeError.

(** Setter, lines 118-155. *)
Definition tp_set (v : V) : SM (tp_state V) unit := fun s =>
  match tp_prepare v with
  | Err e => (Err e, s)
  | Ok v' => (Ok tt, TpState (Some v') (Some true))
  end.

(** Deleter, lines 157-162. *)
Definition tp_del : SM (tp_state V) unit := fun _ => (Ok tt, TpState None None).
End Ops.
