(** * What a caller sees through the references it keeps. *)
From Coq Require Import String NArith ZArith List Bool.
Import ListNotations.
From Verif Require Import PyBase IniView ExcControl Cpe SpecApi Views.

Section S.
Context {Sh Us : Type}.
Notation world := (world (Sh := Sh) (Us := Us)).

(** Dict [a] is the one that view [v] keeps for section [s]. *)
Definition holds (w : world) (v : nat) (s : str) (a : nat) : Prop :=
  exists x, nth_error (w_views w) v = Some x /\ dget s (v_data x) = Some a.
(** Dict [a] has the contents [d]. *)
Definition contains (w : world) (a : nat) (d : dict (option str)) : Prop := nth_error (w_dicts w) a = Some d.

(** States that a program can have come to: every dict belongs to one section of one
    view at most. *)
Definition sound (w : world) : Prop :=
  (forall v, w_cur w = Some v -> v < length (w_views w)) /\
  (forall v x, nth_error (w_views w) v = Some x -> NoDup (dkeys (v_data x))) /\
  (forall v s a, holds w v s a -> a < length (w_dicts w)) /\
  (forall v s a v' s', holds w v s a -> holds w v' s' a -> v' = v /\ s' = s).

(** The object of [Cpe.v] with the data of the present view. *)
Definition looks_like (w : world) (o : obj Sh Us) : Prop :=
  set_edata None o = set_edata None (w_obj w) /\
  match w_cur w, o_edata o with
  | None, None => True
  | Some v, Some e => exists x, nth_error (w_views w) v = Some x /\
      Forall2 (fun sa sd => fst sd = fst sa /\ contains w (snd sa) (snd sd)) (v_data x) (d_data e) /\
      d_checked e = v_checked x /\ d_level e = v_level x /\ d_debug e = v_debug x
  | _, _ => False
  end.

(** No section of the present view keeps its options in dict [a]. *)
Definition detached (w : world) (a : nat) : Prop := forall v s, holds w v s a -> w_cur w <> Some v.

(** The commands that change dict [a] by themselves, given the section that it is of. *)
Definition writes (w : world) (a : nat) (c : cmd) : Prop :=
  match c with
  | CWrite b _ _ | CDelete b _ => b = a
  | CSet v s _ _ => holds w v s a
  | _ => False
  end.
(** The command that gives section [s] of view [v] another dict. *)
Definition replaces (v : nat) (s : str) (c : cmd) : Prop :=
  match c with CAdd v' s' true => v' = v /\ s' = s | _ => False end.

(** What a reply shows. *)
Inductive shows_as (w : world) : reply -> answer -> Prop :=
| sa_done : shows_as w PDone RDone
| sa_dict a d : contains w a d -> shows_as w (PDict a) (RDict d)
| sa_text t : shows_as w (PText t) (RValue t)
| sa_bool b : shows_as w (PBoolean b) (RBool b)
| sa_names l : shows_as w (PNames l) (RNames l).
Definition same_reply (w : world) (r : res reply) (r' : res answer) : Prop :=
  match r, r' with
  | Ok p, Ok a => shows_as w p a
  | Err e, Err e' => e' = e
  | _, _ => False
  end.

(** The call that a command is, made on view [v]. *)
Inductive calls (v : nat) : cmd -> op -> Prop :=
| ca_parse s : calls v (CParse s) (OParse s)
| ca_item s : calls v (CItem v s) (OItem s)
| ca_options s : calls v (CItem v s) (OOptions s)
| ca_get s k : calls v (CGet v s k) (OGet s k)
| ca_has s : calls v (CHas v s) (OHasSection s)
| ca_has_option s k : calls v (CHasOption v s k) (OHasOption s k)
| ca_sections : calls v (CSections v true false) (OSections (PBool true))
| ca_force : calls v (CSections v true true) (OSections (PStr ($ "force"%string)))
| ca_names f : calls v (CSections v false f) (OSections (PBool false))
| ca_level z : calls v (CLevel z) (OLevel z)
| ca_debug z : calls v (CDebug z) (ODebug z).

(** Commands that only read, about sections of the file, on whatever view. *)
Definition reads (K : pyclass Sh Us) (i : ini) (dname : str) (c : cmd) : Prop :=
  match c with
  | CData | CDebug _ | CSections _ _ _ | CRead _ => True
  | CParse s | CItem _ s | CGet _ s _ | CHas _ s | CHasOption _ s _ => ini_has_section i s = true
  | CLevel z => in_file K i dname (OLevel z)
  | CFiles _ | CDelims _ | CAdd _ _ _ | CSet _ _ _ _ | CWrite _ _ _ | CDelete _ _ => False
  end.
End S.
