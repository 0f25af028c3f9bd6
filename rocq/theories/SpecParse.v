(** * Vocabulary of the parser properties. *)
From Coq Require Import String NArith ZArith List Bool.
Import ListNotations.
From Verif Require Import PyBase IniView IniRead ExcControl Cpe SpecText SpecFile SpecShell SpecWalk SpecRun.

(** The value of the last entry of [k] in a list of options, if there is one. *)
Definition last_value (k : str) (opts : list (str * option str)) : option (option str) :=
  fold_left (fun acc kv => if str_eqb (fst kv) k then Some (snd kv) else acc) opts None.

(** The keys of a list in the order of their first occurrence. *)
Fixpoint first_keys (l : list str) : list str :=
  match l with
  | [] => []
  | k :: l' => k :: filter (fun x => negb (str_eqb x k)) (first_keys l')
  end.

Section Spec.
Context {Sh Us : Type} (K : pyclass Sh Us) (i : ini).
Notation ev := (ev Sh Us).

(** Section [t] of the file has the unhandled option [k]. *)
Definition has_plain (t k : str) : Prop :=
  exists items item w v, section_shows i t items /\ In item items /\
    meaning K t item (MStep (SpecWalk.Plain t w k v)).

(** The sections that contribute to a parse of [s]. *)
Definition contributes (dname s : str) (init : bool) (t : str) : Prop :=
  reaches K i s t \/ (init = true /\ ini_has_section i dname = true /\ reaches K i dname t).

(** The key names an operation for which the class has a handler. *)
Definition handled_key (k : str) : Prop :=
  exists w ps, words k (w :: ps) /\ op_shaped (k_uniword K) w /\
    (has_attr K (public_name (undash w)) <> None \/ has_attr K (private_name (undash w)) <> None).

(** A section on a [use] cycle. *)
Definition on_cycle (t : str) : Prop := exists u, uses K i t u /\ reaches K i u t.

(** Every option of section [t] can be split into words and has a computable
    value, and an operation among them is usable. *)
Definition clean_section (t : str) : Prop :=
  exists items, section_shows i t items /\
    forall item r, In item items -> ~ meaning K t item (MStep (Stop t r)).

(** Handlers that return 0 (and change what they like), no ambiguous handlers,
    and callable [handler_initialize] and [handler_finalize]. The base class is
    such a class. *)
Record well_behaved : Prop := {
  wb_handlers : forall name kind f, find_attr K name = Some (AUser kind f) ->
    forall s hp sh us, exists sh' us', f s hp sh us = (Ok (Some 0%Z), sh', us');
  wb_unambiguous : forall op,
    has_attr K (public_name op) = None \/ has_attr K (private_name op) = None;
  wb_initialize : exists kind f, find_attr K $"handler_initialize" = Some (AUser kind f);
  wb_finalize : exists kind f, find_attr K $"handler_finalize" = Some (AUser kind f)
}.

(** No handler raises [RecursionError] itself. *)
Definition no_recursion_handlers : Prop :=
  forall name kind f, find_attr K name = Some (AUser kind f) ->
    forall s hp sh us, fst (fst (f s hp sh us)) <> Err RecursionError.

Definition is_stop (e : ev) : Prop := match e with Stop _ _ => True | _ => False end.
Definition is_missing (e : ev) : Prop := match e with Missing _ => True | _ => False end.
Definition is_cycle (e : ev) : Prop := match e with Cycle _ _ _ _ _ => True | _ => False end.

(** ** Handler calls *)

(** The handler call a step makes: how the handler is defined, its body, the
    section and the parameters it receives. *)
Definition call_of (root : str) (e : ev) : list (hkind * hbody Sh Us * str * hparams) :=
  match e with
  | Call s h kind f k v => [(kind, f, s, params_of root h k v)]
  | Hook s name =>
      match find_attr K name with
      | Some (AUser kind f) => [(kind, f, s, hp_named root name)]
      | _ => []
      end
  | _ => []
  end.
Definition calls (root : str) (evs : list ev) := flat_map (call_of root) evs.

(** Calling handlers one after the other on one shared dict and one subclass
    state. *)
Fixpoint call_all (l : list (hkind * hbody Sh Us * str * hparams)) (sh : Sh) (us : Us) : Sh * Us :=
  match l with
  | [] => (sh, us)
  | (_, f, s, hp) :: l' => let '(_, sh', us') := f s hp sh us in call_all l' sh' us'
  end.
End Spec.

(** ** Log structure *)
Inductive balanced : list logent -> Prop :=
| bal_nil : balanced []
| bal_app a b : balanced a -> balanced b -> balanced (a ++ b)
| bal_section s l : balanced l -> balanced (LSecEntry s :: l ++ [LSecExit s])
| bal_handler n e l : balanced l -> balanced (LHEntry n e :: l ++ [LHExit n e])
| bal_key k v : balanced [LKeyValue k v]
| bal_op o ps : balanced [LOperation o ps].

Definition is_entry (l : logent) : bool := match l with LHEntry _ _ => true | _ => false end.
Definition is_exit (l : logent) : bool := match l with LHExit _ _ => true | _ => false end.
Definition is_cycle_rec (l : logent) : bool := match l with LCycle _ _ => true | _ => false end.
Definition count {A} (p : A -> bool) (l : list A) : nat := length (filter p l).
