(** * Independent specifications for the three mixins
    ([ExceptionControl], [Debuggable], [typed_property]). *)
From Coq Require Import String NArith ZArith List Bool.
Import ListNotations.
From Verif Require Import PyBase ExcControl Debuggable TypedProp.

(** Documented severities ([ExceptionControl] class documentation): an event of
    the class is raised from this level on. *)
Inductive threshold : str -> Z -> Prop :=
| th_silent : threshold $"SILENT" 5
| th_warning : threshold $"WARNING" 5
| th_minor : threshold $"MINOR" 4
| th_serious : threshold $"SERIOUS" 3
| th_critical : threshold $"CRITICAL" 2
| th_catastrophic : threshold $"CATASTROPHIC" 0.

Definition known_event (ev : str) : Prop := exists t, threshold ev t.

(** Did the call raise? *)
Definition raises {A B} (r : res A * B) : Prop := exists e, fst r = Err e.

(** An [int] clamped to the documented range. *)
Definition clamped (v : Z) : Z :=
  if (v <? 0)%Z then 0%Z else if (5 <? v)%Z then 5%Z else v.

(** Value of a decimal string. *)
Fixpoint dec_value_acc (acc : N) (s : str) : N :=
  match s with
  | [] => acc
  | c :: s' => dec_value_acc (10 * acc + (c - 48))%N s'
  end.
Definition dec_value : str -> N := dec_value_acc 0.
Definition is_digit (c : pychar) : Prop := (48 <= c <= 57)%N.

(** ** [typed_property] as an optional assigned value. *)
Section Typed.
Context {V : Type} (d : tp_decl V).

(** What an assignment of [v] would store. *)
Inductive convertsto : V -> V -> Prop :=
| conv_none v : tp_internal d = None -> convertsto v v
| conv_some f v v' : tp_internal d = Some f -> f v = Ok v' -> convertsto v v'.
Inductive transformsto : V -> V -> Prop :=
| trans_none v : tp_transform d = None -> transformsto v v
| trans_some f v v1 v2 : tp_transform d = Some (Some f) -> f v = Ok v1 ->
                         convertsto v1 v2 -> transformsto v v2.
Definition valid (v : V) : Prop :=
  tp_validator d = None \/ exists f, tp_validator d = Some (Some f) /\ f v = Ok true.
(** [accepts v w]: assigning [v] succeeds and stores [w]. *)
Definition accepts (v w : V) : Prop :=
  tp_isinstance d v = true /\
  exists v1, convertsto v v1 /\ transformsto v1 w /\ valid w.

(** The property's answer when nothing is assigned. *)
Definition unassigned : res V :=
  if tp_req d then Err UnboundLocalError
  else match tp_default d with
       | Some v => Ok v
       | None => match tp_factory d with
                 | None => Err TypeError
                 | Some r => r
                 end
       end.

Inductive tp_op := TGet | TSet (v : V) | TDel.
Inductive tp_answer := AnsGet (r : res V) | AnsSet (r : res unit) | AnsDel.

(** The implementation, as a machine over operations. *)
Definition tp_step (o : tp_op) (s : tp_state V) : tp_answer * tp_state V :=
  match o with
  | TGet => let (r, s') := tp_get d s in (AnsGet r, s')
  | TSet v => let (r, s') := tp_set d v s in (AnsSet r, s')
  | TDel => let (_, s') := tp_del s in (AnsDel, s')
  end.
Fixpoint tp_run (l : list tp_op) (s : tp_state V) : list tp_answer * tp_state V :=
  match l with
  | [] => ([], s)
  | o :: l' => let (a, s') := tp_step o s in
               let (l, s'') := tp_run l' s' in (a :: l, s'')
  end.

(** The specification: the state is the assigned value, if any. [spec_run l cur
    answers cur'] *)
Inductive spec_run : list tp_op -> option V -> list tp_answer -> option V -> Prop :=
| sr_nil cur : spec_run [] cur [] cur
| sr_get l cur ans cur' :
    spec_run l cur ans cur' ->
    spec_run (TGet :: l) cur
             (AnsGet (match cur with Some v => Ok v | None => unassigned end) :: ans) cur'
| sr_set_ok v w l cur ans cur' :
    accepts v w -> spec_run l (Some w) ans cur' ->
    spec_run (TSet v :: l) cur (AnsSet (Ok tt) :: ans) cur'
| sr_set_err v e l cur ans cur' :
    (forall w, ~ accepts v w) -> spec_run l cur ans cur' ->
    spec_run (TSet v :: l) cur (AnsSet (Err e) :: ans) cur'
| sr_del l cur ans cur' :
    spec_run l None ans cur' ->
    spec_run (TDel :: l) cur (AnsDel :: ans) cur'.
End Typed.
Arguments TGet {V}. Arguments TSet {V}. Arguments TDel {V}.
