(** * C21-C25, C37: the mixins. Statements only; proofs are in [BaseProofs.v]. *)
From Coq Require Import String NArith ZArith List Bool.
Import ListNotations.
From Verif Require Import PyBase ExcControl Debuggable TypedProp SpecBase BaseProofs.

(** ** C21 *)

(** An exception class is raised exactly from its documented threshold on. *)
Theorem C21_event_raises_iff_threshold :
  forall (s : ecs) (ev : str) (t : Z) (e : exc) (msg : bool),
    threshold (upper ev) t ->
    fst (ec_event s ev (XClass e) msg) = if (t <=? ec_level s)%Z then Err e else Ok tt.
Proof. exact event_raise_iff. Qed.
Print Assumptions C21_event_raises_iff_threshold.
Example C21_ex : threshold (upper $"serious") 3 /\
  fst (ec_event (Ecs 2 false false) $"serious" (XClass ValueError) true) = Ok tt /\
  fst (ec_event (Ecs 3 false false) $"serious" (XClass ValueError) true) = Err ValueError.
Proof. repeat split; constructor. Qed.

Theorem C21_event_monotone_in_level :
  forall (s s' : ecs) (ev : str) (x : exc_arg) (msg : bool),
    ec_silent s = ec_silent s' -> ec_compact s = ec_compact s' ->
    (ec_level s <= ec_level s')%Z ->
    raises (ec_event s ev x msg) -> raises (ec_event s' ev x msg).
Proof. exact event_monotone. Qed.
Print Assumptions C21_event_monotone_in_level.

Theorem C21_event_unknown_type :
  forall (s : ecs) (ev : str) (x : exc_arg) (msg : bool),
    ~ known_event (upper ev) -> is_raisable x = true ->
    ec_event s ev x msg = (Err KeyError, []).
Proof. exact event_unknown. Qed.
Print Assumptions C21_event_unknown_type.
Example C21_unknown_ex : ~ known_event (upper $"fatal").
Proof. intros [t H]. vm_compute in H. inversion H. Qed.

Theorem C21_event_not_an_exception :
  forall (s : ecs) (ev : str) (x : exc_arg) (msg : bool),
    is_raisable x = false -> ec_event s ev x msg = (Err TypeError, []).
Proof. exact event_not_exception. Qed.
Print Assumptions C21_event_not_an_exception.

(** An exception object (rather than a class) passes the raisability test, but
    an event that should only be reported then raises [TypeError]. *)
Theorem C21_instance_below_threshold_raises :
  forall (s : ecs) (ev : str) (t : Z) (e : exc) (msg : bool),
    threshold (upper ev) t -> (0 < ec_level s < t)%Z ->
    ec_event s ev (XInstance e) msg = (Err TypeError, []).
Proof. exact event_instance_not_suppressed. Qed.
Print Assumptions C21_instance_below_threshold_raises.
Example C21_instance_ex : threshold (upper $"MINOR") 4 /\ (0 < ec_level (Ecs 3 false false) < 4)%Z.
Proof. repeat split; constructor. Qed.

(** ** C22 *)
Theorem C22_suppressed_output :
  forall (s : ecs) (ev : str) (e : exc) (msg : bool),
    known_event (upper ev) ->
    snd (ec_event s ev (XClass e) msg) =
    if (match fst (ec_event s ev (XClass e) msg) with Ok _ => true | _ => false end)
       && (0 <? ec_level s)%Z && negb (ec_silent s) && negb (str_eqb (upper ev) $"SILENT")
    then [OWarn (ec_compact s) (upper ev) e (msg && negb (ec_compact s))]
    else [].
Proof. exact event_output. Qed.
Print Assumptions C22_suppressed_output.
Example C22_ex : known_event (upper $"Warning") /\
  snd (ec_event ec_init $"Warning" (XClass ValueError) true)
  = [OWarn false $"WARNING" ValueError true].
Proof. split; [exists 5%Z; constructor | reflexivity]. Qed.

Theorem C22_raise_prints_nothing :
  forall (s : ecs) (ev : str) (x : exc_arg) (msg : bool),
    raises (ec_event s ev x msg) -> snd (ec_event s ev x msg) = [].
Proof. exact event_raise_prints_nothing. Qed.
Print Assumptions C22_raise_prints_nothing.

(** ** C23 *)
Theorem C23_level_is_last_assignment_clamped :
  forall (l : list Z) (s : ecs),
    ec_level (fold_left (fun s v => ec_set_level v s) l s) =
    match rev l with [] => ec_level s | v :: _ => clamped v end.
Proof. exact level_history. Qed.
Print Assumptions C23_level_is_last_assignment_clamped.

Theorem C23_level_in_range :
  forall (l : list Z) (s : ecs),
    (0 <= ec_level s <= 5)%Z ->
    (0 <= ec_level (fold_left (fun s v => ec_set_level v s) l s) <= 5)%Z.
Proof. exact level_history_range. Qed.
Print Assumptions C23_level_in_range.
Example C23_ex : (0 <= ec_level ec_init <= 5)%Z /\
  ec_level (fold_left (fun s v => ec_set_level v s) [7; -3; 9]%Z ec_init) = 5%Z.
Proof. repeat split; discriminate. Qed.

Theorem C23_debug_level_is_last_assignment :
  forall (l : list Z) (d : Z),
    fold_left (fun _ v => dbg_set v) l d =
    match rev l with [] => d | v :: _ => Z.max v 0 end.
Proof. exact debug_history. Qed.
Print Assumptions C23_debug_level_is_last_assignment.

(** ** C24, C25 *)

(** Every history of reads, assignments and deletions gives the answers of the
    abstract property whose state is the assigned value, if any. *)
Theorem C24_typed_property_refines :
  forall (V : Type) (d : tp_decl V) (l : list tp_op),
    exists cur, spec_run d l None (fst (tp_run d l tp_init)) cur.
Proof. exact (@tp_history). Qed.
Print Assumptions C24_typed_property_refines.

Theorem C24_failed_assignment_changes_nothing :
  forall (V : Type) (d : tp_decl V) (v : V) (s : tp_state V) (e : exc),
    fst (tp_set d v s) = Err e -> snd (tp_set d v s) = s.
Proof. exact (@tp_failed_set_noop). Qed.
Print Assumptions C24_failed_assignment_changes_nothing.

Theorem C24_assigned_value_is_read_back :
  forall (V : Type) (d : tp_decl V) (v : V) (s s' : tp_state V),
    tp_set d v s = (Ok tt, s') ->
    exists w, accepts d v w /\ fst (tp_get d s') = Ok w.
Proof. exact (@tp_set_get). Qed.
Print Assumptions C24_assigned_value_is_read_back.

(** A property of even numbers, doubled by the transform, with default 0. *)
Definition even_prop : tp_decl Z :=
  TpDecl (fun v => (0 <=? v)%Z) (Some 0%Z) None false None
         (Some (Some (fun v => Ok (2 * v)%Z))) (Some (Some (fun v => Ok (v <? 100)%Z))).
Example C24_ex :
  fst (tp_run even_prop [TGet; TSet 3%Z; TGet; TSet (-1)%Z; TSet 70%Z; TGet; TDel; TGet] tp_init)
  = [AnsGet (Ok 0%Z); AnsSet (Ok tt); AnsGet (Ok 6%Z); AnsSet (Err TypeError);
     AnsSet (Err ValueError); AnsGet (Ok 6%Z); AnsDel; AnsGet (Ok 0%Z)].
Proof. reflexivity. Qed.

Theorem C25_unbound_iff_never_assigned :
  forall (V : Type) (d : tp_decl V) (l : list tp_op) (ans : list tp_answer) (cur : option V),
    tp_req d = true -> spec_run d l None ans cur ->
    (fst (tp_get d (snd (tp_run d l tp_init))) = Err UnboundLocalError <-> cur = None).
Proof. exact (@tp_get_unbound_spec). Qed.
Print Assumptions C25_unbound_iff_never_assigned.

Definition req_prop : tp_decl Z :=
  TpDecl (fun _ => true) (Some 0%Z) None true None None None.
Example C25_ex :
  tp_req req_prop = true /\
  spec_run req_prop [TSet 1%Z; TGet] None [AnsSet (Ok tt); AnsGet (Ok 1%Z)] (Some 1%Z).
Proof.
  split; [reflexivity|]. eapply sr_set_ok; [|apply (sr_get _ _ (Some 1%Z)); constructor].
  split; [reflexivity|]. exists 1%Z. repeat constructor.
Qed.

(** ** C37 *)
Theorem C37_debug_message :
  forall (self level : Z) (m endl : str) (useprefix : bool),
    debug_message self level m endl useprefix =
    if (level <=? self)%Z then
      Some ((if (0 <? level)%Z && useprefix
             then $"[D-" ++ dec_of_N (Z.to_N level) ++ $"] " else []) ++ m ++ endl)
    else None.
Proof. exact debug_message_spec. Qed.
Print Assumptions C37_debug_message.

(** The number in the prefix really is the level, in decimal. *)
Theorem C37_prefix_is_decimal :
  forall n : N, dec_value (dec_of_N n) = n /\ Forall is_digit (dec_of_N n) /\ dec_of_N n <> [].
Proof. exact dec_of_N_value. Qed.
Print Assumptions C37_prefix_is_decimal.
Example C37_ex : debug_message 12 12 $"hi" newline true = Some ($"[D-12] hi" ++ newline).
Proof. reflexivity. Qed.
