(** * C96: references that the caller keeps. *)
From Coq Require Import String NArith ZArith List Bool Lia.
Import ListNotations.
From Verif Require Import PyBase Shlex IniView IniRead ExcControl Debuggable Cpe SpecBase SpecFile SpecWalk SpecRun SpecParse SpecApi
  Samples SamplesApi PropertiesApi Views SpecViews ViewsProofs ViewsProofs2 ViewsProofs3 ViewsProofs4.
Local Open Scope list_scope.

(** ** C96 *)

(** No program comes to a state where two sections, of one view or of two, share a dict. *)
Theorem C96_no_shared_dicts :
  forall (Sh Us : Type) (K : pyclass Sh Us) fs fuel l (w : world (Sh := Sh) (Us := Us)),
    sound w -> sound (w_run K fs fuel l w).
Proof. exact (fun Sh Us K fs fuel l w => run_sound K fs fuel l w). Qed.
Print Assumptions C96_no_shared_dicts.

(** The dict that a view gives for a section is the one in which it keeps the options
    of the section, not a copy. *)
Theorem C96_given_dict :
  forall (Sh Us : Type) (K : pyclass Sh Us) fs fuel v s c (w w' : world (Sh := Sh) (Us := Us)) a,
    c = CItem v s \/ c = CGet v s None \/ (exists force, c = CAdd v s force) ->
    w_exec K fs fuel c w = (Ok (PDict a), w') -> holds w' v s a.
Proof. exact (fun Sh Us K fs fuel v s c w w' a => given_dict K fs fuel v s c w w' a). Qed.
Print Assumptions C96_given_dict.

(** A dict that a view gave stays the dict of that section in that view, whatever is
    called afterwards, except after [add_section] with [force]. *)
Theorem C96_same_dict :
  forall (Sh Us : Type) (K : pyclass Sh Us) fs fuel v s a l (w : world (Sh := Sh) (Us := Us)),
    sound w -> holds w v s a -> Forall (fun c => ~ replaces v s c) l -> holds (w_run K fs fuel l w) v s a.
Proof. exact (fun Sh Us K fs fuel v s a l w => run_holds K fs fuel v s a l w). Qed.
Print Assumptions C96_same_dict.

(** A dict that is not of the present view (all are not, after new delimiters) is only
    changed by the caller's own writes; nothing that is parsed later gets into it. *)
Theorem C96_old_dicts :
  forall (Sh Us : Type) (K : pyclass Sh Us) fs fuel a d l (w : world (Sh := Sh) (Us := Us)),
    sound w -> detached w a -> contains w a d -> Forall (fun c => ~ writes w a c) l ->
    contains (w_run K fs fuel l w) a d /\ detached (w_run K fs fuel l w) a.
Proof. exact (fun Sh Us K fs fuel a d l w => run_detached K fs fuel a d l w). Qed.
Print Assumptions C96_old_dicts.

(** New delimiters: the object has no view any more, and no dict of it; the next one
    is new. *)
Theorem C96_new_delimiters :
  forall (Sh Us : Type) (K : pyclass Sh Us) fs fuel ds (w : world (Sh := Sh) (Us := Us)),
    let w' := snd (w_exec K fs fuel (CDelims ds) w) in
    (forall a, detached w' a) /\
    (forall a d, contains w' a d <-> contains w a d) /\ (forall v s a, holds w' v s a <-> holds w v s a) /\
    exists v w'', w_exec K fs fuel CData w' = (Ok (PView v), w'') /\
      nth_error (w_views w) v = None /\ w_cur w'' = Some v /\ forall s a, ~ holds w'' v s a.
Proof. exact (fun Sh Us K fs fuel ds w => new_delimiters K fs fuel ds w). Qed.
Print Assumptions C96_new_delimiters.

(** A call on the present view is the call of [Cpe.v], where the data are a value of
    the object: the same answer, the same object afterwards. *)
Theorem C96_present_view :
  forall (Sh Us : Type) (K : pyclass Sh Us) fs fuel v c op (w : world (Sh := Sh) (Us := Us)) o,
    sound w -> w_cur w = Some v -> looks_like w o -> calls v c op ->
    let w' := snd (w_exec K fs fuel c w) in
    same_reply w' (fst (w_exec K fs fuel c w)) (fst (exec_op K fs fuel op o)) /\
    looks_like w' (snd (exec_op K fs fuel op o)) /\ sound w' /\ w_cur w' = Some v.
Proof. exact (fun Sh Us K fs fuel v c op w o => present_view K fs fuel v c op w o). Qed.
Print Assumptions C96_present_view.

(** [parse_section] needs no view to be there. *)
Theorem C96_parse :
  forall (Sh Us : Type) (K : pyclass Sh Us) fs fuel s (w : world (Sh := Sh) (Us := Us)) o,
    sound w -> looks_like w o ->
    let w' := snd (w_exec K fs fuel (CParse s) w) in
    same_reply w' (fst (w_exec K fs fuel (CParse s) w)) (fst (exec_op K fs fuel (OParse s) o)) /\
    looks_like w' (snd (exec_op K fs fuel (OParse s) o)) /\ sound w'.
Proof. exact (fun Sh Us K fs fuel s w o => first_view K fs fuel s w o). Qed.
Print Assumptions C96_parse.

(** After any program that reads through any views, old ones included, a call on the
    present view answers what the file says. *)
Theorem C96_programs_that_read :
  forall (Sh Us : Type) (K : pyclass Sh Us) fs i dname fuel,
    well_behaved K -> length (ini_sections i) + 3 <= fuel -> all_parsable K i dname ->
    forall (w : world (Sh := Sh) (Us := Us)) o, sound w -> looks_like w o -> opened K fs i dname o ->
    forall l, Forall (reads K i dname) l ->
    forall v c op, w_cur (w_run K fs fuel l w) = Some v -> calls v c op -> in_file K i dname op ->
    let w1 := w_run K fs fuel l w in
    exists a, answers K i dname (level_of (w_obj w1)) op a /\
              same_reply (snd (w_exec K fs fuel c w1)) (fst (w_exec K fs fuel c w1)) a.
Proof. exact (fun Sh Us K fs i dname fuel => program_answers K fs i dname fuel). Qed.
Print Assumptions C96_programs_that_read.

(** A view that is not the present one gives the dicts it had and no others. *)
Theorem C96_old_view :
  forall (Sh Us : Type) (K : pyclass Sh Us) fs fuel v s (w : world (Sh := Sh) (Us := Us)),
    sound w -> v < length (w_views w) -> w_cur w <> Some v ->
    forall r w', w_exec K fs fuel (CItem v s) w = (r, w') ->
    (forall p, r = Ok p -> exists a, p = PDict a /\ holds w v s a) /\
    ((forall a, ~ holds w v s a) -> exists e, r = Err e).
Proof. exact (fun Sh Us K fs fuel v s w => old_view K fs fuel v s w). Qed.
Print Assumptions C96_old_view.
Theorem C96_old_view_has :
  forall (Sh Us : Type) (K : pyclass Sh Us) fs fuel v s (w : world (Sh := Sh) (Us := Us)),
    sound w -> v < length (w_views w) -> w_cur w <> Some v ->
    forall b w', w_exec K fs fuel (CHas v s) w = (Ok (PBoolean b), w') ->
    b = true <-> exists a, holds w v s a.
Proof. exact (fun Sh Us K fs fuel v s w => old_has K fs fuel v s w). Qed.
Print Assumptions C96_old_view_has.

(** A view through which one section is read, kept across a change of delimiters. *)
Definition start7 : world (Sh := unit) (Us := unit) := World [] [] None (fresh tt).
Definition kept7 : list cmd := [CData; CItem 0 $"A"; CDelims [$":"]; CData].
Definition kept7' : list cmd := [CData; CItem 0 $"C"; CDelims [$":"]; CData].
(** Finding 89: it is not so that a view finds every section of the file. The old
    view has the section parsed, into the new view, and then raises [KeyError]. *)
Theorem C96_every_view_finds_refuted :
  ~ (forall fuel v s (w : world (Sh := unit) (Us := unit)), sound w -> v < length (w_views w) ->
       (exists l, w = w_run base (disk file7) fuel l start7) -> ini_has_section ini7 s = true -> 7 <= fuel ->
       exists a, fst (w_exec base (disk file7) fuel (CItem v s) w) = Ok (PDict a)).
Proof.
  intros H. assert (SO : sound start7).
  { split; [intros v E; discriminate E|]. split; [intros [|v] x E; discriminate E|]. split; intros v s a; [intros (x & E & _)|intros v' s' (x & E & _)]; destruct v; discriminate E. }
  destruct (H 7 0 $"A" (w_run base (disk file7) 7 kept7' start7)) as (a & E).
  - apply run_sound. exact SO.
  - vm_compute. lia.
  - exists kept7'. reflexivity.
  - vm_compute. reflexivity.
  - lia.
  - vm_compute in E. discriminate E.
Qed.
Print Assumptions C96_every_view_finds_refuted.

Definition after7 : world (Sh := unit) (Us := unit) := w_run base (disk file7) 7 kept7 start7.
Example C96_ex :
  sound start7 /\ looks_like start7 (fresh tt) /\ opened base (disk file7) ini7 $"DEFAULT" (fresh tt) /\
  all_parsable base ini7 $"DEFAULT" /\
  (** The present view is 1; view 0 has a dict for [A] that is detached. *)
  w_cur after7 = Some 1 /\ holds after7 0 $"A" 1 /\ detached after7 1 /\
  contains after7 1 [($"d", Some $"0"); ($"x", Some $"1"); ($"y", Some $"2"); ($"n", None); ($"v v", Some $"c"); ($"t", Some $"3")] /\
  (** Reading through both views. *)
  Forall (reads base ini7 $"DEFAULT") [CData; CItem 0 $"A"; CItem 0 $"C"; CHas 1 $"B"; CSections 0 true true] /\
  (let w := w_run base (disk file7) 7 [CItem 0 $"C"; CWrite 1 $"x" (Some $"9"); CItem 1 $"A"] after7 in
   (** [A] uses [C], so view 0 has a dict for it: it stays empty. *)
   fst (w_exec base (disk file7) 7 (CGet 0 $"C" None) w) = Ok (PDict 3) /\ contains w 3 [] /\
   fst (w_exec base (disk file7) 7 (CGet 0 $"A" (Some $"x")) w) = Ok (PText (Some $"9")) /\
   fst (w_exec base (disk file7) 7 (CGet 1 $"A" (Some $"x")) w) = Ok (PText (Some $"1"))).
Proof.
  assert (SO : sound start7).
  { split; [intros v E; discriminate E|]. split; [intros [|v] x E; discriminate E|]. split; intros v s a; [intros (x & E & _)|intros v' s' (x & E & _)]; destruct v; discriminate E. }
  split; [exact SO|]. split; [split; [reflexivity|exact Logic.I]|].
  split; [constructor; [computed|computed|computed|left; computed|computed|computed]|].
  split; [apply (all_parsable_check _ _ _ [$"DEFAULT"]); vm_compute; reflexivity|].
  assert (H : holds after7 0 $"A" 1) by (eexists; split; vm_compute; reflexivity).
  split; [vm_compute; reflexivity|]. split; [exact H|].
  split.
  { intros v s H'. assert (S7 : sound after7) by (apply run_sound; exact SO). destruct (proj2 (proj2 (proj2 S7)) _ _ _ _ _ H H') as (-> & _). vm_compute. discriminate. }
  split; [vm_compute; reflexivity|].
  split; [repeat apply Forall_cons; try apply Forall_nil; cbn [reads]; try exact Logic.I; vm_compute; reflexivity|].
  vm_compute. repeat split.
Qed.
