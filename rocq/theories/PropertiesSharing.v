(** * C89: typed properties whose values can change. *)
From Coq Require Import String NArith ZArith List Bool Arith.
Import ListNotations.
From Verif Require Import PyBase Sharing SpecSharing SharingProofs SharingProofs2.

(** The default that a property is declared with always looks the same, whatever a
    program does with the objects of the class and with the values it gets. *)
Theorem C89_default_unchanged : forall d fuel p h v t,
  p_source d = Default v -> reads h v t -> reads (w_heap (run d fuel p (begins h))) v t.
Proof. exact (fun d fuel p h v t _ => default_kept d fuel p h v t). Qed.
Print Assumptions C89_default_unchanged.

(** Reading a property that has no value, at any time, gives a value that looks
    like the default and is made of new lists only; nothing else changes. *)
Theorem C89_default_is_fresh : forall d fuel p h v t o q x,
  p_source d = Default v -> p_req d = false -> reads h v t -> depth t <= fuel ->
  let w := run d fuel p (begins h) in
  nth_error (w_objs w) o = Some q -> p_var q = None ->
  let w' := step d fuel (SGet x o) w in
  value_of w' o (w_vars w' x) /\ reads (w_heap w') (w_vars w' x) t /\
  (forall a, reach (w_heap w') (w_vars w' x) a -> ~ in_use nobody w a /\ length (w_heap w) <= a) /\
  (forall a, a < length (w_heap w) -> nth_error (w_heap w') a = nth_error (w_heap w) a) /\
  (forall y, y <> x -> w_vars w' y = w_vars w y) /\
  (forall o', o' <> o -> nth_error (w_objs w') o' = nth_error (w_objs w) o').
Proof. exact read_default. Qed.
Print Assumptions C89_default_is_fresh.

(** The same for a factory that makes an empty list. *)
Theorem C89_factory_is_fresh : forall d fuel p h o q x,
  p_source d = Factory -> p_req d = false ->
  let w := run d fuel p (begins h) in
  nth_error (w_objs w) o = Some q -> p_var q = None ->
  let w' := step d fuel (SGet x o) w in
  exists b, w_vars w' x = HRef b /\ value_of w' o (HRef b) /\ reads (w_heap w') (HRef b) (TList []) /\ ~ in_use nobody w b.
Proof. exact read_factory. Qed.
Print Assumptions C89_factory_is_fresh.

(** A value that only one object has is not changed by a program that leaves the
    property of that object alone. *)
Theorem C89_own_value : forall d fuel o w p v t,
  Forall (leaves o) p -> value_of w o v -> reads (w_heap w) v t ->
  (forall a, reach (w_heap w) v a -> ~ in_use (only o) w a) ->
  value_of (run d fuel p w) o v /\ reads (w_heap (run d fuel p w)) v t.
Proof. exact own_kept. Qed.
Print Assumptions C89_own_value.

(** So the default that an object got on its first reading is changed only through
    a reference that is got from that object. *)
Theorem C89_default_not_shared : forall d fuel p h v t o q x p',
  p_source d = Default v -> p_req d = false -> reads h v t -> depth t <= fuel ->
  let w := run d fuel p (begins h) in
  nth_error (w_objs w) o = Some q -> p_var q = None -> Forall (leaves o) p' ->
  let w1 := step d fuel (SAtom x ANone) (step d fuel (SGet x o) w) in
  exists u, value_of w1 o u /\ reads (w_heap w1) u t /\
    value_of (run d fuel p' w1) o u /\ reads (w_heap (run d fuel p' w1)) u t.
Proof. exact default_own. Qed.
Print Assumptions C89_default_not_shared.

(** With [internal_type=list] the assigned list itself is copied: later changes to
    it do not add or remove elements of the property. *)
Theorem C89_list_is_copied : forall d fuel p h o x a items,
  p_list d = true -> In KList (p_expected d) ->
  let w := run d fuel p (begins h) in
  o < length (w_objs w) -> w_vars w x = HRef a -> nth_error (w_heap w) a = Some items ->
  exists b, forall p', Forall (leaves o) p' ->
    let w' := run d fuel p' (step d fuel (SSet o x) w) in
    value_of w' o (HRef b) /\ nth_error (w_heap w') b = Some items.
Proof. exact list_copied. Qed.
Print Assumptions C89_list_is_copied.

Definition int (n : nat) : atom := AInt (Z.of_nat n).
Definition a_default : prop_decl := PropDecl [KList] (Default (HRef 1)) false false.
(** [default=[[7], 5]]. *)
Definition two_lists : heap := [[HAtom (int 7)]; [HRef 0; HAtom (int 5)]].
(** [a, b = C(), C(); x = a.p; x[0].append(3)]. *)
Definition change_inside : list stmt := [SNew; SNew; SGet 0 0; SItem 1 0 0; SAtom 2 (int 3); SAppend 1 2].

Example C89_ex :
  let w := run a_default 5 change_inside (begins two_lists) in
  reads two_lists (HRef 1) (TList [TList [TAtom (int 7)]; TAtom (int 5)]) /\
  reads (w_heap w) (w_vars w 0) (TList [TList [TAtom (int 7); TAtom (int 3)]; TAtom (int 5)]) /\
  (let w' := step a_default 5 (SGet 3 1) w in
   reads (w_heap w') (w_vars w' 3) (TList [TList [TAtom (int 7)]; TAtom (int 5)])).
Proof.
  vm_compute. split; [|split].
  all: econstructor; [reflexivity|]; constructor; [econstructor; [reflexivity|]; repeat constructor|repeat constructor].
Qed.

Example C89_ex_factory :
  let w := run (PropDecl [KList] Factory false false) 5 [SNew; SNew; SGet 0 0; SAtom 2 (int 3); SAppend 0 2; SGet 1 1] (begins []) in
  reads (w_heap w) (w_vars w 0) (TList [TAtom (int 3)]) /\ reads (w_heap w) (w_vars w 1) (TList []).
Proof. vm_compute. split; econstructor; [reflexivity|repeat constructor|reflexivity|constructor]. Qed.

Example C89_ex_list :
  let d := PropDecl [KList] (Default (HAtom ANone)) false true in
  let w := run d 5 [SNew; SAtom 2 (int 3); SList 0 [2]; SSet 0 0; SAppend 0 2] (begins []) in
  reads (w_heap w) (w_vars w 0) (TList [TAtom (int 3); TAtom (int 3)]) /\
  (let w' := step d 5 (SGet 1 0) w in reads (w_heap w') (w_vars w' 1) (TList [TAtom (int 3)])).
Proof. vm_compute. split; econstructor; [reflexivity|repeat constructor|reflexivity|repeat constructor]. Qed.

(** The copy that [internal_type=list] makes is of the outer list only: a change to
    a list inside it is seen by the object. *)
Theorem C89_nested_list_refuted :
  let d := PropDecl [KList] (Default (HAtom ANone)) false true in
  let w := run d 5 [SNew; SList 0 []; SList 1 [0]; SSet 0 1] (begins []) in
  let p' := [SAtom 2 (int 3); SAppend 0 2] in
  exists u, value_of w 0 u /\ reads (w_heap w) u (TList [TList []]) /\ Forall (leaves 0) p' /\
    value_of (run d 5 p' w) 0 u /\ reads (w_heap (run d 5 p' w)) u (TList [TList [TAtom (int 3)]]).
Proof.
  vm_compute. exists (HRef 2). split; [eexists; split; reflexivity|]. split.
  { econstructor; [reflexivity|]. constructor; [econstructor; [reflexivity|constructor]|constructor]. }
  split; [repeat constructor|]. split; [eexists; split; reflexivity|].
  econstructor; [reflexivity|]. constructor; [econstructor; [reflexivity|repeat constructor]|constructor].
Qed.
Print Assumptions C89_nested_list_refuted.

(** Without [internal_type] an assigned list is not copied at all: two objects that
    are assigned the same list share it, and each sees the changes that are made
    through the other. *)
Theorem C89_assigned_list_refuted :
  let d := PropDecl [KList] (Default (HAtom ANone)) false false in
  let w := run d 5 [SNew; SNew; SList 0 []; SSet 0 0; SSet 1 0] (begins []) in
  let p' := [SGet 1 1; SAtom 2 (int 3); SAppend 1 2] in
  exists u, value_of w 0 u /\ reads (w_heap w) u (TList []) /\ Forall (leaves 0) p' /\
    value_of (run d 5 p' w) 0 u /\ reads (w_heap (run d 5 p' w)) u (TList [TAtom (int 3)]).
Proof.
  vm_compute. exists (HRef 0). split; [eexists; split; reflexivity|]. split; [econstructor; [reflexivity|constructor]|].
  split; [repeat constructor; discriminate|]. split; [eexists; split; reflexivity|].
  econstructor; [reflexivity|repeat constructor].
Qed.
Print Assumptions C89_assigned_list_refuted.
