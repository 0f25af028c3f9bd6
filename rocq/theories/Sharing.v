(** * [src/configparserenhanced/TypedProperty.py] with objects that can change.

    [TypedProp.v] has values that never change. Here a value is an atom or a
    reference to a list in a heap, and a list can be changed in place by whoever
    has a reference to it. Lists stand for all containers that can change. One
    class with one typed property is used by a program that has variables, makes
    objects of the class, reads, assigns and deletes the property, and makes, takes
    apart and changes lists.

    Line numbers refer to that file. [transform] and [validator] are in
    [TypedProp.v] and are left out here. *)
From Coq Require Import String NArith ZArith List Bool Arith.
Import ListNotations.
From Verif Require Import PyBase.

Inductive atom := ANone | AInt (z : Z) | AStr (s : str).
Inductive hval := HAtom (a : atom) | HRef (a : nat).
Definition heap := list (list hval).

Fixpoint set_cell (a : nat) (items : list hval) (h : heap) : heap :=
  match h, a with
  | [], _ => []
  | _ :: h', O => items :: h'
  | c :: h', S a' => c :: set_cell a' items h'
  end.

(** ** [copy.deepcopy] (CPython [copy.py], [_deepcopy_list])

    The memo has the copy of every list that has been met; [fuel] is the limit on
    the depth of calls. *)
Definition memo := list (nat * nat).
Fixpoint met (a : nat) (m : memo) : option nat :=
  match m with [] => None | (x, b) :: m' => if Nat.eqb x a then Some b else met a m' end.
Fixpoint copy_items (copy : memo -> heap -> hval -> res (heap * memo * hval)) (m : memo) (h : heap) (l : list hval)
  : res (heap * memo * list hval) :=
  match l with
  | [] => Ok (h, m, [])
  | v :: l' =>
      match copy m h v with
      | Err e => Err e
      | Ok (h1, m1, v1) =>
          match copy_items copy m1 h1 l' with
          | Err e => Err e
          | Ok (h2, m2, l2) => Ok (h2, m2, v1 :: l2)
          end
      end
  end.
Fixpoint deepcopy (fuel : nat) (m : memo) (h : heap) (v : hval) : res (heap * memo * hval) :=
  match v with
  | HAtom _ => Ok (h, m, v)
  | HRef a =>
      match met a m with
      | Some b => Ok (h, m, HRef b)
      | None =>
          match fuel, nth_error h a with
          | S f, Some items =>
              let b := length h in
              match copy_items (deepcopy f) ((a, b) :: m) (h ++ [[]]) items with
              | Ok (h', m', items') => Ok (set_cell b items' h', m', HRef b)
              | Err e => Err e
              end
          | _, _ => Err RecursionError
          end
      end
  end.

(** ** The property *)

(** The types that [expected_type] can list. *)
Inductive kind := KNone | KInt | KStr | KList.
Definition kind_of (v : hval) : kind :=
  match v with HAtom ANone => KNone | HAtom (AInt _) => KInt | HAtom (AStr _) => KStr | HRef _ => KList end.
Definition kind_eqb (a b : kind) : bool :=
  match a, b with KNone, KNone | KInt, KInt | KStr, KStr | KList, KList => true | _, _ => false end.

(** What is used when nothing has been assigned (lines 58-59): [default=v] or
    [default_factory=list]. *)
Inductive source := Default (v : hval) | Factory.
Record prop_decl := PropDecl {
  p_expected : list kind;    (** [expected_type] *)
  p_source : source;
  p_req : bool;              (** [req_assign_before_use] *)
  p_list : bool              (** [internal_type=list] *)
}.

(** The two attributes of an object. *)
Record pobj := PObj { p_var : option hval; p_set : option bool }.
Definition new_pobj : pobj := PObj None None.

Record hworld := HWorld { w_heap : heap; w_objs : list pobj; w_vars : nat -> hval }.

Fixpoint put_obj (o : nat) (p : pobj) (l : list pobj) : list pobj :=
  match l, o with
  | [], _ => []
  | _ :: l', O => p :: l'
  | q :: l', S o' => q :: put_obj o' p l'
  end.
Definition put_var (x : nat) (v : hval) (vars : nat -> hval) : nat -> hval := fun y => if Nat.eqb y x then v else vars y.

Section Program.
Variable d : prop_decl.
Variable fuel : nat.

(** Getter, lines 101-116: the value, with the heap and the object after it. *)
Definition prop_get (h : heap) (p : pobj) : res hval * heap * pobj :=
  let flag := match p_set p with None => false | Some b => b end in
  let p1 := PObj (p_var p) (Some flag) in
  if p_req d && negb flag then (Err UnboundLocalError, h, p1)
  else match p_var p1 with
       | Some v => (Ok v, h, p1)
       | None =>
           match p_source d with
           | Default v =>
               match deepcopy fuel [] h v with
               | Ok (h', _, v') => (Ok v', h', PObj (Some v') (p_set p1))
               | Err e => (Err e, h, p1)
               end
           | Factory => (Ok (HRef (length h)), h ++ [[]], PObj (Some (HRef (length h))) (p_set p1))
           end
       end.

(** Setter, lines 118-155; [list(v)] makes a new list with the same elements. *)
Definition prop_set (h : heap) (v : hval) (p : pobj) : res unit * heap * pobj :=
  if existsb (kind_eqb (kind_of v)) (p_expected d) then
    if p_list d then
      match v with
      | HRef a =>
          match nth_error h a with
          | Some items => (Ok tt, h ++ [items], PObj (Some (HRef (length h))) (Some true))
          | None => (Err TypeError, h, p)
          end
      | HAtom (AStr s) =>
          (Ok tt, h ++ [map (fun c => HAtom (AStr [c])) s], PObj (Some (HRef (length h))) (Some true))
      | HAtom _ => (Err TypeError, h, p)
      end
    else (Ok tt, h, PObj (Some v) (Some true))
  else (Err TypeError, h, p).

(** ** Programs; a statement that raises is passed over, as in [try: ... except:
    pass], with what it has done. *)
Inductive stmt :=
| SNew                                   (** a new object *)
| SGet (x o : nat)                       (** [x = o.prop] *)
| SSet (o x : nat)                       (** [o.prop = x] *)
| SDel (o : nat)                         (** [del o.prop] *)
| SAtom (x : nat) (a : atom)             (** [x = a] *)
| SList (x : nat) (l : list nat)         (** [x = [y, z, ...]] *)
| SAppend (x y : nat)                    (** [x.append(y)] *)
| SItem (x y i : nat).                   (** [x = y[i]] *)

Definition step (s : stmt) (w : hworld) : hworld :=
  match s with
  | SNew => HWorld (w_heap w) (w_objs w ++ [new_pobj]) (w_vars w)
  | SGet x o =>
      match nth_error (w_objs w) o with
      | Some p =>
          match prop_get (w_heap w) p with
          | (Ok v, h, p') => HWorld h (put_obj o p' (w_objs w)) (put_var x v (w_vars w))
          | (Err _, h, p') => HWorld h (put_obj o p' (w_objs w)) (w_vars w)
          end
      | None => w
      end
  | SSet o x =>
      match nth_error (w_objs w) o with
      | Some p => let '(_, h, p') := prop_set (w_heap w) (w_vars w x) p in HWorld h (put_obj o p' (w_objs w)) (w_vars w)
      | None => w
      end
  | SDel o => HWorld (w_heap w) (put_obj o new_pobj (w_objs w)) (w_vars w)
  | SAtom x a => HWorld (w_heap w) (w_objs w) (put_var x (HAtom a) (w_vars w))
  | SList x l => HWorld (w_heap w ++ [map (w_vars w) l]) (w_objs w) (put_var x (HRef (length (w_heap w))) (w_vars w))
  | SAppend x y =>
      match w_vars w x with
      | HRef a =>
          match nth_error (w_heap w) a with
          | Some items => HWorld (set_cell a (items ++ [w_vars w y]) (w_heap w)) (w_objs w) (w_vars w)
          | None => w
          end
      | HAtom _ => w
      end
  | SItem x y i =>
      match w_vars w y with
      | HRef a =>
          match nth_error (w_heap w) a with
          | Some items => match nth_error items i with
                          | Some v => HWorld (w_heap w) (w_objs w) (put_var x v (w_vars w))
                          | None => w
                          end
          | None => w
          end
      | HAtom _ => w
      end
  end.
Fixpoint run (l : list stmt) (w : hworld) : hworld :=
  match l with [] => w | s :: l' => run l' (step s w) end.
End Program.
