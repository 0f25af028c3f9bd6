(** * [src/configparserenhanced/ExceptionControl.py] *)
From Coq Require Import String NArith ZArith List Bool.
Import ListNotations.
From Verif Require Import PyBase.
Local Open Scope Z_scope.

(** State of the mixin: lines 143-213. A fresh object behaves as level 4 with
    both flags off (the lazily created defaults at 157, 179 and 204). *)
Record ecs := Ecs {
  ec_level : Z;
  ec_silent : bool;
  ec_compact : bool
}.
Definition ec_init : ecs := Ecs 4 false false.

(** Setter, lines 207-213 (the argument already converted by [int]). *)
Definition ec_set_level (v : Z) (s : ecs) : ecs :=
  Ecs (Z.min 5 (Z.max 0 v)) (ec_silent s) (ec_compact s).
(** Flag setters, lines 160-165 and 182-187; [None] is a non-[bool] argument. *)
Definition ec_set_silent (v : option bool) (s : ecs) : res unit * ecs :=
  match v with
  | None => (Err TypeError, s)
  | Some b => (Ok tt, Ecs (ec_level s) b (ec_compact s))
  end.
Definition ec_set_compact (v : option bool) (s : ecs) : res unit * ecs :=
  match v with
  | None => (Err TypeError, s)
  | Some b => (Ok tt, Ecs (ec_level s) (ec_silent s) b)
  end.

(** Lines 129-141, [_exception_control_map_event_to_level_req]. *)
Definition event_map : dict Z :=
  [($"SILENT", 5); ($"WARNING", 5); ($"MINOR", 4); ($"SERIOUS", 3);
   ($"CRITICAL", 2); ($"CATASTROPHIC", 0)].

(** The [exception_type] argument. *)
Inductive exc_arg :=
| XClass (e : exc)           (** an exception class callable without arguments *)
| XClassNeedsArgs (e : exc)  (** a class whose constructor needs arguments *)
| XInstance (e : exc)        (** an exception object *)
| XNotExc                    (** anything else *).

(** Lines 234-260: [raise exception] inside a [try]. *)
Definition is_raisable (x : exc_arg) : bool :=
  match x with
  | XClass _ => true
  | XClassNeedsArgs _ => false   (* the constructor's TypeError is seen *)
  | XInstance _ => true
  | XNotExc => false
  end.

(** What is printed for a skipped event (lines 278-311): the compact one-liner or
    the block with event type, exception class and, if given, the message. The
    call stack text is not modelled. *)
Inductive outev :=
| OWarn (compact : bool) (event : str) (e : exc) (with_message : bool).

(** [raise exception_type] / [raise exception_type(message)], lines 269-272. *)
Definition raise_arg (x : exc_arg) (with_message : bool) : exc :=
  match x with
  | XClass e => e
  | XInstance e => if with_message then TypeError (* not callable *) else e
  | _ => TypeError
  end.

(** Lines 215-315, [exception_control_event]: result and printed output. *)
Definition ec_event (s : ecs) (event : str) (x : exc_arg) (with_message : bool)
  : res unit * list outev :=
  let event := upper event in
  if negb (is_raisable x) then (Err TypeError, [])
  else
    match dget event event_map with
    | None => (Err KeyError, [])
    | Some req =>
        if req <=? ec_level s then (Err (raise_arg x with_message), [])
        else if 0 <? ec_level s then
          match x with
          | XClass e =>
              if negb (ec_silent s) && negb (str_eqb event $"SILENT")
              then (Ok tt, [OWarn (ec_compact s) event e
                                  (with_message && negb (ec_compact s))])
              else (Ok tt, [])
          | _ => (Err TypeError, [])  (* [except exception_type] needs a class *)
          end
        else (Ok tt, [])
    end.
