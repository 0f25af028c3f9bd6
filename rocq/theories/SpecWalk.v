(** * Specification of a parse: the depth-first walk.

    This file says, without fuel, state, logs or exceptions, what a parse of a
    section consists of: a list of visible steps that depends only on the loaded
    file and on the class. The theorems relate the parser to this walk. *)
From Coq Require Import String NArith ZArith List Bool.
Import ListNotations.
From Verif Require Import PyBase IniView Cpe SpecText SpecFile SpecShell.

Section Walk.
Context {Sh Us : Type} (K : pyclass Sh Us) (i : ini).

(** ** The meaning of one option *)

(** A key that names an operation: the operation, its parameters, the handler
    found, and whether there is both a public and a private one. *)
Record opinfo := OpInfo {
  h_op : str;
  h_params : list str;
  h_name : str;
  h_amb : bool
}.

(** The handler of an operation word: [handler_<op>] if there is one, otherwise
    [_handler_<op>]. *)
Definition public_name (op : str) : str := $"handler_" ++ op.
Definition private_name (op : str) : str := $"_handler_" ++ op.
Definition has_attr (n : str) : option (attr Sh Us) :=
  match find_attr K n with Some ANone => None | x => x end.

Inductive handler_of (op : str) : option (str * attr Sh Us * bool) -> Prop :=
| ho_public a : has_attr (public_name op) = Some a -> has_attr (private_name op) = None ->
                handler_of op (Some (public_name op, a, false))
| ho_private a : has_attr (public_name op) = None -> has_attr (private_name op) = Some a ->
                 handler_of op (Some (private_name op, a, false))
| ho_both a b : has_attr (public_name op) = Some a -> has_attr (private_name op) = Some b ->
                handler_of op (Some (public_name op, a, true))
| ho_none : has_attr (public_name op) = None -> has_attr (private_name op) = None ->
            handler_of op None.

(** Dashes and underscores are the same in an operation. *)
Definition undash (w : str) : str := map (fun c => if N.eqb c 45 then 95%N else c) w.

(** The visible steps. [s] is always the section whose text is being read; [k]
    and [v] are the cleaned key and value. *)
Inductive stop :=
| StopValue (e : exc)                                    (** the value cannot be computed *)
| StopKey (k : str) (v : option str) (e : exc)           (** the key cannot be split *)
| StopUse (h : opinfo) (k : str) (v : option str)        (** [use] without parameter *)
| StopObj (h : opinfo) (k : str) (v : option str)        (** the "handler" is not callable *).

Inductive ev :=
| Enter (s : str)
| Leave (s : str)
| Missing (s : str)
| Plain (s : str) (w : option (str * list str)) (k : str) (v : option str)
| Call (s : str) (h : opinfo) (kind : hkind) (f : hbody Sh Us) (k : str) (v : option str)
| UseIn (s t : str) (h : opinfo) (k : str) (v : option str)
| UseOut (s t : str) (h : opinfo) (k : str) (v : option str)
| Cycle (s t : str) (h : opinfo) (k : str) (v : option str)
| Stop (s : str) (r : stop)
| Hook (s : str) (name : str)                            (** initialize / finalize *).

(** What one raw option of section [s] means. *)
Inductive means :=
| MStep (e : ev)
| MUse (t : str) (h : opinfo) (k : str) (v : option str).

(** [k] and [v] are the key without the blanks around it and the value without
    blanks and double quotes; the words of the key decide. *)
Inductive meaning (s : str) : str * res (option str) -> means -> Prop :=
| m_value k0 e :
    meaning s (k0, Err e) (MStep (Stop s (StopValue e)))
| m_key_err k0 v0 k v :
    trimmed space k0 k -> cleaned v0 v ->
    (forall l, ~ words k l) ->
    meaning s (k0, Ok v0) (MStep (Stop s (StopKey k v ValueError)))
| m_key_empty k0 v0 k v :
    trimmed space k0 k -> cleaned v0 v ->
    words k [] ->
    meaning s (k0, Ok v0) (MStep (Stop s (StopKey k v IndexError)))
| m_noword k0 v0 k v w ps :
    trimmed space k0 k -> cleaned v0 v ->
    words k (w :: ps) -> ~ op_shaped (k_uniword K) w ->
    meaning s (k0, Ok v0) (MStep (Plain s None k v))
| m_plain k0 v0 k v w ps :
    trimmed space k0 k -> cleaned v0 v ->
    words k (w :: ps) -> op_shaped (k_uniword K) w ->
    handler_of (undash w) None ->
    meaning s (k0, Ok v0) (MStep (Plain s (Some (undash w, ps)) k v))
| m_user k0 v0 k v w ps name kind f amb :
    trimmed space k0 k -> cleaned v0 v ->
    words k (w :: ps) -> op_shaped (k_uniword K) w ->
    handler_of (undash w) (Some (name, AUser kind f, amb)) ->
    meaning s (k0, Ok v0) (MStep (Call s (OpInfo (undash w) ps name amb) kind f k v))
| m_use k0 v0 k v w t ps name amb :
    trimmed space k0 k -> cleaned v0 v ->
    words k (w :: t :: ps) -> op_shaped (k_uniword K) w ->
    handler_of (undash w) (Some (name, AUse, amb)) ->
    meaning s (k0, Ok v0) (MUse t (OpInfo (undash w) (t :: ps) name amb) k v)
| m_use_bad k0 v0 k v w name amb :
    trimmed space k0 k -> cleaned v0 v ->
    words k [w] -> op_shaped (k_uniword K) w ->
    handler_of (undash w) (Some (name, AUse, amb)) ->
    meaning s (k0, Ok v0) (MStep (Stop s (StopUse (OpInfo (undash w) [] name amb) k v)))
| m_obj k0 v0 k v w ps name amb :
    trimmed space k0 k -> cleaned v0 v ->
    words k (w :: ps) -> op_shaped (k_uniword K) w ->
    handler_of (undash w) (Some (name, AObj, amb)) ->
    meaning s (k0, Ok v0) (MStep (Stop s (StopObj (OpInfo (undash w) ps name amb) k v))).

(** ** The walk *)

(** [walk path s evs n]: reading section [s] while the sections of [path] are
    being read gives the steps [evs]; [n] is the nesting depth of sections.
    [use T] is replaced in place by the walk of [T], unless [T] is being read. *)
Inductive walk : list str -> str -> list ev -> nat -> Prop :=
| walk_missing path s :
    ~ present i s ->
    walk path s [Missing s] 1
| walk_section path s items evs n :
    section_shows i s items ->
    walk_options (s :: path) s items evs n ->
    walk path s (Enter s :: evs ++ [Leave s]) (S n)
with walk_options : list str -> str -> list (str * res (option str)) -> list ev -> nat -> Prop :=
| wo_nil path s : walk_options path s [] [] 0
| wo_step path s item rest e evs n :
    meaning s item (MStep e) ->
    walk_options path s rest evs n ->
    walk_options path s (item :: rest) (e :: evs) n
| wo_use path s item rest t h k v evs1 n1 evs2 n2 :
    meaning s item (MUse t h k v) -> ~ In t path ->
    walk path t evs1 n1 ->
    walk_options path s rest evs2 n2 ->
    walk_options path s (item :: rest)
                 (UseIn s t h k v :: evs1 ++ UseOut s t h k v :: evs2) (Nat.max n1 n2)
| wo_cycle path s item rest t h k v evs n :
    meaning s item (MUse t h k v) -> In t path ->
    walk_options path s rest evs n ->
    walk_options path s (item :: rest) (Cycle s t h k v :: evs) n.

(** The walk of the default section, with which every parse with
    [initialize=True] begins. *)
Definition default_walk (dname : str) (evs : list ev) (n : nat) : Prop :=
  if ini_has_section i dname then walk [] dname evs n else evs = [] /\ n = 0.

(** A whole parse of section [root]. *)
Inductive parse_walk (dname root : str) (init fin : bool) : list ev -> nat -> Prop :=
| pw_missing evs0 n0 :
    (if init then default_walk dname evs0 n0 else evs0 = [] /\ n0 = 0) ->
    ~ present i root ->
    parse_walk dname root init fin
      ((if init then Hook root $"handler_initialize" :: evs0 else []) ++ [Missing root]) (S n0)
| pw_section evs0 n0 items evs n :
    (if init then default_walk dname evs0 n0 else evs0 = [] /\ n0 = 0) ->
    section_shows i root items ->
    walk_options [root] root items evs n ->
    parse_walk dname root init fin
      ((if init then Hook root $"handler_initialize" :: evs0 else []) ++
       Enter root :: evs ++
       (if fin then [Hook root $"handler_finalize"] else []) ++ [Leave root])
      (S (Nat.max n0 n)).

(** ** Reachability by [use] links *)
Definition uses (s t : str) : Prop :=
  exists items item h k v,
    section_shows i s items /\ In item items /\ meaning s item (MUse t h k v).

Inductive reaches : str -> str -> Prop :=
| reach_refl s : reaches s s
| reach_step s t u : uses s t -> reaches t u -> reaches s u.

(** The default section does not lead back to the root (or does not matter). *)
Definition default_ok (dname root : str) (init : bool) : Prop :=
  init = true -> ini_has_section i dname = true -> dname <> root -> ~ reaches dname root.

(** ** What the steps do *)

(** The unhandled options of a walk, in order. *)
Definition plain_of (e : ev) : list (str * option str) :=
  match e with Plain _ _ k v => [(k, v)] | _ => [] end.
Definition plains (evs : list ev) : list (str * option str) := flat_map plain_of evs.

(** Writing options into a dict, in order. *)
Definition write_all (opts : list (str * option str)) (d : dict (option str))
  : dict (option str) :=
  fold_left (fun d kv => dset (fst kv) (snd kv) d) opts d.
End Walk.

Arguments opinfo : clear implicits.
Arguments ev : clear implicits.
Arguments means : clear implicits.
