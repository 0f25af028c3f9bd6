(** * Vocabulary of the accessor properties: histories of API calls, and the
    answers the file alone determines. *)
From Coq Require Import String NArith ZArith List Bool.
Import ListNotations.
From Verif Require Import PyBase Shlex IniView IniRead ExcControl Cpe SpecWalk SpecRun SpecParse.

(** ** Calls *)

(** The public calls that may be made on an object and its
    [configparserenhanceddata], apart from the assignments of C14-C16 and the
    writes of C36. *)
Inductive op :=
| OParse (s : str)                        (** [parse_section(s)] *)
| OParseAll                               (** [parse_all_sections()] *)
| OItem (s : str)                         (** [data[s]] *)
| OOptions (s : str)                      (** [data.options(s)] *)
| OGet (s : str) (k : option str)         (** [data.get(s)], [data.get(s, k)] *)
| OHasSection (s : str)
| OHasOption (s k : str)
| OItems                                  (** [data.items()] *)
| OItemsOf (s : str)                      (** [data.items(s)] *)
| OSections (p : parse_arg)
| OKeys                                   (** [data.keys()], [iter(data)] *)
| OLen
| OAssertSection (s : str) (do_raise : bool)
| OAssertFile
| OUnroll (s : option str) (spaces : bool) (** [unroll_to_str(..., use_base_class_parser=False)] *)
| OKnownOps
| OLevel (z : Z)                          (** [exception_control_level = z] *)
| ODebug (z : Z)                          (** [debug_level = z] *).

Inductive answer :=
| RDone                                   (** the call returned (value not considered) *)
| RDict (d : dict (option str))
| RValue (v : option str)
| RBool (b : bool)
| RNames (l : list str)
| RNum (n : nat)
| RData (d : sections_data)
| RInt (z : Z)
| RMsg (m : option str)
| RText (t : str).

Section Exec.
Context {Sh Us : Type} (K : pyclass Sh Us) (fs : str -> option str) (fuel : nat).
Notation obj := (obj Sh Us).

Definition fmap {A} (f : A -> answer) (m : SM obj A) : SM obj answer := bind m (fun a => ret (f a)).

Definition exec_op (c : op) : SM obj answer :=
  match c with
  | OParse s => fmap (fun _ => RDone) (parse_section_str K fs fuel s true true)
  | OParseAll => fmap (fun _ => RDone) (parse_all_sections K fs fuel)
  | OItem s => fmap RDict (getitem K fs fuel s)
  | OOptions s => fmap RDict (data_options K fs fuel s)
  | OGet s k => fmap (fun g => match g with GotSection d => RDict d | GotValue v => RValue v end)
                     (data_get K fs fuel s k)
  | OHasSection s => fmap RBool (has_section K fs fuel s)
  | OHasOption s k => fmap RBool (has_option K fs fuel s k)
  | OItems => fmap RData (data_items_all K fs fuel)
  | OItemsOf s => fmap RDict (data_items K fs fuel s)
  | OSections p => fmap RNames (data_sections K fs fuel p)
  | OKeys => fmap RNames (data_keys fs)
  | OLen => fmap RNum (data_len fs)
  | OAssertSection s b => fmap RMsg (assert_section K fs fuel s b)
  | OAssertFile => fmap RInt (assert_file K fs fuel)
  | OUnroll s b => fmap RText (unroll_to_str K fs fuel s b false)
  | OKnownOps => fmap RNames (get_known_operations K fs)
  | OLevel z => fmap (fun _ => RDone) (set_level z)
  | ODebug z => fmap (fun _ => RDone) (set_debug_level z)
  end.

(** The object after a history of calls; calls may raise. *)
Fixpoint after (h : list op) (o : obj) : obj :=
  match h with
  | [] => o
  | c :: h' => after h' (snd (exec_op c o))
  end.
End Exec.

Section Spec.
Context {Sh Us : Type} (K : pyclass Sh Us) (i : ini) (dname : str).

(** The options of section [s] according to the file: the unhandled options of
    the default section's and of its own expansion. *)
Definition expansion (s : str) (d : dict (option str)) : Prop :=
  exists evs n, parse_walk K i dname s true true evs n /\ d = write_all (plains evs) [].

(** No [use] cycle is reachable from [s] or from the default section. *)
Definition acyclic (s : str) : Prop :=
  forall t, contributes K i dname s true t -> ~ on_cycle K i t.

(** Section [s] of the file can be parsed: everything it includes exists and is
    well-formed, and the default section does not lead back to it. *)
Definition parsable (s : str) : Prop :=
  s <> [] /\ ini_has_section i s = true /\ default_ok K i dname s true /\
  forall t, contributes K i dname s true t -> clean_section K i t.
Definition all_parsable : Prop := forall s, ini_has_section i s = true -> parsable s.

(** The calls whose section argument is in the file, and whose level is below
    the one at which cycles are errors. *)
Definition in_file (c : op) : Prop :=
  match c with
  | OParse s | OItem s | OOptions s | OGet s _ | OHasSection s | OHasOption s _ | OItemsOf s
  | OAssertSection s _ | OUnroll (Some s) _ => ini_has_section i s = true
  | OLevel z => (z < 5)%Z \/ forall s, ini_has_section i s = true -> acyclic s
  | _ => True
  end.

(** One line of [unroll_to_str], a section, the whole text. *)
Definition unrolled_option (delim : str) (kv : str * option str) : str :=
  strip_ws (fst kv ++ delim ++ match snd kv with Some s => s | None => [] end) ++ newline.
Definition unrolled_section (delim s : str) (d : dict (option str)) : str :=
  $"[" ++ s ++ $"]" ++ newline ++ flat_map (unrolled_option delim) d.
Definition unrolled (delim : str) (l : list (str * dict (option str))) : str :=
  flat_map (fun sd => unrolled_section delim (fst sd) (snd sd) ++ newline) l.

(** [answers lvl c r]: [r] is a right answer to call [c] at level [lvl]. *)
Inductive answers (lvl : Z) : op -> res answer -> Prop :=
| a_parse s : answers lvl (OParse s) (Ok RDone)
| a_parse_all : answers lvl OParseAll (Ok RDone)
| a_item s d : expansion s d -> answers lvl (OItem s) (Ok (RDict d))
| a_options s d : expansion s d -> answers lvl (OOptions s) (Ok (RDict d))
| a_get s d : expansion s d -> answers lvl (OGet s None) (Ok (RDict d))
| a_get_opt s k d v : expansion s d -> dget k d = Some v ->
    answers lvl (OGet s (Some k)) (Ok (RValue v))
| a_get_no_opt s k d : expansion s d -> dget k d = None ->
    answers lvl (OGet s (Some k)) (Err KeyError)
| a_has_section s : answers lvl (OHasSection s) (Ok (RBool true))
| a_has_option s k d : expansion s d -> answers lvl (OHasOption s k) (Ok (RBool (dmem k d)))
| a_items l :
    (forall s, ini_has_section i s = true -> exists d, expansion s d /\ dget s l = Some d) ->
    (forall s d, ini_has_section i s = false -> dget s l = Some d -> d = [] /\ s = i_defname i) ->
    NoDup (dkeys l) ->
    answers lvl OItems (Ok (RData l))
| a_items_of s d : expansion s d -> answers lvl (OItemsOf s) (Ok (RDict d))
| a_sections_bool b : answers lvl (OSections (PBool b)) (Ok (RNames (ini_sections i)))
| a_sections_force x : lower x = $"force" -> answers lvl (OSections (PStr x)) (Ok (RNames (ini_sections i)))
| a_sections_str x : lower x <> $"force" -> answers lvl (OSections (PStr x)) (Err ValueError)
| a_sections_bad : answers lvl (OSections PBad) (Err TypeError)
| a_keys : answers lvl OKeys (Ok (RNames (ini_sections i)))
| a_len : answers lvl OLen (Ok (RNum (length (ini_sections i))))
| a_handled s b : expansion s [] -> answers lvl (OAssertSection s b) (Ok (RMsg None))
| a_unhandled s d b m : expansion s d -> d <> [] -> (b = false \/ (lvl < 3)%Z) ->
    (forall k, In k (dkeys d) -> exists x y, m = x ++ ($"|- '" ++ k ++ $"'") ++ y) ->
    answers lvl (OAssertSection s b) (Ok (RMsg (Some m)))
| a_unhandled_raise s d : expansion s d -> d <> [] -> (3 <= lvl)%Z ->
    answers lvl (OAssertSection s true) (Err ValueError)
| a_file_handled : (forall s, ini_has_section i s = true -> expansion s []) ->
    answers lvl OAssertFile (Ok (RInt 0%Z))
| a_file_unhandled s d : ini_has_section i s = true -> expansion s d -> d <> [] -> (lvl < 3)%Z ->
    answers lvl OAssertFile (Ok (RInt 1%Z))
| a_file_raise s d : ini_has_section i s = true -> expansion s d -> d <> [] -> (3 <= lvl)%Z ->
    answers lvl OAssertFile (Err ValueError)
| a_unroll l b : map fst l = ini_sections i -> Forall (fun sd => expansion (fst sd) (snd sd)) l ->
    answers lvl (OUnroll None b)
      (Ok (RText (strip_ws (unrolled (if b then $" : " else $":") l) ++ newline)))
| a_unroll_section s d b : expansion s d ->
    answers lvl (OUnroll (Some s) b)
      (Ok (RText (strip_ws (unrolled_section (if b then $" : " else $":") s d) ++ newline)))
| a_ops : answers lvl OKnownOps (Ok (RNames (known_operations K)))
| a_level z : answers lvl (OLevel z) (Ok RDone)
| a_debug z : answers lvl (ODebug z) (Ok RDone).
End Spec.

(** An object on which the file has been loaded (or will load) and no accessor
    has been used. *)
Record opened {Sh Us : Type} (K : pyclass Sh Us) (fs : str -> option str) (i : ini) (dname : str)
    (o : obj Sh Us) : Prop := {
  op_file : has_file fs o i;
  op_path : path_set_of o = true;
  op_level : level_ok o;
  op_cycles : (level_of o < 5)%Z \/ forall s, ini_has_section i s = true -> acyclic K i dname s;
  op_default : o_defname o = dname;
  op_data : o_edata o = None
}.

(** The call may parse section [t] although it is not in the file. *)
Definition asks (t : str) (c : op) : bool :=
  match c with
  | OParse s | OGet s _ | OHasOption s _ | OAssertSection s _ => str_eqb s t
  | _ => false
  end.
(** The call parses section [t] again even if that has been done. *)
Definition reparses (t : str) (c : op) : bool :=
  match c with
  | OParse s => str_eqb s t
  | OSections (PStr x) => str_eqb (lower x) $"force"
  | _ => false
  end.

(** The value of an option in the enhanced data, without parsing. *)
Definition lookup {Sh Us} (o : obj Sh Us) (s k : str) : option (option str) :=
  match section_of o s with Some d => dget k d | None => None end.

(** The level after a history that starts at level [l]: levels are clamped to
    0..5 (C23). *)
Fixpoint last_level (h : list op) (l : Z) : Z :=
  match h with
  | [] => l
  | OLevel z :: h' => last_level h' (Z.min 5 (Z.max 0 z))
  | _ :: h' => last_level h' l
  end.

(** Equal answers; the listing of all sections is compared per section of the
    file, and an unhandled-options message only by being one. *)
Definition same_answer (i : ini) (c : op) (r r' : res answer) : Prop :=
  match c with
  | OItems => exists l l', r = Ok (RData l) /\ r' = Ok (RData l') /\
      forall s, ini_has_section i s = true -> dget s l = dget s l'
  | OAssertSection _ _ => r = r' \/ exists m m', r = Ok (RMsg (Some m)) /\ r' = Ok (RMsg (Some m'))
  | _ => r = r'
  end.
