(** * Vocabulary for the properties of [inifilepath] and
    [configparser_delimiters]: which calls parse which sections. *)
From Coq Require Import String NArith ZArith List Bool.
Import ListNotations.
From Verif Require Import PyBase IniView Cpe SpecRun SpecApi.

(** The section a call names. *)
Definition names (c : op) : option str :=
  match c with
  | OParse s | OItem s | OOptions s | OGet s _ | OHasSection s | OHasOption s _ | OItemsOf s
  | OAssertSection s _ => Some s
  | _ => None
  end.
(** The call parses every section of the file. *)
Definition parses_all (c : op) : bool :=
  match c with OParseAll | OItems | OSections (PBool true) => true | _ => false end.
(** The call parses [s]. *)
Definition parses (s : str) (c : op) : bool :=
  parses_all c || match names c with Some t => str_eqb t s | None => false end.
(** The call does not parse [s]: it names another section, or it needs none. *)
Definition spares (s : str) (c : op) : bool :=
  match names c with
  | Some t => negb (str_eqb t s)
  | None =>
      match c with
      | OKeys | OLen | OKnownOps | OLevel _ | ODebug _ | OSections (PBool false) | OSections PBad => true
      | _ => false
      end
  end.

(** The paths in an argument of [inifilepath]; [None]: one of them is not a path. *)
Fixpoint all_paths (l : list (option str)) : option (list str) :=
  match l with
  | [] => Some []
  | Some p :: l' => option_map (cons p) (all_paths l')
  | None :: _ => None
  end.
Definition paths_of (a : files_arg) : option (list str) :=
  match a with FOne p => Some [p] | FMany l => all_paths l | FBad => None end.
(** The paths before the first entry that is not one. *)
Fixpoint leading_paths (l : list (option str)) : list str :=
  match l with Some p :: l' => p :: leading_paths l' | _ => [] end.

(** A new object with the settings of [o], on the files [fl]. *)
Definition renewed {Sh Us} (fl : option (list str)) (ds : list str) (o : obj Sh Us) : obj Sh Us :=
  Obj fl None ds None None (o_ec o) (o_debug o) None (o_defname o) (o_intname o) (o_user o) [].

(** The calls considered after the assignment when [s] is observed: those that
    name [s] and those that do not parse it. The level may be raised to 5 only
    if [s] has no cycle. *)
Definition allowed {Sh Us} (K : pyclass Sh Us) (i : ini) (dname s : str) (c : op) : Prop :=
  names c = Some s \/
  spares s c = true /\ match c with OLevel z => (z < 5)%Z \/ acyclic K i dname s | _ => True end.
