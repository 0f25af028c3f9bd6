(** * What a text of an exception or of a warning tells. *)
From Coq Require Import String NArith ZArith List Bool.
Import ListNotations.
From Verif Require Import PyBase IniView ExcControl Debuggable Cpe SpecText SpecFile SpecShell SpecWalk SpecParse Errors Texts.
Local Open Scope string_scope.
Local Open Scope list_scope.

(** ** The texts *)
Section Words.
Variable shown_files : list str -> str.
Definition says_missing (fl : list str) (t : str) : str :=
  $"ERROR: No section named `" ++ t ++ $"` was found in the configuration file " ++ shown_files fl ++ $".".
(** [t] was to be loaded from [u]. *)
Definition says_cycle (fl : list str) (t u : str) : str :=
  $"Detected a cycle in `use` dependencies in .ini file " ++ shown_files fl ++ $"." ++ newline ++
  $"- cannot load [" ++ t ++ $"] from [" ++ u ++ $"].".
Definition says_ambiguous (private public : str) : str :=
  $"Ambiguous handler name. Both `" ++ private ++ $"` and `" ++ public ++ $"` exist but only one is allowed.".
Definition says_returned (name : str) (z : Z) : str := $"Handler `" ++ name ++ $"` returned " ++ dec_of_Z z.
Definition bar : str := $"+==============================================================================+".
Definition says_no_file (cwd p : str) : str :=
  join newline [[]; bar; $"|   ERROR: Unable to load configuration .ini file"; $"|   - Requested file: `" ++ p ++ $"`";
                $"|   - CWD: `" ++ cwd ++ $"`"; bar; []].
Definition says_unreachable : str := $"Reached 'unreachable' code? Please notify developers of this".
End Words.
(** A warning shows a message line by line. *)
Definition warning_lines (lines : list str) : str := $"!! Message    : " ++ join (newline ++ $"!!            : ") lines.
Definition warns (m l : str) : Prop :=
  exists lines, Forall (fun x => ~ In 10%N x) lines /\ m = join newline lines /\ l = warning_lines lines.

(** ** When they are true *)
Section T.
Context {Sh Us : Type} (K : pyclass Sh Us) (shown_files : list str -> str).
(** The file with content [i] has been read from the paths [fl]; a parse of [root]. *)
Variables (i : ini) (fl : list str) (dname root : str) (init : bool).
Notation takes_part u := (contributes K i dname root init u).

(** The option [item] is written in a section that takes part. *)
Definition written (u : str) (item : str * res (option str)) : Prop :=
  takes_part u /\ exists items, section_shows i u items /\ In item items.

(** [tells e m]: with the exception [e] the text [m] names the culprit. *)
Inductive tells : exc -> str -> Prop :=
(** The section [t] is needed and not there. *)
| t_missing t : takes_part t -> ~ present i t -> tells KeyError (says_missing shown_files fl t)
(** [u] uses [t], and [t] leads back to [u]. *)
| t_cycle u t : takes_part u -> uses K i u t -> reaches K i t u -> tells ValueError (says_cycle shown_files fl t u)
(** An option whose operation has a public and a private handler. *)
| t_ambiguous u k0 v0 k w ps : written u (k0, Ok v0) -> trimmed space k0 k -> words k (w :: ps) ->
    op_shaped (k_uniword K) w ->
    has_attr K (public_name (undash w)) <> None -> has_attr K (private_name (undash w)) <> None ->
    tells AmbiguousHandlerError (says_ambiguous (private_name (undash w)) (public_name (undash w)))
(** The handler of an option, or one of the two that belong to every parse, returned
    something other than 0. *)
| t_returned u item h f k v hp sh us z sh' us' : written u item ->
    meaning K u item (MStep (Call u h Decorated f k v)) ->
    f u hp sh us = (Ok (Some z), sh', us') -> z <> 0%Z -> tells RuntimeError (says_returned (h_name h) z)
| t_hook name f hp sh us z sh' us' : In name [$"handler_initialize"; $"handler_finalize"] ->
    find_attr K name = Some (AUser Decorated f) ->
    f root hp sh us = (Ok (Some z), sh', us') -> z <> 0%Z -> tells RuntimeError (says_returned name z).

(** Exceptions without a text of the parser: a handler raised it, the value of an
    option raised it, the words of an option are not well-formed, or it is not one of
    those that always have a text. *)
Definition silent_exc (e : exc) : Prop :=
  (exists name kind f sec hp sh us, find_attr K name = Some (AUser kind f) /\ fst (fst (f sec hp sh us)) = Err e) \/
  (exists u k0, written u (k0, Err e)) \/
  (e = ValueError /\ exists u k0 v0 k, written u (k0, Ok v0) /\ trimmed space k0 k /\ forall l, ~ words k l) \/
  In e [IndexError; TypeError; AttributeError; RecursionError].

(** The same for the accessors of the view, asked for the section [root]: a text that
    [tells] is kept, or it is the accessor's own, [own e m]. *)
Definition answers_with {A} (own : exc -> str -> Prop) (x : eres A * obj Sh Us * list str) : Prop :=
  let '(r, _, w) := x in
  Forall (fun l => exists e m, tells e m /\ warns m l) w /\
  match r with
  | EOk _ => True
  | EErr e (Some m) => tells e m \/ own e m
  | EErr e None => silent_exc e
  end.
End T.

(** A computation without its texts. *)
Definition unsaid {A} (r : eres A) : res A := match r with EOk a => Ok a | EErr e _ => Err e end.
Definition forget {S A} (x : eres A * S * list str) : res A * S := let '(r, s, _) := x in (unsaid r, s).
