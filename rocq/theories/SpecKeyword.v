(** * What the lists of values in a file mean. *)
From Coq Require Import String NArith List Bool.
Import ListNotations.
From Verif Require Import PyBase SpecText.

(** The text before the first [#]. *)
Fixpoint before_hash (s : str) : str :=
  match s with
  | [] => []
  | c :: s' => if N.eqb c 35 then [] else c :: before_hash s'
  end.

(** The text is cut into lines, comments are dropped, and what is left of a line
    is cut at every [^]. *)
Definition text_pieces (text : str) (ps : list str) : Prop :=
  exists lines cuts, cut_at 10%N text lines /\
    Forall2 (fun line l => cut_at 94%N (before_hash line) l) lines cuts /\ ps = concat cuts.

(** The listed values: the pieces that are not blank, without the white space
    around them. *)
Inductive kept : list str -> list str -> Prop :=
| kept_nil : kept [] []
| kept_blank p ps l : Forall space p -> kept ps l -> kept (p :: ps) l
| kept_value p v ps l : ~ Forall space p -> trimmed space p v -> kept ps l -> kept (p :: ps) (v :: l).
Definition lists (text : str) (l : list str) : Prop := exists ps, text_pieces text ps /\ kept ps l.

(** No piece consists of white space only. *)
Definition tidy_text (text : str) : Prop :=
  forall ps p, text_pieces text ps -> In p ps -> Forall space p -> p = [].

Definition select_one : str := $"SELECT_ONE".
Definition select_many : str := $"SELECT_MANY".

(** The values [l] may stand in a section with options [d]: no value twice, none
    with a blank or an underscore, none that is also a key. *)
Definition acceptable (d : dict (option str)) (l : list str) : Prop :=
  NoDup l /\
  (forall v, In v l -> (~ In 32%N v /\ ~ In 95%N v) \/ v = select_one \/ v = select_many) /\
  (forall v, In v l -> ~ In v (dkeys d)).

Definition text_of (v : option str) : str := match v with Some s => s | None => [] end.

(** The lines of the text, without white space around them, as
    [configparser] stores them. *)
Definition stripped_lines (text : str) : Prop :=
  forall lines line, cut_at 10%N text lines -> In line lines -> trimmed space line line.
