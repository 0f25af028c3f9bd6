(** * The POSIX shell grammar of option keys, as a relation between a text and
    its words. Independent of the tokeniser of [Shlex.v]. *)
From Coq Require Import NArith List Bool.
Import ListNotations.
From Verif Require Import PyBase.

Definition blank (c : pychar) : Prop := c = 32%N \/ c = 9%N \/ c = 10%N \/ c = 13%N.
Definition squote : pychar := 39%N.
Definition dquote : pychar := 34%N.
Definition backslash : pychar := 92%N.
Definition ordinary (c : pychar) : Prop :=
  ~ blank c /\ c <> squote /\ c <> dquote /\ c <> backslash.

(** Between double quotes: a backslash is only special before a double quote or
    a backslash. *)
Inductive in_dquotes : str -> str -> Prop :=
| dq_nil : in_dquotes [] []
| dq_char c s t : c <> dquote -> c <> backslash -> in_dquotes s t -> in_dquotes (c :: s) (c :: t)
| dq_escape c s t : c = dquote \/ c = backslash ->
    in_dquotes s t -> in_dquotes (backslash :: c :: s) (c :: t)
| dq_backslash c s t : c <> dquote -> c <> backslash ->
    in_dquotes s t -> in_dquotes (backslash :: c :: s) (backslash :: c :: t).

(** A piece of a word and the text it stands for. *)
Inductive piece : str -> str -> Prop :=
| p_ordinary c : ordinary c -> piece [c] [c]
| p_escaped c : piece [backslash; c] [c]
| p_single s : ~ In squote s -> piece (squote :: s ++ [squote]) s
| p_double s t : in_dquotes s t -> piece (dquote :: s ++ [dquote]) t.

(** A word: one or more pieces without blanks between them. *)
Inductive word : str -> str -> Prop :=
| w_one s t : piece s t -> word s t
| w_more s t s' t' : piece s t -> word s' t' -> word (s ++ s') (t ++ t').

(** Words separated by blanks. *)
Inductive words : str -> list str -> Prop :=
| ws_nil : words [] []
| ws_blank c s l : blank c -> words s l -> words (c :: s) l
| ws_last s t : word s t -> words s [t]
| ws_word s t c s' l : word s t -> blank c -> words s' l -> words (s ++ c :: s') (t :: l).

(** Quoting in the style of [shlex.quote]. *)
Definition sq_char (c : pychar) : str :=
  if N.eqb c squote then [squote; dquote; squote; dquote; squote] else [c].
Definition quoted (t : str) : str := squote :: flat_map sq_char t ++ [squote].
Definition blank_sep : str := [32%N].
