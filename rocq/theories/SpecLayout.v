(** * What does not matter in the text of a file. *)
From Coq Require Import String NArith List Bool Arith.
Import ListNotations.
From Verif Require Import PyBase SpecRead.
Local Open Scope list_scope.

(** These lines do not go on with a value: after blank lines and comments there
    is nothing more, or a line that is not indented. *)
Inductive starts_afresh : list str -> Prop :=
| sa_end : starts_afresh []
| sa_filler l ls : filler l -> starts_afresh ls -> starts_afresh (l :: ls)
| sa_line c x ls : is_space c = false -> ~ comment_line (c :: x) -> starts_afresh ((c :: x) :: ls).

(** The indentation of a line with a text is changed as [f] says. *)
Inductive re_indented (f : nat -> nat) : str -> str -> Prop :=
| ri_filler l : filler l -> re_indented f l l
| ri_line w w' c x : forallb is_space w = true -> forallb is_space w' = true -> is_space c = false ->
    length w' = f (length w) -> re_indented f (w ++ c :: x) (w' ++ c :: x).

Inductive same_layout : list str -> list str -> Prop :=
| sl_comment a l b : comment_line l -> same_layout (a ++ b) (a ++ l :: b)
| sl_blank a l b : blank_line l -> starts_afresh b -> same_layout (a ++ b) (a ++ l :: b)
| sl_end a l w b : forallb is_space w = true -> same_layout (a ++ l :: b) (a ++ (l ++ w) :: b)
| sl_indent f ls ls' : (forall m n, m < n -> f m < f n) -> Forall2 (re_indented f) ls ls' -> same_layout ls ls'
| sl_refl ls : same_layout ls ls
| sl_sym ls ls' : same_layout ls ls' -> same_layout ls' ls
| sl_trans ls ls' ls'' : same_layout ls ls' -> same_layout ls' ls'' -> same_layout ls ls''.

(** Texts with such lines, whatever ends the lines. *)
Definition same_text (t t' : str) : Prop :=
  exists ls ls', lines_of t ls /\ lines_of t' ls' /\ same_layout ls ls'.
(** File systems with such texts. *)
Definition same_files (fs fs' : str -> option str) : Prop :=
  forall p, match fs p, fs' p with
            | Some t, Some t' => same_text t t'
            | None, None => True
            | _, _ => False
            end.
