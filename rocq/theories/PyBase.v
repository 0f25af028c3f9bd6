(** * Python basics: strings, exceptions, results, state monad, dicts.

    Nothing in this file is specific to the repository; it fixes the meaning of
    the Python values the model talks about. *)
From Coq Require Import NArith ZArith List Bool String Ascii.
Import ListNotations.

(** ** Strings: a Python [str] is a finite sequence of code points. *)
Definition pychar := N.
Definition str := list pychar.

(** String literals of the source text (all ASCII). *)
Definition lit (s : string) : str := map N_of_ascii (list_ascii_of_string s).
Notation "$ x" := (lit x%string) (at level 1, x at level 0, format "$ x").

Fixpoint str_eqb (a b : str) : bool :=
  match a, b with
  | [], [] => true
  | x :: a', y :: b' => N.eqb x y && str_eqb a' b'
  | _, _ => false
  end.

(** [c.isspace()]: the white space of [str.strip()], [str.isspace()] and the
    regular expression class [\s] (CPython [_PyUnicode_IsWhitespace]). *)
Definition is_space (c : pychar) : bool :=
  existsb (N.eqb c)
    [9; 10; 11; 12; 13; 28; 29; 30; 31; 32; 133; 160; 5760;
     8192; 8193; 8194; 8195; 8196; 8197; 8198; 8199; 8200; 8201; 8202;
     8232; 8233; 8239; 8287; 12288]%N.

(** [s.lstrip(chars)], [s.rstrip(chars)], [s.strip(chars)] for a set of
    characters given by its characteristic function. *)
Fixpoint lstrip (p : pychar -> bool) (s : str) : str :=
  match s with
  | [] => []
  | c :: s' => if p c then lstrip p s' else s
  end.
Definition rstrip (p : pychar -> bool) (s : str) : str := rev (lstrip p (rev s)).
Definition strip (p : pychar -> bool) (s : str) : str := rstrip p (lstrip p s).

Definition strip_ws : str -> str := strip is_space.
Definition rstrip_ws : str -> str := rstrip is_space.
Definition lstrip_ws : str -> str := lstrip is_space.

(** The double quote, code point 34. *)
Definition is_dquote (c : pychar) : bool := N.eqb c 34.
Definition strip_dquote : str -> str := strip is_dquote.

Fixpoint starts_with (pre s : str) : bool :=
  match pre, s with
  | [], _ => true
  | x :: pre', y :: s' => N.eqb x y && starts_with pre' s'
  | _ :: _, [] => false
  end.

Definition str_mem (x : str) (l : list str) : bool := existsb (str_eqb x) l.
Definition char_mem (c : pychar) (s : str) : bool := existsb (N.eqb c) s.

(** [s.replace(a, b)] for one-character [a] and [b]. *)
Definition replace_char (a b : pychar) (s : str) : str :=
  map (fun c => if N.eqb c a then b else c) s.

(** [sep.join(l)]. *)
Fixpoint join (sep : str) (l : list str) : str :=
  match l with
  | [] => []
  | [x] => x
  | x :: l' => x ++ sep ++ join sep l'
  end.

(** ASCII upper/lower case; other code points are left alone (simplification of
    [str.upper]/[str.lower], which also map non-ASCII letters). *)
Definition upper_char (c : pychar) : pychar :=
  if (97 <=? c)%N && (c <=? 122)%N then (c - 32)%N else c.
Definition lower_char (c : pychar) : pychar :=
  if (65 <=? c)%N && (c <=? 90)%N then (c + 32)%N else c.
Definition upper (s : str) : str := map upper_char s.
Definition lower (s : str) : str := map lower_char s.

Definition newline : str := [10%N].

(** ** Exceptions.  Only the class is modelled, not the message. *)
Inductive exc : Type :=
| KeyError | ValueError | TypeError | IndexError | AttributeError
| RuntimeError | RecursionError | IOError | UnboundLocalError
| AmbiguousHandlerError
| MissingSectionHeaderError | ParsingError
| DuplicateSectionError | DuplicateOptionError
| InterpolationSyntaxError | InterpolationMissingOptionError
| InterpolationDepthError
| UserExc (n : N) (** any other class, e.g. one raised by a subclass handler;
                      assumed not to be a subclass of the ones above *).

Inductive res (A : Type) : Type :=
| Ok (a : A)
| Err (e : exc).
Arguments Ok {A} a.
Arguments Err {A} e.

(** ** State monad with exceptions: the state survives an exception. *)
Definition SM (S A : Type) : Type := S -> res A * S.

Definition ret {S A} (a : A) : SM S A := fun s => (Ok a, s).
Definition raise {S A} (e : exc) : SM S A := fun s => (Err e, s).
Definition bind {S A B} (m : SM S A) (k : A -> SM S B) : SM S B :=
  fun s => match m s with
           | (Ok a, s') => k a s'
           | (Err e, s') => (Err e, s')
           end.
Definition get {S} : SM S S := fun s => (Ok s, s).
Definition put {S} (s : S) : SM S unit := fun _ => (Ok tt, s).
Definition modify {S} (f : S -> S) : SM S unit := fun s => (Ok tt, f s).
Definition of_res {S A} (r : res A) : SM S A := fun s => (r, s).

Declare Scope sm_scope.
Delimit Scope sm_scope with sm.
Notation "x <- m ;; k" := (bind m (fun x => k))
  (at level 61, m at next level, right associativity) : sm_scope.
Notation "m ;; k" := (bind m (fun _ => k))
  (at level 61, right associativity) : sm_scope.

(** ** Dicts: insertion-ordered association lists, one entry per key. *)
Definition dict (A : Type) : Type := list (str * A).

Fixpoint dget {A} (k : str) (d : dict A) : option A :=
  match d with
  | [] => None
  | (k', v) :: d' => if str_eqb k k' then Some v else dget k d'
  end.

(** [d[k] = v]: an existing key keeps its position, a new one goes last. *)
Fixpoint dset {A} (k : str) (v : A) (d : dict A) : dict A :=
  match d with
  | [] => [(k, v)]
  | (k', v') :: d' => if str_eqb k k' then (k', v) :: d' else (k', v') :: dset k v d'
  end.

Definition dmem {A} (k : str) (d : dict A) : bool :=
  match dget k d with Some _ => true | None => false end.
Definition dkeys {A} (d : dict A) : list str := map fst d.

(** ** Sets of strings. *)
Definition sadd (x : str) (s : list str) : list str :=
  if str_mem x s then s else x :: s.
Definition sremove (x : str) (s : list str) : list str :=
  filter (fun y => negb (str_eqb x y)) s.
