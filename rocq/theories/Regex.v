(** * Regular expressions: the part of Python's [re] used under [/repo/wip].

    A backtracking matcher in the order in which CPython's [_sre.c] tries
    alternatives; [findall] follows [pattern_findall] (a match may not be empty
    where the previous match was). *)
From Coq Require Import String NArith List Bool Arith.
Import ListNotations.
From Verif Require Import PyBase.

Inductive re :=
| RSet (p : pychar -> bool)        (** one character of a set *)
| RSeq (a b : re)
| ROr (a b : re)
| REps
| RStar (greedy : bool) (a : re)   (** [*] or [*?] *)
| RBol                             (** [^] without flags *)
| REol                             (** [$] without flags *)
| RGroup (a : re)                  (** group number 1 *).

Section Match.
(** The length of the subject. *)
Variable total : nat.

(** [mt r s c k]: match [r] at the start of the rest [s] of the subject, then go
    on with [k]; [c] is the content of the group. *)
Fixpoint mt {X : Type} (r : re) (s : str) (c : option str)
    (k : str -> option str -> option X) {struct r} : option X :=
  match r with
  | RSet p => match s with
              | x :: s' => if p x then k s' c else None
              | [] => None
              end
  | RSeq a b => mt a s c (fun s' c' => mt b s' c' k)
  | ROr a b => match mt a s c k with Some x => Some x | None => mt b s c k end
  | REps => k s c
  | RStar greedy a =>
      (fix go (n : nat) (s : str) (c : option str) {struct n} : option X :=
         match n with
         | O => k s c
         | S n' =>
             let more tt := mt a s c (fun s' c' => if Nat.ltb (length s') (length s) then go n' s' c' else None) in
             if greedy then match more tt with Some x => Some x | None => k s c end
             else match k s c with Some x => Some x | None => more tt end
         end) (S (length s)) s c
  | RBol => if Nat.eqb (length s) total then k s c else None
  | REol => match s with
            | [] => k s c
            | [x] => if N.eqb x 10 then k s c else None
            | _ => None
            end
  | RGroup a => mt a s c (fun s' _ => k s' (Some (firstn (length s - length s') s)))
  end.

(** A match at the start of [s]: the rest and the group. *)
Definition match_at (must_advance : bool) (r : re) (s : str) : option (str * option str) :=
  mt r s None (fun s' c => if must_advance && Nat.eqb (length s') (length s) then None else Some (s', c)).

(** [re.findall] for an expression with one group. *)
Fixpoint findall_from (n : nat) (must : bool) (r : re) (s : str) : list str :=
  match n with
  | O => []
  | S n' =>
      match match_at must r s with
      | Some (s', c) =>
          match c with Some x => x | None => [] end ::
          findall_from n' (Nat.eqb (length s') (length s)) r s'
      | None => match s with [] => [] | _ :: t => findall_from n' false r t end
      end
  end.

(** [re.search(...) is not None] *)
Fixpoint search_from (r : re) (s : str) : bool :=
  match match_at false r s with
  | Some _ => true
  | None => match s with [] => false | _ :: t => search_from r t end
  end.
End Match.

Definition findall (r : re) (s : str) : list str :=
  findall_from (length s) (2 * length s + 2) false r s.
Definition search (r : re) (s : str) : bool := search_from (length s) r s.

(** Text without special characters, as an expression. *)
Definition special : list pychar := $".^$*+?{}[]\|()".
Definition literal (s : str) : bool := forallb (fun c => negb (char_mem c special)) s.
Definition is_char (x : pychar) : re := RSet (N.eqb x).
Fixpoint exactly (s : str) : re :=
  match s with
  | [] => REps
  | c :: s' => RSeq (is_char c) (exactly s')
  end.
