(** * [src/configparserenhanced/Debuggable.py] *)
From Coq Require Import String NArith ZArith List Bool.
Import ListNotations.
From Verif Require Import PyBase.
Local Open Scope Z_scope.

(** Decimal rendering of a non-negative integer ([str(n)]). *)
Fixpoint dec_digits (fuel : nat) (n : N) (acc : str) : str :=
  match fuel with
  | O => acc
  | S fuel' =>
      let acc' := (48 + N.modulo n 10)%N :: acc in
      if (n <? 10)%N then acc' else dec_digits fuel' (N.div n 10) acc'
  end.
Definition dec_of_N (n : N) : str := dec_digits (S (N.to_nat (N.size n))) n [].
Definition dec_of_Z (z : Z) : str :=
  match z with
  | Z0 => dec_of_N 0
  | Zpos p => dec_of_N (Npos p)
  | Zneg p => $"-" ++ dec_of_N (Npos p)
  end.

(** Setter, lines 90-93 (argument already an integer); default 0, line 87. *)
Definition dbg_set (v : Z) : Z := Z.max v 0.

(** [debug_message], lines 95-129: the text printed, if any. *)
Definition debug_message (self_level level : Z) (message endl : str) (useprefix : bool)
  : option str :=
  if level <=? self_level then
    let message :=
      if 0 <? level
      then (if useprefix then $"[D-" ++ dec_of_Z level ++ $"] " else []) ++ message
      else message in
    Some (message ++ endl)
  else None.
