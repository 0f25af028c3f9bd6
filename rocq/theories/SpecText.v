(** * Texts: trimming, and the form of operation words. *)
From Coq Require Import String NArith List Bool.
Import ListNotations.
From Verif Require Import PyBase.

(** The characters that count as blanks ([str.isspace] in Python 3.11). *)
Definition space (c : pychar) : Prop :=
  In c [9; 10; 11; 12; 13; 28; 29; 30; 31; 32; 133; 160; 5760;
        8192; 8193; 8194; 8195; 8196; 8197; 8198; 8199; 8200; 8201; 8202;
        8232; 8233; 8239; 8287; 12288]%N.
Definition double_quote (c : pychar) : Prop := c = 34%N.

(** The text does not begin with one of the characters [P]. *)
Definition not_first (P : pychar -> Prop) (s : str) : Prop :=
  match s with [] => True | c :: _ => ~ P c end.

(** [trimmed P x y]: [y] is [x] without the characters [P] at both ends. *)
Definition trimmed (P : pychar -> Prop) (x y : str) : Prop :=
  exists a b, x = a ++ y ++ b /\ Forall P a /\ Forall P b /\ not_first P y /\ not_first P (rev y).

(** What is kept of a value: blanks are removed, then double quotes; no value
    stays no value. *)
Definition normal (x y : str) : Prop := exists m, trimmed space x m /\ trimmed double_quote m y.
Definition cleaned (v w : option str) : Prop :=
  match v, w with
  | None, None => True
  | Some x, Some y => normal x y
  | _, _ => False
  end.

(** [cut_at c s l]: [l] are the pieces of [s] between the characters [c]. *)
Definition cut_at (c : pychar) (s : str) (l : list str) : Prop :=
  l <> [] /\ Forall (fun p => ~ In c p) l /\ s = join [c] l.

(** A word that can name an operation: letters, digits, underscores and dashes
    ([uniword] are the letters and digits outside ASCII), and possibly a line end
    after them. *)
Definition letter (uniword : pychar -> bool) (c : pychar) : Prop :=
  (48 <= c <= 57 \/ 65 <= c <= 90 \/ 97 <= c <= 122 \/ c = 95)%N \/ (128 <= c)%N /\ uniword c = true.
Definition op_shaped (uniword : pychar -> bool) (w : str) : Prop :=
  exists u, u <> [] /\ Forall (fun c => letter uniword c \/ c = 45%N) u /\ (w = u \/ w = u ++ [10%N]).
