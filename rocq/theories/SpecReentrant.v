(** * What handlers that read other sections may rely on. *)
From Coq Require Import String NArith ZArith List Bool.
Import ListNotations.
From Verif Require Import PyBase IniView Cpe SpecFile SpecWalk SpecParse SpecApi Reentrant.

Section S.
Context {Sh Us : Type}.

(** The calls of handlers in a parse of [root]: the handler's name, the section in which
    the option is, and the parameters. *)
Inductive calls (K : pyclass Sh Us) (i : ini) (dname root : str) : str -> str -> hparams -> Prop :=
| call_option sec items item h kind f k v :
    contributes K i dname root true sec -> section_shows i sec items -> In item items ->
    meaning K sec item (MStep (Call sec h kind f k v)) ->
    calls K i dname root (h_name h) sec (Hp root (Some k, v) (h_op h) (h_params h) v (h_name h))
| call_initialize : calls K i dname root $"handler_initialize" root (Hp root (None, None) [] [] (Some []) $"handler_initialize")
| call_finalize : calls K i dname root $"handler_finalize" root (Hp root (None, None) [] [] (Some []) $"handler_finalize").

(** If sections are as [ex] says, the program reads sections of the file only, each of
    them of a rank below [n]. *)
Inductive reads_below (i : ini) (ex : str -> dict (option str)) (rank : str -> nat) (n : nat) : hprog (Sh := Sh) -> Prop :=
| rb_done r sh : reads_below i ex rank n (HDone r sh)
| rb_read s k : ini_has_section i s = true -> rank s < n -> reads_below i ex rank n (k (Ok (ex s))) -> reads_below i ex rank n (HRead s k).

(** The handlers that are called in a parse of a section read sections of lower rank. *)
Definition reads_down (i : ini) (dname : str) (ex : str -> dict (option str)) (rank : str -> nat) (R : rclass (Sh := Sh)) : Prop :=
  forall root name sec hp k f sh, ini_has_section i root = true ->
    calls (told_class ex R) i dname root name sec hp -> dget name (rk_over R) = Some (RUser k f) ->
    reads_below i ex rank (rank root) (f sec hp sh).

(** A call of the caller about a section of the file. *)
Definition of_file (i : ini) (c : rcall) : Prop :=
  match c with RParse s | RRead s => ini_has_section i s = true end.
End S.
