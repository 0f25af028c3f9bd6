(** * Where a stored value comes from. *)
From Coq Require Import String NArith List Bool.
Import ListNotations.
From Verif Require Import PyBase IniView SpecText SpecFile.

(** The section with the options [own] shows the option [k], with the text [v]
    in the file: one of its own, or one of the parser's default section that it
    does not have. *)
Definition raw_option (i : ini) (own : options) (k : str) (v : option str) : Prop :=
  In (k, v) own \/ (In (k, v) (i_defs i) /\ ~ In k (dkeys own)).
