(** * Vocabulary of the unrolling property: data that survive. *)
From Coq Require Import String NArith List Bool.
Import ListNotations.
From Verif Require Import PyBase IniView IniRead Cpe SpecRead SpecFile SpecApi.

(** An option that can be written on one line and read back: the key is plain,
    the value is present, on one line, without percent sign and without blanks
    at its ends. *)
Definition plain_option (delims : list str) (kv : str * option str) : Prop :=
  exists x, snd kv = Some x /\ plain_key delims (fst kv) /\ no_newline (fst kv) /\
    no_newline x /\ edge_ok x /\ ~ In percent x.
Definition plain_section (delims : list str) (sd : str * options) : Prop :=
  fst sd <> [] /\ no_newline (fst sd) /\ Forall (plain_option delims) (snd sd).

(** The calls that show data. *)
Definition shows (c : op) : Prop :=
  match c with
  | OItem _ | OOptions _ | OGet _ _ | OHasOption _ _ | OItemsOf _ | OHasSection _ | OKeys | OLen | OUnroll _ _ => True
  | _ => False
  end.
