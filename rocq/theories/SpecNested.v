(** * How deep the reads of handlers can be nested. *)
From Coq Require Import String NArith ZArith List Bool.
Import ListNotations.
From Verif Require Import PyBase IniView Cpe Reentrant.
Local Open Scope sm_scope.

Section S.
Context {Sh Us : Type} (R : rclass (Sh := Sh)) (fs : str -> option str).
(** What is done when reads are nested deeper than is allowed. *)
Variable beyond : str -> SM (obj Sh Us) (dict (option str)).

(** [view[s]] by a handler: if the file has the section and it has not been parsed, it
    is parsed; the handlers called in that parse may be nested one level less. *)
Fixpoint nested_read (fuel levels : nat) (s : str) {struct levels} : SM (obj Sh Us) (dict (option str)) :=
  match levels with
  | O => beyond s
  | S l =>
      b <- data_has_section fs (fun t => parse_section_with (bare R) (r_psr R fs (nested_read fuel l) fuel) t true true ;; ret tt) s ;;
      if b then data_section s else raise KeyError
  end.
Definition nested_parse (fuel levels : nat) (s : str) : SM (obj Sh Us) Sh :=
  parse_section_with (bare R) (r_psr R fs (nested_read fuel levels) fuel) s true true.
End S.
