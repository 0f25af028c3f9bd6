(** * Sections that use and read each other in circles, for the examples. *)
From Coq Require Import String NArith ZArith List Bool.
Import ListNotations.
From Verif Require Import PyBase Shlex IniView IniRead ExcControl Debuggable Cpe Samples Reentrant SamplesReentrant SpecNested SamplesNested SpecQuiet.

Lemma peek_quiet : quiet_class peek_class.
Proof.
  intros name k f E sec hp sh. cbn [peek_class rk_over dget] in E. destruct (str_eqb name $"handler_peek"); [|discriminate E].
  inversion E; subst. unfold peek_body. destruct (hp_params hp) as [|t ps]; [apply quiet_done; discriminate|].
  apply quiet_read. intros [d|e] H; apply quiet_done; [discriminate|congruence].
Qed.
Definition file101 : list string :=
  ["[DEFAULT]"; "d : 0"; "peek A"; "[A]"; "x : 1"; "use B"; "peek B"; "[B]"; "use C"; "peek A"; "y : 2"; "[C]"; "use A"; "peek C"; "z : 3"]%string.
Definition ini101 : ini := match fst (get_cpd (disk file101) (fresh tt : obj unit unit)) with Ok i => i | Err _ => Ini [] [] [] end.
(** Here the default section uses another section. *)
Definition file101b : list string := ["[DEFAULT]"; "use A"; "[A]"; "x : 1"]%string.
