(** * Sections whose handlers look at each other, for the examples. *)
From Coq Require Import String NArith ZArith List Bool.
Import ListNotations.
From Verif Require Import PyBase Shlex IniView IniRead ExcControl Debuggable Cpe Samples Reentrant SpecNested SamplesReentrant.

(** [peek S] reads section [S] and keeps what was there. *)
Definition peek_body : rbody (Sh := shared) := fun _ hp sh =>
  match hp_params hp with
  | [] => HDone (Ok (Some 0%Z)) sh
  | t :: _ => HRead t (fun r =>
      match r with
      | Ok d => HDone (Ok (Some 0%Z)) (sh ++ [d])
      | Err e => HDone (Err e) sh
      end)
  end.
Definition peek_class : rclass := RClass [($"handler_peek", RUser Decorated peek_body)] [] no_uni.
Definition file98 : list string :=
  ["[A]"; "x : 1"; "peek B"; "peek A"; "y : 2"; "[B]"; "peek C"; "y : 3"; "[C]"; "peek A"; "peek B"; "z : 4"]%string.
Definition ini98 : ini := match fst (get_cpd (disk file98) (fresh tt : obj unit unit)) with Ok i => i | Err _ => Ini [] [] [] end.
