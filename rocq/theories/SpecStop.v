(** * What is wrong with a malformed option, and the exception it leads to. *)
From Coq Require Import String NArith ZArith List Bool.
Import ListNotations.
From Verif Require Import PyBase IniView Cpe SpecText SpecShell SpecWalk.

Definition stop_exc (r : stop) : exc :=
  match r with
  | StopValue e => e
  | StopKey _ _ e => e
  | StopUse _ _ _ => IndexError
  | StopObj _ _ _ => TypeError
  end.

Section D.
Context {Sh Us : Type} (K : pyclass Sh Us).

(** [defect item x]: the option [item] (key as in the file, value or the
    interpolation error) is malformed in a way that raises [x]. *)
Inductive defect : str * res (option str) -> exc -> Prop :=
| d_value k e : defect (k, Err e) e                          (** bad interpolation *)
| d_quotes k0 k v : trimmed space k0 k -> (forall l, ~ words k l) ->
    defect (k0, Ok v) ValueError                             (** unbalanced quoting *)
| d_blank k0 k v : trimmed space k0 k -> words k [] -> defect (k0, Ok v) IndexError
| d_use k0 k v w name amb : trimmed space k0 k -> words k [w] -> op_shaped (k_uniword K) w ->
    handler_of K (undash w) (Some (name, AUse, amb)) ->
    defect (k0, Ok v) IndexError                             (** [use] without section *)
| d_obj k0 k v w ps name amb : trimmed space k0 k -> words k (w :: ps) -> op_shaped (k_uniword K) w ->
    handler_of K (undash w) (Some (name, AObj, amb)) ->
    defect (k0, Ok v) TypeError                              (** the attribute is not callable *).
End D.
