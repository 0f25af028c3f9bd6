(** * The meaning of an option, computed. *)
From Coq Require Import String NArith List Bool.
Import ListNotations.
From Verif Require Import PyBase PyFacts Shlex IniView Cpe SpecText SpecFile SpecShell ShellProofs FileProofs SpecWalk.

Section C.
Context {Sh Us : Type} (K : pyclass Sh Us).

Inductive cmeaning (s : str) : str * res (option str) -> means Sh Us -> Prop :=
| c_value k0 e :
    cmeaning s (k0, Err e) (MStep (Stop s (StopValue e)))
| c_key_err k0 v0 e :
    shlex_split (strip_ws k0) = Err e ->
    cmeaning s (k0, Ok v0) (MStep (Stop s (StopKey (strip_ws k0) (clean_value v0) e)))
| c_key_empty k0 v0 :
    shlex_split (strip_ws k0) = Ok [] ->
    cmeaning s (k0, Ok v0) (MStep (Stop s (StopKey (strip_ws k0) (clean_value v0) IndexError)))
| c_noword k0 v0 w ps :
    shlex_split (strip_ws k0) = Ok (w :: ps) -> op_word K w = false ->
    cmeaning s (k0, Ok v0) (MStep (Plain s None (strip_ws k0) (clean_value v0)))
| c_plain k0 v0 w ps :
    shlex_split (strip_ws k0) = Ok (w :: ps) -> op_word K w = true ->
    handler_of K (undash w) None ->
    cmeaning s (k0, Ok v0) (MStep (Plain s (Some (undash w, ps)) (strip_ws k0) (clean_value v0)))
| c_user k0 v0 w ps name kind f amb :
    shlex_split (strip_ws k0) = Ok (w :: ps) -> op_word K w = true ->
    handler_of K (undash w) (Some (name, AUser kind f, amb)) ->
    cmeaning s (k0, Ok v0)
            (MStep (Call s (OpInfo (undash w) ps name amb) kind f (strip_ws k0) (clean_value v0)))
| c_use k0 v0 w t ps name amb :
    shlex_split (strip_ws k0) = Ok (w :: t :: ps) -> op_word K w = true ->
    handler_of K (undash w) (Some (name, AUse, amb)) ->
    cmeaning s (k0, Ok v0)
            (MUse t (OpInfo (undash w) (t :: ps) name amb) (strip_ws k0) (clean_value v0))
| c_use_bad k0 v0 w name amb :
    shlex_split (strip_ws k0) = Ok [w] -> op_word K w = true ->
    handler_of K (undash w) (Some (name, AUse, amb)) ->
    cmeaning s (k0, Ok v0)
            (MStep (Stop s (StopUse (OpInfo (undash w) [] name amb) (strip_ws k0) (clean_value v0))))
| c_obj k0 v0 w ps name amb :
    shlex_split (strip_ws k0) = Ok (w :: ps) -> op_word K w = true ->
    handler_of K (undash w) (Some (name, AObj, amb)) ->
    cmeaning s (k0, Ok v0)
            (MStep (Stop s (StopObj (OpInfo (undash w) ps name amb) (strip_ws k0) (clean_value v0)))).

Lemma shlex_err s e : shlex_split s = Err e -> e = ValueError /\ forall l, ~ words s l.
Proof.
  intros E. assert (N : forall l, ~ words s l) by (intros l W; apply shlex_words in W; congruence).
  split; auto. apply shlex_error in N. congruence.
Qed.

Theorem meaning_iff s item m : meaning K s item m <-> cmeaning s item m.
Proof.
  split.
  - intros M; inversion M; subst;
    repeat match goal with
    | H : trimmed space _ _ |- _ => apply trimmed_iff in H; subst
    | H : cleaned _ _ |- _ => apply cleaned_iff in H; subst
    | H : words _ _ |- _ => apply shlex_words in H
    | H : op_shaped _ _ |- _ => apply op_word_iff in H
    | H : ~ op_shaped _ _ |- _ => apply op_word_no in H
    | H : forall l, ~ words _ l |- _ => apply shlex_error in H
    end;
    [apply c_value|apply c_key_err|eapply c_key_empty|eapply c_noword|eapply c_plain|eapply c_user|eapply c_use|eapply c_use_bad|eapply c_obj];
    eassumption.
  - assert (T : forall k, trimmed space k (strip_ws k)) by (intros k; now apply trimmed_iff).
    assert (C : forall v, cleaned v (clean_value v)) by (intros v; now apply cleaned_iff).
    intros M; inversion M; subst;
    repeat match goal with
    | H : shlex_split _ = Ok _ |- _ => apply shlex_words in H
    | H : op_word _ _ = true |- _ => apply op_word_iff in H
    | H : op_word _ _ = false |- _ => apply op_word_no in H
    | H : shlex_split _ = Err _ |- _ => apply shlex_err in H as [-> H]
    end;
    [apply m_value|apply m_key_err|eapply m_key_empty|eapply m_noword|eapply m_plain|eapply m_user|eapply m_use|eapply m_use_bad|eapply m_obj];
    eauto.
Qed.
End C.

(** Case analysis of a meaning, in the computed form. *)
Ltac meaning_cases M := apply meaning_iff in M; inversion M; subst.
