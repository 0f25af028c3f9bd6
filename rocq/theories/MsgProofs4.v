(** * Checks for concrete messages. *)
From Coq Require Import String NArith List Bool.
Import ListNotations.
From Verif Require Import PyBase PyFacts SpecText FileProofs Messages SpecMessages MsgProofs.

Lemma one_lines text : exists! ls, lines_of text ls.
Proof. exists (splitlines text). split; [apply splitlines_of|]. intros ls L. exact (splitlines_eq _ _ L). Qed.
Lemma lines_check text ls : splitlines text = ls -> lines_of text ls.
Proof. intros <-. apply splitlines_of. Qed.
Lemma unbroken_check s : forallb (fun c => negb (line_end c)) s = true -> unbroken s.
Proof.
  intros H. apply Forall_forall. intros c I. apply line_end_false. apply (proj1 (forallb_forall _ _) H) in I. now destruct (line_end c).
Qed.
Lemma not_space_check (s : str) : match rev s with [] => true | c :: _ => negb (is_space c) end = true -> not_first space (rev s).
Proof. destruct (rev s) as [|c r]; cbn [not_first]; [trivial|]. intros H X. apply space_iff in X. rewrite X in H. discriminate H. Qed.
Lemma no_feed_check s : forallb (fun c => negb (N.eqb c 10)) s = true -> ~ In 10%N s.
Proof. intros H I. apply (proj1 (forallb_forall _ _) H) in I. discriminate I. Qed.
