(** * Computable check of [all_parsable], for the examples. *)
From Coq Require Import String NArith ZArith List Bool.
Import ListNotations.
From Verif Require Import PyBase PyFacts Shlex IniView IniRead ExcControl Cpe SpecText SpecFile SpecShell ShellProofs FileProofs SpecWalk MeaningProofs SpecRun SpecParse SpecApi
  Refine WalkProofs Samples.

Section Check.
Context {Sh Us : Type} (K : pyclass Sh Us) (i : ini) (dname : str).

Definition section_ok (S : list str) (s : str) : bool :=
  negb (str_eqb s []) && forallb (fun y => str_mem y (ini_sections i)) (targets K i s) &&
  match ini_items i s with Some items => forallb (item_ok K) items | None => false end &&
  (str_eqb s dname || negb (str_mem s S)).

Lemma all_parsable_check (S : list str) :
  forallb (section_ok S) (ini_sections i) = true ->
  forallb (fun x => forallb (fun y => str_mem y S) (targets K i x)) S = true ->
  str_mem dname S = true -> all_parsable K i dname.
Proof.
  intros A B C s HS. rewrite forallb_forall in A.
  assert (IN : forall x, ini_has_section i x = true <-> In x (ini_sections i)) by (intros; apply dmem_keys).
  assert (CLS : forall x y, In x (ini_sections i) -> reaches K i x y -> In y (ini_sections i)).
  { intros x y. apply reaches_closed. apply forallb_forall. intros z Hz. specialize (A z Hz).
    unfold section_ok in A. rewrite !andb_true_iff in A. apply A. }
  pose proof (A s (proj1 (IN s) HS)) as As. unfold section_ok in As. rewrite !andb_true_iff in As.
  destruct As as (((A1 & A2) & A3) & A4).
  split; [intros ->; discriminate|]. split; auto. split.
  - intros _ _ N R. apply (reaches_closed K i S) in R; auto; [|now apply str_mem_In].
    apply orb_true_iff in A4 as [A4|A4]; [apply str_eqb_eq in A4; congruence|].
    apply negb_true_iff in A4. apply str_mem_In in R. congruence.
  - intros t [R|(_ & HD & R)].
    + apply clean_check. pose proof (A t (CLS _ _ (proj1 (IN s) HS) R)) as At.
      unfold section_ok in At. rewrite !andb_true_iff in At. apply At.
    + apply clean_check. pose proof (A t (CLS _ _ (proj1 (IN dname) HD) R)) as At.
      unfold section_ok in At. rewrite !andb_true_iff in At. apply At.
Qed.
End Check.
