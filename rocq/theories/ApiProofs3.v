(** * What any accessor call preserves, for any class and outcome. *)
From Coq Require Import String NArith ZArith List Bool Lia Arith ZifyBool.
Import ListNotations.
From Verif Require Import PyBase PyFacts Shlex IniView IniRead ExcControl Debuggable Cpe
  SpecBase SpecWalk SpecRun SpecParse SpecApi BaseProofs Refine RefineRoot RefineOk RunProofs Trace WalkProofs
  ParseProofs ParseProofs2 ParseProofs3 ApiProofs.
Local Open Scope sm_scope.

Section Gen.
Context {Sh Us : Type} (K : pyclass Sh Us) (fs : str -> option str) (fuel : nat).
Notation obj := (obj Sh Us).
Variables (P : obj -> Prop) (ok okF : str -> Prop).
Notation owner := (parse_owner (owner_parse K fs fuel)).

Record closed : Prop := {
  cl_cpd : keeps P (get_cpd fs);
  cl_edata : keeps P get_edata;
  cl_out : forall o l, P o -> P (add_out l o);
  cl_owner : forall s, ok s -> keeps P (owner s false);
  cl_force : forall s, okF s -> keeps P (owner s true);
  cl_parse : forall s, okF s -> keeps P (parse_section_str K fs fuel s true true);
  cl_sections : forall o i s, P o -> fst (get_cpd fs o) = Ok i -> ini_has_section i s = true -> ok s
}.
Hypothesis CL : closed.
Hint Resolve cl_cpd cl_edata keeps_ret keeps_raise : core.

Lemma k_has_section s : keeps P (has_section K fs fuel s).
Proof.
  unfold has_section, data_has_section. intros o H. rewrite bind_eq.
  pose proof (cl_cpd CL o H) as H1. pose proof (cl_sections CL o) as S.
  destruct (get_cpd fs o) as [[i|e] o1]; cbn [fst snd] in *; auto.
  apply keeps_bind with (P := P); auto.
  - destruct (ini_has_section i s) eqn:HS; auto. apply keeps_bind; auto. intros d.
    destruct (str_mem s (d_checked d)); auto. apply cl_owner; auto. eapply S; eauto.
  - intros _. apply keeps_bind; auto.
Qed.
Lemma k_data_section s : keeps P (data_section s).
Proof. apply keeps_bind; auto. intros d. destruct (dget s (d_data d)); auto. Qed.
Lemma k_getitem s : keeps P (getitem K fs fuel s).
Proof. apply keeps_bind; [apply k_has_section|]. intros []; auto. apply k_data_section. Qed.
Lemma k_has_option s k : ok s -> keeps P (has_option K fs fuel s k).
Proof. intros O. apply keeps_bind; [now apply cl_owner|]. intros _. apply keeps_bind; auto. Qed.
Lemma k_get s k : ok s -> keeps P (data_get K fs fuel s k).
Proof.
  intros O. apply keeps_bind; auto. intros d. apply keeps_bind.
  { destruct (str_mem s (d_checked d)); auto. now apply cl_owner. }
  intros _. apply keeps_bind; [apply k_has_section|]. intros []; auto. destruct k as [k|].
  - apply keeps_bind; [now apply k_has_option|]. intros []; auto.
    apply keeps_bind; [apply k_data_section|]. intros x. destruct (dget k x); auto.
  - apply keeps_bind; [apply k_data_section|]. auto.
Qed.
Lemma k_keys : keeps P (data_keys fs).
Proof. apply keeps_bind; auto. Qed.
Lemma k_for_each (f : str -> SM obj unit) l : (forall s, In s l -> keeps P (f s)) -> keeps P (for_each f l).
Proof.
  induction l as [|s l IH]; intros H; cbn [for_each]; auto. apply keeps_bind.
  - apply H. now left.
  - intros _. apply IH. intros x I. apply H. now right.
Qed.
Lemma k_keys_then {A} (k : list str -> SM obj A) :
  (forall l, (forall s, In s l -> ok s) -> keeps P (k l)) -> keeps P (bind (data_keys fs) k).
Proof.
  intros H o Ho. unfold data_keys. rewrite !bind_eq.
  pose proof (cl_cpd CL o Ho) as H1. pose proof (cl_sections CL o) as S.
  destruct (get_cpd fs o) as [[i|e] o1]; cbn [fst snd] in *; auto.
  apply H; auto. intros s I. eapply S; eauto. now apply dmem_keys.
Qed.
Lemma k_items_all : keeps P (data_items_all K fs fuel).
Proof.
  apply k_keys_then. intros l O. apply keeps_bind.
  - apply k_for_each. intros s I. apply cl_owner; auto.
  - intros _. apply keeps_bind; auto.
Qed.
Lemma k_items s : keeps P (data_items K fs fuel s).
Proof. apply keeps_bind; [apply k_keys|]. intros _. apply k_getitem. Qed.
Lemma k_sections p : (forall s, ok s -> okF s) \/ (forall x, p = PStr x -> str_eqb (lower x) $"force" = false) ->
  keeps P (data_sections K fs fuel p).
Proof.
  intros H. unfold data_sections. destruct p as [[]|x|]; auto.
  - apply k_keys_then. intros l O. apply keeps_bind; [|intros _; apply k_keys].
    apply k_for_each. intros s I. apply cl_owner; auto.
  - apply k_keys.
  - destruct H as [H|H].
    + destruct (str_eqb (lower x) $"force"); auto.
      apply k_keys_then. intros l O. apply keeps_bind; [|intros _; apply k_keys].
      apply k_for_each. intros s I. apply cl_force; auto.
    + rewrite (H x eq_refl). auto.
Qed.
Lemma k_sections_bool b : keeps P (data_sections K fs fuel (PBool b)).
Proof. apply k_sections. right. discriminate. Qed.
Lemma k_event ev e : keeps P (event ev e).
Proof. apply keeps_event, CL. Qed.
Lemma k_print x : keeps P (print_line x).
Proof. apply keeps_modify. intros o. apply CL. Qed.
Lemma k_known : keeps P (get_known_operations K fs).
Proof.
  apply keeps_bind; auto. intros _. apply keeps_bind; auto. intros _.
  apply keeps_bind; [apply keeps_get_files|auto].
Qed.
Lemma k_known_message : keeps P (get_known_operations_message K fs).
Proof. apply keeps_bind; [apply k_known|auto]. Qed.
Lemma k_assert_section s b : ok s -> keeps P (assert_section K fs fuel s b).
Proof.
  intros O. apply keeps_bind; [now apply k_get|]. intros [[|kv d]|v]; auto. destruct b; auto.
  apply keeps_bind; [apply keeps_get_files|]. intros files.
  apply keeps_bind; [apply k_known_message|]. intros m. cbn zeta.
  apply keeps_bind; [apply k_event|auto].
Qed.
Lemma k_assert_sections l : (forall s, In s l -> ok s) -> forall b, keeps P (assert_sections K fs fuel l b).
Proof.
  induction l as [|s l IH]; intros O b; cbn [assert_sections]; auto.
  apply keeps_bind; [apply k_assert_section, O; now left|]. intros [m|].
  - apply keeps_bind; [apply k_print|]. intros _. apply IH. intros x I. apply O. now right.
  - apply IH. intros x I. apply O. now right.
Qed.
Lemma k_assert_file : keeps P (assert_file K fs fuel).
Proof.
  unfold assert_file. cbn [data_sections]. apply k_keys_then. intros l O.
  apply keeps_bind; [now apply k_assert_sections|]. intros []; auto.
  apply keeps_bind; [apply keeps_get_files|]. intros files.
  apply keeps_bind; [apply k_known_message|]. intros m.
  apply keeps_bind; [apply k_print|]. intros _.
  apply keeps_bind; [apply k_event|auto].
Qed.
Lemma k_generate delim s : keeps P (generate_section K fs fuel delim s).
Proof.
  apply keeps_bind; [apply k_has_section|]. intros []; auto.
  apply keeps_bind; [apply k_items|auto].
Qed.
Lemma k_generate_all delim l : keeps P (generate_all K fs fuel delim l).
Proof.
  induction l as [|s l IH]; cbn [generate_all]; auto.
  apply keeps_bind; [apply k_generate|]. intros t. apply keeps_bind; auto.
Qed.
(** The part of [unroll_self] between the two assignments of the level. *)
Lemma k_unroll_body delim section :
  keeps P (l <- data_sections K fs fuel (PBool false) ;;
           match section with
           | None => generate_all K fs fuel delim l
           | Some s => generate_section K fs fuel delim s
           end).
Proof.
  apply keeps_bind; [apply k_sections_bool|]. intros l.
  destruct section; [apply k_generate|apply k_generate_all].
Qed.

(** Calls that may parse their argument. *)
Definition permitted (c : op) : Prop :=
  match c with
  | OParse s => okF s
  | OGet s _ | OHasOption s _ | OAssertSection s _ => ok s
  | OSections (PStr x) => (forall s, ok s -> okF s) \/ str_eqb (lower x) $"force" = false
  | _ => True
  end.
Lemma k_exec c : (forall o e, P o -> P (set_ec e o)) -> (forall o d, P o -> P (set_debug d o)) ->
  permitted c -> keeps P (exec_op K fs fuel c).
Proof.
  intros E D O. assert (L : forall z, keeps P (set_level z : SM obj unit)) by (intros; apply keeps_modify; auto).
  destruct c; cbn [exec_op permitted] in *; unfold fmap; apply keeps_bind; auto.
  - now apply cl_parse.
  - apply keeps_bind; [apply k_sections_bool|auto].
  - apply k_getitem.
  - apply k_getitem.
  - now apply k_get.
  - apply k_has_section.
  - now apply k_has_option.
  - apply k_items_all.
  - apply k_items.
  - apply k_sections. destruct p as [b|x|]; try (right; discriminate). destruct O as [O|O]; auto.
    right. intros y. injection 1 as <-. auto.
  - apply k_keys.
  - apply keeps_bind; [apply k_keys|auto].
  - now apply k_assert_section.
  - apply k_assert_file.
  - unfold unroll_to_str, unroll_self. apply keeps_bind; [intros o H; exact H|]. intros o0. cbn zeta.
    apply keeps_bind; auto. intros _.
    apply keeps_bind; [apply k_sections_bool|]. intros l. apply keeps_bind.
    + destruct s; [apply k_generate|apply k_generate_all].
    + intros t. apply keeps_bind; auto.
  - apply k_known.
  - apply keeps_modify; auto.
Qed.
Lemma k_after h : (forall o e, P o -> P (set_ec e o)) -> (forall o d, P o -> P (set_debug d o)) ->
  Forall permitted h -> forall o, P o -> P (after K fs fuel h o).
Proof.
  intros E D. induction h as [|c h IH]; intros FA o H; cbn [after]; auto.
  inversion FA; subst. apply IH; auto. apply (k_exec c E D); auto.
Qed.
End Gen.
