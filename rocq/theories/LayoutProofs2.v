(** * Proofs about what does not matter in the text of a file: all calls. *)
From Coq Require Import String ZArith NArith List Bool Lia Arith.
Import ListNotations.
From Verif Require Import PyBase Shlex ExcControl IniView Cpe PyFacts.
From Verif Require Import IniRead SpecRead SpecParse SpecApi SpecLevels SpecLayout LayoutProofs.
Local Open Scope list_scope.

Lemma same_exists fs fs' : same_files fs fs' -> forall p, file_exists fs p = file_exists fs' p.
Proof. intros S p. specialize (S p). unfold file_exists. destruct (fs p), (fs' p); tauto. Qed.
Lemma same_read_files fs fs' : same_files fs fs' -> forall delims l i,
  read_files delims (file_texts fs l) i = read_files delims (file_texts fs' l) i.
Proof.
  intros S delims l. induction l as [|p l IH]; intros i; [reflexivity|].
  cbn [file_texts map read_files].
  assert (E : read_file delims (match fs p with Some t => t | None => [] end) i
            = read_file delims (match fs' p with Some t => t | None => [] end) i).
  { specialize (S p). destruct (fs p), (fs' p); try tauto. now apply same_text_read. }
  rewrite E. clear E. destruct (read_file _ _ i) as [[u|e] i']; [apply IH|reflexivity].
Qed.

Definition ext {S A} (m m' : SM S A) : Prop := forall s, m s = m' s.
Lemma ext_refl {S A} (m : SM S A) : ext m m.
Proof. intros s. reflexivity. Qed.
Lemma ext_bind {S A B} (m m' : SM S A) (k k' : A -> SM S B) : ext m m' -> (forall a, ext (k a) (k' a)) -> ext (bind m k) (bind m' k').
Proof. intros M H s. unfold bind. rewrite M. destruct (m' s) as [[a|e] s1]; [apply H|reflexivity]. Qed.

Section Ext.
Context {Sh Us : Type}.
Variable K : pyclass Sh Us.
Variables fs fs' : str -> option str.
Hypothesis SF : same_files fs fs'.
Notation obj := (obj Sh Us).
Notation ctx := (ctx Sh Us).

Lemma ext_lift {A} (m m' : SM obj A) : ext m m' -> ext (lift m) (lift m').
Proof. intros H c. unfold lift. now rewrite H. Qed.

Ltac step :=
  match goal with
  | |- ext ?m ?m => apply ext_refl
  | |- ext (bind _ _) (bind _ _) => apply ext_bind; [|intros ?]
  | |- ext (lift _) (lift _) => apply ext_lift
  | |- ext (match ?x with _ => _ end) _ => destruct x
  | |- _ => solve [auto]
  end.

Lemma ext_cpd : ext (@get_cpd Sh Us fs) (get_cpd fs').
Proof.
  intros o. unfold get_cpd. destruct (o_cpd o); [reflexivity|].
  destruct (o_files (set_cpd (Some (Ini [] [] (o_intname o))) o)) as [[|f fl]|]; try reflexivity.
  assert (E : forall l, forallb (file_exists fs) l = forallb (file_exists fs') l).
  { induction l as [|p l IH]; cbn; [reflexivity|]. now rewrite (same_exists _ _ SF), IH. }
  rewrite E, (same_read_files _ _ SF). reflexivity.
Qed.
Hint Resolve ext_cpd : core.

Section Reparse.
Variables reparse reparse' : str -> SM obj unit.
Hypothesis HP : forall s, ext (reparse s) (reparse' s).
Hint Resolve HP : core.
Lemma ext_parse_owner s force : ext (parse_owner reparse s force) (parse_owner reparse' s force).
Proof. unfold parse_owner. repeat step. Qed.
Hint Resolve ext_parse_owner : core.
Lemma ext_has_section s : ext (data_has_section fs reparse s) (data_has_section fs' reparse' s).
Proof. unfold data_has_section. repeat step. Qed.
Hint Resolve ext_has_section : core.
Lemma ext_data_set s k v : ext (data_set fs reparse s k v) (data_set fs' reparse' s k v).
Proof. unfold data_set. repeat step. Qed.
End Reparse.
Hint Resolve ext_parse_owner ext_has_section ext_data_set : core.

Lemma ext_decorated hp body body' : ext body body' -> ext (@decorated Sh Us hp body) (decorated hp body').
Proof. intros H. unfold decorated. repeat step. Qed.
Hint Resolve ext_decorated : core.

Section Recursion.
Variables rec rec' : str -> bool -> bool -> SM ctx unit.
Variables reparse reparse' : str -> SM obj unit.
Hypothesis HR : forall s i f, ext (rec s i f) (rec' s i f).
Hypothesis HP : forall s, ext (reparse s) (reparse' s).
Hint Resolve HR HP : core.

Lemma ext_use sec hp : ext (use_body rec sec hp) (use_body rec' sec hp).
Proof. unfold use_body. repeat step. Qed.
Hint Resolve ext_use : core.
Lemma ext_call_attr a sec hp : ext (call_attr rec a sec hp) (call_attr rec' a sec hp).
Proof. unfold call_attr. destruct a as [|[] f| |]; repeat step. Qed.
Hint Resolve ext_call_attr : core.
Lemma ext_call_named n sec hp : ext (call_named K rec n sec hp) (call_named K rec' n sec hp).
Proof. unfold call_named. repeat step. Qed.
Hint Resolve ext_call_named : core.
Lemma ext_generic hp k v : ext (launch_generic fs reparse hp k v) (launch_generic fs' reparse' hp k v).
Proof. unfold launch_generic. repeat step. Qed.
Hint Resolve ext_generic : core.
Lemma ext_item sec hp kv : ext (process_item K fs rec reparse sec hp kv) (process_item K fs' rec' reparse' sec hp kv).
Proof. unfold process_item. repeat step. Qed.
Hint Resolve ext_item : core.
Lemma ext_items sec l : forall hp, ext (run_items K fs rec reparse sec hp l) (run_items K fs' rec' reparse' sec hp l).
Proof. induction l as [|kv l IH]; intros hp; [apply ext_refl|]. cbn [run_items]. repeat step. Qed.
Hint Resolve ext_items : core.
Lemma ext_body root sec i f : ext (psr_body K fs rec reparse root sec i f) (psr_body K fs' rec' reparse' root sec i f).
Proof. unfold psr_body. repeat step. Qed.
End Recursion.

Lemma ext_parse_with (p p' : str -> str -> bool -> bool -> SM ctx unit) :
  (forall r s i f, ext (p r s i f) (p' r s i f)) ->
  forall s i f, ext (parse_section_with K p s i f) (parse_section_with K p' s i f).
Proof.
  intros H s i f. unfold parse_section_with. repeat step.
  unfold parse_root. repeat step. intros o. now rewrite H.
Qed.
Lemma ext_psr fuel : forall root sec i f, ext (psr K fs fuel root sec i f) (psr K fs' fuel root sec i f).
Proof.
  induction fuel as [|n IH]; intros root sec i f; [apply ext_refl|].
  cbn [psr]. apply ext_body; [intros; apply IH|].
  intros s. apply ext_bind; [|intros; apply ext_refl]. apply ext_parse_with. intros; apply IH.
Qed.

Variable fuel : nat.
Lemma ext_parse_str s i f : ext (parse_section_str K fs fuel s i f) (parse_section_str K fs' fuel s i f).
Proof. unfold parse_section_str. apply ext_parse_with. intros. apply ext_psr. Qed.
Hint Resolve ext_parse_str : core.
Lemma ext_parse s i f : ext (parse_section K fs fuel s i f) (parse_section K fs' fuel s i f).
Proof. unfold parse_section. repeat step. Qed.
Lemma ext_owner s : ext (owner_parse K fs fuel s) (owner_parse K fs' fuel s).
Proof. unfold owner_parse. repeat step. Qed.
Hint Resolve ext_owner : core.
Lemma ext_has s : ext (has_section K fs fuel s) (has_section K fs' fuel s).
Proof. unfold has_section. auto. Qed.
Hint Resolve ext_has : core.
Lemma ext_po s force : ext (parse_owner (owner_parse K fs fuel) s force) (parse_owner (owner_parse K fs' fuel) s force).
Proof. auto. Qed.
Hint Resolve ext_po : core.
Lemma ext_getitem s : ext (getitem K fs fuel s) (getitem K fs' fuel s).
Proof. unfold getitem. repeat step. Qed.
Hint Resolve ext_getitem : core.
Lemma ext_has_option s k : ext (has_option K fs fuel s k) (has_option K fs' fuel s k).
Proof. unfold has_option. repeat step. Qed.
Hint Resolve ext_has_option : core.
Lemma ext_get s k : ext (data_get K fs fuel s k) (data_get K fs' fuel s k).
Proof. unfold data_get. repeat step. Qed.
Hint Resolve ext_get : core.
Lemma ext_keys : ext (@data_keys Sh Us fs) (data_keys fs').
Proof. unfold data_keys. repeat step. Qed.
Hint Resolve ext_keys : core.
Lemma ext_for_each {A} (f f' : A -> SM obj unit) l : (forall a, ext (f a) (f' a)) -> ext (for_each f l) (for_each f' l).
Proof. intros H. induction l as [|a l IH]; [apply ext_refl|]. cbn [for_each]. repeat step. Qed.
Hint Resolve ext_for_each : core.
Lemma ext_items_all : ext (data_items_all K fs fuel) (data_items_all K fs' fuel).
Proof. unfold data_items_all. repeat step. Qed.
Lemma ext_data_items s : ext (data_items K fs fuel s) (data_items K fs' fuel s).
Proof. unfold data_items. repeat step. Qed.
Lemma ext_sections p : ext (data_sections K fs fuel p) (data_sections K fs' fuel p).
Proof. unfold data_sections. repeat step. Qed.
Hint Resolve ext_sections ext_data_items ext_items_all : core.
Lemma ext_known : ext (get_known_operations K fs) (get_known_operations K fs').
Proof. unfold get_known_operations. repeat step. Qed.
Hint Resolve ext_known : core.
Lemma ext_known_message : ext (get_known_operations_message K fs) (get_known_operations_message K fs').
Proof. unfold get_known_operations_message. repeat step. Qed.
Hint Resolve ext_known_message : core.
Lemma ext_assert_section s b : ext (assert_section K fs fuel s b) (assert_section K fs' fuel s b).
Proof. unfold assert_section. repeat step. Qed.
Hint Resolve ext_assert_section : core.
Lemma ext_assert_sections l : forall b, ext (assert_sections K fs fuel l b) (assert_sections K fs' fuel l b).
Proof. induction l as [|s l IH]; intros b; [apply ext_refl|]. cbn [assert_sections]. repeat step. Qed.
Hint Resolve ext_assert_sections : core.
Lemma ext_assert_file : ext (assert_file K fs fuel) (assert_file K fs' fuel).
Proof. unfold assert_file. repeat step. Qed.
Lemma ext_generate delim s : ext (generate_section K fs fuel delim s) (generate_section K fs' fuel delim s).
Proof. unfold generate_section. repeat step. Qed.
Hint Resolve ext_generate : core.
Lemma ext_generate_all delim l : ext (generate_all K fs fuel delim l) (generate_all K fs' fuel delim l).
Proof. induction l as [|s l IH]; [apply ext_refl|]. cbn [generate_all]. repeat step. Qed.
Hint Resolve ext_generate_all : core.
Lemma ext_unroll_self s b : ext (unroll_self K fs fuel s b) (unroll_self K fs' fuel s b).
Proof. unfold unroll_self. repeat step. Qed.
Lemma ext_op c : ext (exec_op K fs fuel c) (exec_op K fs' fuel c).
Proof.
  pose proof ext_unroll_self. pose proof ext_assert_file.
  destruct c; cbn [exec_op]; unfold fmap, parse_all_sections, data_len; repeat step. unfold unroll_to_str. auto.
Qed.
End Ext.

Section Calls.
Context {Sh Us : Type}.
Variable K : pyclass Sh Us.
Variables fs fs' : str -> option str.
Hypothesis SF : same_files fs fs'.
Variable fuel : nat.

Lemma ext_call c : ext (exec_call K fs fuel c) (exec_call K fs' fuel c).
Proof.
  destruct c; cbn [exec_call]; unfold pmap; (apply ext_bind; [|intros; apply ext_refl]); try match goal with |- ext ?m ?m => apply ext_refl end.
  - now apply ext_op.
  - now apply ext_parse.
  - unfold unroll_to_str. intros o. destruct (o_files o); [|reflexivity]. cbv zeta. now rewrite (ext_unroll_self _ fs fs' SF).
  - unfold data_set_user. apply ext_data_set; [exact SF|]. intros s'. now apply ext_owner.
Qed.
Lemma ext_replies h : forall o, replies K fs fuel h o = replies K fs' fuel h o.
Proof. induction h as [|c h IH]; intros o; cbn [replies]; [reflexivity|]. rewrite ext_call. destruct (exec_call K fs' fuel c o) as [r o1]. now rewrite IH. Qed.
End Calls.
