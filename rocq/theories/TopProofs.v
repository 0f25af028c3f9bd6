(** * Proofs about the top-level files (C69): paths. *)
From Coq Require Import String NArith ZArith List Bool Lia Arith.
Import ListNotations.
From Verif Require Import PyBase PyFacts EnvVar EnvProofs Shlex IniView IniRead ExcControl Cpe
  SpecWalk SpecRun SpecParse SpecApi TopLevel SpecTop.
Local Open Scope sm_scope.

(** ** Paths *)
Lemma slashed_dec s : {slashed s} + {~ slashed s}.
Proof.
  destruct s as [|c s]; [right; intros [? E]; discriminate|].
  destruct (N.eq_dec c 47) as [->|N]; [left; now exists s|right; intros [? E]; congruence].
Qed.

Lemma split_root_spec s : path_root s (split_root s).
Proof.
  destruct (slashed_dec s) as [[s1 ->]|N1].
  - destruct (slashed_dec s1) as [[s2 ->]|N2].
    + destruct (slashed_dec s2) as [[s3 ->]|N3]; [apply pr_more|].
      replace (split_root (47%N :: 47%N :: s2)) with $"//"; [now apply pr_two|].
      destruct s2 as [|c s2]; [reflexivity|]. cbn.
      destruct c as [|p]; [reflexivity|]. repeat (destruct p as [p|p|]; try reflexivity).
      exfalso. apply N3. now exists s2.
    + replace (split_root (47%N :: s1)) with $"/"; [now apply pr_one|].
      destruct s1 as [|c s1]; [reflexivity|]. cbn.
      destruct c as [|p]; [reflexivity|]. repeat (destruct p as [p|p|]; try reflexivity).
      exfalso. apply N2. now exists s1.
  - replace (split_root s) with ([] : str); [now apply pr_relative|].
    destruct s as [|c s]; [reflexivity|]. cbn.
    destruct c as [|p]; [reflexivity|]. repeat (destruct p as [p|p|]; try reflexivity).
    exfalso. apply N1. now exists s.
Qed.
Lemma path_root_det s r r' : path_root s r -> path_root s r' -> r = r'.
Proof.
  intros A B. inversion A; subst; inversion B; subst; auto; exfalso;
  repeat match goal with
  | H : ~ slashed (47%N :: ?x) |- _ => apply H; now exists x
  end.
Qed.

Lemma span_slash s : exists w t, s = w ++ t /\ ~ In 47%N w /\ (t = [] \/ slashed t).
Proof.
  induction s as [|c s (w & t & -> & A & B)]; [exists [], []; auto|].
  destruct (N.eq_dec c 47) as [->|N].
  - exists [], (47%N :: w ++ t). repeat split; auto. right. now exists (w ++ t).
  - exists (c :: w), t. repeat split; auto. intros [E|E]; auto.
Qed.
Definition names_of (s : str) : list str := filter is_name (split_on 47%N s).
Lemma names_end w : ~ In 47%N w -> names_of w = if is_name w then [w] else [].
Proof. intros N. unfold names_of. rewrite split_on_word by auto. cbn. now destruct (is_name w). Qed.
Lemma names_cons w s : ~ In 47%N w -> names_of (w ++ 47%N :: s) = (if is_name w then [w] else []) ++ names_of s.
Proof. intros N. unfold names_of. rewrite split_on_cons by auto. cbn. now destruct (is_name w). Qed.
Lemma names_slash s : names_of (47%N :: s) = names_of s.
Proof. apply (names_cons [] s). auto. Qed.
Lemma names_app w t : ~ In 47%N w -> t = [] \/ slashed t ->
  names_of (w ++ t) = (if is_name w then [w] else []) ++ names_of t.
Proof.
  intros N [->|[t' ->]].
  - rewrite app_nil_r, names_end by auto. cbn. now rewrite app_nil_r.
  - now rewrite names_cons, names_slash.
Qed.
Lemma is_name_spec w : is_name w = true <-> w <> [] /\ w <> $".".
Proof.
  unfold is_name. rewrite andb_true_iff, !negb_true_iff, !str_eqb_neq. reflexivity.
Qed.
Lemma path_names_spec s : path_names s (names_of s).
Proof.
  remember (length s) as n eqn:L. revert s L. induction n as [n IH] using lt_wf_ind. intros s ->.
  destruct (span_slash s) as (w & t & -> & NW & T). destruct w as [|c w].
  - destruct T as [->|[t' ->]]; [constructor|]. cbn [app]. rewrite names_slash. constructor.
    apply (IH (length t')); cbn; auto.
  - rewrite names_app by auto.
    assert (P : path_names t (names_of t)) by (apply (IH (length t)); auto; rewrite app_length; cbn; lia).
    destruct (is_name (c :: w)) eqn:E.
    + apply is_name_spec in E as [E1 E2]. now apply pn_name.
    + assert (X : c :: w = $".").
      { destruct (str_eq_dec (c :: w) $".") as [X|X]; auto. exfalso.
        assert (is_name (c :: w) = true) by (apply is_name_spec; split; [discriminate|auto]). congruence. }
      rewrite X. cbn [app]. now apply pn_dot.
Qed.
Lemma path_names_det s l : path_names s l -> l = names_of s.
Proof.
  induction 1 as [|s l P IH|s l T P IH|w s l A B C T P IH].
  - reflexivity.
  - now rewrite names_slash.
  - assert (D : ~ In 47%N $".") by (intros [X|[]]; discriminate). etransitivity; [exact IH|]. symmetry. exact (names_app _ _ D T).
  - etransitivity; [|symmetry; exact (names_app w s C T)]. rewrite (proj2 (is_name_spec w)) by auto. cbn [app]. now rewrite <- IH.
Qed.
Lemma denotes_mk s : denotes s (mk_path s).
Proof. split; [apply split_root_spec|apply path_names_spec]. Qed.
Lemma denotes_iff s p : denotes s p <-> p = mk_path s.
Proof.
  split; [|intros ->; apply denotes_mk]. intros [A B]. destruct p as [r l]. cbn in *.
  unfold mk_path. f_equal; [eapply path_root_det; eauto; apply split_root_spec|now apply path_names_det].
Qed.

(** Names that may stand in a path. *)
Definition good_name (w : str) : Prop := w <> [] /\ w <> $"." /\ ~ In 47%N w.
Definition good_root (r : str) : Prop := r = [] \/ r = $"/" \/ r = $"//".
Lemma names_good s : Forall good_name (names_of s).
Proof.
  apply Forall_forall. intros w I. unfold names_of in I. apply filter_In in I as [I E].
  apply is_name_spec in E as [E1 E2]. repeat split; auto.
  exact (proj1 (Forall_forall _ _) (split_no_sep 47%N s) w I).
Qed.
Lemma root_good s : good_root (split_root s).
Proof. pose proof (split_root_spec s) as P. unfold good_root. inversion P; auto. Qed.
Lemma names_join l : Forall good_name l -> names_of (join $"/" l) = l.
Proof.
  intros F. destruct l as [|w l]; [reflexivity|]. unfold names_of. change $"/" with [47%N].
  rewrite join_split; [|discriminate|].
  - clear -F. induction F as [|x l' (A & B & _) F IH]; [reflexivity|]. cbn [filter].
    rewrite (proj2 (is_name_spec x)) by auto. now rewrite IH.
  - apply Forall_forall. intros x I. now destruct (proj1 (Forall_forall _ _) F x I) as (_ & _ & A).
Qed.
Lemma join_not_slashed l : Forall good_name l -> ~ slashed (join $"/" l).
Proof.
  intros F [s E]. destruct l as [|w l]; [discriminate|]. inversion F as [|? ? (A & _ & B) ?]; subst.
  destruct w as [|c w]; [congruence|]. apply B. left. destruct l; cbn in E; congruence.
Qed.
Lemma path_root_str p : good_root (p_root p) -> Forall good_name (p_names p) -> path_root (path_str p) (p_root p).
Proof.
  destruct p as [r l]. cbn. intros R F. pose proof (join_not_slashed l F) as J. unfold path_str. cbn [p_root p_names].
  destruct R as [-> | [-> | ->]].
  - destruct l as [|w l]; [apply pr_relative; intros [? X]; discriminate|]. now apply pr_relative.
  - now apply pr_one.
  - now apply pr_two.
Qed.
Lemma names_str p : good_root (p_root p) -> Forall good_name (p_names p) -> names_of (path_str p) = p_names p.
Proof.
  destruct p as [r l]. cbn. intros R F. unfold path_str. cbn [p_root p_names].
  destruct R as [-> | [-> | ->]].
  - destruct l as [|w l]; [reflexivity|]. now apply (names_join (w :: l)).
  - etransitivity; [exact (names_slash _)|]. now apply names_join.
  - etransitivity; [exact (names_slash _)|]. etransitivity; [exact (names_slash _)|]. now apply names_join.
Qed.
Lemma mk_path_str p : good_root (p_root p) -> Forall good_name (p_names p) -> mk_path (path_str p) = p.
Proof.
  intros R F. unfold mk_path. fold (names_of (path_str p)). rewrite names_str by auto.
  destruct p as [r l]. f_equal. eapply path_root_det; [apply split_root_spec|]. now apply path_root_str.
Qed.

Lemma absolute_iff s : is_absolute (mk_path s) = true <-> slashed s.
Proof.
  unfold is_absolute, mk_path. cbn. pose proof (split_root_spec s) as P.
  destruct P as [x N|x N|x N|x]; cbn; split; intros H; try discriminate; try reflexivity; try (now eexists).
  exfalso; auto.
Qed.
Lemma relative_iff s : is_absolute (mk_path s) = false <-> ~ slashed s.
Proof. rewrite <- absolute_iff. destruct (is_absolute (mk_path s)); split; congruence. Qed.

(** ** Where a value points *)
Section Where.
Variables (ini : str) (root : str) (dir : list str) (name : str).
Hypothesis DI : denotes ini (Path root (dir ++ [name])).

Definition place (v : str) : path := path_div (parent (mk_path ini)) v.

Lemma ini_path : mk_path ini = Path root (dir ++ [name]).
Proof. symmetry. now apply denotes_iff. Qed.
Lemma ini_parent : parent (mk_path ini) = Path root dir.
Proof. rewrite ini_path. unfold parent. cbn. now rewrite removelast_last. Qed.
Lemma place_eq v : place v = if is_absolute (mk_path v) then mk_path v else Path root (dir ++ names_of v).
Proof. unfold place, path_div. rewrite ini_parent. reflexivity. Qed.
Lemma rel_path v : ~ slashed v -> mk_path v = Path [] (names_of v).
Proof.
  intros N. unfold mk_path. f_equal. pose proof (split_root_spec v) as P.
  eapply path_root_det; [exact P|]. now constructor.
Qed.
Lemma located_iff v p : located ini v p <-> p = place v.
Proof.
  rewrite place_eq. split.
  - intros L. destruct L as [p S D|r l f lv N D E].
    + rewrite (proj2 (absolute_iff v) S). now apply denotes_iff.
    + rewrite (proj2 (relative_iff v) N). apply denotes_iff in D, E. rewrite ini_path in D.
      injection D as -> X. apply app_inj_tail in X as [-> _].
      unfold mk_path in E. injection E as _ ->. reflexivity.
  - intros ->. destruct (slashed_dec v) as [S|N].
    + rewrite (proj2 (absolute_iff v) S). apply loc_absolute; auto. apply denotes_mk.
    + rewrite (proj2 (relative_iff v) N). eapply loc_relative; eauto. rewrite <- rel_path by auto. apply denotes_mk.
Qed.
Lemma place_good v : good_root (p_root (place v)) /\ Forall good_name (p_names (place v)).
Proof.
  rewrite place_eq. destruct (is_absolute (mk_path v)).
  - split; [apply root_good|apply names_good].
  - cbn. pose proof ini_path as E. unfold mk_path in E. injection E as E1 E2. split; [rewrite <- E1; apply root_good|].
    apply Forall_app. split; [|apply names_good]. fold (names_of ini) in E2. pose proof (names_good ini) as F.
    rewrite E2 in F. apply Forall_app in F. apply F.
Qed.
Lemma place_denotes v : mk_path (path_str (place v)) = place v.
Proof. destruct (place_good v). now apply mk_path_str. Qed.
(** What is stored is a relative path text only if the top-level file is given by
    a relative one. *)
Lemma place_absolute v : root <> [] -> is_absolute (place v) = true.
Proof.
  intros R. rewrite place_eq. destruct (is_absolute (mk_path v)) eqn:E; auto.
  unfold is_absolute. cbn. apply negb_true_iff. now apply str_eqb_neq.
Qed.
Lemma path_str_ne p : good_root (p_root p) -> Forall good_name (p_names p) -> path_str p <> [].
Proof.
  destruct p as [r l]. unfold path_str. cbn. intros [-> | [-> | ->]] F; [|discriminate|discriminate].
  destruct l as [|w l]; [discriminate|]. inversion F as [|? ? (A & _) ?]; subst. destruct w; [congruence|].
  destruct l; discriminate.
Qed.
End Where.
