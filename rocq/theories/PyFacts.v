(** * Facts about the Python basics of [PyBase.v]. *)
From Coq Require Import NArith ZArith List Bool Lia.
Import ListNotations.
From Verif Require Import PyBase.

Lemma str_eqb_refl (s : str) : str_eqb s s = true.
Proof. induction s as [|c s IH]; cbn; [reflexivity|]. now rewrite N.eqb_refl, IH. Qed.

Lemma str_eqb_eq (a b : str) : str_eqb a b = true <-> a = b.
Proof.
  split; [|intros ->; apply str_eqb_refl].
  revert b; induction a as [|x a IH]; intros [|y b]; cbn; try discriminate; auto.
  intros H. apply andb_prop in H as [H1 H2]. apply N.eqb_eq in H1. subst. f_equal; auto.
Qed.

Lemma str_eqb_neq (a b : str) : str_eqb a b = false <-> a <> b.
Proof.
  split.
  - intros H E. subst. now rewrite str_eqb_refl in H.
  - intros H. destruct (str_eqb a b) eqn:E; auto. apply str_eqb_eq in E. contradiction.
Qed.

Lemma str_eqb_sym (a b : str) : str_eqb a b = str_eqb b a.
Proof.
  destruct (str_eqb a b) eqn:E.
  - apply str_eqb_eq in E. subst. now rewrite str_eqb_refl.
  - symmetry. apply str_eqb_neq. apply str_eqb_neq in E. congruence.
Qed.

Lemma str_eqb_spec (a b : str) : reflect (a = b) (str_eqb a b).
Proof.
  destruct (str_eqb a b) eqn:E; constructor.
  - now apply str_eqb_eq.
  - now apply str_eqb_neq.
Qed.

Definition str_eq_dec (a b : str) : {a = b} + {a <> b} := list_eq_dec N.eq_dec a b.

Lemma str_mem_In (x : str) (l : list str) : str_mem x l = true <-> In x l.
Proof.
  unfold str_mem. rewrite existsb_exists. split.
  - intros (y & Hy & E). apply str_eqb_eq in E. now subst.
  - intros H. exists x. split; auto. apply str_eqb_refl.
Qed.

Lemma str_mem_not_In (x : str) (l : list str) : str_mem x l = false <-> ~ In x l.
Proof.
  rewrite <- str_mem_In. destruct (str_mem x l); split; intros; congruence.
Qed.

Lemma char_mem_In (c : pychar) (s : str) : char_mem c s = true <-> In c s.
Proof.
  unfold char_mem. rewrite existsb_exists. split.
  - intros (y & Hy & E). apply N.eqb_eq in E. now subst.
  - intros H. exists c. split; auto. apply N.eqb_refl.
Qed.

(** ** Sets *)
Lemma In_sadd x y s : In x (sadd y s) <-> x = y \/ In x s.
Proof.
  unfold sadd. destruct (str_mem y s) eqn:E; cbn.
  - split; auto. intros [->|H]; auto. now apply str_mem_In.
  - split; intros [H|H]; auto.
Qed.

Lemma In_sremove x y s : In x (sremove y s) <-> x <> y /\ In x s.
Proof.
  unfold sremove. rewrite filter_In. split.
  - intros [H1 H2]. split; auto. intros ->. now rewrite str_eqb_refl in H2.
  - intros [H1 H2]. split; auto. apply negb_true_iff. apply str_eqb_neq. congruence.
Qed.

Lemma str_mem_sadd x y s : str_mem x (sadd y s) = str_eqb x y || str_mem x s.
Proof.
  apply eq_true_iff_eq. rewrite str_mem_In, In_sadd, orb_true_iff, str_eqb_eq, str_mem_In.
  tauto.
Qed.

Lemma str_mem_sremove x y s : str_mem x (sremove y s) = negb (str_eqb x y) && str_mem x s.
Proof.
  apply eq_true_iff_eq.
  rewrite str_mem_In, In_sremove, andb_true_iff, negb_true_iff, str_eqb_neq, str_mem_In.
  tauto.
Qed.

(** ** Dicts *)
Section Dict.
Context {A : Type}.
Implicit Types (d : dict A).

Lemma dget_dset_same k v d : dget k (dset k v d) = Some v.
Proof.
  induction d as [|[k' v'] d IH]; cbn.
  - now rewrite str_eqb_refl.
  - destruct (str_eqb k k') eqn:E; cbn; rewrite E; auto.
Qed.

Lemma dget_dset_other k k' v d : k <> k' -> dget k (dset k' v d) = dget k d.
Proof.
  intros H. induction d as [|[k1 v1] d IH]; cbn.
  - apply str_eqb_neq in H. now rewrite H.
  - destruct (str_eqb k' k1) eqn:E; cbn.
    + apply str_eqb_eq in E. subst. apply str_eqb_neq in H. now rewrite H.
    + destruct (str_eqb k k1); auto.
Qed.

Lemma dget_dset k k' v d :
  dget k (dset k' v d) = if str_eqb k k' then Some v else dget k d.
Proof.
  destruct (str_eqb_spec k k') as [->|H].
  - apply dget_dset_same.
  - now apply dget_dset_other.
Qed.

Lemma dmem_dset k k' v d : dmem k (dset k' v d) = str_eqb k k' || dmem k d.
Proof. unfold dmem. rewrite dget_dset. now destruct (str_eqb k k'). Qed.

Lemma dget_Some_In k v d : dget k d = Some v -> In (k, v) d.
Proof.
  induction d as [|[k1 v1] d IH]; cbn; try discriminate.
  destruct (str_eqb_spec k k1) as [->|H]; intros E.
  - injection E as ->. auto.
  - auto.
Qed.

Lemma dget_None_keys k d : dget k d = None <-> ~ In k (dkeys d).
Proof.
  induction d as [|[k1 v1] d IH]; cbn; [intuition|].
  destruct (str_eqb_spec k k1) as [->|H].
  - split; [discriminate|]. intros N. exfalso. auto.
  - rewrite IH. intuition.
Qed.

Lemma dmem_keys k d : dmem k d = true <-> In k (dkeys d).
Proof.
  unfold dmem. destruct (dget k d) eqn:E.
  - split; auto. intros _. destruct (in_dec str_eq_dec k (dkeys d)) as [H|H]; auto.
    apply dget_None_keys in H. congruence.
  - split; [discriminate|]. intros H. apply dget_None_keys in E. contradiction.
Qed.

Lemma dkeys_dset_mem k v d : In k (dkeys d) -> dkeys (dset k v d) = dkeys d.
Proof.
  induction d as [|[k1 v1] d IH]; cbn; [contradiction|].
  destruct (str_eqb_spec k k1) as [->|H]; cbn; auto.
  intros [E|E]; [congruence|]. f_equal; auto.
Qed.

Lemma dkeys_dset_new k v d : ~ In k (dkeys d) -> dkeys (dset k v d) = dkeys d ++ [k].
Proof.
  induction d as [|[k1 v1] d IH]; cbn; auto.
  intros H. destruct (str_eqb_spec k k1) as [->|H1]; cbn.
  - exfalso; auto.
  - f_equal; auto.
Qed.

Lemma In_dkeys_dset x k v d : In x (dkeys (dset k v d)) <-> x = k \/ In x (dkeys d).
Proof.
  destruct (in_dec str_eq_dec k (dkeys d)) as [H|H].
  - rewrite dkeys_dset_mem by auto. split; auto. intros [->|]; auto.
  - rewrite dkeys_dset_new by auto. rewrite in_app_iff. cbn. intuition.
Qed.

Lemma NoDup_dkeys_dset k v d : NoDup (dkeys d) -> NoDup (dkeys (dset k v d)).
Proof.
  intros N. destruct (in_dec str_eq_dec k (dkeys d)) as [H|H].
  - now rewrite dkeys_dset_mem.
  - rewrite dkeys_dset_new by auto.
    induction (dkeys d) as [|x l IH]; cbn in *.
    + constructor; auto.
    + inversion N; subst. constructor.
      * rewrite in_app_iff. cbn. intuition.
      * apply IH; auto.
Qed.

Lemma dset_same_id k v d : dget k d = Some v -> dset k v d = d.
Proof.
  induction d as [|[k1 v1] d IH]; cbn; try discriminate.
  destruct (str_eqb_spec k k1) as [->|H]; intros E.
  - now injection E as ->.
  - f_equal; auto.
Qed.

Lemma dset_dset_same k v v' d : dset k v (dset k v' d) = dset k v d.
Proof.
  induction d as [|[k1 v1] d IH]; cbn.
  - now rewrite str_eqb_refl.
  - destruct (str_eqb k k1) eqn:E; cbn; rewrite E; auto. now f_equal.
Qed.

Lemma dset_comm_mem k k' v v' d :
  k <> k' -> In k (dkeys d) -> In k' (dkeys d) ->
  dset k v (dset k' v' d) = dset k' v' (dset k v d).
Proof.
  intros N. induction d as [|[k1 v1] d IH]; cbn; [contradiction|].
  intros H1 H2.
  destruct (str_eqb_spec k' k1) as [E1|E1]; destruct (str_eqb_spec k k1) as [E2|E2]; cbn.
  - congruence.
  - subst. apply str_eqb_neq in E2. rewrite E2. now rewrite str_eqb_refl.
  - subst. rewrite str_eqb_refl. destruct (str_eqb_spec k' k1); [congruence|]. reflexivity.
  - destruct (str_eqb_spec k k1); [congruence|]. destruct (str_eqb_spec k' k1); [congruence|].
    f_equal. apply IH; intuition congruence.
Qed.

Lemma dict_ext d d' :
  NoDup (dkeys d) -> dkeys d = dkeys d' -> (forall k, dget k d = dget k d') -> d = d'.
Proof.
  revert d'. induction d as [|[k v] d IH]; intros [|[k' v'] d'] ND E H; cbn in *; try discriminate; auto.
  injection E as <- E. inversion ND; subst.
  pose proof (H k) as Hk. cbn in Hk. rewrite !str_eqb_refl in Hk. injection Hk as <-.
  f_equal. apply IH; auto.
  intros x. specialize (H x). cbn in H. destruct (str_eqb_spec x k) as [Ex|Hx].
  - rewrite Ex. transitivity (@None A); [|symmetry]; apply dget_None_keys; auto.
    unfold dkeys. now rewrite <- E.
  - exact H.
Qed.
End Dict.

(** ** State monad *)
Lemma bind_assoc {S A B C} (m : SM S A) (f : A -> SM S B) (g : B -> SM S C) s :
  bind (bind m f) g s = bind m (fun a => bind (f a) g) s.
Proof. unfold bind. destruct (m s) as [[a|e] s']; auto. Qed.

Lemma bind_ext {S A B} (m m' : SM S A) (f g : A -> SM S B) s :
  m s = m' s -> (forall a s', m' s = (Ok a, s') -> f a s' = g a s') ->
  bind m f s = bind m' g s.
Proof.
  intros H1 H2. unfold bind. rewrite H1. destruct (m' s) as [[a|e] s'] eqn:E; auto.
Qed.

Lemma bind_Ok {S A B} (m : SM S A) (f : A -> SM S B) s b s' :
  bind m f s = (Ok b, s') -> exists a s1, m s = (Ok a, s1) /\ f a s1 = (Ok b, s').
Proof.
  unfold bind. destruct (m s) as [[a|e] s1] eqn:E; intros H; [eauto|discriminate].
Qed.

(** ** Stripping *)
Section Strip.
Variable p : pychar -> bool.

Lemma lstrip_decomp s : exists q, s = q ++ lstrip p s /\ Forall (fun c => p c = true) q.
Proof.
  induction s as [|c s (q & E & F)]; cbn.
  - exists []. auto.
  - destruct (p c) eqn:P.
    + exists (c :: q). cbn. split; [congruence|auto].
    + exists []. auto.
Qed.

Lemma lstrip_head s : match lstrip p s with [] => True | c :: _ => p c = false end.
Proof. induction s as [|c s IH]; cbn; auto. destruct (p c) eqn:P; auto. Qed.

Lemma lstrip_fix s : (match s with [] => True | c :: _ => p c = false end) -> lstrip p s = s.
Proof. destruct s as [|c s]; cbn; auto. now intros ->. Qed.

Lemma lstrip_idem s : lstrip p (lstrip p s) = lstrip p s.
Proof. apply lstrip_fix, lstrip_head. Qed.

Lemma rstrip_decomp s : exists q, s = rstrip p s ++ q /\ Forall (fun c => p c = true) q.
Proof.
  unfold rstrip. destruct (lstrip_decomp (rev s)) as (q & E & F).
  exists (rev q). split.
  - rewrite <- rev_app_distr, <- E. now rewrite rev_involutive.
  - now apply Forall_rev.
Qed.

Lemma rstrip_idem s : rstrip p (rstrip p s) = rstrip p s.
Proof. unfold rstrip. now rewrite rev_involutive, lstrip_idem. Qed.

Lemma rstrip_last s c : rstrip p (s ++ [c]) = if p c then rstrip p s else s ++ [c].
Proof.
  unfold rstrip. rewrite rev_app_distr. cbn. destruct (p c); auto.
  cbn. now rewrite rev_involutive.
Qed.

Lemma strip_head s : match strip p s with [] => True | c :: _ => p c = false end.
Proof.
  unfold strip. destruct (rstrip_decomp (lstrip p s)) as (q & E & F).
  destruct (rstrip p (lstrip p s)) as [|c r] eqn:R; auto.
  pose proof (lstrip_head s) as H. rewrite E in H. exact H.
Qed.

Lemma strip_idem s : strip p (strip p s) = strip p s.
Proof.
  unfold strip at 1. rewrite lstrip_fix by apply strip_head.
  unfold strip. apply rstrip_idem.
Qed.

(** Characterisation: what is stripped is all blank, and the ends are not. *)
Lemma strip_decomp s :
  exists a b, s = a ++ strip p s ++ b /\ Forall (fun c => p c = true) a /\
              Forall (fun c => p c = true) b.
Proof.
  destruct (lstrip_decomp s) as (a & E1 & F1).
  destruct (rstrip_decomp (lstrip p s)) as (b & E2 & F2).
  exists a, b. unfold strip. rewrite <- E2. auto.
Qed.

Lemma strip_last s : match rev (strip p s) with [] => True | c :: _ => p c = false end.
Proof. unfold strip, rstrip. rewrite rev_involutive. apply lstrip_head. Qed.
End Strip.
