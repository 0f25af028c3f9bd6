(** * Proofs about the operations on environment variables. *)
From Coq Require Import String NArith ZArith List Bool Lia.
Import ListNotations.
From Verif Require Import PyBase PyFacts EnvVar SpecEnv.

(** ** Small facts *)
Lemma ascii_word_spec c : ascii_word c = true <-> word_char c.
Proof.
  unfold ascii_word, word_char.
  rewrite !orb_true_iff, !andb_true_iff, !N.leb_le, N.eqb_eq. tauto.
Qed.
Lemma ascii_word_false c : ascii_word c = false <-> ~ word_char c.
Proof. rewrite <- ascii_word_spec. destruct (ascii_word c); split; intuition congruence. Qed.

Lemma dget_ddel_same {A} k (d : dict A) : dget k (ddel k d) = None.
Proof.
  induction d as [|[k' v] d IH]; cbn; auto. destruct (str_eqb k k') eqn:E; cbn [negb]; auto.
  cbn [dget]. now rewrite E.
Qed.
Lemma dget_ddel_other {A} k n (d : dict A) : n <> k -> dget n (ddel k d) = dget n d.
Proof.
  intros N. induction d as [|[k' v] d IH]; cbn; auto.
  destruct (str_eqb_spec k k') as [<-|X]; cbn [negb dget].
  - destruct (str_eqb_spec n k) as [->|_]; [congruence|exact IH].
  - destruct (str_eqb_spec n k'); auto.
Qed.

(** ** Expansion *)
Lemma word_run_spec s : exists r, s = word_run s ++ r /\ Forall word_char (word_run s) /\
  match r with c :: _ => ~ word_char c | [] => True end.
Proof.
  induction s as [|c s IH]; cbn [word_run].
  - exists []. auto.
  - destruct (ascii_word c) eqn:E.
    + destruct IH as (r & A & B & C). exists r. split; [cbn; congruence|]. split; auto.
      constructor; auto. now apply ascii_word_spec.
    + exists (c :: s). split; auto. split; auto. now apply ascii_word_false.
Qed.
Lemma word_run_app n s : Forall word_char n -> match s with c :: _ => ~ word_char c | [] => True end ->
  word_run (n ++ s) = n.
Proof.
  intros F H. induction F as [|c n W F IH]; cbn.
  - destruct s as [|c s]; auto. cbn. apply ascii_word_false in H. now rewrite H.
  - apply ascii_word_spec in W. now rewrite W, IH.
Qed.
Lemma upto_brace_spec s : match upto_brace s with
  | Some n => exists r, s = n ++ 125%N :: r /\ ~ In 125%N n
  | None => ~ In 125%N s
  end.
Proof.
  induction s as [|c s IH]; cbn; auto. destruct (N.eqb_spec c 125).
  - subst. exists s. auto.
  - destruct (upto_brace s) as [n'|]; cbn.
    + destruct IH as (r & -> & I). exists r. split; auto. intros [X|X]; auto.
    + intros [X|X]; auto.
Qed.
Lemma upto_brace_app n s : ~ In 125%N n -> upto_brace (n ++ 125%N :: s) = Some n.
Proof.
  induction n as [|c n IH]; cbn; auto. intros H. destruct (N.eqb_spec c 125).
  - subst. tauto.
  - rewrite IH; auto.
Qed.

Lemma expand_skip e p s : expand_from e (length p) (p ++ s) = expand_from e 0 s.
Proof. induction p as [|c p IH]; [reflexivity|]. cbn [length app expand_from]. exact IH. Qed.
Lemma firstn_len {A} (p s : list A) : firstn (length p) (p ++ s) = p.
Proof. rewrite firstn_app, firstn_all, Nat.sub_diag. cbn. apply app_nil_r. Qed.

Lemma not_begins s : ~ begins_reference s -> reference s = None.
Proof.
  destruct s as [|c s]; auto. cbn. intros H.
  destruct (ascii_word c) eqn:E; [apply ascii_word_spec in E; tauto|].
  destruct (N.eqb_spec c 123); auto. subst.
  pose proof (upto_brace_spec s) as U. destruct (upto_brace s) as [n|]; auto.
  destruct U as (r & -> & _). exfalso. apply H. right. split; auto. apply in_app_iff. cbn. auto.
Qed.

Lemma expandvars_sound e s t : expands e s t -> expandvars e s = t.
Proof.
  unfold expandvars. induction 1 as [|c s t C E IH|s t B E IH|n v s t N W S D E IH
                                    |n s t N W S D E IH|n v s t I D E IH|n s t I D E IH].
  - reflexivity.
  - cbn [expand_from]. apply N.eqb_neq in C. now rewrite C, IH.
  - cbn [expand_from]. rewrite N.eqb_refl, not_begins by auto. now rewrite IH.
  - cbn [expand_from]. rewrite N.eqb_refl.
    assert (R : reference (n ++ s) = Some (n, length n)).
    { destruct n as [|c n]; [congruence|]. inversion W; subst. cbn [reference app].
      apply ascii_word_spec in H1. rewrite H1.
      change (c :: n ++ s) with ((c :: n) ++ s). rewrite word_run_app; auto. }
    rewrite R, D. f_equal. rewrite expand_skip. exact IH.
  - cbn [expand_from]. rewrite N.eqb_refl.
    assert (R : reference (n ++ s) = Some (n, length n)).
    { destruct n as [|c n]; [congruence|]. inversion W; subst. cbn [reference app].
      apply ascii_word_spec in H1. rewrite H1.
      change (c :: n ++ s) with ((c :: n) ++ s). rewrite word_run_app; auto. }
    rewrite R, D, firstn_len, expand_skip, IH. reflexivity.
  - change (123%N :: n ++ 125%N :: s) with ((123%N :: n) ++ 125%N :: s) in *.
    cbn [expand_from]. rewrite N.eqb_refl.
    assert (R : reference ((123%N :: n) ++ 125%N :: s) = Some (n, 2 + length n)).
    { cbn [reference app]. cbv [ascii_word]. cbn [N.leb N.compare Pos.compare Pos.compare_cont andb orb N.eqb Pos.eqb].
      now rewrite upto_brace_app. }
    rewrite R, D. f_equal.
    replace ((123%N :: n) ++ 125%N :: s) with ((123%N :: n ++ [125%N]) ++ s)
      by (cbn; now rewrite <- app_assoc).
    replace (2 + length n) with (length (123%N :: n ++ [125%N])) by (cbn; rewrite app_length; cbn; lia).
    now rewrite expand_skip.
  - change (123%N :: n ++ 125%N :: s) with ((123%N :: n) ++ 125%N :: s) in *.
    cbn [expand_from]. rewrite N.eqb_refl.
    assert (R : reference ((123%N :: n) ++ 125%N :: s) = Some (n, 2 + length n)).
    { cbn [reference app]. cbv [ascii_word]. cbn [N.leb N.compare Pos.compare Pos.compare_cont andb orb N.eqb Pos.eqb].
      now rewrite upto_brace_app. }
    rewrite R, D.
    replace ((123%N :: n) ++ 125%N :: s) with ((123%N :: n ++ [125%N]) ++ s)
      by (cbn; now rewrite <- app_assoc).
    replace (2 + length n) with (length (123%N :: n ++ [125%N])) by (cbn; rewrite app_length; cbn; lia).
    rewrite expand_skip, firstn_len, IH. cbn. now rewrite <- app_assoc.
Qed.

Lemma expands_total e s : exists t, expands e s t.
Proof.
  remember (length s) as k eqn:K. revert s K.
  induction k as [k IH] using lt_wf_ind. intros s ->.
  destruct s as [|c s]; [eexists; constructor|].
  assert (IHs : forall r, length r <= length s -> exists t, expands e r t)
    by (intros r L; apply (IH (length r)); cbn; auto; lia).
  destruct (N.eq_dec c 36) as [->|C].
  - destruct s as [|d s].
    + exists [36%N]. apply ex_dollar; [cbn; tauto|constructor].
    + destruct (ascii_word d) eqn:W.
      * destruct (word_run_spec (d :: s)) as (r & E & F & S).
        assert (NE : word_run (d :: s) <> []) by (cbn [word_run]; rewrite W; discriminate).
        destruct (IHs r) as [t T].
        { pose proof (f_equal (@length pychar) E) as LE. rewrite app_length in LE.
          destruct (word_run (d :: s)) as [|x w]; [congruence|]. cbn [length] in LE |- *.
          unfold str, pychar in *. lia. }
        rewrite E. destruct (dget (word_run (d :: s)) e) as [v|] eqn:D.
        -- exists (v ++ t). now apply ex_name.
        -- exists (36%N :: word_run (d :: s) ++ t). now apply ex_name_unset.
      * apply ascii_word_false in W. destruct (N.eq_dec d 123) as [->|X].
        -- pose proof (upto_brace_spec s) as U. destruct (upto_brace s) as [n|].
           ++ destruct U as (r & -> & I). destruct (IHs r) as [t T].
              { cbn. rewrite app_length. cbn. lia. }
              destruct (dget n e) as [v|] eqn:D.
              ** exists (v ++ t). now apply ex_brace.
              ** exists (36%N :: 123%N :: n ++ 125%N :: t). now apply ex_brace_unset.
           ++ destruct (IHs (123%N :: s)) as [t T]; [apply le_n|].
              exists (36%N :: t). apply ex_dollar; auto. cbn. tauto.
        -- destruct (IHs (d :: s)) as [t T]; [apply le_n|].
           exists (36%N :: t). apply ex_dollar; auto. cbn. tauto.
  - destruct (IHs s) as [t T]; [apply le_n|]. exists (c :: t). now apply ex_char.
Qed.

Theorem expandvars_spec e s t : expands e s t <-> t = expandvars e s.
Proof.
  split; intros H.
  - now apply expandvars_sound in H.
  - destruct (expands_total e s) as [t' T]. apply expandvars_sound in T as T'. congruence.
Qed.
Lemma expands_det e s t t' : expands e s t -> expands e s t' -> t = t'.
Proof. rewrite !expandvars_spec. congruence. Qed.

Lemma expands_id e s : ~ In 36%N s -> expands e s s.
Proof.
  induction s as [|c s IH]; intros H; [constructor|]. apply ex_char; [intros ->; apply H; now left|].
  apply IH. intros X. apply H. now right.
Qed.

(** The value [envvar_op] works with. *)
Lemma op_value e value :
  expands e value (if char_mem 36%N value then expandvars e value else value).
Proof.
  destruct (char_mem 36%N value) eqn:E.
  - now apply expandvars_spec.
  - apply expands_id. intros X. apply char_mem_In in X. congruence.
Qed.

Lemma expands_no_null e s t : clean_env e -> expands e s t -> no_null s -> no_null t.
Proof.
  unfold no_null. intros C E. induction E as [|c s t N E IH|s t B E IH|n v s t N W S D E IH
                                    |n s t N W S D E IH|n v s t I D E IH|n s t I D E IH]; intros H.
  - auto.
  - intros [X|X]; [apply H; now left|]. apply IH; auto. intros Y. apply H. now right.
  - intros [X|X]; [discriminate|]. apply IH; auto. intros Y. apply H. now right.
  - rewrite in_app_iff. intros [X|X]; [exact (C _ _ D X)|]. apply IH; auto.
    intros Y. apply H. right. apply in_app_iff. auto.
  - intros [X|X]; [discriminate|]. apply in_app_iff in X as [X|X].
    + apply H. right. apply in_app_iff. auto.
    + apply IH; auto. intros Y. apply H. right. apply in_app_iff. auto.
  - rewrite in_app_iff. intros [X|X]; [exact (C _ _ D X)|]. apply IH; auto.
    intros Y. apply H. right. right. apply in_app_iff. right. now right.
  - intros [X|[X|X]]; [discriminate|discriminate|]. apply in_app_iff in X as [X|[X|X]]; [|discriminate|].
    + apply H. right. right. apply in_app_iff. auto.
    + apply IH; auto. intros Y. apply H. right. right. apply in_app_iff. right. now right.
Qed.

(** ** Erasing *)
Lemma starts_with_spec p s : starts_with p s = true <-> exists r, s = p ++ r.
Proof.
  revert s. induction p as [|x p IH]; intros s; cbn.
  - split; eauto.
  - destruct s as [|y s].
    + split; [discriminate|]. intros [r H]. discriminate.
    + rewrite andb_true_iff, N.eqb_eq, IH. split.
      * intros [-> [r ->]]. now exists r.
      * intros [r H]. inversion H; subst. eauto.
Qed.
Lemma erase_skip sub p s : erase_from sub (length p) (p ++ s) = erase_from sub 0 s.
Proof. induction p as [|c p IH]; [reflexivity|]. cbn [length app erase_from]. exact IH. Qed.
Lemma erase_sound sub s t : sub <> [] -> erases sub s t -> erase_from sub 0 s = t.
Proof.
  intros N. induction 1 as [|s t E IH|c s t M E IH]; auto.
  - destruct sub as [|x sub]; [congruence|]. cbn [app erase_from].
    replace (starts_with (x :: sub) (x :: sub ++ s)) with true
      by (symmetry; apply starts_with_spec; now exists s).
    cbn [length pred]. now rewrite erase_skip.
  - cbn [erase_from]. destruct (starts_with sub (c :: s)) eqn:X.
    + apply starts_with_spec in X as [r X]. now apply M in X.
    + now rewrite IH.
Qed.
Lemma erases_total sub s : sub <> [] -> exists t, erases sub s t.
Proof.
  intros N. remember (length s) as k eqn:K. revert s K.
  induction k as [k IH] using lt_wf_ind. intros s ->. destruct s as [|c s]; [eexists; constructor|].
  destruct (starts_with sub (c :: s)) eqn:X.
  - apply starts_with_spec in X as [r X]. destruct (IH (length r)) with (s := r) as [t T]; auto.
    + rewrite X, app_length. destruct sub; [congruence|]. cbn. lia.
    + exists t. rewrite X. now constructor.
  - destruct (IH (length s)) with (s := s) as [t T]; auto. exists (c :: t). constructor; auto.
    intros r E. assert (starts_with sub (c :: s) = true) by (apply starts_with_spec; eauto). congruence.
Qed.
Theorem erase_spec sub s t : sub <> [] -> (erases sub s t <-> t = erase sub s).
Proof.
  intros N. unfold erase. destruct sub as [|x sub]; [congruence|]. split; intros H.
  - now apply erase_sound in H.
  - destruct (erases_total (x :: sub) s N) as [t' T]. apply erase_sound in T as T'; auto. congruence.
Qed.
Lemma erases_no_null sub s t : erases sub s t -> no_null s -> no_null t.
Proof.
  unfold no_null. induction 1 as [|s t E IH|c s t M E IH]; intros H; auto.
  - apply IH. intros X. apply H. apply in_app_iff. auto.
  - intros [X|X]; [apply H; now left|]. apply IH; auto. intros Y. apply H. now right.
Qed.

(** ** Path entries *)
Lemma split_on_ne sep s : split_on sep s <> [].
Proof. destruct s; cbn; [discriminate|]. destruct (N.eqb _ _); [discriminate|]. destruct (split_on sep s); discriminate. Qed.
Lemma split_join sep s : join [sep] (split_on sep s) = s.
Proof.
  induction s as [|c s IH]; auto. cbn [split_on]. pose proof (split_on_ne sep s) as NE.
  destruct (N.eqb_spec c sep).
  - subst. destruct (split_on sep s) as [|w l]; [congruence|]. cbn [join app]. f_equal. exact IH.
  - destruct (split_on sep s) as [|w l]; [congruence|]. rewrite <- IH. destruct l; reflexivity.
Qed.
Lemma split_no_sep sep s : Forall (fun x => ~ In sep x) (split_on sep s).
Proof.
  induction s as [|c s IH]; cbn [split_on].
  - constructor; auto.
  - destruct (N.eqb_spec c sep); [constructor; auto|].
    destruct (split_on sep s) as [|w l]; [constructor; auto; intros [X|[]]; auto|].
    inversion IH; subst. constructor; auto. intros [X|X]; auto.
Qed.
Lemma split_on_word sep w : ~ In sep w -> split_on sep w = [w].
Proof.
  induction w as [|c w IH]; intros H; auto. cbn. destruct (N.eqb_spec c sep).
  - subst. exfalso. apply H. now left.
  - rewrite IH; auto. intros X. apply H. now right.
Qed.
Lemma split_on_cons sep w s : ~ In sep w -> split_on sep (w ++ sep :: s) = w :: split_on sep s.
Proof.
  induction w as [|c w IH]; intros H; cbn.
  - now rewrite N.eqb_refl.
  - destruct (N.eqb_spec c sep).
    + subst. exfalso. apply H. now left.
    + rewrite IH; auto. intros X. apply H. now right.
Qed.
Lemma join_split sep l : l <> [] -> Forall (fun x => ~ In sep x) l -> split_on sep (join [sep] l) = l.
Proof.
  intros NE F. induction F as [|x l X F IH]; [congruence|]. destruct l as [|y l].
  - cbn. now apply split_on_word.
  - change (join [sep] (x :: y :: l)) with (x ++ sep :: join [sep] (y :: l)).
    rewrite split_on_cons; auto. f_equal. apply IH. discriminate.
Qed.
Lemma entries_split p : entries (split_on 58%N p) p.
Proof.
  split; [apply split_on_ne|]. split; [apply split_no_sep|]. symmetry. apply (split_join 58%N).
Qed.
Lemma entries_det l p : entries l p -> l = split_on 58%N p.
Proof. intros (N & F & ->). symmetry. exact (join_split 58%N l N F). Qed.
Lemma without_filter v l : without v l (filter (fun x => negb (str_eqb x v)) l).
Proof.
  induction l as [|x l IH]; cbn; [constructor|]. destruct (str_eqb_spec x v); cbn [negb].
  - subst. now constructor.
  - now constructor.
Qed.
Lemma without_det v l l' : without v l l' -> l' = filter (fun x => negb (str_eqb x v)) l.
Proof.
  induction 1 as [|l l' W IH|x l l' N W IH]; cbn; auto.
  - now rewrite str_eqb_refl.
  - apply str_eqb_neq in N. rewrite N. cbn. congruence.
Qed.

(** ** The operations *)
Section Op.
Variable which : environ -> str -> option str.
Variables (e : environ) (name value : str).

Lemma assign_ok v : valid_name name -> no_null v -> env_assign name v e = (Ok tt, dset name v e).
Proof.
  intros (NE & EQ & Z) V. unfold env_assign.
  replace (char_mem 61%N name) with false by (symmetry; apply not_true_iff_false; rewrite char_mem_In; auto).
  replace (char_mem 0%N name) with false by (symmetry; apply not_true_iff_false; rewrite char_mem_In; auto).
  replace (char_mem 0%N v) with false by (symmetry; apply not_true_iff_false; rewrite char_mem_In; auto).
  destruct name; [congruence|reflexivity].
Qed.
Lemma set_ok v : valid_name name -> no_null v -> envvar_set name v true e = (Ok 0%Z, dset name v e).
Proof. intros N V. unfold envvar_set. cbn [negb andb]. unfold bind. now rewrite assign_ok. Qed.

Lemma effect_det op n n' : effect which e name value op n -> effect which e name value op n' -> n = n'.
Proof.
  intros A B. inversion A; subst; inversion B; subst; auto;
  repeat match goal with
  | H : expands e value ?a, G : expands e value ?b |- _ => pose proof (expands_det _ _ _ _ H G); subst; clear H
  | H : dget name e = _, G : dget name e = _ |- _ => rewrite H in G; inversion G; subst; clear G
  | H : _ \/ _ |- _ => destruct H
  | H : entries _ _ |- _ => apply entries_det in H; subst
  | H : without _ _ _ |- _ => apply without_det in H; subst
  | H : erases _ _ _ |- _ => apply erase_spec in H; auto; subst
  | H : which e ?v = _, G : which e ?v = _ |- _ => rewrite H in G; inversion G; subst; clear G
  end; try congruence; auto.
Qed.

Hypothesis (VN : valid_name name) (NV : no_null value) (CE : clean_env e) (CW : clean_which which).

Definition op_result (op : str) (r : res Z * environ) : Prop :=
  match r with
  | (Ok z, e') => z = 0%Z /\ exists new, effect which e name value op new /\ dget name e' = new /\ same_but name e e'
  | (Err x, e') => x = ValueError /\ e' = e /\
      ((op = $"assert_not_empty" /\ (dget name e = None \/ dget name e = Some [])) \/ ~ In op documented_ops)
  end.

Lemma result_set op v : no_null v -> effect which e name value op (Some v) ->
  op_result op (envvar_set name v true e).
Proof.
  intros N E. rewrite set_ok; auto. split; auto. exists (Some v). split; auto. split.
  - apply dget_dset_same.
  - intros n X. now apply dget_dset_other.
Qed.
Lemma result_dset op v : effect which e name value op (Some v) ->
  op_result op (Ok 0%Z, dset name v e).
Proof.
  intros E. split; auto. exists (Some v). split; auto. split.
  - apply dget_dset_same.
  - intros n X. now apply dget_dset_other.
Qed.
Lemma result_keep op : effect which e name value op (dget name e) -> op_result op (Ok 0%Z, e).
Proof. intros E. split; auto. exists (dget name e). split; auto. split; auto. intros n _. auto. Qed.

Theorem envvar_op_spec op : op_result op (envvar_op which op name value true e).
Proof.
  unfold envvar_op. cbn [negb andb]. unfold bind at 1. cbn [get].
  pose proof (op_value e value) as EV. set (v := if char_mem 36%N value then expandvars e value else value) in *.
  assert (Vn : no_null v) by (eapply expands_no_null; eauto).
  clearbody v. unfold pathsep in *. change (@dget (list pychar)) with (@dget str).
  destruct (str_eqb_spec op $"set") as [->|N1]; [apply result_set; auto; now constructor|].
  destruct (str_eqb_spec op $"set_if_empty") as [->|N2].
  { unfold envvar_set_if_empty. cbn [negb andb]. unfold bind. cbn [get].
    change (@dget (list pychar)) with (@dget str).
    destruct (dget name e) as [[|c old]|] eqn:D; rewrite ?D.
    - rewrite assign_ok; auto. unfold ret. apply result_dset.
      apply ef_set_if_empty; auto.
    - unfold ret. apply result_keep. rewrite D. apply ef_keep; auto. discriminate.
    - rewrite assign_ok; auto. unfold ret. apply result_dset.
      apply ef_set_if_empty; auto. }
  destruct (str_eqb_spec op $"append") as [->|N3].
  { destruct (dget name e) as [old|] eqn:D; rewrite ?D; cbn [join app].
    - apply result_set.
      + unfold no_null. rewrite in_app_iff. cbn. intros [X|[X|X]]; [exact (CE _ _ D X)|discriminate|auto].
      + apply (ef_append which e name value v old); auto.
    - apply result_set; auto. now apply ef_append_new. }
  destruct (str_eqb_spec op $"prepend") as [->|N4].
  { destruct (dget name e) as [old|] eqn:D; rewrite ?D; cbn [join app].
    - apply result_set.
      + unfold no_null. rewrite in_app_iff. cbn. intros [X|[X|X]]; [auto|discriminate|exact (CE _ _ D X)].
      + apply (ef_prepend which e name value v old); auto.
    - apply result_set; auto. now apply ef_prepend_new. }
  destruct (str_eqb_spec op $"unset") as [->|N5].
  { destruct (dget name e) as [old|] eqn:D; rewrite ?D.
    - unfold bind, modify, ret. split; auto. exists None. split; [constructor|]. split.
      + apply dget_ddel_same.
      + intros n X. now apply dget_ddel_other.
    - unfold bind, ret. apply result_keep. rewrite D. constructor. }
  destruct (str_eqb_spec op $"remove_substr") as [->|N6].
  { destruct (dget name e) as [old|] eqn:D; rewrite ?D; cbv beta iota.
    - destruct (list_eq_dec N.eq_dec v []) as [->|NE].
      + cbn [erase]. apply result_set; [exact (CE _ _ D)|]. now apply ef_erase_nothing.
      + pose proof (proj2 (erase_spec v old (erase v old) NE) eq_refl) as ER. apply result_set.
        * eapply erases_no_null; eauto.
        * eapply ef_erase; eauto.
    - apply result_keep. rewrite D. now apply ef_erase_unset. }
  destruct (str_eqb_spec op $"remove_path_entry") as [->|N7].
  { destruct (dget name e) as [old|] eqn:D; rewrite ?D; cbv beta iota.
    - apply result_set.
      + pose proof (CE _ _ D) as O. rewrite <- (split_join 58%N old) in O. revert O. clear.
        assert (J : forall l, no_null (join [58%N] l) <-> Forall no_null l).
        { induction l as [|x l IH]; cbn.
          - split; auto. intros _ [].
          - destruct l as [|y l].
            + split; [constructor; auto|]. intros H. inversion H; auto.
            + change (58%N :: join [58%N] (y :: l)) with ([58%N] ++ join [58%N] (y :: l)).
              unfold no_null at 1. rewrite !in_app_iff. split.
              * intros H. constructor; [intros X; apply H; auto|]. apply IH. intros X. apply H. auto.
              * intros H [X|[[X|[]]|X]]; inversion H; subst; [auto|discriminate|]. apply IH in H3. auto. }
        rewrite !J, !Forall_forall. intros H x X. apply filter_In in X as [X _]. auto.
      + eapply ef_entry; eauto; [apply entries_split|apply without_filter].
    - apply result_keep. rewrite D. now apply ef_entry_unset. }
  destruct (str_eqb_spec op $"find_in_path") as [->|N8].
  { destruct (which e v) as [p|] eqn:W; apply result_set.
    - exact (CW _ _ _ W).
    - eapply ef_find; eauto.
    - intros [].
    - eapply ef_find_not; eauto. }
  destruct (str_eqb_spec op $"assert_not_empty") as [->|N9].
  { destruct (dget name e) as [[|c old]|] eqn:D; rewrite ?D.
    - split; auto.
    - apply result_keep. rewrite D. apply ef_assert; auto. discriminate.
    - split; auto. }
  split; auto. split; auto. right. unfold documented_ops. cbn [In]. intros X.
  repeat (destruct X as [X|X]; [congruence|]). destruct X.
Qed.
End Op.

Lemma no_null_app a b : no_null a -> no_null b -> no_null (a ++ b).
Proof. intros A B X. apply in_app_iff in X as [X|X]; auto. Qed.
Lemma join_In l c : c <> 58%N -> (In c (join [58%N] l) <-> exists x, In x l /\ In c x).
Proof.
  intros N. induction l as [|x l IH].
  - cbn [join]; split; [intros []|intros (x & [] & _)].
  - destruct l as [|y l].
    + cbn [join]. split; [intros I; exists x; split; auto; now left|intros (z & [<-|[]] & I); auto].
    + change (join [58%N] (x :: y :: l)) with (x ++ [58%N] ++ join [58%N] (y :: l)).
      rewrite !in_app_iff, IH by auto. split.
      * intros [I|[[I|[]]|(z & I & J)]]; [exists x; split; auto; now left|congruence|].
        exists z. split; auto. now right.
      * intros (z & [<-|I] & J); auto. right. right. eauto.
Qed.
Lemma join_without v l l' : without v l l' ->
  forall c, In c (join [58%N] l') -> c <> 58%N -> In c (join [58%N] l).
Proof.
  intros W c I N. apply join_In in I as (x & I & C); auto. apply join_In; auto. exists x. split; auto.
  clear - W I. induction W; cbn in *; intuition.
Qed.
(** Successful operations keep the environment free of null characters. *)
Lemma effect_no_null which e name value op v : clean_env e -> clean_which which -> no_null value ->
  effect which e name value op (Some v) -> no_null v.
Proof.
  intros CE CW NV H.
  assert (X : forall w, expands e value w -> no_null w) by (intros; eapply expands_no_null; eauto).
  inversion H; subst; eauto.
  - apply no_null_app; [eauto|apply (no_null_app [58%N]); [intros [Y|[]]; discriminate|eauto]].
  - apply no_null_app; [eauto|apply (no_null_app [58%N]); [intros [Y|[]]; discriminate|eauto]].
  - eapply erases_no_null; eauto.
  - match goal with
    | D : dget name e = Some ?old, En : entries _ ?old, W : without _ _ _ |- _ =>
        pose proof (CE _ _ D) as O; destruct En as (_ & _ & ->); rename W into H3
    end.
    intros Y. apply O. revert Y. clear - H3. intros Y. apply (join_without _ _ _ H3 0%N); auto. discriminate.
  - intros [].
Qed.

(** ** Laws *)
Section Laws.
Variable which : environ -> str -> option str.

Lemma op_clean op name value e r e' : valid_name name -> no_null value -> clean_env e -> clean_which which ->
  envvar_op which op name value true e = (r, e') -> clean_env e'.
Proof.
  intros VN NV CE CW E. pose proof (envvar_op_spec which e name value VN NV CE CW op) as S.
  rewrite E in S. destruct r as [z|x]; cbn in S.
  - destruct S as (_ & new & EF & D & F). intros n v H.
    destruct (str_eqb_spec n name) as [->|N].
    + rewrite H in D. subst. eapply effect_no_null; eauto.
    + rewrite F in H; auto. eapply CE; eauto.
  - destruct S as (_ & -> & _). exact CE.
Qed.

(** With the empty text refused, a variable is never left empty. *)
Lemma set_refused name v e z e' : envvar_set name v false e = (Ok z, e') -> dget name e' = Some v /\ v <> [] /\ z = 0%Z.
Proof.
  unfold envvar_set. destruct v as [|c v]; cbn [negb andb empty_str]; [discriminate|].
  unfold bind, env_assign. destruct (_ || _ || _); [discriminate|]. destruct name; [discriminate|].
  unfold ret. intros E. inversion E; subst. split; [apply dget_dset_same|]. split; [discriminate|auto].
Qed.
Lemma set_refused_err name v b e x e' : envvar_set name v b e = (Err x, e') -> e' = e.
Proof.
  unfold envvar_set. destruct (_ && _); [intros E; now inversion E|].
  unfold bind, env_assign. destruct (_ || _ || _); [intros E; now inversion E|].
  destruct name; [intros E; now inversion E|]. discriminate.
Qed.
Theorem never_empty op name value e z e' :
  envvar_op which op name value false e = (Ok z, e') ->
  dget name e' <> Some [].
Proof.
  unfold envvar_op. destruct (_ && _); [discriminate|]. unfold bind at 1. cbn [get].
  set (v := if char_mem 36%N value then expandvars e value else value). clearbody v.
  change (@dget (list pychar)) with (@dget str).
  assert (SET : forall w, envvar_set name w false e = (Ok z, e') -> dget name e' <> Some []).
  { intros w E. apply set_refused in E as (D & N & _). congruence. }
  destruct (str_eqb_spec op $"set") as [->|N1]; [eauto|].
  destruct (str_eqb_spec op $"set_if_empty") as [->|N2].
  { unfold envvar_set_if_empty. destruct v as [|c v]; cbn [negb andb empty_str]; [discriminate|].
    unfold bind, get, ret, env_assign. change (@dget (list pychar)) with (@dget str). intros E.
    destruct (dget name e) as [[|d old]|] eqn:D.
    - destruct (_ || _ || _); [discriminate|]. destruct name; [discriminate|]. inversion E; subst.
      rewrite dget_dset_same. discriminate.
    - inversion E; subst. rewrite D. discriminate.
    - destruct (_ || _ || _); [discriminate|]. destruct name; [discriminate|]. inversion E; subst.
      rewrite dget_dset_same. discriminate. }
  destruct (str_eqb_spec op $"append") as [->|N3]; [eauto|].
  destruct (str_eqb_spec op $"prepend") as [->|N4]; [eauto|].
  destruct (str_eqb_spec op $"unset") as [->|N5].
  { unfold bind, ret, modify. destruct (dget name e) as [old|] eqn:D; intros E; inversion E; subst.
    - rewrite dget_ddel_same. discriminate.
    - congruence. }
  destruct (str_eqb_spec op $"remove_substr") as [->|N6].
  { destruct (dget name e) as [old|] eqn:D; [eauto|]. intros E. inversion E; subst. congruence. }
  destruct (str_eqb_spec op $"remove_path_entry") as [->|N7].
  { destruct (dget name e) as [old|] eqn:D; [eauto|]. intros E. inversion E; subst. congruence. }
  destruct (str_eqb_spec op $"find_in_path") as [->|N8]; [eauto|].
  destruct (str_eqb_spec op $"assert_not_empty") as [->|N9]; [|discriminate].
  destruct (dget name e) as [[|d old]|] eqn:D; try discriminate. intros E. inversion E; subst. congruence.
Qed.

(** An operation that does not raise returns 0. *)
Lemma set_zero name v b e z e' : envvar_set name v b e = (Ok z, e') -> z = 0%Z.
Proof.
  unfold envvar_set. destruct (_ && _); [discriminate|]. unfold bind, env_assign.
  destruct (_ || _ || _); [discriminate|]. destruct name; [discriminate|]. intros E. now inversion E.
Qed.
Lemma op_zero op name value b e z e' : envvar_op which op name value b e = (Ok z, e') -> z = 0%Z.
Proof.
  unfold envvar_op. destruct (_ && _); [discriminate|]. unfold bind at 1. cbn [get].
  set (v := if char_mem 36%N value then expandvars e value else value). clearbody v.
  repeat match goal with |- context [str_eqb op ?x] => destruct (str_eqb op x) end; eauto using set_zero.
  - unfold envvar_set_if_empty. destruct (_ && _); [discriminate|]. unfold bind, get, ret, env_assign.
    change (@dget (list pychar)) with (@dget str). destruct (dget name e) as [[|c o]|];
      try (destruct (_ || _ || _); [discriminate|]; destruct name; [discriminate|]); intros E; now inversion E.
  - unfold bind, ret, modify. destruct (dget name e); intros E; now inversion E.
  - destruct (dget name e); [eauto using set_zero|]. intros E. now inversion E.
  - destruct (dget name e); [eauto using set_zero|]. intros E. now inversion E.
  - destruct (dget name e) as [[|c o]|]; intros E; now inversion E.
  - discriminate.
Qed.
End Laws.

(** ** Undoing a path entry *)
Lemma op_total which e name value op : valid_name name -> no_null value -> clean_env e -> clean_which which ->
  In op documented_ops -> op <> $"assert_not_empty" ->
  exists new e', envvar_op which op name value true e = (Ok 0%Z, e') /\
    effect which e name value op new /\ dget name e' = new /\ same_but name e e'.
Proof.
  intros VN NV CE CW I N. pose proof (envvar_op_spec which e name value VN NV CE CW op) as S.
  destruct (envvar_op which op name value true e) as [[z|x] e'].
  - destruct S as (-> & new & EF & D & F). exists new, e'. auto.
  - destruct S as (_ & _ & [[X _]|X]); contradiction.
Qed.
Lemma without_none v l : ~ In v l -> without v l l.
Proof.
  induction l as [|x l IH]; intros H; constructor.
  - intros ->. apply H. now left.
  - apply IH. intros X. apply H. now right.
Qed.
Lemma without_app v a b a' b' : without v a a' -> without v b b' -> without v (a ++ b) (a' ++ b').
Proof. intros A B. induction A; cbn [app]; auto; now constructor. Qed.
Lemma join_app (l m : list str) : l <> [] -> m <> [] -> join $":" (l ++ m) = join $":" l ++ $":" ++ join $":" m.
Proof.
  intros NL NM. induction l as [|x l IH]; [congruence|]. destruct l as [|y l].
  - destruct m; [congruence|]. reflexivity.
  - change (join $":" ((x :: y :: l) ++ m)) with (x ++ $":" ++ join $":" ((y :: l) ++ m)).
    change (join $":" (x :: y :: l)) with (x ++ $":" ++ join $":" (y :: l)).
    rewrite IH by discriminate. now rewrite <- !app_assoc.
Qed.
Theorem added_then_removed which e name v op : valid_name name -> no_null v -> clean_env e -> clean_which which ->
  ~ In 36%N v -> ~ In 58%N v -> op = $"append" \/ op = $"prepend" ->
  (forall old l, dget name e = Some old -> entries l old -> ~ In v l) ->
  exists e1 e2, envvar_op which op name v true e = (Ok 0%Z, e1) /\
    envvar_op which $"remove_path_entry" name v true e1 = (Ok 0%Z, e2) /\ same_but name e e2 /\
    dget name e2 = Some (match dget name e with Some old => old | None => [] end).
Proof.
  intros VN NV CE CW D C O A.
  destruct (op_total which e name v op) as (n1 & e1 & E1 & F1 & G1 & S1); auto;
    [destruct O as [-> | ->]; cbn; auto 10|destruct O as [-> | ->]; discriminate|].
  assert (CE1 : clean_env e1) by (eapply op_clean; eauto).
  destruct (op_total which e1 name v $"remove_path_entry") as (n2 & e2 & E2 & F2 & G2 & S2); auto;
    [cbn; auto 10|discriminate|].
  exists e1, e2. split; [exact E1|]. split; [exact E2|]. split.
  { intros n N. rewrite S2, S1; auto. }
  rewrite G2. apply (effect_det which e1 name v $"remove_path_entry"); [exact F2|]. clear F2 G2 S2 E2 e2 n2.
  pose proof (expands_id e v D) as Xe. pose proof (expands_id e1 v D) as Xe1.
  assert (Wv : forall w, expands e v w -> w = v) by (intros w W; exact (expands_det _ _ _ _ W Xe)).
  destruct (dget name e) as [old|] eqn:DN.
  - assert (ES := entries_split old). set (l := split_on 58%N old) in *.
    pose proof (A old l eq_refl ES) as NI. destruct ES as (NE & FA & EQ).
    destruct O as [-> | ->]; inversion F1; subst n1; try congruence.
    + rewrite (Wv _ H) in *. replace old0 with old in * by congruence. rewrite EQ at 1.
      apply (ef_entry which e1 name v v (l ++ [v]) l (old ++ $":" ++ v)); auto.
      * split; [intros X; apply app_eq_nil in X as [X _]; auto|]. split; [apply Forall_app; auto|].
        rewrite join_app by (auto; discriminate). now rewrite <- EQ.
      * rewrite <- (app_nil_r l) at 2. apply without_app; [now apply without_none|]. apply wo_drop, wo_nil.
    + rewrite (Wv _ H) in *. replace old0 with old in * by congruence. rewrite EQ at 1.
      apply (ef_entry which e1 name v v (v :: l) l (v ++ $":" ++ old)); auto.
      * split; [discriminate|]. split; [constructor; auto|].
        change (v :: l) with ([v] ++ l). rewrite join_app by (auto; discriminate). now rewrite <- EQ.
      * apply wo_drop. now apply without_none.
  - destruct O as [-> | ->]; inversion F1; subst n1; try congruence;
      rewrite (Wv _ H) in *;
      apply (ef_entry which e1 name v v [v] [] v); auto;
      try (split; [discriminate|]; split; [constructor; auto|reflexivity]);
      apply wo_drop, wo_nil.
Qed.

(** ** Statements for the properties *)
Theorem op_errors_change_nothing which op name value b e x e' :
  envvar_op which op name value b e = (Err x, e') -> e' = e.
Proof.
  unfold envvar_op. destruct (_ && _); [intros E; now inversion E|]. unfold bind at 1. cbn [get].
  set (v := if char_mem 36%N value then expandvars e value else value). clearbody v.
  repeat match goal with |- context [str_eqb op ?x] => destruct (str_eqb op x) end; eauto using set_refused_err.
  - unfold envvar_set_if_empty. destruct (_ && _); [intros E; now inversion E|]. unfold bind, get, ret, env_assign.
    change (@dget (list pychar)) with (@dget str). destruct (dget name e) as [[|c o]|];
      try (destruct (_ || _ || _); [intros E; now inversion E|]; destruct name; [intros E; now inversion E|]);
      intros E; now inversion E.
  - unfold bind, ret, modify. destruct (dget name e); intros E; now inversion E.
  - destruct (dget name e); [eauto using set_refused_err|]. intros E. now inversion E.
  - destruct (dget name e); [eauto using set_refused_err|]. intros E. now inversion E.
  - destruct (dget name e) as [[|c o]|]; intros E; now inversion E.
  - intros E. now inversion E.
Qed.
Theorem op_effect which e name value op : valid_name name -> no_null value -> clean_env e -> clean_which which ->
  match envvar_op which op name value true e with
  | (Ok z, e') => z = 0%Z /\ effect which e name value op (dget name e') /\ same_but name e e' /\ clean_env e'
  | (Err x, e') => x = ValueError /\ e' = e /\
      ((op = $"assert_not_empty" /\ (dget name e = None \/ dget name e = Some [])) \/ ~ In op documented_ops)
  end.
Proof.
  intros VN NV CE CW. pose proof (envvar_op_spec which e name value VN NV CE CW op) as S.
  destruct (envvar_op which op name value true e) as [[z|x] e'] eqn:E; [|exact S].
  destruct S as (-> & new & EF & D & F). subst new. repeat split; auto. eapply op_clean; eauto.
Qed.
Theorem one_expansion e s : exists! t, expands e s t.
Proof.
  destruct (expands_total e s) as [t T]. exists t. split; auto. intros t' T'. eapply expands_det; eauto.
Qed.
Theorem stored_expanded which e name value t : valid_name name -> no_null value -> clean_env e -> clean_which which ->
  expands e value t ->
  exists e', envvar_op which $"set" name value true e = (Ok 0%Z, e') /\ dget name e' = Some t.
Proof.
  intros VN NV CE CW X. destruct (op_total which e name value $"set") as (n & e' & E & F & G & S); auto;
    [cbn; auto|discriminate|].
  exists e'. split; auto. rewrite G. apply (effect_det which e name value $"set"); auto. now constructor.
Qed.
Theorem reference_once e n v : dget n e = Some v ->
  ((n <> [] /\ Forall word_char n) -> expands e ($"$" ++ n) v) /\
  (~ In 125%N n -> expands e ($"${" ++ n ++ $"}") v).
Proof.
  intros D. split.
  - intros [N W]. change ($"$" ++ n) with (36%N :: n). rewrite <- (app_nil_r n), <- (app_nil_r v).
    now apply ex_name; auto; constructor.
  - intros N. change ($"${" ++ n ++ $"}") with (36%N :: 123%N :: n ++ 125%N :: []). rewrite <- (app_nil_r v).
    apply ex_brace; auto. constructor.
Qed.
Theorem empty_refused which op name e : envvar_op which op name [] false e = (Err ValueError, e).
Proof. reflexivity. Qed.
