(** * Known operations. *)
From Coq Require Import String NArith ZArith Arith List Bool Lia Permutation.
Import ListNotations.
From Verif Require Import PyBase PyFacts Shlex IniView IniRead ExcControl Cpe SpecText SpecFile SpecShell ShellProofs FileProofs SpecWalk MeaningProofs SpecRun SpecParse SpecOps
  Refine RefineRoot RefineOk RunProofs Trace WalkProofs ParseProofs ParseProofs2.

Lemma undash_dashed w : undash (dashed w) = undash w.
Proof. unfold undash, dashed. rewrite map_map. apply map_ext. intros c. destruct (N.eqb_spec c 95) as [->|]; reflexivity. Qed.
Lemma undash_fix x : ~ In 45%N x -> undash x = x.
Proof.
  induction x as [|c x IH]; intros N; cbn; auto. f_equal; [|apply IH; intros X; apply N; now right].
  destruct (N.eqb_spec c 45) as [->|]; auto. exfalso. apply N. now left.
Qed.
Lemma dashed_undash w : dashed (undash w) = dashed w.
Proof.
  unfold undash, dashed. rewrite map_map. apply map_ext. intros c.
  destruct (N.eqb_spec c 45) as [->|]; reflexivity.
Qed.
Lemma replace_dashed x : replace_char 95%N 45%N x = dashed x.
Proof. reflexivity. Qed.

Lemma insert_In x y l : In x (insert_str y l) <-> x = y \/ In x l.
Proof.
  induction l as [|z l IH]; cbn [insert_str In]; [intuition|]. destruct (str_leb y z); cbn [In]; [intuition|].
  rewrite IH. intuition.
Qed.
Lemma sort_In x l : In x (sort_str l) <-> In x l.
Proof. induction l as [|y l IH]; cbn [sort_str fold_right In]; [tauto|]. rewrite insert_In. unfold sort_str in IH. rewrite IH. intuition. Qed.

Section O.
Context {Sh Us : Type} (K : pyclass Sh Us).

Lemma find_attr_In n : find_attr K n <> None -> In n (dkeys (k_over K) ++ dkeys (@base_attrs Sh Us)).
Proof.
  unfold find_attr. intros H. apply in_or_app. destruct (dget n (k_over K)) as [a|] eqn:E.
  - left. apply dget_Some_In in E. unfold dkeys. now apply (in_map fst) in E.
  - right. destruct (dget n base_attrs) as [a|] eqn:E'; [|congruence]. apply dget_Some_In in E'. now apply (in_map fst) in E'.
Qed.

Lemma is_method_iff n : is_method (find_attr K n) = true <-> bound_method K n.
Proof.
  unfold bound_method. destruct (find_attr K n) as [[|[| |] f| |]|]; cbn; split; intros H; try discriminate; auto;
    try (destruct H as [H|(g & [H|H])]; discriminate); right; eauto.
Qed.

Lemma method_names_In n : In n (method_names K) <-> bound_method K n.
Proof.
  unfold method_names. rewrite filter_In, sort_In, nodup_In, is_method_iff. split; [tauto|]. intros B. split; auto.
  apply find_attr_In. destruct B as [->|(f & [-> | ->])]; discriminate.
Qed.

Lemma starts_with_spec p s : starts_with p s = true <-> exists x, s = p ++ x.
Proof.
  revert s. induction p as [|c p IH]; intros s; cbn.
  - split; eauto.
  - destruct s as [|d s]; [split; [discriminate|intros [x X]; discriminate]|].
    destruct (N.eqb_spec c d) as [->|NE]; cbn.
    + rewrite IH. split; intros [x X]; exists x; [now rewrite X|now injection X].
    + split; [discriminate|]. intros [x X]. congruence.
Qed.

Lemma strip_prefix_spec n op : strip_handler_prefix n = Some op <-> n = private_name op \/ n = public_name op.
Proof.
  unfold strip_handler_prefix. destruct (starts_with $"_handler_" n) eqn:A.
  - apply starts_with_spec in A as [x ->]. change (skipn 9 ($"_handler_" ++ x)) with x. split.
    + intros E. inversion E; subst. now left.
    + intros [E|E]; [|discriminate]. unfold private_name in E. apply app_inv_head in E. now rewrite E.
  - destruct (starts_with $"handler_" n) eqn:B.
    + apply starts_with_spec in B as [x ->]. change (skipn 8 ($"handler_" ++ x)) with x. split.
      * intros E. inversion E; subst. now right.
      * intros [E|E]; [discriminate|]. unfold public_name in E. apply app_inv_head in E. now rewrite E.
    + split; [discriminate|]. intros [-> | ->].
      * assert (X : starts_with $"_handler_" (private_name op) = true) by (apply starts_with_spec; now exists op). congruence.
      * assert (X : starts_with $"handler_" (public_name op) = true) by (apply starts_with_spec; now exists op). congruence.
Qed.

Lemma known_In d : In d (known_operations K) <->
  exists op, d = dashed op /\ op <> $"initialize" /\ op <> $"finalize" /\
    (bound_method K (public_name op) \/ bound_method K (private_name op)).
Proof.
  unfold known_operations. rewrite in_flat_map. split.
  - intros (n & IN & H). apply method_names_In in IN. destruct (strip_handler_prefix n) as [op|] eqn:E; [|destruct H].
    apply strip_prefix_spec in E. destruct (str_eqb_spec op $"finalize") as [|N1]; [destruct H|].
    destruct (str_eqb_spec op $"initialize") as [|N2]; [destruct H|]. destruct H as [<-|[]]. exists op.
    split; [reflexivity|]. split; auto. split; auto. destruct E as [-> | ->]; auto.
  - intros (op & -> & N1 & N2 & B).
    assert (X : exists n, bound_method K n /\ (n = private_name op \/ n = public_name op)) by (destruct B; eauto).
    destruct X as (n & BM & E). exists n. split; [now apply method_names_In|].
    rewrite (proj2 (strip_prefix_spec n op) E).
    destruct (str_eqb_spec op $"finalize"); [contradiction|]. destruct (str_eqb_spec op $"initialize"); [contradiction|].
    now left.
Qed.

Lemma no_dash_name p op : ~ In 45%N (p ++ op) -> ~ In 45%N op.
Proof. intros H X. apply H. apply in_or_app. now right. Qed.
Lemma method_found n : bound_method K n -> find_attr K n <> None.
Proof. intros [->|(f & [-> | ->])]; discriminate. Qed.

Theorem known_iff (ID : identifiers K) w : In (dashed w) (known_operations K) <->
  undash w <> $"initialize" /\ undash w <> $"finalize" /\
  (bound_method K (public_name (undash w)) \/ bound_method K (private_name (undash w))).
Proof.
  rewrite known_In. split.
  - intros (op & E & N1 & N2 & B).
    assert (X : ~ In 45%N op).
    { destruct B as [B|B]; apply method_found, ID in B; exact (no_dash_name _ _ B). }
    apply undash_fix in X. rewrite <- undash_dashed in X. rewrite <- E, undash_dashed in X. rewrite X. auto.
  - intros (N1 & N2 & B). exists (undash w). rewrite dashed_undash. auto.
Qed.

(** Everything listed is a spelling of such an operation. *)
Theorem known_sound d : In d (known_operations K) -> dashed d = d /\ has_handler K (undash d) \/ ~ identifiers K.
Proof.
  intros H. apply known_In in H as (op & -> & _ & _ & B).
  destruct (in_dec N.eq_dec 45%N op) as [I|I].
  - right. intros ID. destruct B as [B|B]; apply method_found, ID in B; apply (no_dash_name _ _ B); auto.
  - left. split.
    + unfold dashed. rewrite map_map. apply map_ext. intros c. destruct (N.eqb_spec c 95) as [->|NE]; [reflexivity|].
      destruct (N.eqb_spec c 95); congruence.
    + rewrite undash_dashed, undash_fix by auto. unfold has_handler, has_attr.
      destruct B as [[->|(f & [-> | ->])]|[->|(f & [-> | ->])]]; (left; discriminate) || (right; discriminate).
Qed.

Lemma has_attr_method n : bound_method K n -> has_attr K n <> None.
Proof. unfold has_attr. intros [->|(f & [-> | ->])]; discriminate. Qed.

Theorem known_handled (ID : identifiers K) (OM : only_methods K) w :
  undash w <> $"initialize" -> undash w <> $"finalize" ->
  (In (dashed w) (known_operations K) <-> has_handler K (undash w)).
Proof.
  intros N1 N2. rewrite known_iff by auto. unfold has_handler. split.
  - intros (_ & _ & [B|B]); apply has_attr_method in B; auto.
  - intros H. split; auto. split; auto. destruct H as [H|H]; [left|right]; eapply OM; eauto.
Qed.

Lemma dashed_plain x op : ~ In 45%N x -> x = dashed op -> op = x.
Proof.
  intros A ->. induction op as [|c op IH]; auto. cbn in A |- *. destruct (N.eqb_spec c 95) as [->|].
  - exfalso. apply A. now left.
  - f_equal. apply IH. intros X. apply A. now right.
Qed.
Theorem hooks_not_known : ~ In $"initialize" (known_operations K) /\ ~ In $"finalize" (known_operations K).
Proof.
  split; intros H; apply known_In in H as (op & E & N1 & N2 & _); apply dashed_plain in E; auto;
    vm_compute; intuition discriminate.
Qed.

(** ** Stored or not *)
Variable fs : str -> option str.
Variable i : ini.

Lemma handler_none op : handler_of K op None <-> ~ has_handler K op.
Proof.
  unfold has_handler. split.
  - intros H. inversion H. intuition.
  - intros H. destruct (has_attr K (public_name op)) eqn:A; [exfalso; apply H; left; discriminate|].
    destruct (has_attr K (private_name op)) eqn:B; [exfalso; apply H; right; discriminate|]. now constructor.
Qed.

Theorem known_not_stored (ID : identifiers K) (OM : only_methods K) fuel s init fin (o : obj Sh Us) v o' t items k0 v0 key w ps :
  has_file fs o i -> level_ok o -> options_of o s = [] ->
  parse_section_str K fs fuel s init fin o = (Ok v, o') ->
  contributes K i (o_defname o) s init t -> section_shows i t items -> In (k0, Ok v0) items ->
  trimmed space k0 key -> words key (w :: ps) -> op_shaped (k_uniword K) w ->
  undash w <> $"initialize" -> undash w <> $"finalize" ->
  (In (dashed w) (known_operations K) <-> ~ In key (dkeys (options_of o' s))).
Proof.
  intros H L F E C HI IN T S W N1 N2. apply trimmed_iff in T. subst key. apply shlex_words in S. apply op_word_iff in W. rewrite known_handled by auto.
  rewrite (closure_contributes K fs i _ _ _ _ _ _ _ H L F E). split.
  - intros HH (t' & _ & items' & [k1 r1] & x & v1 & _ & _ & M).
    apply meaning_iff in M. inversion M as [| | |? ? w' ps' S' W' E1 E2|? ? w' ps' S' W' HO E1 E2| | | |]; subst.
    + match goal with X : strip_ws k1 = strip_ws k0 |- _ => rewrite X in S' end. rewrite S' in S. injection S as -> ->. congruence.
    + match goal with X : strip_ws k1 = strip_ws k0 |- _ => rewrite X in S' end. rewrite S' in S. injection S as -> ->. now apply handler_none in HO.
  - intros NP. destruct (has_attr K (public_name (undash w))) eqn:A1; [left; congruence|].
    destruct (has_attr K (private_name (undash w))) eqn:A2; [right; congruence|]. exfalso. apply NP.
    exists t. split; auto. exists items, (k0, Ok v0), (Some (undash w, ps)), (clean_value v0). split; auto. split; auto.
    apply meaning_iff, c_plain with (w := w); auto. now constructor.
Qed.
End O.

(** ** Operation words *)
Section W.
Context {Sh Us : Type} (K : pyclass Sh Us).
Lemma op_tail_spec s : op_tail K s = true <-> exists x e, s = x ++ e /\ Forall (fun c => op_char K c = true) x /\ (e = [] \/ e = [10%N]).
Proof.
  induction s as [|c s IH]; cbn [op_tail].
  - split; auto. intros _. exists [], []. auto.
  - split.
    + intros H. apply orb_true_iff in H as [H|H]; apply andb_true_iff in H as [H1 H2].
      * apply IH in H2 as (x & e & -> & F & E). exists (c :: x), e. auto.
      * apply N.eqb_eq in H1. subst c. destruct s; [|discriminate]. exists [], [10%N]. auto.
    + intros (x & e & E & F & EE). destruct x as [|c' x].
      * destruct EE as [-> | ->]; [discriminate|]. cbn in E. inversion E; subst. reflexivity.
      * cbn in E. inversion E; subst. inversion F; subst. apply orb_true_iff. left. apply andb_true_iff. split; auto.
        apply IH. eauto.
Qed.
Theorem op_word_spec s : op_word K s = true <->
  exists x e, s = x ++ e /\ x <> [] /\ Forall (fun c => op_char K c = true) x /\ (e = [] \/ e = [10%N]).
Proof.
  destruct s as [|c s]; cbn [op_word].
  - split; [discriminate|]. intros (x & e & E & NE & _). destruct x; [congruence|discriminate].
  - rewrite andb_true_iff, op_tail_spec. split.
    + intros (H & x & e & -> & F & E). exists (c :: x), e. split; auto. split; [discriminate|auto].
    + intros (x & e & E & NE & F & EE). destruct x as [|c' x]; [congruence|]. cbn in E. inversion E; subst.
      inversion F; subst. split; auto. eauto.
Qed.
Theorem op_char_spec c : op_char K c = true <->
  (97 <= c <= 122 \/ 65 <= c <= 90 \/ 48 <= c <= 57 \/ c = 95 \/ c = 45)%N \/ (128 <= c)%N /\ k_uniword K c = true.
Proof.
  unfold op_char, word_char. rewrite !orb_true_iff, !andb_true_iff, !N.leb_le, !N.eqb_eq. intuition.
Qed.
End W.

Section G.
Context {Sh Us : Type} (K : pyclass Sh Us) (fs : str -> option str).
Theorem known_returned (o : obj Sh Us) r : fst (get_known_operations K fs o) = Ok r -> r = known_operations K.
Proof.
  unfold get_known_operations. rewrite bind_eq. destruct (get_cpd fs o) as [[?|] o1]; [|discriminate].
  rewrite bind_eq. destruct (get_edata o1) as [[?|] o2]; [|discriminate].
  rewrite bind_eq. destruct (get_files o2) as [[?|] o3]; [|discriminate]. cbn. congruence.
Qed.
Theorem known_available (o : obj Sh Us) i fl : has_file fs o i -> o_files o = Some fl -> fl <> [] ->
  fst (get_known_operations K fs o) = Ok (known_operations K).
Proof.
  intros H F NE. unfold get_known_operations. rewrite bind_eq. unfold has_file in H.
  assert (G : o_files (snd (get_cpd fs o)) = Some fl).
  { unfold get_cpd. destruct (o_cpd o); auto. cbn [set_cpd o_files]. rewrite F. destruct fl; [congruence|].
    destruct (forallb _ _); auto. destruct (read_files _ _ _) as [[?|e] ?]; auto. destruct e; auto. }
  destruct (get_cpd fs o) as [[?|] o1]; [|discriminate]. cbn [snd] in G.
  rewrite bind_eq. unfold get_edata. destruct (o_edata o1); rewrite bind_eq; unfold get_files; cbn; rewrite G;
    destruct fl; congruence || reflexivity.
Qed.
End G.
