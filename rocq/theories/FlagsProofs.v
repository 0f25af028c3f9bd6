(** * Selected options. *)
From Coq Require Import String NArith List Bool Arith Lia Sorted Permutation.
Import ListNotations.
From Verif Require Import PyBase PyFacts EnvVar EnvProofs Regex Keyword SpecKeyword KeywordText RegexProofs KeywordProofs SpecFlags.
Local Open Scope sm_scope.

(** ** Sorting *)
Lemma str_leb_spec a : forall b, str_leb a b = true <-> a = b \/ before a b.
Proof.
  induction a as [|x a IH]; intros b; cbn.
  - split; auto. intros _. destruct b; [now left|right; constructor].
  - destruct b as [|y b]; [split; [discriminate|intros [?|H]; [discriminate|inversion H]]|].
    destruct (N.eqb_spec x y).
    + subst. rewrite IH. split.
      * intros [->|H]; [now left|right; now constructor].
      * intros [[= ->]|H]; [now left|]. inversion H; subst; [lia|auto].
    + rewrite N.ltb_lt. split; [right; now constructor|].
      intros [[= ? ?]|H]; [tauto|]. inversion H; subst; tauto.
Qed.
Lemma before_total a : forall b, a = b \/ before a b \/ before b a.
Proof.
  induction a as [|x a IH]; intros [|y b]; auto; [right; left; constructor|right; right; constructor|].
  destruct (N.lt_trichotomy x y) as [H|[->|H]].
  - right. left. now constructor.
  - destruct (IH b) as [->|[H|H]]; auto; right; [left|right]; now constructor.
  - right. right. now constructor.
Qed.
Lemma before_trans a : forall b c, before a b -> before b c -> before a c.
Proof.
  induction a as [|x a IH]; intros b c H K; inversion H; subst; inversion K; subst; try constructor; eauto; lia.
Qed.
Lemma before_irrefl a : ~ before a a.
Proof. induction a as [|x a IH]; intros H; inversion H; subst; auto. lia. Qed.
Lemma insert_perm x l : Permutation (insert_str x l) (x :: l).
Proof.
  induction l as [|y l IH]; cbn; auto. destruct (str_leb x y); auto.
  rewrite IH. apply perm_swap.
Qed.
Lemma sorted_perm l : Permutation (sorted l) l.
Proof. induction l as [|x l IH]; cbn; auto. rewrite insert_perm. now constructor. Qed.
Lemma insert_sorted x l : ~ In x l -> StronglySorted before l -> StronglySorted before (insert_str x l).
Proof.
  induction l as [|y l IH]; intros N S; cbn.
  - repeat constructor.
  - inversion S as [|? ? S1 F]; subst. destruct (str_leb x y) eqn:E.
    + apply str_leb_spec in E as [->|E]; [exfalso; apply N; now left|].
      constructor; auto. constructor; auto. eapply Forall_impl; [|exact F]. intros; eapply before_trans; eauto.
    + assert (B : before y x).
      { destruct (before_total x y) as [->|[H|H]]; auto; exfalso.
        - apply N. now left.
        - rewrite (proj2 (str_leb_spec x y)) in E by auto. discriminate. }
      constructor; [apply IH; auto; intros I; apply N; now right|].
      apply Forall_forall. intros z I. apply (Permutation_in _ (insert_perm x l)) in I.
      destruct I as [<-|I]; auto. rewrite Forall_forall in F. auto.
Qed.
Lemma sorted_sorted l : NoDup l -> StronglySorted before (sorted l).
Proof.
  induction l as [|x l IH]; intros N; cbn; [constructor|]. inversion N; subst.
  apply insert_sorted; auto. intros I. apply (Permutation_in _ (sorted_perm l)) in I. tauto.
Qed.
(** A strictly sorted list is determined by its elements. *)
Lemma sorted_unique l : forall l', StronglySorted before l -> StronglySorted before l' ->
  (forall x, In x l <-> In x l') -> l = l'.
Proof.
  induction l as [|x l IH]; intros [|y l'] S S' E; auto.
  - destruct (proj2 (E y)); now left.
  - destruct (proj1 (E x)); now left.
  - inversion S as [|? ? S1 F]; subst. inversion S' as [|? ? S1' F']; subst.
    rewrite Forall_forall in F, F'.
    assert (x = y).
    { destruct (proj1 (E x) (or_introl eq_refl)) as [?|I]; auto.
      destruct (proj2 (E y) (or_introl eq_refl)) as [?|I']; auto.
      exfalso. apply (before_irrefl x). eapply before_trans; eauto. }
    subst. f_equal. apply IH; auto. intros z. split; intros I.
    + destruct (proj1 (E z) (or_intror I)) as [<-|]; auto. exfalso. apply (before_irrefl y). auto.
    + destruct (proj2 (E z) (or_intror I)) as [<-|]; auto. exfalso. apply (before_irrefl y). auto.
Qed.

(** What is selected is determined. *)
Lemma sel_at_most_one {A} (P : A -> Prop) l : (exists x y : A, x <> y /\ In x l /\ In y l) ->
  (forall x, In x l -> P x) -> forall o, ~ (forall x, P x -> x = o).
Proof. intros (x & y & N & I & J) H o U. apply N. rewrite (U x), (U y); auto. Qed.
Lemma selects_fun b1 b2 mo s1 s2 :
  (forall o, In o (snd mo) -> (named b1 o <-> named b2 o)) ->
  selects b1 mo s1 -> selects b2 mo s2 -> s1 = s2.
Proof.
  intros E H K. destruct H as [many o opts F|many opts o I J U|opts l M D S].
  - inversion K as [? o' ? F'|? ? o' I' J' U'|? l' M' D' S']; subst; auto; cbn in E.
    + exfalso. apply (F o'); auto. apply E; auto.
    + destruct M' as (x & y & N & A & B). apply D' in A as (A & C). exfalso. apply (F x); auto. apply E; auto.
  - inversion K as [? o' ? F'|? ? o' I' J' U'|? l' M' D' S']; subst; auto; cbn in E.
    + exfalso. apply (F' o); auto. apply E; auto.
    + f_equal. apply U'; auto. apply E; auto.
    + exfalso. destruct M' as (x & y & N & A & B). apply D' in A as (A & A'). apply D' in B as (B & B').
      apply N. rewrite (U x), (U y); auto; apply E; auto.
  - inversion K as [? o' ? F'|? ? o' I' J' U'|? l' M' D' S']; subst; auto; cbn in E.
    + destruct M as (x & y & N & A & B). apply D in A as (A & C). exfalso. apply (F' x); auto. apply E; auto.
    + exfalso. destruct M as (x & y & N & A & B). apply D in A as (A & A'). apply D in B as (B & B').
      apply N. rewrite (U' x), (U' y); auto; apply E; auto.
    + f_equal. apply sorted_unique; auto. intros x. rewrite D, D'. split; intros (A & B); split; auto; apply E; auto.
Qed.

Lemma NoDup_app_inv {A} (l l' : list A) : NoDup (l ++ l') -> NoDup l /\ NoDup l' /\ forall x, In x l -> ~ In x l'.
Proof.
  induction l as [|x l IH]; cbn; intros N; [repeat split; auto; constructor|].
  inversion N as [|? ? N1 N2]; subst. destruct (IH N2) as (A1 & A2 & A3). rewrite in_app_iff in N1.
  repeat split; auto; [constructor; tauto|]. intros y [<-|I]; auto.
Qed.

Section Flags.
Variable conf : str -> res (dict (option str)).
Variable T : list row.
Hypothesis HD : describes conf T.

Lemma flag_options_row f many opts : In (f, (many, opts)) T ->
  flag_options conf f = Ok (opts, if many then select_many else select_one).
Proof.
  intros I. unfold flag_options, flags_section. rewrite (proj2 HD _ _ _ I). cbn [rbind].
  destruct many; reflexivity.
Qed.
Lemma chosen_cases build opts : let ch := filter (fun o => str_mem o (words build)) opts in
  (forall x, In x ch <-> In x opts /\ named build x).
Proof. cbn. intros x. rewrite filter_In, str_mem_In, named_iff. reflexivity. Qed.

Lemma select_spec build f many opts : In (f, (many, opts)) T -> opts <> [] -> NoDup opts ->
  (exists s, select conf (words build) f = Ok s /\ selects build (many, opts) s /\
     ~ (many = false /\ exists x y, x <> y /\ In x opts /\ In y opts /\ named build x /\ named build y)) \/
  (select conf (words build) f = Err ValueError /\ many = false /\
     exists x y, x <> y /\ In x opts /\ In y opts /\ named build x /\ named build y).
Proof.
  intros I NE ND. unfold select. rewrite (flag_options_row _ _ _ I). cbn [rbind].
  pose proof (chosen_cases build opts) as C. cbn zeta in C.
  assert (NC : NoDup (filter (fun o => str_mem o (words build)) opts)) by now apply NoDup_filter.
  destruct (filter (fun o => str_mem o (words build)) opts) as [|x [|y ch]] eqn:E.
  - left. rewrite !andb_false_r. destruct opts as [|o opts]; [tauto|]. exists (One o). split; auto. split.
    + constructor. intros z Iz Nz. apply (C z). auto.
    + intros (_ & x & y & _ & Ix & _ & Nx & _). apply (C x). auto.
  - left. rewrite !andb_false_r. exists (One x).
    assert (U : forall z, In z opts -> named build z -> z = x).
    { intros z Iz Nz. destruct (proj2 (C z)) as [?|[]]; auto. }
    destruct (proj1 (C x)) as (A & B); [now left|].
    split; auto. split; [now constructor|].
    intros (_ & a & b & N & Ia & Ib & Na & Nb). apply N. rewrite (U a), (U b); auto.
  - cbn [length]. change (Nat.ltb 1 (S (S (length ch)))) with true. rewrite !andb_true_r.
    assert (NXY : x <> y).
    { intros ->. inversion NC as [|? ? Q _]. apply Q. now left. }
    destruct (proj1 (C x)) as (A & B); [now left|].
    destruct (proj1 (C y)) as (A' & B'); [right; now left|].
    destruct many.
    + left. change (str_eqb select_many $"SELECT_ONE") with false. change (str_eqb select_many $"SELECT_MANY") with true.
      eexists. split; [reflexivity|]. split; [|intros (? & _); discriminate].
      assert (P : forall z, In z (sorted (x :: y :: ch)) <-> In z (x :: y :: ch)).
      { intros z. split; apply Permutation_in; [|symmetry]; apply sorted_perm. }
      constructor.
      * exists x, y. rewrite !P. cbn. auto.
      * intros z. rewrite P. apply C.
      * now apply sorted_sorted.
    + right. change (str_eqb select_one $"SELECT_ONE") with true. repeat split; auto.
      exists x, y. auto.
Qed.

Lemma dset_new {A} k (v : A) d : ~ In k (dkeys d) -> dset k v d = d ++ [(k, v)].
Proof.
  induction d as [|[k' v'] d IH]; cbn; intros N; auto.
  destruct (str_eqb_spec k k'); [subst; tauto|]. rewrite IH; auto.
Qed.
Hypothesis HV : valid_table T.
Lemma NoDup_row r : In r T -> NoDup (options_of r).
Proof.
  destruct HV as (_ & _ & N). clear HD HV. induction T as [|r' T' IH]; [intros []|]. cbn in N.
  apply NoDup_app_inv in N. destruct N as (N1 & N2 & _). intros [<-|I]; auto.
Qed.

Lemma select_all_spec build (T' : list row) acc :
  incl T' T -> NoDup (dkeys acc ++ map fst T') ->
  (exists d, select_all conf (words build) (map fst T') acc = Ok (acc ++ d) /\
     selects_all build T' d /\ ~ conflict build T') \/
  (select_all conf (words build) (map fst T') acc = Err ValueError /\ conflict build T').
Proof.
  revert acc. induction T' as [|[f [many opts]] T' IH]; intros acc Inc N; cbn [map select_all fst].
  - left. exists []. rewrite app_nil_r. split; auto. split; [constructor|]. intros (f & o & x & y & [] & _).
  - assert (I : In (f, (many, opts)) T) by (apply Inc; now left).
    destruct (select_spec build f many opts I) as [(s & E & S & NC)|(E & -> & x & y & Q)].
    + apply (proj1 (proj2 HV)) in I. exact I.
    + apply NoDup_row in I. exact I.
    + rewrite E. cbn [rbind].
      assert (NF : ~ In f (dkeys acc)).
      { intros J. cbn in N. apply NoDup_remove_2 in N. apply N. apply in_or_app. auto. }
      rewrite (dset_new f s acc NF).
      destruct (IH (acc ++ [(f, s)])) as [(d & E' & S' & NC')|(E' & C')].
      * intros r J. apply Inc. now right.
      * unfold dkeys in *. rewrite map_app. cbn in *. rewrite <- app_assoc. exact N.
      * left. exists ((f, s) :: d). rewrite <- app_assoc in E'. split; [exact E'|]. split; [constructor; auto|].
        intros (f' & o' & x & y & [J|J] & K).
        -- inversion J; subst. apply NC. split; auto. exists x, y. tauto.
        -- apply NC'. exists f', o', x, y. auto.
      * right. split; auto. destruct C' as (f' & o' & x & y & J & K). exists f', o', x, y. split; auto. now right.
    + right. rewrite E. split; auto. exists f, opts, x, y. split; [now left|]. tauto.
Qed.
Lemma all_options_spec (T' : list row) : incl T' T -> all_options conf (map fst T') = Ok (flat_map options_of T').
Proof.
  induction T' as [|[f [many opts]] T' IH]; intros Inc; cbn [map fst all_options flat_map]; auto.
  rewrite (flag_options_row f many opts) by (apply Inc; now left). cbn [rbind].
  rewrite IH by (intros r J; apply Inc; now right). reflexivity.
Qed.
Lemma default_options_spec (T' : list row) : incl T' T ->
  default_options conf (map fst T') = Ok (map (fun r => hd [] (options_of r)) T').
Proof.
  induction T' as [|[f [many opts]] T' IH]; intros Inc; cbn [map fst default_options]; auto.
  rewrite (flag_options_row f many opts) by (apply Inc; now left). cbn [rbind fst].
  assert (NE : opts <> []) by (apply (proj1 (proj2 HV) (f, (many, opts))); apply Inc; now left).
  destruct opts as [|o opts]; [tauto|].
  rewrite IH by (intros r J; apply Inc; now right). reflexivity.
Qed.
End Flags.
