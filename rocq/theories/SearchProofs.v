(** * Searching for names. *)
From Coq Require Import String NArith List Bool Arith Lia.
Import ListNotations.
From Verif Require Import PyBase PyFacts EnvVar EnvProofs Regex Keyword DetSys EnvKeyword SpecKeyword KeywordText RegexProofs
  KeywordProofs SpecFlags SpecSystem.

Lemma search_from_spec total r s :
  search_from total r s = true <-> exists pre t, s = pre ++ t /\ match_at total false r t <> None.
Proof.
  induction s as [|c s IH]; cbn [search_from].
  - destruct (match_at total false r []) eqn:E.
    + split; auto. intros _. exists [], []. rewrite E. split; [auto|discriminate].
    + split; [discriminate|]. intros (pre & t & H & N). destruct pre; [|discriminate]. cbn in H. subst. tauto.
  - destruct (match_at total false r (c :: s)) eqn:E.
    + split; auto. intros _. exists [], (c :: s). rewrite E. split; [auto|discriminate].
    + rewrite IH. split.
      * intros (pre & t & -> & N). exists (c :: pre), t. auto.
      * intros (pre & t & H & N). destruct pre as [|x pre]; cbn in H.
        -- subst. tauto.
        -- injection H as <- ->. eauto.
Qed.

(** The text of a simple expression. *)
Lemma mt_atom {X} total a s c (k : str -> option str -> option X) :
  mt total (atom a) s c k
  = match s with
    | x :: s' => if (if N.eqb a 46 then negb (N.eqb x 10) else N.eqb a x) then k s' c else None
    | [] => None
    end.
Proof. unfold atom, is_char. destruct (N.eqb a 46); reflexivity. Qed.
Lemma fits_spec a x : (if N.eqb a 46 then negb (N.eqb x 10) else N.eqb a x) = true <-> fits a x.
Proof.
  unfold fits. destruct (N.eqb_spec a 46).
  - rewrite negb_true_iff, N.eqb_neq. tauto.
  - rewrite N.eqb_eq. intuition.
Qed.
Lemma ordinary_spec c : ordinary c = true <-> ordinary_char c.
Proof.
  unfold ordinary, ordinary_char. rewrite orb_true_iff, negb_true_iff, <- not_true_iff_false, char_mem_In, N.eqb_eq.
  change special with (46%N :: $"^$*+?{}[]\|()"). split.
  - intros [->|H]; [|intros I; apply H; now right].
    intros I. apply char_mem_In in I. discriminate.
  - intros H. destruct (N.eq_dec c 46); [now left|]. right. intros [I|I]; [congruence|tauto].
Qed.
Lemma ordinary_not_star c : ordinary_char c -> c <> 42%N.
Proof. intros H ->. apply H. now apply char_mem_In. Qed.
(** Two steps at a time. *)
Lemma str_ind2 (P : str -> Prop) :
  P [] -> (forall c, P [c]) -> (forall c d s, P s -> P (d :: s) -> P (c :: d :: s)) -> forall s, P s.
Proof.
  intros H0 H1 H2 s. assert (H : P s /\ forall c, P (c :: s)); [|apply H].
  induction s as [|d s (I1 & I2)]; auto.
Qed.
Lemma simple_plain s : simple s = true <-> plain s.
Proof.
  split.
  - induction s as [|c|c d s I1 I2] using str_ind2; intros H.
    + constructor.
    + cbn in H. rewrite andb_true_r in H. apply ordinary_spec in H. repeat constructor; auto.
    + change (simple (c :: d :: s)) with (ordinary c && (if N.eqb d 42 then simple s else simple (d :: s))) in H.
      apply andb_prop in H as (O & H). apply ordinary_spec in O. destruct (N.eqb_spec d 42).
      * subst. apply plain_star; auto.
      * apply plain_one; auto.
  - induction 1 as [|c key O P IH|c key O P IH]; auto.
    + apply ordinary_spec in O. destruct P as [|d key D|d key D]; cbn [simple] in *; rewrite O; auto;
        apply ordinary_not_star, N.eqb_neq in D; rewrite D; exact IH.
    + apply ordinary_spec in O. cbn [simple]. rewrite O. exact IH.
Qed.

Lemma star_set {X} total p s c (k : str -> option str -> option X) :
  mt total (RStar true (RSet p)) s c k <> None <->
  exists v s', s = v ++ s' /\ forallb p v = true /\ k s' c <> None.
Proof.
  rewrite mt_star. assert (L : length s < S (length s)) by lia. revert L. generalize (S (length s)) as n. intros n. revert s.
  induction n as [|n IH]; intros s L; [lia|]. rewrite starloop_S. cbv zeta. cbn [mt].
  destruct s as [|x s].
  - split.
    + intros H. exists [], []. auto.
    + intros (v & s' & E & _ & H). symmetry in E. apply app_eq_nil in E as (-> & ->). exact H.
  - cbn [length] in *. rewrite (proj2 (Nat.ltb_lt _ _)) by lia. destruct (p x) eqn:P.
    + specialize (IH s ltac:(lia)). destruct (starloop total true (RSet p) k n s c) as [y|].
      * split; [|discriminate]. intros _. destruct (proj1 IH) as (v & s' & -> & F & H); [discriminate|].
        exists (x :: v), s'. cbn. rewrite P. auto.
      * split.
        -- intros H. exists [], (x :: s). auto.
        -- intros (v & s' & E & F & H). destruct v as [|y v]; cbn in E; [now subst|]. injection E as <- ->.
           cbn in F. rewrite P in F. exfalso. apply (proj2 IH); auto. exists v, s'. auto.
    + split.
      * intros H. exists [], (x :: s). auto.
      * intros (v & s' & E & F & H). destruct v as [|y v]; cbn in E; [now subst|]. injection E as <- ->.
        cbn in F. rewrite P in F. discriminate.
Qed.
Definition fitsb (a x : pychar) : bool := if N.eqb a 46 then negb (N.eqb x 10) else N.eqb a x.
Lemma mt_atom_star {X} total a s c (k : str -> option str -> option X) :
  mt total (RStar true (atom a)) s c k <> None <->
  exists v s', s = v ++ s' /\ forallb (fitsb a) v = true /\ k s' c <> None.
Proof. unfold atom, is_char, fitsb. destruct (N.eqb a 46); apply star_set. Qed.
Lemma like_star a v w key : ordinary_char a -> forallb (fitsb a) v = true -> like key w -> like (a :: 42%N :: key) (v ++ w).
Proof.
  intros O. induction v as [|x v IH]; cbn; intros F L; [now apply like_stop|].
  apply andb_prop in F as (F & G). apply like_more; auto. now apply fits_spec.
Qed.
Lemma like_star_inv a key u : like (a :: 42%N :: key) u ->
  exists v w, u = v ++ w /\ forallb (fitsb a) v = true /\ like key w.
Proof.
  intros L. remember (a :: 42%N :: key) as kk eqn:E. revert a key E.
  induction L as [|c x kk v O F L IH|c kk v O L IH|c x kk v O F L IH]; intros a key E; try discriminate.
  - injection E as -> ->. inversion L; subst; exfalso; now apply (ordinary_not_star 42%N).
  - injection E as -> ->. exists [], v. auto.
  - injection E as -> ->. destruct (IH a key eq_refl) as (v1 & w & -> & G & H).
    exists (x :: v1), w. split; auto. split; auto. cbn. unfold fitsb at 1. rewrite (proj2 (fits_spec a x) F). auto.
Qed.
Lemma atoms_some {X} total w : plain w -> forall s c (k : str -> option str -> option X),
  mt total (atoms w) s c k <> None <-> exists v s', s = v ++ s' /\ like w v /\ k s' c <> None.
Proof.
  induction 1 as [|a key O P IH|a key O P IH]; intros s c k.
  - cbn. split.
    + intros H. exists [], s. repeat split; auto. constructor.
    + intros (v & s' & -> & L & H). inversion L; subst. exact H.
  - replace (atoms (a :: key)) with (RSeq (atom a) (atoms key)).
    2:{ destruct P as [|d key D|d key D]; auto; apply ordinary_not_star, N.eqb_neq in D; cbn [atoms]; rewrite D; auto. }
    change (mt total (RSeq ?a ?b) s c k) with (mt total a s c (fun s' c' => mt total b s' c' k)).
    rewrite mt_atom. split.
    + destruct s as [|y s]; [tauto|].
      destruct (if N.eqb a 46 then negb (N.eqb y 10) else N.eqb a y) eqn:E; [|tauto].
      intros H. apply IH in H as (v & s' & -> & L & H). exists (y :: v), s'. repeat split; auto.
      constructor; auto. now apply fits_spec.
    + intros (v & s' & -> & L & H).
      inversion L as [|? y ? v' A B C|c0 k0 v0 O0 L0|c0 x0 k0 v0 O0 F0 L0]; subst.
      * cbn [app]. rewrite (proj2 (fits_spec a y) B). apply IH. exists v', s'. auto.
      * exfalso. inversion P; subst; eapply (ordinary_not_star 42%N); eauto.
      * exfalso. inversion P; subst; eapply (ordinary_not_star 42%N); eauto.
  - change (atoms (a :: 42%N :: key)) with (RSeq (RStar true (atom a)) (atoms key)).
    change (mt total (RSeq ?a ?b) s c k) with (mt total a s c (fun s' c' => mt total b s' c' k)).
    rewrite mt_atom_star. split.
    + intros (v & s1 & -> & F & H). apply IH in H as (w & s' & -> & L & H).
      exists (v ++ w), s'. rewrite <- app_assoc. split; auto. split; auto. now apply like_star.
    + intros (u & s' & -> & L & H). apply like_star_inv in L as (v & w & -> & F & L).
      exists v, (w ++ s'). rewrite <- app_assoc. split; auto. split; auto. apply IH. exists w, s'. auto.
Qed.
Lemma search_part key host : plain key -> (search (atoms key) host = true <-> part_of key host).
Proof.
  intros P. unfold search. rewrite search_from_spec. unfold match_at. split.
  - intros (pre & t & -> & N). apply atoms_some in N as (v & s' & -> & L & _); auto. exists pre, v, s'. auto.
  - intros (pre & v & post & -> & L). exists pre, (v ++ post). split; auto.
    apply atoms_some; auto. exists v, post. repeat split; auto. discriminate.
Qed.

Lemma name_re_some {X} total name t (k : str -> option str -> option X) :
  plain name -> (forall s c, k s c <> None) ->
  (mt total (name_re name) t None k <> None <->
   exists u v s', ((u = t /\ length t = total) \/ t = 95%N :: u) /\ u = v ++ s' /\ like name v /\
     (s' = [] \/ s' = [10%N] \/ exists q, s' = 95%N :: q)).
Proof.
  intros PN KT.
  assert (E : forall s c, mt total (ROr REol (is_char 95%N)) s c k <> None <->
               (s = [] \/ s = [10%N] \/ exists q, s = 95%N :: q)).
  { intros s c. destruct s as [|x [|y s]].
    - cbn. destruct (k [] c) eqn:K; [|now apply KT in K]. split; [auto|discriminate].
    - unfold is_char. cbn [mt]. destruct (N.eqb_spec x 10).
      + subst. match goal with |- context [match k ?l c with _ => _ end] => destruct (k l c) eqn:K end;
          [|now apply KT in K]. split; [auto|discriminate].
      + destruct (N.eqb_spec 95 x).
        * subst. split; [|auto]. intros _. right. right. now exists [].
        * split; [tauto|]. intros [H|[H|(q & H)]]; congruence.
    - unfold is_char. cbn [mt]. destruct (N.eqb_spec 95 x).
      + subst. split; [|auto]. intros _. right. right. now exists (y :: s).
      + split; [tauto|]. intros [H|[H|(q & H)]]; congruence. }
  assert (A : forall u, mt total (RSeq (atoms name) (ROr REol (is_char 95%N))) u None k <> None <->
     exists v s', u = v ++ s' /\ like name v /\ (s' = [] \/ s' = [10%N] \/ exists q, s' = 95%N :: q)).
  { intros u. change (mt total (RSeq ?a ?b) u ?c k) with (mt total a u c (fun s' c' => mt total b s' c' k)).
    rewrite atoms_some by auto. split.
    - intros (v & s' & -> & L & M). exists v, s'. repeat split; auto. now apply (E s' None).
    - intros (v & s' & -> & L & S). exists v, s'. repeat split; auto. now apply (E s' None). }
  unfold name_re. change (mt total (RSeq ?a ?b) t ?c k) with (mt total a t c (fun s' c' => mt total b s' c' k)).
  set (kk := fun s' c' => mt total (RSeq (atoms name) (ROr REol (is_char 95%N))) s' c' k).
  change (mt total (ROr RBol (is_char 95%N)) t None kk <> None <-> 
   exists u v s', ((u = t /\ length t = total) \/ t = 95%N :: u) /\ u = v ++ s' /\ like name v /\
     (s' = [] \/ s' = [10%N] \/ exists q, s' = 95%N :: q)).
  assert (U : mt total (ROr RBol (is_char 95%N)) t None kk <> None <->
     exists u, ((u = t /\ length t = total) \/ t = 95%N :: u) /\ kk u None <> None).
  { unfold is_char. cbn [mt].
    assert (V : (if Nat.eqb (length t) total then kk t None else None) <> None <-> length t = total /\ kk t None <> None).
    { destruct (Nat.eqb_spec (length t) total); tauto. }
    assert (W : (match t with x :: s' => if N.eqb 95 x then kk s' None else None | [] => None end) <> None <->
       exists u, t = 95%N :: u /\ kk u None <> None).
    { destruct t as [|x t]; [split; [tauto|intros (u & ? & _); discriminate]|].
      destruct (N.eqb_spec 95 x).
      - subst. split; [eauto|]. intros (u & [= ->] & H). exact H.
      - split; [tauto|]. intros (u & H & _). congruence. }
    destruct (if Nat.eqb (length t) total then kk t None else None) as [x|] eqn:Q.
    - split; [|discriminate]. intros _. exists t. destruct (proj1 V) as (L & H); [discriminate|]. auto.
    - rewrite W. split.
      + intros (u & -> & H). eauto.
      + intros (u & [(-> & L)| ->] & H); [|eauto]. exfalso. apply (proj2 V); auto. }
  rewrite U. split.
  - intros (u & P & H). apply A in H as (v & s' & E1 & L & S). exists u, v, s'. auto.
  - intros (u & v & s' & P & E1 & L & S). exists u. split; auto. apply A. exists v, s'. auto.
Qed.
Lemma search_stands name build : plain name -> (search (name_re name) build = true <-> stands_in name build).
Proof.
  intros PN. unfold search. rewrite search_from_spec. unfold match_at. split.
  - intros (pre & t & -> & N). apply name_re_some in N; [|auto|discriminate].
    destruct N as (u & v & s' & [(-> & L)| ->] & -> & K & S).
    + rewrite !app_length in L. assert (pre = []) by (destruct pre; [auto|cbn in L; lia]). subst.
      exists [], v, s'. auto.
    + exists (pre ++ [95%N]), v, s'. split; [now rewrite <- app_assoc|]. split; auto. split; auto. right. eauto.
  - intros (pre & v & post & -> & K & [->|(p & ->)] & S).
    + exists [], (v ++ post). split; auto. apply name_re_some; [auto|discriminate|].
      exists (v ++ post), v, post. auto.
    + exists p, (95%N :: v ++ post). split; [now rewrite <- app_assoc|]. apply name_re_some; [auto|discriminate|].
      exists (v ++ post), v, post. auto.
Qed.

(** ** Words *)
Definition literal_text (w : str) : Prop := ~ In 46%N w /\ forall c, In c w -> ordinary_char c.
Lemma literal_plain w : literal_text w -> plain w.
Proof.
  intros (_ & O). induction w as [|c w IH]; constructor; [apply O; now left|].
  apply IH. intros; apply O. now right.
Qed.
Lemma like_refl w : literal_text w -> like w w.
Proof.
  intros (N & O). induction w as [|c w IH]; constructor.
  - apply O. now left.
  - right. split; auto. intros ->. apply N. now left.
  - apply IH; [|intros; apply O; now right]. intros I. apply N. now right.
Qed.
Lemma like_eq w : forall v, literal_text w -> like w v -> v = w.
Proof.
  intros v (N & O) L. induction L as [|c x w v P F L IH|c w v P L IH|c x w v P F L IH]; auto.
  - f_equal.
    + destruct F as [(-> & _)|(_ & ->)]; auto. exfalso. apply N. now left.
    + apply IH; [intros I; apply N; now right|intros; apply O; now right].
  - exfalso. apply (ordinary_not_star 42%N); auto. apply O. right. now left.
  - exfalso. apply (ordinary_not_star 42%N); auto. apply O. right. now left.
Qed.
Lemma words_ends w b : ~ In 95%N w -> (In w (words b) <->
  exists pre post, b = pre ++ w ++ post /\ (pre = [] \/ exists p, pre = p ++ [95%N]) /\
    (post = [] \/ exists q, post = 95%N :: q)).
Proof.
  intros N. unfold words. split.
  - intros I. apply List.in_split in I as (l1 & l2 & E).
    pose proof (split_join 95%N b) as J. rewrite E in J.
    assert (P : forall l1, exists pre, (pre = [] \/ exists p, pre = p ++ [95%N]) /\
       forall x, join [95%N] (l1 ++ x :: l2) = pre ++ join [95%N] (x :: l2)).
    { induction l0 as [|y l0 IH]; [exists []; auto|]. destruct IH as (pre & PE & H).
      exists (y ++ [95%N] ++ pre). split.
      - right. destruct PE as [->|(p & ->)]; [exists y; reflexivity|].
        exists (y ++ [95%N] ++ p). now rewrite <- !app_assoc.
      - intros x. destruct l0 as [|z l0]; cbn [app].
        + specialize (H x). cbn [app] in H. change (join [95%N] (y :: x :: l2)) with (y ++ [95%N] ++ join [95%N] (x :: l2)).
          rewrite H at 1. now rewrite <- !app_assoc.
        + specialize (H x). cbn [app] in H.
          change (join [95%N] (y :: z :: l0 ++ x :: l2)) with (y ++ [95%N] ++ join [95%N] (z :: l0 ++ x :: l2)).
          rewrite H. now rewrite <- !app_assoc. }
    destruct (P l1) as (pre & PE & H). rewrite H in J. destruct l2 as [|z l2].
    + exists pre, []. cbn in J. rewrite app_nil_r. auto.
    + exists pre, (95%N :: join [95%N] (z :: l2)). split; [|split; eauto].
      rewrite <- J. reflexivity.
  - intros (pre & post & -> & P & Q).
    assert (R : In w (split_on 95%N (w ++ post))).
    { destruct Q as [->|(q & ->)].
      - rewrite app_nil_r, split_on_word by auto. now left.
      - rewrite split_on_cons by auto. now left. }
    destruct P as [->|(p & ->)]; auto. rewrite <- app_assoc. cbn [app]. rewrite split_app. apply in_or_app. now right.
Qed.
(** A name without special characters and underscores appears in a build name of
    one line iff it is one of its words. *)
Lemma stands_word w b : literal_text w -> ~ In 95%N w -> ~ In 10%N b -> (stands_in w b <-> named b w).
Proof.
  intros D U N. rewrite named_iff, words_ends by auto. unfold stands_in. split.
  - intros (pre & v & post & E & L & P & Q). apply like_eq in L; auto. subst v. exists pre, post. split; auto.
    split; auto. destruct Q as [->|[->|Q]]; auto. exfalso. apply N. subst b. rewrite !in_app_iff. cbn. auto.
  - intros (pre & post & E & P & Q). exists pre, w, post. split; auto. split; [now apply like_refl|].
    split; auto. destruct Q as [->|Q]; auto.
Qed.

(** ** Keys of the file of systems *)
Fixpoint groupless (r : re) : bool :=
  match r with
  | RSeq a b | ROr a b => groupless a && groupless b
  | RStar _ a => groupless a
  | RGroup _ => false
  | _ => true
  end.
Lemma no_group {X} total r : groupless r = true -> forall s c (k : str -> option str -> option X) x,
  mt total r s c k = Some x -> exists s', k s' c = Some x.
Proof.
  induction r as [p|a IHa b IHb|a IHa b IHb| |g a IHa| | |a IHa]; intros G s c k x H.
  - cbn [mt] in H. destruct s as [|y s]; [discriminate|]. destruct (p y); [eauto|discriminate].
  - cbn [groupless] in G. apply andb_prop in G as (Ga & Gb). cbn [mt] in H.
    apply IHa in H as (s1 & H); auto. apply IHb in H; auto.
  - cbn [groupless] in G. apply andb_prop in G as (Ga & Gb). cbn [mt] in H.
    destruct (mt total a s c k) as [y|] eqn:E.
    + injection H as <-. eapply IHa; eauto.
    + eapply IHb; eauto.
  - cbn [mt] in H. eauto.
  - cbn [groupless] in G. rewrite mt_star in H. revert H. generalize (S (length s)) as n. intros n. revert s x.
    induction n as [|n IHn]; intros s x H; [cbn in H; eauto|]. rewrite starloop_S in H. cbv zeta in H.
    assert (Q : forall y, mt total a s c (fun s' c' => if Nat.ltb (length s') (length s) then starloop total g a k n s' c' else None) = Some y ->
      exists s', k s' c = Some y).
    { intros y Q. apply IHa in Q as (s1 & Q); auto. destruct (Nat.ltb (length s1) (length s)); [|discriminate]. eauto. }
    destruct g.
    + destruct (mt total a s c _) as [y|] eqn:E in H; [|eauto]. injection H as <-. now apply Q.
    + destruct (k s c) as [y|] eqn:E in H; [injection H as <-; eauto|]. now apply Q.
  - cbn [mt] in H. destruct (Nat.eqb (length s) total); [eauto|discriminate].
  - cbn [mt] in H. destruct s as [|y [|z s]]; [eauto| |discriminate]. destruct (N.eqb y 10); [eauto|discriminate].
  - discriminate.
Qed.
Lemma host_key_word k : host_key k = key_word k.
Proof.
  unfold host_key, findall. set (n := 2 * length k + 2). replace n with (S (S (2 * length k))) by (unfold n; lia).
  cbn [findall_from]. set (p := fun c => negb (existsb (N.eqb c) [35; 94]%N || is_space c)).
  assert (M : exists s', match_at (length k) false host_key_re k = Some (s', Some (takew p k))).
  { unfold match_at, host_key_re. fold p.
    change (mt ?t (RSeq ?a ?b) k ?c ?kk) with (mt t a k c (fun s' c' => mt t b s' c' kk)).
    change (mt ?t (RGroup ?a) k ?c ?kk) with (mt t a k c (fun s' _ => kk s' (Some (firstn (length k - length s') k)))).
    cbv beta.
    set (tail := ROr (RSeq (RStar true (RSet is_space)) (RSeq (is_char 35%N) (RStar true (RSet (fun c => negb (N.eqb c 10)))))) REps).
    assert (T : forall s c, exists s', mt (length k) tail s c (fun s' c => if false && Nat.eqb (length s') (length k) then None else Some (s', c)) = Some (s', c)).
    { intros s c. unfold tail. cbn [andb]. change (mt ?t (ROr ?a ?b) s c ?kk) with (match mt t a s c kk with Some x => Some x | None => mt t b s c kk end).
      assert (TT : forall x, mt (length k) (RSeq (RStar true (RSet is_space)) (RSeq (is_char 35%N) (RStar true (RSet (fun c0 => negb (N.eqb c0 10)))))) s c (fun s' c0 => Some (s', c0)) = Some x -> snd x = c).
      { intros x E. apply no_group in E; [|reflexivity]. destruct E as (s1 & E). injection E as <-. reflexivity. }
      destruct (mt _ (RSeq _ _) s c _) as [[s' c']|] eqn:E.
      - specialize (TT _ eq_refl). cbn in TT. subst. eauto.
      - exists s. reflexivity. }
    destruct (T (dropw p k) (Some (takew p k))) as (s' & E). exists s'. apply greedy_set.
    rewrite firstn_takew. exact E. }
  destruct M as (s' & ->). cbn [hd].
  clear. induction k as [|c k IH]; auto. cbn [takew key_word]. rewrite IH. unfold p. cbn [existsb].
  rewrite orb_false_r. destruct (N.eqb c 35 || N.eqb c 94 || is_space c); reflexivity.
Qed.
