(** * The regular expression for the values of a key. *)
From Coq Require Import String NArith List Bool Arith Lia.
Import ListNotations.
From Verif Require Import PyBase PyFacts EnvVar EnvProofs Regex Keyword SpecKeyword KeywordText.

Fixpoint dropw (p : pychar -> bool) (s : str) : str :=
  match s with [] => [] | c :: s' => if p c then dropw p s' else s end.
Fixpoint takew (p : pychar -> bool) (s : str) : str :=
  match s with [] => [] | c :: s' => if p c then c :: takew p s' else [] end.
Lemma takew_dropw p s : takew p s ++ dropw p s = s.
Proof. induction s as [|c s IH]; cbn; auto. destruct (p c); cbn; congruence. Qed.
Lemma takew_all p s : forallb p (takew p s) = true.
Proof. induction s as [|c s IH]; cbn; auto. destruct (p c) eqn:E; cbn; auto. now rewrite E. Qed.
Lemma dropw_len p s : length (dropw p s) <= length s.
Proof. induction s as [|c s IH]; cbn; auto. destruct (p c); cbn; lia. Qed.
Lemma dropw_hd p s c t : dropw p s = c :: t -> p c = false.
Proof.
  induction s as [|a s IH]; cbn; intros E; [discriminate|].
  destruct (p a) eqn:Ea; auto. now injection E as -> ->.
Qed.

Section Mt.
Variable total : nat.
Context {X : Type}.
Implicit Type k : str -> option str -> option X.

(** The loop of a star. *)
Definition starloop (greedy : bool) (a : re) (k : str -> option str -> option X) :=
  fix go (n : nat) (s : str) (c : option str) {struct n} : option X :=
    match n with
    | O => k s c
    | S n' =>
        let more tt := mt total a s c (fun s' c' => if Nat.ltb (length s') (length s) then go n' s' c' else None) in
        if greedy then match more tt with Some x => Some x | None => k s c end
        else match k s c with Some x => Some x | None => more tt end
    end.
Lemma mt_star g a s c k : mt total (RStar g a) s c k = starloop g a k (S (length s)) s c.
Proof. reflexivity. Qed.

Lemma starloop_S g a k n s c : starloop g a k (S n) s c
  = let m := mt total a s c (fun s' c' => if Nat.ltb (length s') (length s) then starloop g a k n s' c' else None) in
    if g then match m with Some x => Some x | None => k s c end
    else match k s c with Some x => Some x | None => m end.
Proof. reflexivity. Qed.

Lemma greedy_set_loop p k c x n : forall s, length s < n ->
  k (dropw p s) c = Some x -> starloop true (RSet p) k n s c = Some x.
Proof.
  induction n as [|n IH]; intros s L K; [lia|]. rewrite starloop_S. cbn [mt].
  destruct s as [|a s]; auto. cbn [length dropw] in *.
  destruct (p a) eqn:E; auto.
  rewrite (proj2 (Nat.ltb_lt _ _)) by lia. rewrite IH by (auto; lia). reflexivity.
Qed.
Lemma greedy_set p k c x s : k (dropw p s) c = Some x -> mt total (RStar true (RSet p)) s c k = Some x.
Proof. rewrite mt_star. apply greedy_set_loop. lia. Qed.

(** When the next part cannot start with a character of the set, a lazy star is
    greedy. *)
Lemma lazy_set_loop p k c n : (forall a s, p a = true -> k (a :: s) c = None) ->
  forall s, length s < n -> starloop false (RSet p) k n s c = k (dropw p s) c.
Proof.
  intros F. induction n as [|n IH]; intros s L; [lia|]. rewrite starloop_S. cbn [mt].
  destruct s as [|a s].
  - cbn. now destruct (k [] c).
  - cbn [length dropw] in *. destruct (p a) eqn:E.
    + rewrite F by auto. rewrite (proj2 (Nat.ltb_lt _ _)) by lia. apply IH. lia.
    + now destruct (k (a :: s) c).
Qed.
Lemma lazy_set p k c s : (forall a s, p a = true -> k (a :: s) c = None) ->
  mt total (RStar false (RSet p)) s c k = k (dropw p s) c.
Proof. intros F. rewrite mt_star. apply lazy_set_loop; auto. Qed.

(** A star that cannot start is passed over. *)
Lemma star_none a s c k :
  (forall k', mt total a s c k' = None) -> mt total (RStar true a) s c k = k s c.
Proof. intros F. rewrite mt_star, starloop_S, F. reflexivity. Qed.

Definition not_nl (c : pychar) : bool := negb (N.eqb c 10).
Definition is_nl (c : pychar) : bool := N.eqb 10 c.

(** One comment. *)
Definition comment1 (s : str) : option str :=
  match dropw is_space s with
  | c :: u => if N.eqb 35 c then Some (dropw is_nl (dropw not_nl u)) else None
  | [] => None
  end.
Lemma comment1_len s u : comment1 s = Some u -> length u < length s.
Proof.
  unfold comment1. pose proof (dropw_len is_space s).
  destruct (dropw is_space s) as [|c v]; [discriminate|]. destruct (N.eqb 35 c); intros [= <-].
  pose proof (dropw_len is_nl (dropw not_nl v)). pose proof (dropw_len not_nl v). cbn in H. lia.
Qed.
Lemma space_not_hash a : is_space a = true -> N.eqb 35 a = false.
Proof. intros S. destruct (N.eqb_spec 35 a) as [<-|]; [discriminate|reflexivity]. Qed.
Lemma mt_comment_unfold s c k :
  mt total comment_re s c k
  = match dropw is_space s with
    | a :: u => if N.eqb 35 a
                then mt total (RSeq (RStar true (RSet not_nl)) (RStar true (is_char 10%N))) u c k
                else None
    | [] => None
    end.
Proof.
  unfold comment_re. change (mt total (RSeq ?a ?b) s c k) with (mt total a s c (fun s' c' => mt total b s' c' k)).
  rewrite lazy_set.
  - destruct (dropw is_space s) as [|a u]; reflexivity.
  - intros a u S. unfold is_char. cbn [mt]. now rewrite space_not_hash.
Qed.
Lemma mt_comment_none s c k : comment1 s = None -> mt total comment_re s c k = None.
Proof.
  rewrite mt_comment_unfold. unfold comment1.
  destruct (dropw is_space s) as [|a u]; auto. destruct (N.eqb 35 a); auto. discriminate.
Qed.
Lemma mt_comment_some s c k u x :
  comment1 s = Some u -> k u c = Some x -> mt total comment_re s c k = Some x.
Proof.
  rewrite mt_comment_unfold. unfold comment1.
  destruct (dropw is_space s) as [|a v]; [discriminate|]. destruct (N.eqb 35 a); [|discriminate].
  intros [= <-] K. cbn [mt]. apply (greedy_set not_nl). apply (greedy_set is_nl). exact K.
Qed.

(** All comments. *)
Fixpoint skip (n : nat) (s : str) : str :=
  match n with
  | O => s
  | S n' => match comment1 s with Some u => skip n' u | None => s end
  end.
Lemma skip_stop n : forall s, length s < n -> comment1 (skip n s) = None.
Proof.
  induction n as [|n IH]; intros s L; [lia|]. cbn. destruct (comment1 s) as [u|] eqn:E; auto.
  apply IH. apply comment1_len in E. lia.
Qed.
Lemma skip_len n : forall s, length (skip n s) <= length s.
Proof.
  induction n as [|n IH]; intros s; cbn; auto. destruct (comment1 s) as [u|] eqn:E; auto.
  apply comment1_len in E. specialize (IH u). lia.
Qed.
Lemma comments_loop k c x n : forall s, length s < n ->
  k (skip n s) c = Some x -> starloop true comment_re k n s c = Some x.
Proof.
  induction n as [|n IH]; intros s L K; [lia|]. cbn [skip] in K.
  rewrite starloop_S. cbv zeta.
  destruct (comment1 s) as [u|] eqn:E.
  - erewrite mt_comment_some; [reflexivity|exact E|]. cbv beta.
    pose proof (comment1_len _ _ E). rewrite (proj2 (Nat.ltb_lt _ _)) by lia. apply IH; auto. lia.
  - now rewrite mt_comment_none.
Qed.
End Mt.

Definition skip_all (s : str) : str := skip (S (length s)) s.
Lemma firstn_takew p s : firstn (length s - length (dropw p s)) s = takew p s.
Proof.
  generalize (takew p s) (dropw p s) (takew_dropw p s). intros t d <-.
  rewrite app_length. replace (length t + length d - length d) with (length t) by lia.
  rewrite firstn_app, Nat.sub_diag, firstn_all. apply app_nil_r.
Qed.

(** The first match, and the rest. *)
Lemma match_values total s :
  match_at total false values_re s
  = Some (dropw value_char (skip_all s), Some (takew value_char (skip_all s))).
Proof.
  unfold match_at, values_re.
  change (mt total (RSeq ?a ?b) s ?c ?k) with (mt total a s c (fun s' c' => mt total b s' c' k)).
  rewrite mt_star. apply comments_loop; [lia|]. fold (skip_all s).
  change (mt total (RGroup ?a) ?s ?c ?k) with (mt total a s c (fun s' _ => k s' (Some (firstn (length s - length s') s)))).
  cbv beta. apply greedy_set. cbn [andb]. now rewrite firstn_takew.
Qed.
Lemma match_values_must total s :
  comment1 s = None -> takew value_char s = [] ->
  match_at total true values_re s = None.
Proof.
  intros C V. unfold match_at, values_re.
  change (mt total (RSeq ?a ?b) s ?c ?k) with (mt total a s c (fun s' c' => mt total b s' c' k)).
  rewrite star_none by (intros; now apply mt_comment_none).
  change (mt total (RGroup ?a) s ?c ?k) with (mt total a s c (fun s' _ => k s' (Some (firstn (length s - length s') s)))).
  cbv beta. rewrite star_none.
  - cbn. now rewrite Nat.eqb_refl.
  - intros k'. cbn. destruct s as [|a s]; auto. cbn in V. destruct (value_char a); [discriminate|reflexivity].
Qed.

(** ** The pieces, part by part *)
Definition full (p : str) : bool := negb (blank p).
Definition ents (s : str) : list str := filter full (pieces s).
Lemma value_char_not c : value_char c = true -> c <> 35%N /\ c <> 94%N /\ c <> 10%N.
Proof.
  unfold value_char. rewrite negb_true_iff. cbn. rewrite !orb_false_iff, !N.eqb_neq. tauto.
Qed.
Lemma values_not v : forallb value_char v = true -> ~ In 35%N v /\ ~ In 94%N v /\ ~ In 10%N v.
Proof.
  rewrite forallb_forall. intros F.
  repeat split; intros I; apply F, value_char_not in I; tauto.
Qed.
Lemma before_hash_app v s : ~ In 35%N v -> before_hash (v ++ s) = v ++ before_hash s.
Proof.
  induction v as [|c v IH]; cbn; intros H; auto.
  destruct (N.eqb_spec c 35); [subst; tauto|]. f_equal. apply IH. tauto.
Qed.
Lemma before_hash_id v : ~ In 35%N v -> before_hash v = v.
Proof. intros H. rewrite <- (app_nil_r v) at 1. rewrite before_hash_app by auto. apply app_nil_r. Qed.
Lemma split_prefix sep v s : ~ In sep v ->
  split_on sep (v ++ s) = match split_on sep s with w :: l => (v ++ w) :: l | [] => [] end.
Proof.
  induction v as [|c v IH]; cbn; intros H.
  - destruct (split_on sep s) eqn:E; auto.
  - destruct (N.eqb_spec c sep); [subst; tauto|]. rewrite IH by tauto.
    pose proof (split_on_ne sep s). destruct (split_on sep s); [tauto|]. reflexivity.
Qed.
Lemma ents_end v : forallb value_char v = true -> ents v = filter full [v].
Proof.
  intros F. apply values_not in F as (A & B & C). unfold ents, pieces.
  rewrite split_on_word by auto. cbn. rewrite before_hash_id, split_on_word by auto. now rewrite app_nil_r.
Qed.
Lemma ents_nl v s : forallb value_char v = true -> ents (v ++ 10%N :: s) = filter full [v] ++ ents s.
Proof.
  intros F. apply values_not in F as (A & B & C). unfold ents, pieces.
  rewrite split_on_cons by auto. cbn [flat_map]. rewrite before_hash_id, split_on_word by auto.
  now rewrite filter_app.
Qed.
Lemma ents_caret v s : forallb value_char v = true -> ents (v ++ 94%N :: s) = filter full [v] ++ ents s.
Proof.
  intros F. apply values_not in F as (A & B & C). unfold ents, pieces.
  change (v ++ 94%N :: s) with (v ++ [94%N] ++ s). rewrite app_assoc, split_prefix.
  2:{ rewrite in_app_iff. cbn. intros [?|[?|[]]]; [tauto|discriminate]. }
  destruct (split_on 10%N s) as [|l ls] eqn:E; [now apply split_on_ne in E|]. cbn [flat_map].
  rewrite <- app_assoc, before_hash_app by auto.
  change (before_hash ([94%N] ++ l)) with (94%N :: before_hash l). rewrite split_on_cons by auto.
  rewrite <- filter_app. reflexivity.
Qed.
Lemma split_not_nl u : exists w, before_hash (35%N :: w) = []
  /\ split_on 10%N (35%N :: u) = (35%N :: w) :: match dropw not_nl u with [] => [] | _ :: t => split_on 10%N t end.
Proof.
  exists (takew not_nl u). split; auto.
  rewrite <- (takew_dropw not_nl u) at 1.
  assert (N : ~ In 10%N (35%N :: takew not_nl u)).
  { intros [?|I]; [discriminate|]. pose proof (takew_all not_nl u) as F.
    rewrite forallb_forall in F. apply F in I. discriminate. }
  destruct (dropw not_nl u) as [|c t] eqn:E.
  - rewrite app_nil_r. now apply split_on_word.
  - apply dropw_hd in E. unfold not_nl in E. rewrite negb_false_iff, N.eqb_eq in E. subst.
    rewrite app_comm_cons. now apply split_on_cons.
Qed.
Lemma ents_nls u : ents (dropw is_nl u) = ents u.
Proof.
  induction u as [|c u IH]; auto. cbn [dropw]. destruct (is_nl c) eqn:E; auto.
  unfold is_nl in E. apply N.eqb_eq in E. subst. rewrite IH. symmetry. apply (ents_nl []). reflexivity.
Qed.
Lemma ents_hash v u : forallb value_char v = true ->
  ents (v ++ 35%N :: u) = filter full [v] ++ ents (dropw not_nl u).
Proof.
  intros F. apply values_not in F as (A & B & C). unfold ents, pieces.
  rewrite split_prefix by auto. destruct (split_not_nl u) as (w & W & ->). cbn [flat_map].
  rewrite before_hash_app, W, app_nil_r, split_on_word by auto. rewrite filter_app. f_equal.
  destruct (dropw not_nl u) as [|c t] eqn:E; auto.
  apply dropw_hd in E. unfold not_nl in E. rewrite negb_false_iff, N.eqb_eq in E. subst. reflexivity.
Qed.
Lemma blank_value v : forallb (fun c => is_space c && not_nl c) v = true ->
  forallb value_char v = true /\ filter full [v] = [].
Proof.
  intros F. rewrite forallb_forall in F. split.
  - apply forallb_forall. intros c I. apply F in I. apply andb_prop in I as (S & N).
    unfold value_char. rewrite negb_true_iff. cbn. rewrite !orb_false_iff, !N.eqb_neq.
    unfold not_nl in N. rewrite negb_true_iff, N.eqb_neq in N.
    repeat split; auto; intros ->; discriminate.
  - cbn. unfold full, blank. replace (forallb is_space v) with true; auto. symmetry.
    apply forallb_forall. intros c I. apply F in I. now apply andb_prop in I.
Qed.
Lemma ents_spaces w u : forallb is_space w = true ->
  forall v, forallb (fun c => is_space c && not_nl c) v = true ->
  ents (v ++ w ++ 35%N :: u) = ents (dropw not_nl u).
Proof.
  induction w as [|c w IH]; intros W v V.
  - cbn. destruct (blank_value v V) as (A & B). rewrite ents_hash, B by auto. reflexivity.
  - cbn in W. apply andb_prop in W as (Sc & W). destruct (N.eq_dec c 10) as [->|Nc].
    + cbn [app]. destruct (blank_value v V) as (A & B). rewrite ents_nl, B by auto. cbn.
      apply (IH W []). reflexivity.
    + cbn [app]. change (c :: w ++ 35%N :: u) with ([c] ++ w ++ 35%N :: u). rewrite app_assoc. apply IH; auto.
      rewrite forallb_app, V. cbn. rewrite Sc. unfold not_nl. now rewrite (proj2 (N.eqb_neq _ _) Nc).
Qed.
Lemma ents_comment1 s u : comment1 s = Some u -> ents u = ents s.
Proof.
  unfold comment1. intros C.
  rewrite <- (takew_dropw is_space s). destruct (dropw is_space s) as [|c v]; [discriminate|].
  destruct (N.eqb_spec 35 c); [|discriminate]. subst. injection C as <-.
  rewrite ents_nls. symmetry. apply (ents_spaces _ v (takew_all _ _) []). reflexivity.
Qed.
Lemma ents_skip n : forall s, ents (skip n s) = ents s.
Proof.
  induction n as [|n IH]; intros s; cbn [skip]; auto. destruct (comment1 s) as [u|] eqn:E; auto.
  rewrite IH. now apply ents_comment1.
Qed.

(** ** All matches *)
Definition nonempty (s : str) : bool := negb (empty_str s).
Lemma findall_ents total n : forall (must : bool) s, 2 * length s + (if must then 0 else 1) < n ->
  (must = true -> comment1 s = None /\ takew value_char s = []) ->
  filter full (findall_from total n must values_re s) = ents s.
Proof.
  induction n as [|n IH]; intros must s L M; [lia|]. cbn [findall_from].
  destruct must.
  - destruct (M eq_refl) as (C & V). rewrite match_values_must by auto.
    destruct s as [|c s]; auto. cbn [length] in L. rewrite IH by (intros; try discriminate; lia).
    cbn in V. destruct (value_char c) eqn:E; [discriminate|].
    unfold value_char in E. rewrite negb_false_iff in E. cbn in E. rewrite !orb_true_iff, !N.eqb_eq in E.
    destruct E as [->|[->|[->|E]]]; [|symmetry; apply (ents_caret []); reflexivity|symmetry; apply (ents_nl []); reflexivity|discriminate].
    discriminate C.
  - rewrite match_values. rewrite <- (ents_skip (S (length s)) s). fold (skip_all s).
    assert (LS : length (skip_all s) <= length s) by apply skip_len.
    assert (CS : comment1 (skip_all s) = None) by (apply skip_stop; lia).
    pose proof (takew_all value_char (skip_all s)) as T.
    pose proof (takew_dropw value_char (skip_all s)) as TD.
    pose proof (dropw_len value_char (skip_all s)) as LD.
    set (v := takew value_char (skip_all s)) in *.
    set (r := dropw value_char (skip_all s)) in *.
    assert (E : ents (skip_all s) = filter full [v] ++ ents r).
    { rewrite <- TD. destruct r as [|c t] eqn:Er.
      - rewrite app_nil_r, ents_end by auto. now rewrite app_nil_r.
      - pose proof (dropw_hd value_char (skip_all s) c t Er) as H.
        unfold value_char in H. rewrite negb_false_iff in H. cbn in H. rewrite !orb_true_iff, !N.eqb_eq in H.
        destruct H as [->|[->|[->|H]]]; [| | |discriminate].
        + rewrite ents_hash by auto. f_equal; symmetry; apply (ents_hash []); reflexivity.
        + rewrite ents_caret by auto. f_equal; symmetry; apply (ents_caret []); reflexivity.
        + rewrite ents_nl by auto. f_equal; symmetry; apply (ents_nl []); reflexivity. }
    rewrite E. clear E.
    match goal with |- filter full (v :: ?l) = _ => change (v :: l) with ([v] ++ l) end.
    rewrite filter_app. f_equal. apply IH.
    + destruct (Nat.eqb_spec (length r) (length s)); lia.
    + intros Q. apply Nat.eqb_eq in Q.
      assert (v = []) as Ev.
      { apply (f_equal (@length _)) in TD. rewrite app_length in TD. destruct v; auto. cbn [length] in TD. lia. }
      assert (skip_all s = r) by (rewrite Ev in TD; symmetry; exact TD).
      rewrite <- H. split; auto.
Qed.

Lemma strip_nonempty p : nonempty (strip_ws p) = negb (blank p).
Proof.
  destruct (strip_decomp is_space p) as (a & b & E & A & B). unfold strip_ws.
  rewrite Forall_forall in A, B. destruct (blank p) eqn:K; cbn [negb].
  - pose proof (strip_head is_space p) as H. destruct (strip is_space p) as [|c t] eqn:S; auto.
    unfold blank in K. rewrite forallb_forall in K. rewrite K in H; [discriminate|].
    rewrite E, in_app_iff. right. now left.
  - destruct (strip is_space p) as [|c t] eqn:S; auto. exfalso.
    assert (blank p = true); [|congruence]. apply forallb_forall. intros c I.
    rewrite E, in_app_iff in I. destruct I; auto.
Qed.
Lemma listed_values s : filter nonempty (values_list s) = listed s.
Proof.
  unfold values_list, listed. change (filter (fun p => negb (blank p)) (pieces s)) with (ents s).
  rewrite <- (findall_ents (length s) (2 * length s + 2) false s) by (intros; try discriminate; lia).
  unfold findall. induction (findall_from _ _ _ _ _) as [|p l IH]; auto. cbn [filter].
  unfold full at 1. destruct (empty_str p) eqn:E; cbn [negb].
  - destruct p; [|discriminate]. cbn. exact IH.
  - cbn [map filter]. assert (Q : nonempty (strip_ws p) = negb (blank p)).
    { apply strip_nonempty. }
    rewrite Q. destruct (negb (blank p)); cbn [map]; now rewrite IH.
Qed.

(** ** Blank values *)
Lemma split_app sep x t : split_on sep (x ++ sep :: t) = split_on sep x ++ split_on sep t.
Proof.
  induction x as [|c x IH]; cbn [app split_on].
  - now rewrite N.eqb_refl.
  - destruct (N.eqb c sep); [now rewrite IH|]. rewrite IH.
    pose proof (split_on_ne sep x). destruct (split_on sep x); [tauto|reflexivity].
Qed.
Lemma pieces_app x t : pieces (x ++ 10%N :: t) = pieces x ++ pieces t.
Proof. unfold pieces. now rewrite split_app, flat_map_app. Qed.
Definition inc (a b : str) : Prop := forall p, p <> [] -> In p (pieces a) -> In p (pieces b).
Lemma inc_refl a : inc a a. Proof. firstorder. Qed.
Lemma inc_trans a b c : inc a b -> inc b c -> inc a c. Proof. firstorder. Qed.
Lemma inc_nil a : inc [] a.
Proof. intros p N [<-|[]]. tauto. Qed.
Lemma inc_line x t : inc t (x ++ 10%N :: t).
Proof. intros p _ I. rewrite pieces_app. apply in_or_app. auto. Qed.
Lemma inc_nls u : inc (dropw is_nl u) u.
Proof.
  induction u as [|c u IH]; [apply inc_refl|]. cbn [dropw]. destruct (is_nl c) eqn:E; [|apply inc_refl].
  unfold is_nl in E. apply N.eqb_eq in E. subst. eapply inc_trans; [exact IH|apply (inc_line [])].
Qed.
Lemma inc_comment1 s u : comment1 s = Some u -> inc u s.
Proof.
  unfold comment1. intros C. rewrite <- (takew_dropw is_space s).
  destruct (dropw is_space s) as [|c v]; [discriminate|].
  destruct (N.eqb 35 c); [|discriminate]. injection C as <-.
  rewrite <- (takew_dropw not_nl v) at 2. destruct (dropw not_nl v) as [|d t] eqn:E; [apply inc_nil|].
  apply dropw_hd in E. unfold not_nl in E. rewrite negb_false_iff, N.eqb_eq in E. subst.
  change (dropw is_nl (10%N :: t)) with (dropw is_nl t).
  eapply inc_trans; [apply inc_nls|]. rewrite app_comm_cons, app_assoc. apply inc_line.
Qed.
Lemma inc_skip n : forall s, inc (skip n s) s.
Proof.
  induction n as [|n IH]; intros s; cbn [skip]; [apply inc_refl|].
  destruct (comment1 s) as [u|] eqn:E; [|apply inc_refl].
  eapply inc_trans; [apply IH|now apply inc_comment1].
Qed.
Lemma pieces_value v r : forallb value_char v = true ->
  (match r with [] => True | c :: _ => value_char c = false end) ->
  In v (pieces (v ++ r)) /\ inc r (v ++ r).
Proof.
  intros F H. apply values_not in F as (A & B & C). destruct r as [|c t].
  - rewrite app_nil_r. split; [|apply inc_nil]. unfold pieces.
    rewrite split_on_word by auto. cbn. rewrite before_hash_id, split_on_word by auto. now left.
  - unfold value_char in H. rewrite negb_false_iff in H. cbn in H. rewrite !orb_true_iff, !N.eqb_eq in H.
    destruct H as [->|[->|[->|H]]]; [| | |discriminate].
    + unfold inc, pieces. destruct (split_not_nl t) as (w & W & E).
      rewrite split_prefix by auto. unfold pychar in *. rewrite E. cbn [flat_map].
      rewrite before_hash_app, W, app_nil_r, split_on_word by auto.
      split; [now left|]. intros p N I. apply in_app_iff in I as [[<-|[]]|I]; [tauto|]. now right.
    + unfold inc, pieces. change (v ++ 94%N :: t) with (v ++ [94%N] ++ t). rewrite app_assoc, split_prefix.
      2:{ rewrite in_app_iff. cbn. intros [?|[?|[]]]; [tauto|discriminate]. }
      change (94%N :: t) with ([94%N] ++ t). rewrite split_prefix by (cbn; intros [?|[]]; discriminate).
      destruct (split_on 10%N t) as [|l ls] eqn:E; [now apply split_on_ne in E|]. cbn [flat_map].
      rewrite <- app_assoc, before_hash_app by auto.
      change (before_hash ([94%N] ++ l)) with (94%N :: before_hash l). rewrite split_on_cons by auto.
      change (split_on 94%N (94%N :: before_hash l)) with ([] :: split_on 94%N (before_hash l)).
      split; [now left|]. intros p N [<-|I]; [tauto|]. now right.
    + rewrite pieces_app. split; [|apply (inc_trans _ (10%N :: t)); [apply inc_refl|]].
      * apply in_or_app. left. unfold pieces. rewrite split_on_word by auto. cbn.
        rewrite before_hash_id, split_on_word by auto. now left.
      * intros p N I. change (10%N :: t) with ([] ++ 10%N :: t) in I. rewrite pieces_app in I.
        rewrite pieces_app. apply in_app_iff in I as [[<-|[]]|I]; [tauto|]. apply in_or_app. auto.
Qed.
Lemma findall_pieces total n : forall must s p,
  (must = true -> comment1 s = None /\ takew value_char s = []) ->
  In p (findall_from total n must values_re s) -> p <> [] -> In p (pieces s).
Proof.
  induction n as [|n IH]; intros must s p M I N; [destruct I|]. cbn [findall_from] in I.
  destruct must.
  - destruct (M eq_refl) as (C & V). rewrite match_values_must in I by auto.
    destruct s as [|c s]; [destruct I|]. apply IH in I; auto; [|discriminate].
    cbn in V. destruct (value_char c) eqn:E; [discriminate|].
    unfold value_char in E. rewrite negb_false_iff in E. cbn in E. rewrite !orb_true_iff, !N.eqb_eq in E.
    destruct E as [->|[->|[->|E]]]; [discriminate C| |apply (inc_line [] s p N I)|discriminate].
    unfold pieces in *. change (94%N :: s) with ([94%N] ++ s).
    rewrite split_prefix by (cbn; intros [?|[]]; discriminate).
    destruct (split_on 10%N s) as [|l ls] eqn:E; [now apply split_on_ne in E|]. cbn [flat_map] in *.
    change (split_on 94%N (before_hash ([94%N] ++ l))) with ([] :: split_on 94%N (before_hash l)).
    now right.
  - rewrite match_values in I. apply (inc_skip (S (length s)) s p N). fold (skip_all s).
    assert (LS : length (skip_all s) <= length s) by apply skip_len.
    assert (CS : comment1 (skip_all s) = None) by (apply skip_stop; lia).
    pose proof (takew_all value_char (skip_all s)) as T.
    pose proof (takew_dropw value_char (skip_all s)) as TD.
    pose proof (dropw_len value_char (skip_all s)) as LD.
    assert (H : match dropw value_char (skip_all s) with [] => True | c :: _ => value_char c = false end).
    { destruct (dropw value_char (skip_all s)) eqn:E; auto. now apply dropw_hd in E. }
    set (v := takew value_char (skip_all s)) in *.
    set (r := dropw value_char (skip_all s)) in *.
    destruct (pieces_value v r T H) as (P1 & P2). rewrite TD in P1, P2.
    destruct I as [<-|I]; auto. apply P2; auto. eapply IH; [|exact I|auto].
    intros Q. apply Nat.eqb_eq in Q.
    assert (v = []) as Ev.
    { apply (f_equal (@length _)) in TD. rewrite app_length in TD. destruct v; auto. cbn [length] in TD. lia. }
    assert (E : skip_all s = r) by (rewrite Ev in TD; symmetry; exact TD).
    rewrite <- E. split; auto.
Qed.
Lemma tidy_values s : tidy s -> values_list s = listed s.
Proof.
  intros T. rewrite <- listed_values. symmetry.
  assert (F : forall l, (forall x, In x l -> nonempty x = true) -> filter nonempty l = l).
  { induction l as [|x l IH]; cbn; intros H; auto. rewrite H by auto. f_equal. auto. }
  apply F. intros x I. unfold values_list in I. apply in_map_iff in I as (p & <- & I).
  apply filter_In in I as (I & N). rewrite strip_nonempty.
  destruct (blank p) eqn:B; auto. apply findall_pieces in I.
  2:{ discriminate. }
  2:{ intros ->. discriminate N. }
  pose proof (T _ I B) as ->. discriminate N.
Qed.
