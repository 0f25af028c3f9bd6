(** * Values of a key, key of a value. *)
From Coq Require Import String NArith List Bool Arith Lia.
Import ListNotations.
From Verif Require Import PyBase PyFacts EnvVar EnvProofs Regex Keyword SpecKeyword SpecText KeywordText RegexProofs.

Lemma existsb_false {A} (f : A -> bool) l : existsb f l = false <-> forall x, In x l -> f x = false.
Proof.
  rewrite <- not_true_iff_false, existsb_exists. split.
  - intros H x I. destruct (f x) eqn:E; auto. exfalso. eauto.
  - intros H (x & I & E). rewrite H in E; [discriminate|auto].
Qed.
Lemma count_in x l : (0 < count x l) <-> In x l.
Proof.
  unfold count. induction l as [|y l IH]; cbn; [split; [lia|tauto]|].
  destruct (str_eqb_spec x y); cbn; split; intros; auto; try lia.
  - right. now apply IH.
  - destruct H; [congruence|]. now apply IH.
Qed.
Lemma has_duplicates_NoDup l : has_duplicates l = false <-> NoDup l.
Proof.
  unfold has_duplicates. rewrite existsb_false.
  induction l as [|y l IH].
  - split; [constructor|intros _ ? []].
  - split; intros H.
    + constructor.
      * intros I. specialize (H y (or_introl eq_refl)). apply Nat.ltb_ge in H. unfold count in H. cbn in H.
        rewrite str_eqb_refl in H. cbn in H. apply count_in in I. unfold count in I. lia.
      * apply IH. intros x I. specialize (H x (or_intror I)). apply Nat.ltb_ge in H. apply Nat.ltb_ge.
        unfold count in *. cbn in H. destruct (str_eqb x y); cbn in H; lia.
    + inversion H as [|? ? N D]; subst. intros x I. apply Nat.ltb_ge. unfold count. cbn.
      destruct (str_eqb_spec x y).
      * subst. cbn. rewrite <- count_in in N. unfold count in N. lia.
      * destruct I as [I|I]; [congruence|]. rewrite <- IH in D. specialize (D x I).
        apply Nat.ltb_ge in D. exact D.
Qed.
Lemma char_mem_In c s : char_mem c s = true <-> In c s.
Proof.
  unfold char_mem. rewrite existsb_exists. split.
  - intros (x & I & E). apply N.eqb_eq in E. now subst.
  - intros I. exists c. split; auto. apply N.eqb_refl.
Qed.
Lemma bad_value_false v :
  bad_value v = false <-> (~ In 32%N v /\ ~ In 95%N v) \/ v = select_one \/ v = select_many.
Proof.
  unfold bad_value. rewrite andb_false_iff, negb_false_iff, orb_false_iff, str_mem_In.
  rewrite <- !char_mem_In, !not_true_iff_false. cbn. unfold select_one, select_many. intuition.
Qed.
Lemma acceptable_check d l :
  acceptable d l <->
  has_duplicates l = false /\ existsb bad_value l = false /\ existsb (fun x => str_mem x (dkeys d)) l = false.
Proof.
  unfold acceptable. rewrite has_duplicates_NoDup, !existsb_false. setoid_rewrite bad_value_false.
  setoid_rewrite <- not_true_iff_false. setoid_rewrite str_mem_In. tauto.
Qed.

Section Proofs.
Variable conf : str -> res (dict (option str)).

Lemma get_values_check section key d v :
  conf section = Ok d -> dget key d = Some v ->
  (acceptable d (values_list (text_of v)) /\ get_values conf section key = Ok (values_list (text_of v))) \/
  (~ acceptable d (values_list (text_of v)) /\ get_values conf section key = Err SystemExit).
Proof.
  intros C G. unfold get_values. rewrite C. cbn [rbind]. rewrite G. fold (text_of v).
  rewrite acceptable_check. destruct (has_duplicates _); [right; split; [intros (? & _); discriminate|reflexivity]|].
  destruct (existsb bad_value _); [right; split; [intros (_ & ? & _); discriminate|reflexivity]|].
  destruct (existsb _ _); [right; split; [intros (_ & _ & ?); discriminate|reflexivity]|]. left. auto.
Qed.
Lemma get_values_ok section key d v l :
  conf section = Ok d -> dget key d = Some v -> get_values conf section key = Ok l ->
  lists (text_of v) (filter nonempty l) /\ acceptable d l.
Proof.
  intros C G E. destruct (get_values_check _ _ _ _ C G) as [(A & B)|(A & B)]; rewrite B in E; [|discriminate].
  injection E as <-. split; auto. apply lists_iff. symmetry. apply listed_values.
Qed.
Lemma get_values_tidy section key d v :
  conf section = Ok d -> dget key d = Some v -> tidy_text (text_of v) ->
  exists l, lists (text_of v) l /\
    ((acceptable d l /\ get_values conf section key = Ok l) \/
     (~ acceptable d l /\ get_values conf section key = Err SystemExit)).
Proof.
  intros C G T. apply tidy_iff in T. exists (listed (text_of v)). split; [now apply lists_iff|].
  rewrite <- (tidy_values _ T). now apply get_values_check.
Qed.
Lemma lists_det t l l' : lists t l -> lists t l' -> l = l'.
Proof. rewrite !lists_iff. congruence. Qed.
Lemma get_values_missing section key :
  (forall e, conf section = Err e -> get_values conf section key = Err e) /\
  (forall d, conf section = Ok d -> dget key d = None -> get_values conf section key = Err KeyError).
Proof.
  unfold get_values. split; [intros e ->|intros d -> E]; cbn [rbind]; auto. now rewrite E.
Qed.

(** One value per line. *)
Lemma before_hash_sub s c : In c (before_hash s) -> In c s.
Proof.
  induction s as [|a s IH]; cbn; auto. destruct (N.eqb a 35); [intros []|]. intros [->|I]; auto.
Qed.
Lemma in_split sep s w c : In w (split_on sep s) -> In c w -> In c s.
Proof.
  revert w. induction s as [|a s IH]; cbn; intros w.
  - intros [<-|[]] [].
  - destruct (N.eqb a sep).
    + intros [<-|I] J; [destruct J|]. right. eauto.
    + destruct (split_on sep s) as [|x l].
      * intros [<-|[]] [->|[]]. now left.
      * intros [<-|I] J; [destruct J as [->|J]; [now left|]|]; right; [apply (IH x); auto|apply (IH w); auto].
        -- now left.
        -- now right.
Qed.
Lemma one_per_line text : ~ In 94%N text -> pieces text = map before_hash (split_on 10%N text).
Proof.
  intros N. unfold pieces.
  assert (F : forall line, In line (split_on 10%N text) -> ~ In 94%N (before_hash line)).
  { intros line I J. apply before_hash_sub in J. apply N. eapply in_split; eauto. }
  induction (split_on 10%N text) as [|l ls IH]; auto. cbn.
  rewrite split_on_word by (apply F; now left). cbn. f_equal. apply IH. intros; apply F; now right.
Qed.
Lemma stripped_tidy text : ~ In 94%N text -> stripped_lines text -> tidy_text text.
Proof.
  intros N S. apply tidy_iff. intros p I B. rewrite stripped_iff in S. rewrite one_per_line in I by auto. apply in_map_iff in I as (line & <- & I).
  apply S in I. pose proof (strip_head is_space line) as H. unfold strip_ws in I. rewrite I in H.
  destruct line as [|c line]; auto. cbn in *. destruct (N.eqb c 35); auto. cbn in B. rewrite H in B. discriminate.
Qed.

Lemma one_per_line_text text lines : ~ In 94%N text -> stripped_lines text -> cut_at 10%N text lines ->
  tidy_text text /\ text_pieces text (map before_hash lines).
Proof.
  intros N S C. split; [now apply stripped_tidy|]. apply pieces_iff. apply cut_iff in C. subst. now apply one_per_line.
Qed.

(** The key of a value. *)
Lemma find_key_spec section value keys found r :
  (forall k, In k keys -> exists l, get_values conf section k = Ok l) ->
  find_key conf section value keys found = Ok r ->
  match r with
  | Some k =>
      (exists a b l, keys = a ++ k :: b /\ get_values conf section k = Ok l /\ In value l /\
        forall k' l', In k' b -> get_values conf section k' = Ok l' -> ~ In value l') \/
      (found = Some k /\ forall k' l', In k' keys -> get_values conf section k' = Ok l' -> ~ In value l')
  | None => found = None /\ forall k' l', In k' keys -> get_values conf section k' = Ok l' -> ~ In value l'
  end.
Proof.
  revert found. induction keys as [|k keys IH]; intros found G E; cbn in E.
  - injection E as <-. destruct found as [k|]; [right|]; split; auto; intros ? ? [].
  - destruct (G k (or_introl eq_refl)) as (l & L). rewrite L in E. cbn [rbind] in E.
    specialize (IH _ (fun k' I => G k' (or_intror I)) E).
    destruct (str_mem value l) eqn:M.
    + apply str_mem_In in M. destruct r as [k'|].
      * left. destruct IH as [(a & b & l' & -> & P & Q & R)|(Q & R)].
        -- exists (k :: a), b, l'. repeat split; auto.
        -- injection Q as <-. exists [], keys, l. repeat split; auto.
      * destruct IH; discriminate.
    + assert (NI : ~ In value l) by (rewrite <- str_mem_In, M; discriminate).
      assert (R' : (forall k' l', In k' keys -> get_values conf section k' = Ok l' -> ~ In value l') ->
                   forall k' l', In k' (k :: keys) -> get_values conf section k' = Ok l' -> ~ In value l').
      { intros R k' l' [<-|I] P; [|eapply R; eauto]. congruence. }
      destruct r as [k'|].
      * destruct IH as [(a & b & l' & -> & P & Q & R)|(Q & R)]; [left|right; split; [auto|exact (R' R)]].
        exists (k :: a), b, l'. repeat split; auto.
      * destruct IH as (Q & R). split; [auto|exact (R' R)].
Qed.
Lemma find_key_ok section value keys : forall found,
  (forall k, In k keys -> exists l, get_values conf section k = Ok l) ->
  exists r, find_key conf section value keys found = Ok r.
Proof.
  induction keys as [|k keys IH]; intros found G; cbn; eauto.
  destruct (G k (or_introl eq_refl)) as (l & L). rewrite L. cbn [rbind]. apply IH. intros; apply G; now right.
Qed.
Lemma get_key_spec section value d :
  conf section = Ok d ->
  (forall k, In k (dkeys d) -> exists l, get_values conf section k = Ok l) ->
  (exists a k b l, dkeys d = a ++ k :: b /\ get_values conf section k = Ok l /\ In value l /\
     (forall k' l', In k' b -> get_values conf section k' = Ok l' -> ~ In value l') /\
     get_key conf section value = Ok k) \/
  ((forall k l, In k (dkeys d) -> get_values conf section k = Ok l -> ~ In value l) /\
     get_key conf section value = Err SystemExit).
Proof.
  intros C G. unfold get_key. rewrite C. cbn [rbind].
  destruct (find_key_ok section value (dkeys d) None G) as (r & E). rewrite E. cbn [rbind].
  pose proof (find_key_spec _ _ _ _ _ G E) as S. destruct r as [k|].
  - destruct S as [(a & b & l & H1 & H2 & H3 & H4)|(S & _)]; [|discriminate].
    left. exists a, k, b, l. auto.
  - right. tauto.
Qed.
Lemma get_key_unlisted section value d k :
  conf section = Ok d -> In k (dkeys d) ->
  (forall l, get_values conf section k <> Ok l) -> exists e, get_key conf section value = Err e.
Proof.
  intros C I N. unfold get_key. rewrite C. cbn [rbind].
  assert (H : forall keys found, In k keys -> exists e, find_key conf section value keys found = Err e).
  { induction keys as [|k' keys IH]; intros found [].
    - subst. cbn. destruct (get_values conf section k) as [l|e] ; [now destruct (N l)|]. cbn. eauto.
    - cbn. destruct (get_values conf section k') as [l|e]; cbn; eauto. }
  destruct (H (dkeys d) None I) as (e & ->). cbn. eauto.
Qed.
End Proofs.
