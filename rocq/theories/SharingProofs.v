(** * Proofs about typed properties whose values can change: what is out of reach
    stays as it is. *)
From Coq Require Import List Arith Lia Bool.
Import ListNotations.
From Verif Require Import PyBase Sharing SpecSharing.

(** ** Lists of cells *)
Lemma set_cell_length a c h : length (set_cell a c h) = length h.
Proof. revert a; induction h as [|x h IH]; intros [|a]; cbn; auto. Qed.
Lemma set_cell_same a c h : a < length h -> nth_error (set_cell a c h) a = Some c.
Proof. revert a; induction h as [|x h IH]; intros [|a] L; cbn in *; try lia; auto. apply IH. lia. Qed.
Lemma set_cell_other a b c h : a <> b -> nth_error (set_cell a c h) b = nth_error h b.
Proof. revert a b; induction h as [|x h IH]; intros [|a] [|b] N; cbn; auto; try congruence. Qed.
Lemma put_obj_length o p l : length (put_obj o p l) = length l.
Proof. revert o; induction l as [|x l IH]; intros [|o]; cbn; auto. Qed.
Lemma put_obj_same o p l : o < length l -> nth_error (put_obj o p l) o = Some p.
Proof. revert o; induction l as [|x l IH]; intros [|o] L; cbn in *; try lia; auto. apply IH. lia. Qed.
Lemma put_obj_other o o' p l : o <> o' -> nth_error (put_obj o p l) o' = nth_error l o'.
Proof. revert o o'; induction l as [|x l IH]; intros [|o] [|o'] N; cbn; auto; try congruence. Qed.
Lemma nth_new {A} (l : list A) x : nth_error (l ++ [x]) (length l) = Some x.
Proof. rewrite nth_error_app2, Nat.sub_diag; auto. Qed.
Lemma nth_old {A} (l m : list A) a : a < length l -> nth_error (l ++ m) a = nth_error l a.
Proof. apply nth_error_app1. Qed.
Lemma nth_snoc {A} (l : list A) x a y : nth_error (l ++ [x]) a = Some y -> nth_error l a = Some y \/ (a = length l /\ y = x).
Proof.
  intros E. destruct (lt_dec a (length l)) as [L|L]; [rewrite nth_old in E; auto|].
  rewrite nth_error_app2 in E by lia. destruct (a - length l) as [|k] eqn:K.
  - injection E as <-. right. split; auto. lia.
  - destruct k; discriminate E.
Qed.
Lemma nth_lt {A} (l : list A) a x : nth_error l a = Some x -> a < length l.
Proof. intros E. apply nth_error_Some. congruence. Qed.

(** ** Reading *)
Scheme reads_ind' := Minimality for reads Sort Prop
  with reads_all_ind' := Minimality for reads_all Sort Prop.
Combined Scheme reads_both from reads_ind', reads_all_ind'.

Lemma reads_agree h h' :
  (forall v t, reads h v t -> (forall a, reach h v a -> nth_error h' a = nth_error h a) -> reads h' v t) /\
  (forall l ts, reads_all h l ts -> (forall v a, In v l -> reach h v a -> nth_error h' a = nth_error h a) -> reads_all h' l ts).
Proof.
  apply reads_both.
  - constructor.
  - intros a items l N _ IH A. econstructor.
    + rewrite A; [exact N|constructor].
    + apply IH. intros v b I R. apply A. econstructor; eauto.
  - constructor.
  - intros v t items l _ IH _ IHl A. constructor.
    + apply IH. intros a R. apply (A v); [left; auto|auto].
    + apply IHl. intros u a I. apply A. right; auto.
Qed.
Lemma reads_same h h' v t : reads h v t -> (forall a, reach h v a -> nth_error h' a = nth_error h a) -> reads h' v t.
Proof. apply reads_agree. Qed.

Lemma reads_reach h :
  (forall v t, reads h v t -> forall a, reach h v a -> a < length h) /\
  (forall l ts, reads_all h l ts -> forall v a, In v l -> reach h v a -> a < length h).
Proof.
  apply reads_both.
  - intros a b R. inversion R.
  - intros a items l N _ IH b R. inversion R as [|a' items' v b' N' I R' E]; subst; [eapply nth_lt; eauto|].
    rewrite N in N'. injection N' as <-. eapply IH; eauto.
  - intros v a [].
  - intros v t items l _ IH _ IHl u a [<-|I] R; eauto.
Qed.
Lemma reads_grows h h' v t : (forall a, a < length h -> nth_error h' a = nth_error h a) -> reads h v t -> reads h' v t.
Proof. intros A R. apply (reads_same h); auto. intros a H. apply A. eapply (proj1 (reads_reach _)); eauto. Qed.

Lemma reach_agree h h' v a :
  reach h v a -> (forall b, reach h v b -> nth_error h' b = nth_error h b) -> reach h' v a.
Proof.
  induction 1 as [a|a items v b N I R IH]; intros A; [constructor|].
  econstructor; [rewrite A; [exact N|constructor]|exact I|]. apply IH. intros c C. apply A. econstructor; eauto.
Qed.
Lemma reach_back h h' v a :
  reach h' v a -> (forall b, reach h v b -> nth_error h' b = nth_error h b) -> reach h v a.
Proof.
  induction 1 as [a|a items v b N I R IH]; intros A; [constructor|].
  rewrite A in N by constructor.
  econstructor; [exact N|exact I|]. apply IH. intros c C. apply A. econstructor; eauto.
Qed.

(** ** Copies are new *)
Definition fresh (n l : nat) (v : hval) : Prop := forall a, v = HRef a -> n <= a < l.
Definition new_cells (n : nat) (h : heap) : Prop :=
  forall a items, n <= a -> nth_error h a = Some items -> Forall (fresh n (length h)) items.
Lemma fresh_le n l l' v : fresh n l v -> l <= l' -> fresh n l' v.
Proof. intros H L a E. specialize (H a E). lia. Qed.
Lemma fresh_all n l l' vs : Forall (fresh n l) vs -> l <= l' -> Forall (fresh n l') vs.
Proof. intros H L. eapply Forall_impl; [|exact H]. intros; eapply fresh_le; eauto. Qed.

Definition copies (n : nat) (h h' : heap) (m' : memo) : Prop :=
  length h <= length h' /\ (forall a, a < n -> nth_error h' a = nth_error h a) /\
  (forall a b, In (a, b) m' -> n <= b < length h') /\ new_cells n h'.

Lemma met_In a m b : met a m = Some b -> In (a, b) m.
Proof.
  induction m as [|[x y] m IH]; cbn; [discriminate|].
  destruct (Nat.eqb x a) eqn:E; [apply Nat.eqb_eq in E; intros [= <-]; subst; auto|auto].
Qed.

Lemma copy_items_fresh n copy :
  (forall m h v h' m' v', copy m h v = Ok (h', m', v') -> n <= length h -> (forall a b, In (a, b) m -> n <= b < length h) ->
     new_cells n h -> copies n h h' m' /\ fresh n (length h') v') ->
  forall l m h h' m' l', copy_items copy m h l = Ok (h', m', l') -> n <= length h ->
    (forall a b, In (a, b) m -> n <= b < length h) -> new_cells n h ->
    copies n h h' m' /\ Forall (fresh n (length h')) l'.
Proof.
  intros C. induction l as [|v l IH]; intros m h h' m' l' E N M W; cbn in E.
  - injection E as <- <- <-. split; [|constructor]. repeat split; auto; eapply M; eauto.
  - destruct (copy m h v) as [[[h1 m1] v1]|] eqn:E1; [|discriminate].
    destruct (copy_items copy m1 h1 l) as [[[h2 m2] l2]|] eqn:E2; [|discriminate]. injection E as <- <- <-.
    destruct (C _ _ _ _ _ _ E1 N M W) as [(L1 & A1 & M1 & W1) F1].
    destruct (IH _ _ _ _ _ E2 ltac:(lia) M1 W1) as [(L2 & A2 & M2 & W2) F2].
    split; [|constructor; [eapply fresh_le; eauto|auto]].
    split; [lia|]. split; [|split; auto]. intros a La. rewrite A2, A1; auto.
Qed.

Lemma deepcopy_fresh n f : forall m h v h' m' v', deepcopy f m h v = Ok (h', m', v') -> n <= length h ->
  (forall a b, In (a, b) m -> n <= b < length h) -> new_cells n h -> copies n h h' m' /\ fresh n (length h') v'.
Proof.
  induction f as [|f IH]; intros m h v h' m' v' E N M W; (destruct v as [a|a];
    [cbn in E; injection E as <- <- <-; split; [repeat split; auto; eapply M; eauto|intros x X; discriminate]|]);
    cbn [deepcopy] in E; (destruct (met a m) as [b|] eqn:B;
    [injection E as <- <- <-; split; [repeat split; auto; eapply M; eauto|]; intros x [= <-]; apply (M a); apply met_In; auto|]).
  - discriminate.
  - destruct (nth_error h a) as [items|] eqn:H; [|discriminate].
    destruct (copy_items (deepcopy f) ((a, length h) :: m) (h ++ [[]]) items) as [[[h2 m2] l2]|] eqn:E2; [|discriminate].
    injection E as <- <- <-.
    destruct (copy_items_fresh n (deepcopy f) IH _ _ _ _ _ _ E2) as [(L2 & A2 & M2 & W2) F2].
    + rewrite app_length; cbn; lia.
    + rewrite app_length; cbn. intros x b [[= <- <-]|I]; [lia|]. specialize (M x b I). lia.
    + intros x l X NX. rewrite app_length; cbn. destruct (nth_snoc _ _ _ _ NX) as [NX'|[-> ->]]; [|constructor].
      eapply fresh_all; [eapply W; eauto|lia].
    + rewrite app_length in L2; cbn in L2. split.
      * split; [rewrite set_cell_length; lia|]. split; [|split].
        -- intros x X. rewrite set_cell_other by lia. rewrite A2 by auto. apply nth_old. lia.
        -- intros x b I. rewrite set_cell_length. eauto.
        -- intros x l X NX. rewrite set_cell_length. destruct (Nat.eq_dec x (length h)) as [->|D].
           ++ rewrite set_cell_same in NX by lia. injection NX as <-. auto.
           ++ rewrite set_cell_other in NX by auto. eapply W2; eauto.
      * intros x [= <-]. rewrite set_cell_length. lia.
Qed.

Lemma deepcopy_new f h v h' m' v' : deepcopy f [] h v = Ok (h', m', v') ->
  length h <= length h' /\ (forall a, a < length h -> nth_error h' a = nth_error h a) /\
  new_cells (length h) h' /\ fresh (length h) (length h') v'.
Proof.
  intros E. destruct (deepcopy_fresh (length h) f _ _ _ _ _ _ E) as [(L & A & _ & W) F]; auto.
  - intros a b [].
  - intros a items X NX. apply nth_lt in NX. lia.
Qed.

(** ** Copies look the same *)
Fixpoint size (t : tree) : nat :=
  match t with TAtom _ => 0 | TList l => S (fold_right (fun t n => size t + n) 0 l) end.
Definition sizes (l : list tree) : nat := fold_right (fun t n => size t + n) 0 l.
Definition depths (l : list tree) : nat := fold_right (fun t n => Nat.max (depth t) n) 0 l.

Lemma reads_unique h :
  (forall v t, reads h v t -> forall t', reads h v t' -> t' = t) /\
  (forall l ts, reads_all h l ts -> forall ts', reads_all h l ts' -> ts' = ts).
Proof.
  apply reads_both.
  - intros a t' R. inversion R; auto.
  - intros a items l N _ IH t' R. inversion R as [|a' items' l' N' R' E1 E2]; subst.
    rewrite N in N'. injection N' as <-. f_equal. auto.
  - intros ts' R. inversion R; auto.
  - intros v t items l _ IH _ IHl ts' R. inversion R; subst. f_equal; auto.
Qed.

Section Copy.
Variable h0 : heap.
Notation n := (length h0).
(** The copy [b] of [a] is finished: it does not lead to a list that is being made. *)
Definition avoids (P : nat -> Prop) (h : heap) (v : hval) : Prop := forall x, reach h v x -> n <= x /\ ~ P x.
Definition finished (P : nat -> Prop) (h : heap) (a b : nat) : Prop :=
  forall t, reads h0 (HRef a) t -> reads h (HRef b) t /\ avoids P h (HRef b).
Definition memo_ok (P : nat -> Prop) (h : heap) (m : memo) (k : nat) : Prop :=
  forall a b, In (a, b) m -> finished P h a b \/ (forall t, reads h0 (HRef a) t -> k < size t).
Definition kept (P : nat -> Prop) (h h' : heap) : Prop :=
  length h <= length h' /\ forall x, x < length h -> nth_error h' x = nth_error h x.

Lemma finished_kept P h h' a b : kept P h h' -> finished P h a b -> finished P h' a b.
Proof.
  intros [L A] H t R. destruct (H t R) as [R1 V].
  assert (AG : forall x, reach h (HRef b) x -> nth_error h' x = nth_error h x).
  { intros x X. apply A. eapply (proj1 (reads_reach _)); eauto. }
  split; [eapply reads_same; eauto|]. intros x X. apply V. eapply reach_back; eauto.
Qed.

Definition copies_well (f : nat) : Prop :=
  forall (P : nat -> Prop) m h v t, (forall x, x < n -> nth_error h x = nth_error h0 x) -> n <= length h ->
    (forall x, P x -> n <= x < length h) ->
    reads h0 v t -> depth t <= f -> memo_ok P h m (size t) ->
    exists h' m' v', deepcopy f m h v = Ok (h', m', v') /\ kept P h h' /\ reads h' v' t /\ avoids P h' v' /\
      (forall a b, In (a, b) m' -> In (a, b) m \/ finished P h' a b).

Lemma memo_later P h h' m m' k : kept P h h' -> memo_ok P h m k ->
  (forall a b, In (a, b) m' -> In (a, b) m \/ finished P h' a b) -> memo_ok P h' m' k.
Proof.
  intros K M H a b I. destruct (H a b I) as [J|J]; [|auto].
  destruct (M a b J) as [F|F]; [left; eapply finished_kept; eauto|auto].
Qed.
Lemma memo_less P h m k k' : memo_ok P h m k -> k' <= k -> memo_ok P h m k'.
Proof. intros M L a b I. destruct (M a b I) as [F|F]; [auto|right]. intros t R. specialize (F t R). lia. Qed.

Lemma copy_items_well f : copies_well f -> forall items ts, reads_all h0 items ts -> forall (P : nat -> Prop) m h,
  (forall x, x < n -> nth_error h x = nth_error h0 x) -> n <= length h ->
  (forall x, P x -> n <= x < length h) -> depths ts <= f -> memo_ok P h m (sizes ts) ->
  exists h' m' items', copy_items (deepcopy f) m h items = Ok (h', m', items') /\ kept P h h' /\ reads_all h' items' ts /\
    (forall v, In v items' -> avoids P h' v) /\ (forall a b, In (a, b) m' -> In (a, b) m \/ finished P h' a b).
Proof.
  intros C items ts R. induction R as [|v t items ts R R' IH]; intros P m h O N PB D M.
  - exists h, m, []. split; [reflexivity|]. split; [split; auto|]. split; [constructor|]. split; [intros ? []|auto].
  - cbn in D, M.
    destruct (C P m h v t O N PB R ltac:(lia)) as (h1 & m1 & v1 & E1 & K1 & R1 & V1 & M1).
    { eapply memo_less; eauto. lia. }
    destruct (IH P m1 h1) as (h2 & m2 & l2 & E2 & K2 & R2 & V2 & M2).
    + intros x X. destruct K1 as [_ A]. rewrite A by lia. auto.
    + destruct K1; lia.
    + intros x X. specialize (PB x X). destruct K1. lia.
    + unfold depths. lia.
    + eapply memo_later; eauto. eapply memo_less; eauto. unfold sizes. lia.
    + exists h2, m2, (v1 :: l2). cbn [copy_items]. rewrite E1, E2. split; [reflexivity|].
      assert (AG : forall x, reach h1 v1 x -> nth_error h2 x = nth_error h1 x).
      { intros x X. apply K2. eapply (proj1 (reads_reach _)); eauto. }
      split; [|split; [|split]].
      * destruct K1 as [L1 A1], K2 as [L2 A2]. split; [lia|]. intros x X. rewrite A2, A1; auto. lia.
      * constructor; [eapply reads_same; eauto|auto].
      * intros u [<-|I]; [|auto]. intros x X. apply V1. eapply reach_back; eauto.
      * intros a b I. destruct (M2 a b I) as [J|J]; [|auto]. destruct (M1 a b J) as [J'|J']; [auto|].
        right. eapply finished_kept; eauto.
Qed.

Lemma size_list l : size (TList l) = S (sizes l).
Proof. reflexivity. Qed.
Lemma depth_list l : depth (TList l) = S (depths l).
Proof. reflexivity. Qed.

Lemma deepcopy_well f : copies_well f.
Proof.
  induction f as [|f IH]; intros P m h v t O N PB R D M; destruct R as [a|a items l H RL].
  - exists h, m, (HAtom a). cbn. split; [reflexivity|]. split; [split; auto|]. split; [constructor|]. split; [intros x X; inversion X|auto].
  - rewrite depth_list in D. lia.
  - exists h, m, (HAtom a). cbn. split; [reflexivity|]. split; [split; auto|]. split; [constructor|]. split; [intros x X; inversion X|auto].
  - rewrite depth_list in D.
    assert (RA : reads h0 (HRef a) (TList l)) by (econstructor; eauto).
    cbn [deepcopy]. destruct (met a m) as [b|] eqn:B.
    + exists h, m, (HRef b). split; [reflexivity|]. split; [split; auto|].
      destruct (M a b (met_In _ _ _ B)) as [F|F]; [|specialize (F _ RA); lia].
      destruct (F _ RA). auto.
    + rewrite (O a) by (eapply nth_lt; eauto). rewrite H.
      set (b := length h). set (P' := fun x => P x \/ x = b).
      assert (KB : kept P' h (h ++ [[]])).
      { split; [rewrite app_length; lia|]. intros x X. apply nth_old. auto. }
      destruct (copy_items_well f IH items l RL P' ((a, b) :: m) (h ++ [[]])) as (h2 & m2 & l2 & E2 & K2 & R2 & V2 & M2).
      * intros x X. rewrite nth_old by lia. auto.
      * rewrite app_length. lia.
      * intros x [X|X]; rewrite app_length; cbn; [specialize (PB x X); lia|subst x; unfold b; lia].
      * lia.
      * intros x y [[= <- <-]|I].
        -- right. intros t' R'. rewrite (proj1 (reads_unique h0) _ _ RA _ R'), size_list. lia.
        -- destruct (M x y I) as [F|F]; [|right; intros t' R'; specialize (F t' R'); rewrite size_list in F; lia].
           left. intros t' R'. destruct (F t' R') as [R1 V1].
           assert (AG : forall z, reach h (HRef y) z -> nth_error (h ++ [[]]) z = nth_error h z).
           { intros z Z. apply KB. eapply (proj1 (reads_reach _)); eauto. }
           split; [eapply reads_same; eauto|]. intros z Z. apply (reach_back h) in Z; auto.
           destruct (V1 z Z) as [G NP]. split; auto. intros [X|X]; [auto|subst z].
           assert (b < length h) by (eapply (proj1 (reads_reach _)); eauto). unfold b in *; lia.
      * rewrite E2. exists (set_cell b l2 h2), m2, (HRef b). split; [reflexivity|].
        assert (L2 : b < length h2). { destruct K2 as [L _]. rewrite app_length in L. cbn in L. unfold b. lia. }
        assert (AG : forall x, x <> b -> nth_error (set_cell b l2 h2) x = nth_error h2 x).
        { intros x X. apply set_cell_other. auto. }
        assert (AGV : forall v x, In v l2 -> reach h2 v x -> nth_error (set_cell b l2 h2) x = nth_error h2 x).
        { intros v x I X. apply AG. intros ->. destruct (V2 v I b X) as [_ NP]. apply NP. right; auto. }
        assert (K : kept P h (set_cell b l2 h2)).
        { destruct K2 as [L A]. rewrite app_length in L. cbn in L. split; [rewrite set_cell_length; lia|].
          intros x X. rewrite AG by (unfold b; lia). rewrite A by (rewrite app_length; cbn; lia). apply nth_old; auto. }
        assert (RB : reads (set_cell b l2 h2) (HRef b) (TList l)).
        { econstructor; [apply set_cell_same; auto|]. eapply reads_agree; eauto. }
        assert (VB : avoids P (set_cell b l2 h2) (HRef b)).
        { intros x X. inversion X as [|a' items' v b' N' I X' E]; subst.
          - split; [unfold b; lia|]. intros PX. specialize (PB b PX). unfold b in *; lia.
          - rewrite set_cell_same in N' by auto. injection N' as <-.
            destruct (V2 v I x) as [G NP]; [|split; auto; intros PX; apply NP; left; auto].
            eapply reach_back; [exact X'|]. intros; eapply AGV; eauto. }
        split; [exact K|]. split; [exact RB|]. split; [exact VB|].
        intros x y I. destruct (M2 x y I) as [[[= <- <-]|J]|J]; [|auto|].
        -- right. intros t' R'. rewrite (proj1 (reads_unique h0) _ _ RA _ R'). auto.
        -- right. intros t' R'. destruct (J t' R') as [R1 V1].
           assert (AGY : forall z, reach h2 (HRef y) z -> nth_error (set_cell b l2 h2) z = nth_error h2 z).
           { intros z Z. apply AG. intros ->. destruct (V1 b Z) as [_ NP]. apply NP. right; auto. }
           split; [eapply reads_same; eauto|]. intros z Z. apply (reach_back h2) in Z; auto.
           destruct (V1 z Z) as [G NP]. split; auto. intros PX. apply NP. left; auto.
Qed.

Lemma deepcopy_reads f v t : reads h0 v t -> depth t <= f ->
  exists h' m' v', deepcopy f [] h0 v = Ok (h', m', v') /\ reads h' v' t.
Proof.
  intros R D. destruct (deepcopy_well f (fun _ => False) [] h0 v t) as (h' & m' & v' & E & K & R' & _); auto.
  - intros x [].
  - intros a b [].
  - eauto.
Qed.
End Copy.
