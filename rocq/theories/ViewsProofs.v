(** * Views and dicts: what the methods change (C96). *)
From Coq Require Import String NArith ZArith List Bool Arith Lia.
Import ListNotations.
From Verif Require Import PyBase PyFacts Shlex IniView IniRead ExcControl Debuggable Cpe Views SpecViews.
Local Open Scope string_scope.
Local Open Scope list_scope.

(** ** Lists *)
Lemma set_at_length {A} n (x : A) l : length (set_at n x l) = length l.
Proof. revert n. induction l as [|y l IH]; intros [|n]; cbn; auto. Qed.
Lemma set_at_same {A} n (x : A) l : n < length l -> nth_error (set_at n x l) n = Some x.
Proof. revert n. induction l as [|y l IH]; intros [|n]; cbn; intros H; try lia; [reflexivity|]. apply IH. lia. Qed.
Lemma set_at_other {A} n m (x : A) l : m <> n -> nth_error (set_at n x l) m = nth_error l m.
Proof. revert n m. induction l as [|y l IH]; intros [|n] [|m]; cbn; intros H; try reflexivity; try congruence. apply IH. lia. Qed.
Lemma nth_of {A} (l : list A) n d x : nth_error l n = Some x -> nth n l d = x.
Proof. revert n. induction l as [|y l IH]; intros [|n]; cbn; try discriminate; [congruence|apply IH]. Qed.
Lemma nth_set_same {A} n (x d : A) l : n < length l -> nth n (set_at n x l) d = x.
Proof. intros H. apply nth_of. now apply set_at_same. Qed.
Lemma nth_set_other {A} n m (x d : A) l : m <> n -> nth m (set_at n x l) d = nth m l d.
Proof. revert n m. induction l as [|y l IH]; intros [|n] [|m]; cbn; intros H; try reflexivity; try congruence. apply IH. lia. Qed.
Lemma nth_snoc {A} (l : list A) d n : nth n (l ++ [d]) d = nth n l d.
Proof. revert n. induction l as [|y l IH]; intros [|n]; cbn; auto. destruct n; reflexivity. Qed.

Section P.
Context {Sh Us : Type}.
Notation obj := (obj Sh Us).
Notation world := (world (Sh := Sh) (Us := Us)).
Notation wctx := (wctx (Sh := Sh) (Us := Us)).
Notation ctx := (ctx Sh Us).
Variable K : pyclass Sh Us.
Variable fs : str -> option str.

(** ** The object that a state looks like *)
Definition inside (D : list (dict (option str))) (x : dict nat) : sections_data := map (fun sa => (fst sa, nth (snd sa) D [])) x.
Definition data_in (D : list (dict (option str))) (x : view) : edata := EData (inside D (v_data x)) (v_checked x) (v_level x) (v_debug x).
Definition abs (w : world) : obj :=
  set_edata (match w_cur w with None => None | Some v => option_map (data_in (w_dicts w)) (nth_error (w_views w) v) end) (w_obj w).

Lemma dget_inside D x s : dget s (inside D x) = option_map (fun a => nth a D []) (dget s x).
Proof. unfold inside. induction x as [|[k a] x IH]; cbn [map dget fst snd]; [reflexivity|]. destruct (str_eqb s k); [reflexivity|exact IH]. Qed.
Lemma dmem_inside D x s : dmem s (inside D x) = dmem s x.
Proof. unfold dmem. rewrite dget_inside. now destruct (dget s x). Qed.
Lemma inside_new D x s : inside (D ++ [[]]) (dset s (length D) x) = dset s [] (inside D x).
Proof.
  assert (Z : @nth (dict (option str)) (length D) (D ++ [[]]) [] = []) by (rewrite nth_snoc; apply nth_overflow, le_n).
  unfold inside. induction x as [|[k a] x IH]; cbn [map dset fst snd]; [now rewrite Z|].
  destruct (str_eqb s k); cbn [map fst snd].
  - rewrite Z. f_equal. apply map_ext. intros []. cbn. now rewrite nth_snoc.
  - rewrite nth_snoc. now f_equal.
Qed.
Lemma inside_put D x s a k val : dget s x = Some a -> a < length D -> NoDup (dkeys x) -> (forall s', dget s' x = Some a -> s' = s) ->
  inside (set_at a (dset k val (nth a D [])) D) x = dset s (dset k val (nth a D [])) (inside D x).
Proof.
  intros G L. unfold inside. revert G. induction x as [|[s1 a1] x IH]; cbn [map dset fst snd dget dkeys]; [discriminate|]. intros G ND U. inversion ND as [|? ? N1 N2]; subst.
  assert (T : forall s' b, dget s' x = Some b -> s' <> s1).
  { intros s' b Q ->. apply N1. apply dget_Some_In in Q. now apply (in_map fst) in Q. }
  destruct (str_eqb_spec s s1) as [E|N].
  - subst s1. injection G as ->. rewrite nth_set_same by exact L. f_equal. apply map_ext_in. intros [s2 a2] I. cbn [fst snd]. f_equal. apply nth_set_other. intros ->.
    destruct (dget s2 x) as [b|] eqn:Q; [|apply dget_None_keys in Q; exfalso; apply Q; now apply (in_map fst) in I].
    assert (b = a). { clear - I Q N2. induction x as [|[k1 b1] x IH]; [contradiction|]. cbn in Q, N2. inversion N2; subst. destruct I as [I|I].
      - injection I as -> ->. rewrite str_eqb_refl in Q. congruence.
      - destruct (str_eqb_spec s2 k1) as [->|]; [exfalso; apply H1; now apply (in_map fst) in I|]. now apply IH. }
    subst b. assert (s2 <> s) by (eapply T; eauto). apply H. apply U. destruct (str_eqb_spec s2 s); [contradiction|exact Q].
  - assert (a1 <> a). { intros ->. apply N. symmetry. apply U. now rewrite str_eqb_refl. }
    rewrite nth_set_other by exact H. f_equal. apply IH; [exact G|exact N2|]. intros s' Q. apply U. pose proof (T _ _ Q). destruct (str_eqb_spec s' s1); [contradiction|exact Q].
Qed.

(** ** What a step keeps *)
Record ext (w w' : world) : Prop := {
  e_cur : match w_cur w with Some v => w_cur w' = Some v | None => forall v, w_cur w' = Some v -> length (w_views w) <= v end;
  e_views : length (w_views w) <= length (w_views w');
  e_dicts : length (w_dicts w) <= length (w_dicts w');
  e_held : forall v s a, holds w v s a -> holds w' v s a;
  e_old : forall v s a, v < length (w_views w) -> w_cur w <> Some v -> holds w' v s a -> holds w v s a;
  e_new : forall v s a, holds w' v s a -> holds w v s a \/ length (w_dicts w) <= a;
  e_same : forall a, a < length (w_dicts w) -> detached w a -> nth_error (w_dicts w') a = nth_error (w_dicts w) a }.
Lemma holds_lt (w : world) v s a : holds w v s a -> v < length (w_views w).
Proof. intros (x & H & _). apply nth_error_Some. congruence. Qed.
Lemma ext_not_cur w w' v : ext w w' -> v < length (w_views w) -> w_cur w <> Some v -> w_cur w' <> Some v.
Proof. intros E L N Q. pose proof (e_cur _ _ E) as C. destruct (w_cur w) as [u|]; [congruence|]. specialize (C _ Q). lia. Qed.
Lemma ext_detached w w' a : ext w w' -> a < length (w_dicts w) -> detached w a -> detached w' a.
Proof.
  intros E L D v s H. destruct (e_new _ _ E _ _ _ H) as [H'|]; [|lia]. eapply ext_not_cur; [exact E|eapply holds_lt; eauto|eapply D; eauto].
Qed.
Lemma ext_refl w : ext w w.
Proof. constructor; auto. destruct (w_cur w); [reflexivity|discriminate]. Qed.
Lemma ext_trans w w' w'' : ext w w' -> ext w' w'' -> ext w w''.
Proof.
  intros E F. pose proof E as []. pose proof F as []. constructor; try lia.
  - destruct (w_cur w) as [v|] eqn:C; [rewrite e_cur0 in e_cur1; exact e_cur1|]. intros v Q. destruct (w_cur w') as [u|] eqn:C'; [|specialize (e_cur1 _ Q); lia].
    specialize (e_cur0 u eq_refl). assert (u = v) by congruence. lia.
  - auto.
  - intros v s a L N H. apply e_old0; [exact L|exact N|]. apply e_old1; [lia| |exact H]. eapply ext_not_cur; eauto.
  - intros v s a H. destruct (e_new1 _ _ _ H) as [H'|]; [|right; lia]. auto.
  - intros a L D. rewrite e_same1; [now apply e_same0|lia|]. eapply ext_detached; eauto.
Qed.

(** Steps that leave the views and dicts alone. *)
Definition still (w w' : world) : Prop :=
  w_cur w' = w_cur w /\ w_dicts w' = w_dicts w /\ map v_data (w_views w') = map v_data (w_views w).
Lemma still_holds w w' v s a : still w w' -> holds w' v s a <-> holds w v s a.
Proof.
  intros (_ & _ & E). unfold holds.
  assert (M : forall l l', map v_data l = map v_data l' -> forall x, nth_error l v = Some x -> exists y, nth_error l' v = Some y /\ v_data y = v_data x).
  { clear. intros l l' E x H. apply (map_nth_error v_data) in H. rewrite E in H. revert H. generalize (v_data x). clear.
    revert l'. induction v as [|v IH]; intros [|y l'] d; cbn; try discriminate; [intros H; injection H as <-; eauto|apply IH]. }
  split; intros (x & H & D).
  - destruct (M _ _ E x H) as (y & H' & Q). exists y. now rewrite Q.
  - destruct (M _ _ (eq_sym E) x H) as (y & H' & Q). exists y. now rewrite Q.
Qed.
Lemma still_ext w w' : still w w' -> ext w w'.
Proof.
  intros S. pose proof S as (C & D & V). apply (f_equal (@length _)) in V. rewrite !map_length in V. constructor; try lia.
  - rewrite C. destruct (w_cur w); [reflexivity|discriminate].
  - rewrite D. lia.
  - intros v s a H. now apply (still_holds _ _ _ _ _ S).
  - intros v s a _ _ H. now apply (still_holds _ _ _ _ _ S).
  - intros v s a H. left. now apply (still_holds _ _ _ _ _ S).
  - intros a _ _. now rewrite D.
Qed.
Lemma still_sound w w' : still w w' -> sound w -> sound w'.
Proof.
  intros S (A & B & C & D). pose proof S as (SC & SD & SV). pose proof (f_equal (@length _) SV) as SL. rewrite !map_length in SL.
  split; [rewrite SC, SL; exact A|]. split; [|split].
  - intros v x H. apply (map_nth_error v_data) in H. rewrite SV in H. assert (exists y, nth_error (w_views w) v = Some y /\ v_data y = v_data x) as (y & Q & E).
    { clear - H. revert H. generalize (v_data x). generalize (w_views w). induction v as [|v IH]; intros [|y l'] d; cbn; try discriminate; [intros H; injection H as <-; eauto|apply IH]. }
    rewrite <- E. eauto.
  - intros v s a H. rewrite SD. apply (still_holds _ _ _ _ _ S) in H. eauto.
  - intros v s a v' s' H H'. apply (still_holds _ _ _ _ _ S) in H, H'. eauto.
Qed.
Lemma put_still (w : world) v x y : nth_error (w_views w) v = Some x -> v_data y = v_data x -> still w (World (set_at v y (w_views w)) (w_dicts w) (w_cur w) (w_obj w)).
Proof.
  intros H E. split; [reflexivity|]. split; [reflexivity|]. cbn [w_views]. revert v H. induction (w_views w) as [|z l IH]; intros [|v] H; cbn in *; try discriminate.
  - injection H as ->. now rewrite E.
  - f_equal. now apply IH.
Qed.

(** ** A new dict *)
Lemma add_ext (w : world) v x s : sound w -> nth_error (w_views w) v = Some x -> dget s (v_data x) = None -> w_cur w = Some v ->
  let w' := World (set_at v (View (dset s (length (w_dicts w)) (v_data x)) (v_checked x) (v_level x) (v_debug x)) (w_views w)) (w_dicts w ++ [[]]) (w_cur w) (w_obj w) in
  ext w w'.
Proof.
  intros SO H N C w'. assert (L : v < length (w_views w)) by (apply nth_error_Some; congruence).
  assert (HO : forall u t a, holds w' u t a <-> if Nat.eq_dec u v then (if list_eq_dec N.eq_dec t s then a = length (w_dicts w) else holds w u t a) else holds w u t a).
  { intros u t a. unfold holds, w'. cbn [w_views]. destruct (Nat.eq_dec u v) as [->|D].
    - rewrite set_at_same by exact L. destruct (list_eq_dec N.eq_dec t s) as [->|D].
      + split; [intros (y & E & G); injection E as <-; cbn [v_data] in G; rewrite dget_dset_same in G; congruence|intros ->; eexists; split; [reflexivity|]; apply dget_dset_same].
      + split; intros (y & E & G).
        * injection E as <-. cbn [v_data] in G. rewrite dget_dset_other in G by exact D. eauto.
        * rewrite H in E. injection E as <-. eexists. split; [reflexivity|]. cbn [v_data]. now rewrite dget_dset_other.
    - rewrite set_at_other by exact D. reflexivity. }
  constructor; cbn [w_cur w_views w_dicts].
  - rewrite C. exact C.
  - unfold w'. cbn [w_views]. rewrite set_at_length. lia.
  - unfold w'. cbn [w_dicts]. rewrite app_length. lia.
  - intros u t a Q. apply HO. destruct (Nat.eq_dec u v) as [->|]; [|exact Q]. destruct (list_eq_dec N.eq_dec t s) as [->|]; [|exact Q].
    destruct Q as (y & E & G). rewrite H in E. injection E as <-. congruence.
  - intros u t a _ D Q. apply HO in Q. destruct (Nat.eq_dec u v) as [->|]; [congruence|exact Q].
  - intros u t a Q. apply HO in Q. destruct (Nat.eq_dec u v) as [->|]; [|now left]. destruct (list_eq_dec N.eq_dec t s) as [->|]; [right; lia|now left].
  - intros a La _. unfold w'. cbn [w_dicts]. apply nth_error_app1. exact La.
Qed.
Lemma add_sound (w : world) v x s : sound w -> nth_error (w_views w) v = Some x ->
  let w' := World (set_at v (View (dset s (length (w_dicts w)) (v_data x)) (v_checked x) (v_level x) (v_debug x)) (w_views w)) (w_dicts w ++ [[]]) (w_cur w) (w_obj w) in
  sound w' /\ forall u t a, holds w' u t a -> (holds w u t a /\ (u <> v \/ t <> s)) \/ (a = length (w_dicts w) /\ u = v /\ t = s).
Proof.
  intros (A & B & C & D) H w'. assert (L : v < length (w_views w)) by (apply nth_error_Some; congruence).
  assert (HO : forall u t a, holds w' u t a -> (holds w u t a /\ (u <> v \/ t <> s)) \/ (a = length (w_dicts w) /\ u = v /\ t = s)).
  { intros u t a. unfold holds, w'. cbn [w_views]. destruct (Nat.eq_dec u v) as [->|Q].
    - rewrite set_at_same by exact L. intros (y & E & G). injection E as <-. cbn [v_data] in G. destruct (list_eq_dec N.eq_dec t s) as [->|Q].
      + rewrite dget_dset_same in G. injection G as <-. right. auto.
      + rewrite dget_dset_other in G by exact Q. left. split; [eauto|auto].
    - rewrite set_at_other by exact Q. intros E. left. split; [exact E|auto]. }
  split; [|exact HO]. split; [|split; [|split]].
  - unfold w'. cbn [w_cur w_views]. rewrite set_at_length. exact A.
  - intros u y. unfold w'. cbn [w_views]. destruct (Nat.eq_dec u v) as [->|Q]; [rewrite set_at_same by exact L; intros E; injection E as <-|rewrite set_at_other by exact Q; apply B].
    cbn [v_data]. apply NoDup_dkeys_dset. eauto.
  - intros u t a Q. unfold w'. cbn [w_dicts]. rewrite app_length. cbn [length]. destruct (HO _ _ _ Q) as [(Q' & _)|(-> & _)]; [specialize (C _ _ _ Q')|]; lia.
  - intros u t a u' t' Q Q'. destruct (HO _ _ _ Q) as [(R & _)|(-> & -> & ->)], (HO _ _ _ Q') as [(R' & _)|(E & -> & ->)]; try (now split).
    + eauto.
    + apply C in R. lia.
    + apply C in R'. lia.
Qed.

(** ** A changed dict *)
Lemma put_sound (w : world) a d : sound w -> sound (World (w_views w) (set_at a d (w_dicts w)) (w_cur w) (w_obj w)).
Proof.
  intros (A & B & C & D). split; [exact A|]. split; [exact B|]. split; [|exact D]. intros v s b H. cbn [w_dicts]. rewrite set_at_length. exact (C v s b H).
Qed.
Lemma put_ext (w : world) v s a d : holds w v s a -> w_cur w = Some v -> ext w (World (w_views w) (set_at a d (w_dicts w)) (w_cur w) (w_obj w)).
Proof.
  intros H C. constructor; cbn [w_cur w_views w_dicts]; try lia; auto.
  - rewrite C. reflexivity.
  - rewrite set_at_length. lia.
  - intros b _ D. apply set_at_other. intros ->. exact (D v s H C).
Qed.
End P.
