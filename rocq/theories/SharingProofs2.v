(** * Programs cannot change what they cannot get at. *)
From Coq Require Import List Arith Lia Bool.
Import ListNotations.
From Verif Require Import PyBase Sharing SpecSharing SharingProofs.

Section Frame.
Variable d : prop_decl.
Variable fuel : nat.
(** [F]: the lists that are out of reach; [B]: whether references are known to be
    to lists that exist; [hidden]: the objects that are left alone. *)
Variable w0 : hworld.
Variable F : nat -> Prop.
Variable B : Prop.
Variable hidden : nat -> Prop.
Hypothesis F_old : forall a, F a -> a < length (w_heap w0).
Hypothesis hidden_old : forall o, hidden o -> o < length (w_objs w0).

Definition ok (len : nat) (v : hval) : Prop := forall a, v = HRef a -> ~ F a /\ (B -> a < len).
Record inv (w : hworld) : Prop := {
  i_len : length (w_heap w0) <= length (w_heap w);
  i_objs : length (w_objs w0) <= length (w_objs w);
  i_same : forall a, F a -> nth_error (w_heap w) a = nth_error (w_heap w0) a;
  i_cells : forall a items, ~ F a -> nth_error (w_heap w) a = Some items -> Forall (ok (length (w_heap w))) items;
  i_vars : forall x, ok (length (w_heap w)) (w_vars w x);
  i_open : forall o v, ~ hidden o -> value_of w o v -> ok (length (w_heap w)) v;
  i_hid : forall o, hidden o -> nth_error (w_objs w) o = nth_error (w_objs w0) o
}.
Definition allowed (s : stmt) : Prop := forall o, hidden o -> leaves o s.

Lemma ok_le l l' v : ok l v -> l <= l' -> ok l' v.
Proof. intros H L a E. destruct (H a E) as [N K]. split; auto. intros b. specialize (K b). lia. Qed.
Lemma ok_all l l' vs : Forall (ok l) vs -> l <= l' -> Forall (ok l') vs.
Proof. intros H L. eapply Forall_impl; [|exact H]. intros; eapply ok_le; eauto. Qed.
Lemma ok_atom l a : ok l (HAtom a).
Proof. intros x E. discriminate. Qed.
Lemma ok_fresh n l v : length (w_heap w0) <= n -> fresh n l v -> ok l v.
Proof. intros L H a E. specialize (H a E). split; [|lia]. intros X. apply F_old in X. lia. Qed.

(** More lists, all of them new. *)
Lemma inv_heap w h' : inv w -> length (w_heap w) <= length h' ->
  (forall a, a < length (w_heap w) -> nth_error h' a = nth_error (w_heap w) a) ->
  (forall a items, length (w_heap w) <= a -> nth_error h' a = Some items -> Forall (ok (length h')) items) ->
  inv (HWorld h' (w_objs w) (w_vars w)).
Proof.
  intros I L A C. constructor; cbn.
  - pose proof (i_len w I). eapply Nat.le_trans; eauto.
  - apply (i_objs w I).
  - intros a X. rewrite A by (apply F_old in X; pose proof (i_len w I); lia). apply (i_same w I a X).
  - intros a items X N. destruct (lt_dec a (length (w_heap w))) as [D|D].
    + rewrite A in N by auto. eapply ok_all; [eapply (i_cells w I); eauto|lia].
    + apply (C a); [apply Nat.nlt_ge; exact D|exact N].
  - intros x. eapply ok_le; [apply (i_vars w I)|auto].
  - intros o v H V. eapply ok_le; [eapply (i_open w I); eauto|auto].
  - apply (i_hid w I).
Qed.
Lemma inv_var w x v : inv w -> ok (length (w_heap w)) v -> inv (HWorld (w_heap w) (w_objs w) (put_var x v (w_vars w))).
Proof.
  intros I O. destruct I. constructor; cbn; auto. intros y. unfold put_var. destruct (Nat.eqb y x); auto.
Qed.
Lemma inv_obj w o p : inv w -> ~ hidden o -> (forall v, p_var p = Some v -> ok (length (w_heap w)) v) ->
  inv (HWorld (w_heap w) (put_obj o p (w_objs w)) (w_vars w)).
Proof.
  intros I H O. destruct I. constructor; cbn; auto.
  - rewrite put_obj_length. auto.
  - intros o' v H' (q & N & V). cbn in N. destruct (Nat.eq_dec o o') as [<-|D].
    + destruct (lt_dec o (length (w_objs w))) as [L|L].
      * rewrite put_obj_same in N by auto. injection N as <-. auto.
      * apply nth_lt in N. rewrite put_obj_length in N. lia.
    + rewrite put_obj_other in N by auto. eapply i_open0; eauto. exists q. auto.
  - intros o' H'. rewrite put_obj_other; auto. intros <-. auto.
Qed.
Lemma inv_new w : inv w -> inv (HWorld (w_heap w) (w_objs w ++ [new_pobj]) (w_vars w)).
Proof.
  intros I. destruct I. constructor; cbn; auto.
  - rewrite app_length. lia.
  - intros o v H (q & N & V). cbn in N. destruct (nth_snoc _ _ _ _ N) as [N'|[-> ->]]; [|discriminate V].
    eapply i_open0; eauto. exists q. auto.
  - intros o H. rewrite nth_old; auto. apply hidden_old in H. lia.
Qed.
Lemma inv_cell w a items : inv w -> ~ F a -> Forall (ok (length (w_heap w))) items ->
  inv (HWorld (set_cell a items (w_heap w)) (w_objs w) (w_vars w)).
Proof.
  intros I N O. destruct I. constructor; cbn; rewrite ?set_cell_length; auto.
  - intros b X. rewrite set_cell_other; auto. intros <-. auto.
  - intros b l X E. destruct (Nat.eq_dec a b) as [<-|D].
    + rewrite set_cell_same in E; [injection E as <-; auto|]. apply nth_lt in E. rewrite set_cell_length in E. auto.
    + rewrite set_cell_other in E; eauto.
Qed.

Lemma new_list h items l : Forall (ok (length (h ++ [items]))) items ->
  length h <= l -> forall a its, l <= a -> nth_error (h ++ [items]) a = Some its -> Forall (ok (length (h ++ [items]))) its.
Proof.
  intros O L a its X N. destruct (nth_snoc _ _ _ _ N) as [N'|[_ ->]]; auto. apply nth_lt in N'. lia.
Qed.
Lemma inv_list w items : inv w -> Forall (ok (length (w_heap w ++ [items]))) items ->
  inv (HWorld (w_heap w ++ [items]) (w_objs w) (w_vars w)) /\ ok (length (w_heap w ++ [items])) (HRef (length (w_heap w))).
Proof.
  intros I O. split.
  - apply inv_heap; auto; [rewrite app_length; lia|intros; apply nth_old; auto|apply new_list; auto].
  - apply (ok_fresh (length (w_heap w))); [apply (i_len w I)|]. intros a [= <-]. rewrite app_length; cbn; lia.
Qed.

Lemma inv_get w o p r h p' : inv w -> ~ hidden o -> nth_error (w_objs w) o = Some p ->
  prop_get d fuel (w_heap w) p = (r, h, p') ->
  inv (HWorld h (w_objs w) (w_vars w)) /\ (forall v, p_var p' = Some v -> ok (length h) v) /\
  (forall v, r = Ok v -> ok (length h) v).
Proof.
  intros I H N E. unfold prop_get in E. cbn [p_var p_set] in E.
  assert (OV : forall v, p_var p = Some v -> ok (length (w_heap w)) v).
  { intros v V. apply (i_open w I o); auto. exists p; auto. }
  assert (I' : inv (HWorld (w_heap w) (w_objs w) (w_vars w))) by (destruct w; exact I).
  destruct (p_req d && negb _) in E.
  { injection E as <- <- <-. split; [exact I'|]. split; [exact OV|discriminate]. }
  destruct (p_var p) as [v|] eqn:V.
  { injection E as <- <- <-. cbn. split; auto. split; intros u [= <-]; apply OV; auto. }
  destruct (p_source d) as [v|].
  - destruct (deepcopy fuel [] (w_heap w) v) as [[[h1 m1] v1]|] eqn:E1.
    + injection E as <- <- <-. destruct (deepcopy_new _ _ _ _ _ _ E1) as (L & A & C & FR).
      assert (O1 : ok (length h1) v1) by (eapply ok_fresh; [apply (i_len w I)|exact FR]).
      split; [|cbn; split; intros u [= <-]; auto].
      apply inv_heap; auto. intros a items X NX. specialize (C a items X NX).
      eapply Forall_impl; [|exact C]. intros u U. eapply ok_fresh; [apply (i_len w I)|exact U].
    + injection E as <- <- <-. cbn. split; auto. split; discriminate.
  - injection E as <- <- <-. destruct (inv_list w [] I) as [I1 O1]; [constructor|].
    split; auto. cbn [p_var]. split; intros u [= <-]; auto.
Qed.

Lemma inv_set w o p v r h p' : inv w -> ~ hidden o -> nth_error (w_objs w) o = Some p -> ok (length (w_heap w)) v ->
  prop_set d (w_heap w) v p = (r, h, p') ->
  inv (HWorld h (w_objs w) (w_vars w)) /\ (forall u, p_var p' = Some u -> ok (length h) u).
Proof.
  intros I H N O E. unfold prop_set in E.
  assert (OV : forall v, p_var p = Some v -> ok (length (w_heap w)) v).
  { intros u V. apply (i_open w I o); auto. exists p; auto. }
  assert (I' : inv (HWorld (w_heap w) (w_objs w) (w_vars w))) by (destruct w; exact I).
  destruct (existsb _ _) in E; [|injection E as <- <- <-; auto].
  destruct (p_list d); [|injection E as <- <- <-; split; auto; cbn; intros u [= <-]; auto].
  destruct v as [[|z|s]|a].
  - injection E as <- <- <-; auto.
  - injection E as <- <- <-; auto.
  - injection E as <- <- <-. destruct (inv_list w (map (fun c => HAtom (AStr [c])) s) I) as [I1 O1].
    { apply Forall_forall. intros u U. apply in_map_iff in U. destruct U as (c & <- & _). apply ok_atom. }
    split; auto. cbn [p_var]. intros u [= <-]; auto.
  - destruct (nth_error (w_heap w) a) as [items|] eqn:NA; [|injection E as <- <- <-; auto].
    injection E as <- <- <-. destruct (inv_list w items I) as [I1 O1].
    { eapply ok_all; [eapply (i_cells w I); [|exact NA]; apply (O a); reflexivity|rewrite app_length; lia]. }
    split; auto. cbn [p_var]. intros u [= <-]; auto.
Qed.

Lemma inv_step w s : inv w -> allowed s -> inv (step d fuel s w).
Proof.
  intros I A.
  assert (I' : inv (HWorld (w_heap w) (w_objs w) (w_vars w))) by (destruct w; exact I).
  destruct s as [|x o|o x|o|x a|x l|x y|x y i]; cbn [step].
  - apply inv_new; auto.
  - destruct (nth_error (w_objs w) o) as [p|] eqn:N; [|auto].
    assert (H : ~ hidden o) by (intros H; apply (A o H); reflexivity).
    destruct (prop_get d fuel (w_heap w) p) as [[r h] p'] eqn:E.
    destruct (inv_get w o p r h p' I H N E) as (I1 & O1 & O2).
    pose proof (inv_obj _ o p' I1 H O1) as I2. destruct r as [v|e]; [|exact I2].
    apply (inv_var _ x v I2). apply O2; auto.
  - destruct (nth_error (w_objs w) o) as [p|] eqn:N; [|auto].
    assert (H : ~ hidden o) by (intros H; apply (A o H); reflexivity).
    destruct (prop_set d (w_heap w) (w_vars w x) p) as [[r h] p'] eqn:E.
    destruct (inv_set w o p _ r h p' I H N (i_vars w I x) E) as (I1 & O1).
    exact (inv_obj _ o p' I1 H O1).
  - assert (H : ~ hidden o) by (intros H; apply (A o H); reflexivity).
    apply inv_obj; auto. discriminate.
  - apply inv_var; auto. apply ok_atom.
  - destruct (inv_list w (map (w_vars w) l) I) as [I1 O1].
    { apply Forall_forall. intros u U. apply in_map_iff in U. destruct U as (c & <- & _).
      eapply ok_le; [apply (i_vars w I)|rewrite app_length; lia]. }
    exact (inv_var _ x _ I1 O1).
  - pose proof (i_vars w I x) as OX. destruct (w_vars w x) as [a|a]; [auto|].
    destruct (nth_error (w_heap w) a) as [items|] eqn:N; [|auto].
    destruct (OX a eq_refl) as [NF _].
    apply inv_cell; auto. apply Forall_app. split; [eapply (i_cells w I); eauto|].
    constructor; [apply (i_vars w I)|constructor].
  - pose proof (i_vars w I y) as OX. destruct (w_vars w y) as [a|a]; [auto|].
    destruct (nth_error (w_heap w) a) as [items|] eqn:N; [|auto].
    destruct (nth_error items i) as [v|] eqn:NI; [|auto].
    destruct (OX a eq_refl) as [NF _].
    apply inv_var; auto. pose proof (i_cells w I a items NF N) as C. rewrite Forall_forall in C. apply C.
    eapply nth_error_In; eauto.
Qed.
Lemma inv_run l : forall w, inv w -> Forall allowed l -> inv (run d fuel l w).
Proof.
  induction l as [|s l IH]; intros w I A; [exact I|]. inversion A; subst. cbn [run]. apply IH; auto. apply inv_step; auto.
Qed.

(** What can be got at is not in [F]. *)
Lemma inv_reach w v a : inv w -> ok (length (w_heap w)) v -> reach (w_heap w) v a -> ~ F a /\ (B -> a < length (w_heap w)).
Proof.
  intros I O R. induction R as [a|a items u b N IN R IH]; [apply O; auto|].
  apply IH. pose proof (i_cells w I a items (proj1 (O a eq_refl)) N) as C. rewrite Forall_forall in C. auto.
Qed.
Lemma inv_in_use w a : inv w -> in_use hidden w a -> ~ F a /\ (B -> a < length (w_heap w)).
Proof.
  intros I [(x & R)|(o & v & H & V & R)]; eapply inv_reach; eauto; [apply (i_vars w I)|eapply (i_open w I); eauto].
Qed.
End Frame.

(** ** From the start of a program *)
Lemma begins_inv h : inv (begins h) (fun a => a < length h) True nobody (begins h).
Proof.
  constructor; cbn; auto.
  - intros a items X N. apply nth_lt in N. lia.
  - intros x a E. discriminate.
  - intros o v _ (p & N & _). destruct o; discriminate N.
Qed.
Lemma nobody_allowed l : Forall (allowed nobody) l.
Proof. apply Forall_forall. intros s _ o []. Qed.
Lemma run_inv d fuel p h : inv (begins h) (fun a => a < length h) True nobody (run d fuel p (begins h)).
Proof. apply inv_run; [auto|intros o []|apply begins_inv|apply nobody_allowed]. Qed.
Lemma run_old d fuel p h a : a < length h -> nth_error (w_heap (run d fuel p (begins h))) a = nth_error h a.
Proof. apply (i_same _ _ _ _ _ (run_inv d fuel p h)). Qed.
Lemma run_in_use d fuel p h a : in_use nobody (run d fuel p (begins h)) a ->
  length h <= a < length (w_heap (run d fuel p (begins h))).
Proof.
  intros U. destruct (inv_in_use _ _ _ _ _ _ (run_inv d fuel p h) U) as [N L]. split; [lia|auto].
Qed.

Lemma default_kept d fuel p h v t : reads h v t -> reads (w_heap (run d fuel p (begins h))) v t.
Proof. apply reads_grows. apply run_old. Qed.

(** ** What is only used by one object *)
Lemma run_frame d fuel o w p :
  o < length (w_objs w) -> Forall (leaves o) p ->
  inv w (fun a => a < length (w_heap w) /\ ~ in_use (only o) w a) False (only o) (run d fuel p w).
Proof.
  intros L A. apply inv_run.
  - intros a [H _]. auto.
  - intros o' ->. auto.
  - constructor; auto.
    + intros a items NF N. apply nth_lt in N as LA. apply Forall_forall. intros v I b ->. split; [|contradiction].
      intros [LB NB]. apply NF. split; auto. intros U. apply NB.
      assert (X : forall u, reach (w_heap w) u a -> reach (w_heap w) u b).
      { intros u R. induction R as [c|c its u' c' NC IC R IH]; [econstructor; [eauto|eauto|constructor]|econstructor; eauto]. }
      destruct U as [(x & R)|(o' & v & H & V & R)]; [left; exists x; auto|right; exists o', v; auto].
    + intros x a E. split; [|contradiction]. intros [_ N]. apply N. left. exists x. rewrite E. constructor.
    + intros o' v H V a ->. split; [|contradiction]. intros [_ N]. apply N. right. exists o', (HRef a). repeat split; auto. constructor.
  - apply Forall_forall. intros s I o' ->. rewrite Forall_forall in A. auto.
Qed.

Lemma left_alone d fuel o w p a items :
  o < length (w_objs w) -> Forall (leaves o) p ->
  nth_error (w_heap w) a = Some items -> ~ in_use (only o) w a ->
  nth_error (w_heap (run d fuel p w)) a = Some items.
Proof.
  intros L A N U. rewrite (i_same _ _ _ _ _ (run_frame d fuel o w p L A)); auto. split; auto. eapply nth_lt; eauto.
Qed.
Lemma value_left d fuel o w p v : Forall (leaves o) p -> value_of w o v -> value_of (run d fuel p w) o v.
Proof.
  intros A (q & N & V). exists q. split; auto.
  rewrite (i_hid _ _ _ _ _ (run_frame d fuel o w p (nth_lt _ _ _ N) A)); [auto|reflexivity].
Qed.
Lemma own_kept d fuel o w p v t :
  Forall (leaves o) p -> value_of w o v -> reads (w_heap w) v t ->
  (forall a, reach (w_heap w) v a -> ~ in_use (only o) w a) ->
  value_of (run d fuel p w) o v /\ reads (w_heap (run d fuel p w)) v t.
Proof.
  intros A V R U. split; [apply value_left; auto|].
  destruct V as (q & N & V). apply (reads_same (w_heap w)); auto. intros a X.
  destruct (nth_error (w_heap w) a) as [items|] eqn:E.
  - eapply left_alone; eauto. eapply nth_lt; eauto.
  - apply (proj1 (reads_reach _) _ _ R) in X. apply nth_error_None in E. lia.
Qed.

(** ** Reading a property that has no value *)
Lemma read_default d fuel p h v t o q x :
  p_source d = Default v -> p_req d = false -> reads h v t -> depth t <= fuel ->
  let w := run d fuel p (begins h) in
  nth_error (w_objs w) o = Some q -> p_var q = None ->
  let w' := step d fuel (SGet x o) w in
  value_of w' o (w_vars w' x) /\ reads (w_heap w') (w_vars w' x) t /\
  (forall a, reach (w_heap w') (w_vars w' x) a -> ~ in_use nobody w a /\ length (w_heap w) <= a) /\
  (forall a, a < length (w_heap w) -> nth_error (w_heap w') a = nth_error (w_heap w) a) /\
  (forall y, y <> x -> w_vars w' y = w_vars w y) /\
  (forall o', o' <> o -> nth_error (w_objs w') o' = nth_error (w_objs w) o').
Proof.
  intros S Q R D w N V w'.
  assert (RW : reads (w_heap w) v t) by (apply default_kept; auto).
  destruct (deepcopy_reads (w_heap w) fuel v t RW D) as (h' & m' & v' & E & R').
  destruct (deepcopy_new _ _ _ _ _ _ E) as (L & A & C & FR).
  assert (EW : w' = HWorld h' (put_obj o (PObj (Some v') (Some (match p_set q with None => false | Some b => b end))) (w_objs w))
                 (put_var x v' (w_vars w))).
  { unfold w'. cbn [step]. rewrite N. unfold prop_get. cbn [p_var p_set]. rewrite Q, V, S, E. reflexivity. }
  clearbody w'. subst w'. cbn [w_heap w_vars w_objs].
  assert (PV : put_var x v' (w_vars w) x = v') by (unfold put_var; rewrite Nat.eqb_refl; auto). rewrite PV.
  split; [|split; [auto|split; [|split; [auto|split]]]].
  - eexists. split; [cbn; apply put_obj_same; eapply nth_lt; eauto|reflexivity].
  - intros a X.
    assert (G : length (w_heap w) <= a).
    { clear -X FR C. induction X as [a|a items u b NA I X IH]; [apply (FR a eq_refl)|].
      apply IH. specialize (C a items (proj1 (FR a eq_refl)) NA). rewrite Forall_forall in C. auto. }
    split; auto. intros U. apply run_in_use in U. fold w in U. lia.
  - intros y Y. unfold put_var. destruct (Nat.eqb y x) eqn:E'; auto. apply Nat.eqb_eq in E'. congruence.
  - intros o' O. apply put_obj_other. auto.
Qed.

(** ** Assigning with [internal_type=list] *)
Lemma list_copied d fuel p h o x a items :
  p_list d = true -> In KList (p_expected d) ->
  let w := run d fuel p (begins h) in
  o < length (w_objs w) -> w_vars w x = HRef a -> nth_error (w_heap w) a = Some items ->
  exists b, forall p', Forall (leaves o) p' ->
    let w' := run d fuel p' (step d fuel (SSet o x) w) in
    value_of w' o (HRef b) /\ nth_error (w_heap w') b = Some items.
Proof.
  intros PL EX w L VX N.
  assert (EK : existsb (kind_eqb KList) (p_expected d) = true).
  { apply existsb_exists. exists KList. auto. }
  exists (length (w_heap w)).
  assert (LO := L). apply nth_error_Some in LO. destruct (nth_error (w_objs w) o) as [q|] eqn:NO; [|congruence]. clear LO.
  assert (EW : step d fuel (SSet o x) w = HWorld (w_heap w ++ [items]) (put_obj o (PObj (Some (HRef (length (w_heap w)))) (Some true)) (w_objs w)) (w_vars w)).
  { cbn [step]. rewrite NO. unfold prop_set. rewrite VX. cbn [kind_of]. rewrite EK, PL, N. reflexivity. }
  rewrite EW. intros p' A w'.
  split.
  - apply value_left; auto. eexists. split; [cbn; apply put_obj_same; auto|reflexivity].
  - apply (left_alone _ _ o); auto.
    + cbn. rewrite put_obj_length. auto.
    + cbn. apply nth_new.
    + assert (I := run_inv d fuel p h). fold w in I.
      assert (I1 : inv (begins h) (fun a => a < length h) True nobody (HWorld (w_heap w ++ [items]) (w_objs w) (w_vars w))).
      { apply inv_list; auto. eapply ok_all.
        - eapply (i_cells _ _ _ _ _ I); [|exact N]. apply (i_vars _ _ _ _ _ I x a VX).
        - rewrite app_length; lia. }
      assert (OLD : forall v, ok (fun a => a < length h) True (length (w_heap w)) v -> ~ reach (w_heap w ++ [items]) v (length (w_heap w))).
      { intros v O R. remember (length (w_heap w)) as n eqn:E. revert O.
        induction R as [c|c its u c' NC IC R IH]; intros O.
        - destruct (O c eq_refl) as [_ B]. specialize (B Logic.I). lia.
        - apply IH; auto. destruct (O c eq_refl) as [NF B]. specialize (B Logic.I).
          rewrite nth_old in NC by lia. pose proof (i_cells _ _ _ _ _ I c its NF NC) as CC. rewrite Forall_forall in CC.
          subst c'. auto. }
      intros [(y & R)|(o' & v & H & (q' & NQ & VQ) & R)]; cbn in *.
      * eapply OLD; [|exact R]. apply (i_vars _ _ _ _ _ I).
      * eapply OLD; [|exact R]. apply (i_open _ _ _ _ _ I o'); [intros []|].
        rewrite put_obj_other in NQ by (intros <-; apply H; reflexivity). exists q'. auto.
Qed.

(** ** The default of one object *)
Lemma default_own d fuel p h v t o q x p' :
  p_source d = Default v -> p_req d = false -> reads h v t -> depth t <= fuel ->
  let w := run d fuel p (begins h) in
  nth_error (w_objs w) o = Some q -> p_var q = None -> Forall (leaves o) p' ->
  let w1 := step d fuel (SAtom x ANone) (step d fuel (SGet x o) w) in
  exists u, value_of w1 o u /\ reads (w_heap w1) u t /\
    value_of (run d fuel p' w1) o u /\ reads (w_heap (run d fuel p' w1)) u t.
Proof.
  intros S Q R D w N V A w1.
  destruct (read_default d fuel p h v t o q x S Q R D N V) as (VO & RO & NEW & OLD & VARS & OBJS). fold w in NEW, OLD, VARS, OBJS, RO, VO.
  set (w' := step d fuel (SGet x o) w) in *. exists (w_vars w' x).
  assert (V1 : value_of w1 o (w_vars w' x)) by exact VO.
  assert (R1 : reads (w_heap w1) (w_vars w' x) t) by exact RO.
  split; [exact V1|]. split; [exact R1|]. apply own_kept; auto.
  intros a X. change (w_heap w1) with (w_heap w') in X. destruct (NEW a X) as [NU GE]. intros U.
  assert (BACK : forall u, (forall b, reach (w_heap w) u b -> in_use nobody w b) -> reach (w_heap w') u a -> False).
  { intros u B RU. apply NU. apply B. apply (reach_back _ (w_heap w')); auto.
    intros b RB. apply OLD. apply (run_in_use d fuel p h). apply B. exact RB. }
  destruct U as [(y & RU)|(o' & u & H & (q' & NQ & VQ) & RU)]; change (w_heap w1) with (w_heap w') in RU.
  - cbn [w1 step w_vars] in RU. unfold put_var in RU. destruct (Nat.eqb y x) eqn:E; [inversion RU|].
    apply Nat.eqb_neq in E. rewrite VARS in RU by auto.
    eapply BACK; [|exact RU]. intros b RB. left. exists y. auto.
  - change (w_objs w1) with (w_objs w') in NQ. rewrite OBJS in NQ by (intros E; apply H; exact E).
    eapply BACK; [|exact RU]. intros b RB. right. exists o', u. repeat split; auto. exists q'. auto.
Qed.

Lemma read_factory d fuel p h o q x :
  p_source d = Factory -> p_req d = false ->
  let w := run d fuel p (begins h) in
  nth_error (w_objs w) o = Some q -> p_var q = None ->
  let w' := step d fuel (SGet x o) w in
  exists b, w_vars w' x = HRef b /\ value_of w' o (HRef b) /\ reads (w_heap w') (HRef b) (TList []) /\ ~ in_use nobody w b.
Proof.
  intros S Q w N V w'. exists (length (w_heap w)).
  unfold w'. cbn [step]. rewrite N. unfold prop_get. cbn [p_var p_set]. rewrite Q, V, S. cbn [andb w_vars w_heap].
  split; [unfold put_var; rewrite Nat.eqb_refl; auto|]. split; [|split].
  - eexists. split; [cbn; apply put_obj_same; eapply nth_lt; eauto|reflexivity].
  - econstructor; [apply nth_new|constructor].
  - intros U. apply run_in_use in U. fold w in U. lia.
Qed.
