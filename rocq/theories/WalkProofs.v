(** * Facts about walks and about writing options. *)
From Coq Require Import String NArith ZArith List Bool Lia Arith.
Import ListNotations.
From Verif Require Import PyBase PyFacts Shlex IniView IniRead ExcControl Debuggable Cpe
  SpecText SpecFile SpecShell ShellProofs FileProofs SpecWalk MeaningProofs SpecRun SpecParse Refine RefineRoot RefineOk RunProofs.

(** ** Writing options *)
Lemma write_all_app a b d : write_all (a ++ b) d = write_all b (write_all a d).
Proof. unfold write_all. now rewrite fold_left_app. Qed.

Lemma last_value_acc k l : forall acc,
  fold_left (fun acc kv => if str_eqb (fst kv) k then Some (snd kv) else acc) l acc =
  match last_value k l with Some v => Some v | None => acc end.
Proof.
  unfold last_value. induction l as [|[k' v] l IH]; intros acc; cbn; auto.
  rewrite IH, (IH (if str_eqb k' k then Some v else None)).
  destruct (str_eqb k' k), (fold_left _ l None); reflexivity.
Qed.

Lemma last_value_cons k k' v l :
  last_value k ((k', v) :: l) =
  match last_value k l with Some x => Some x | None => if str_eqb k' k then Some v else None end.
Proof. unfold last_value at 1. cbn. now rewrite last_value_acc. Qed.

Lemma last_value_app k a b :
  last_value k (a ++ b) = match last_value k b with Some x => Some x | None => last_value k a end.
Proof. unfold last_value at 1. now rewrite fold_left_app, last_value_acc. Qed.

Lemma dget_write_all k l : forall d,
  dget k (write_all l d) = match last_value k l with Some v => Some v | None => dget k d end.
Proof.
  unfold write_all. induction l as [|[k' v] l IH]; intros d; [reflexivity|].
  cbn [fold_left fst snd]. rewrite IH, last_value_cons. destruct (last_value k l); auto.
  rewrite dget_dset, (str_eqb_sym k' k). now destruct (str_eqb k k').
Qed.

Lemma last_value_None k l : last_value k l = None <-> ~ In k (map fst l).
Proof.
  induction l as [|[k' v] l IH]; [split; auto|]. cbn [map fst In].
  rewrite last_value_cons. destruct (last_value k l).
  - split; [discriminate|]. intros H. exfalso. apply H. right. apply Decidable.not_not.
    + unfold Decidable.decidable. destruct (in_dec str_eq_dec k (map fst l)); auto.
    + intros N. apply IH in N. discriminate.
  - destruct (str_eqb_spec k' k) as [->|N].
    + split; [discriminate|]. intros H. exfalso. apply H. now left.
    + split; auto. intros _ [H|H]; [auto|]. now apply IH in H.
Qed.

Lemma filter_filter {A} (f g : A -> bool) l : filter f (filter g l) = filter (fun x => f x && g x) l.
Proof.
  induction l as [|x l IH]; cbn; auto. destruct (g x); cbn; destruct (f x); cbn; now rewrite IH.
Qed.

Lemma dkeys_write_all l : forall d,
  dkeys (write_all l d) =
  dkeys d ++ filter (fun k => negb (str_mem k (dkeys d))) (first_keys (map fst l)).
Proof.
  unfold write_all. induction l as [|[k v] l IH]; intros d; cbn [fold_left map fst snd first_keys filter].
  { now rewrite app_nil_r. }
  rewrite IH, filter_filter. destruct (str_mem k (dkeys d)) eqn:M; cbn [negb].
  - rewrite dkeys_dset_mem by now apply str_mem_In. f_equal. apply filter_ext. intros x.
    destruct (str_eqb_spec x k) as [->|N]; cbn [negb]; [now rewrite M|now rewrite andb_true_r].
  - rewrite dkeys_dset_new by now apply str_mem_not_In. rewrite <- app_assoc. cbn [app]. do 2 f_equal.
    apply filter_ext. intros x. unfold str_mem. rewrite existsb_app. cbn. now rewrite orb_false_r, negb_orb.
Qed.

Lemma first_keys_In k l : In k (first_keys l) <-> In k l.
Proof.
  induction l as [|x l IH]; cbn; [tauto|]. rewrite filter_In, IH.
  destruct (str_eqb_spec k x) as [->|N]; cbn; [tauto|]. intuition.
Qed.

Lemma dset_comm1 {A} k k' (v v' : A) d :
  k <> k' -> In k (dkeys d) -> dset k v (dset k' v' d) = dset k' v' (dset k v d).
Proof.
  intros N. induction d as [|[k1 v1] d IH]; cbn; [contradiction|]. intros H1.
  destruct (str_eqb_spec k' k1) as [E1|E1]; destruct (str_eqb_spec k k1) as [E2|E2]; cbn.
  - congruence.
  - subst. apply str_eqb_neq in E2. rewrite E2. now rewrite str_eqb_refl.
  - subst. rewrite str_eqb_refl. destruct (str_eqb_spec k' k1); [congruence|]. reflexivity.
  - destruct (str_eqb_spec k k1); [congruence|]. destruct (str_eqb_spec k' k1); [congruence|].
    f_equal. apply IH; intuition congruence.
Qed.

(** Writing the same options again changes nothing. *)
Lemma dset_write_all k v l : forall d, (forall x, In x (map fst l) -> In x (dkeys d)) ->
  dset k v (write_all l (dset k v d)) = dset k v (write_all l d).
Proof.
  unfold write_all. induction l as [|[x w] l IH]; intros d H; cbn [fold_left fst snd].
  - apply dset_dset_same.
  - destruct (str_eqb_spec x k) as [->|N].
    + now rewrite dset_dset_same.
    + rewrite (dset_comm1 x k) by (auto; apply H; now left). apply IH.
      intros y Hy. apply In_dkeys_dset. right. apply H. now right.
Qed.

Lemma write_all_keys l d x : In x (map fst l) -> In x (dkeys (write_all l d)).
Proof.
  intros H. apply dmem_keys. unfold dmem. rewrite dget_write_all.
  destruct (last_value x l) eqn:E; auto. apply last_value_None in E. contradiction.
Qed.

Lemma write_all_idem l d : write_all l (write_all l d) = write_all l d.
Proof.
  induction l as [|[k v] l IH] using rev_ind; auto.
  rewrite !write_all_app. change (write_all [(k, v)] ?x) with (dset k v x).
  change (dset k v (write_all l (dset k v (write_all l d))) = dset k v (write_all l d)).
  rewrite dset_write_all; [now rewrite IH|]. apply write_all_keys.
Qed.

(** ** The data after a list of steps *)
Section Data.
Context {Sh Us : Type} (root : str).
Notation ev := (ev Sh Us).

Definition entered (t : str) (evs : list ev) : Prop := In (Enter t) evs.
Definition opts_in (t : str) (d : sections_data) : dict (option str) :=
  match dget t d with Some o => o | None => [] end.

Lemma data_after_app (a b : list ev) d : data_after root (a ++ b) d = data_after root b (data_after root a d).
Proof. unfold data_after. now rewrite fold_left_app. Qed.

Lemma plains_app (a b : list ev) : plains (a ++ b) = plains a ++ plains b.
Proof. apply flat_map_app. Qed.

Lemma opts_ensure t s d : opts_in t (ensure s d) = opts_in t d.
Proof.
  unfold opts_in, ensure, dmem. destruct (dget s d) eqn:E; auto.
  rewrite dget_dset. destruct (str_eqb_spec t s) as [->|N]; auto. now rewrite E.
Qed.
Lemma opts_write t k v d : opts_in t (write root k v d) =
  if str_eqb t root then dset k v (opts_in root d) else opts_in t d.
Proof.
  unfold opts_in, write. rewrite dget_dset. destruct (str_eqb_spec t root) as [->|N]; auto.
Qed.

Lemma opts_data_after (evs : list ev) : forall d t,
  opts_in t (data_after root evs d) =
  if str_eqb t root then write_all (plains evs) (opts_in root d) else opts_in t d.
Proof.
  induction evs as [|e evs IH]; intros d t; cbn [data_after fold_left].
  - destruct (str_eqb_spec t root) as [->|N]; reflexivity.
  - change (fold_left (data_step root) evs (data_step root d e)) with (data_after root evs (data_step root d e)).
    rewrite IH. destruct e; cbn [data_step]; auto.
    + now rewrite !opts_ensure.
    + rewrite !opts_write, str_eqb_refl. destruct (str_eqb t root); reflexivity.
Qed.

Lemma mem_data_step t (e : ev) d : dmem t (data_step root d e) =
  dmem t d || match e with Enter s => str_eqb t s | SpecWalk.Plain _ _ _ _ => str_eqb t root | _ => false end.
Proof.
  destruct e; cbn [data_step]; rewrite ?orb_false_r; auto.
  - unfold ensure. destruct (dmem s d) eqn:E.
    + destruct (str_eqb_spec t s) as [->|N]; [now rewrite E|now rewrite orb_false_r].
    + rewrite dmem_dset. apply orb_comm.
  - unfold write. rewrite dmem_dset. apply orb_comm.
Qed.

Lemma mem_data_after (evs : list ev) : forall d t,
  dmem t (data_after root evs d) = true <->
  dmem t d = true \/ In (Enter t) evs \/ (t = root /\ plains evs <> []).
Proof.
  induction evs as [|e evs IH]; intros d t; cbn [data_after fold_left].
  - cbn. intuition congruence.
  - change (fold_left (data_step root) evs (data_step root d e)) with (data_after root evs (data_step root d e)).
    rewrite IH, mem_data_step, orb_true_iff. cbn [In].
    destruct e; cbn [plains flat_map plain_of app]; fold (plains evs); rewrite ?str_eqb_eq;
      try (intuition congruence).
Qed.

Lemma dget_data_after (evs : list ev) d t :
  dget t (data_after root evs d) =
  if dmem t (data_after root evs d) then Some (opts_in t (data_after root evs d)) else None.
Proof. unfold dmem, opts_in. destruct (dget t (data_after root evs d)); auto. Qed.

Lemma data_after_mem (evs : list ev) : forall d,
  dmem root d = true -> (forall t, In (Enter t) evs -> dmem t d = true) ->
  data_after root evs d = dset root (write_all (plains evs) (opts_in root d)) d.
Proof.
  induction evs as [|e evs IH]; intros d M E; cbn [data_after fold_left].
  - symmetry. apply dset_same_id. unfold dmem, opts_in in *. cbn. now destruct (dget root d).
  - change (fold_left (data_step root) evs (data_step root d e)) with (data_after root evs (data_step root d e)).
    assert (X : data_step root d e = dset root (write_all (plain_of e) (opts_in root d)) d).
    { assert (I : dset root (opts_in root d) d = d).
      { apply dset_same_id. unfold dmem, opts_in in *. cbn. now destruct (dget root d). }
      destruct e; cbn [data_step plain_of]; auto.
      unfold ensure. rewrite E by now left. auto. }
    rewrite X, IH.
    + unfold opts_in at 1. rewrite dget_dset_same, dset_dset_same.
      cbn [plains flat_map]. now rewrite write_all_app.
    + rewrite dmem_dset, str_eqb_refl. reflexivity.
    + intros t Ht. rewrite dmem_dset, (E t) by now right. apply orb_true_r.
Qed.

Lemma data_after_idem (evs : list ev) d :
  In (Enter root) evs -> data_after root evs (data_after root evs d) = data_after root evs d.
Proof.
  intros R. rewrite data_after_mem.
  - rewrite opts_data_after, str_eqb_refl, write_all_idem.
    apply dset_same_id. rewrite dget_data_after.
    assert (M : dmem root (data_after root evs d) = true) by (apply mem_data_after; auto).
    rewrite M, opts_data_after, str_eqb_refl. reflexivity.
  - apply mem_data_after; auto.
  - intros t Ht. apply mem_data_after; auto.
Qed.
End Data.

(** ** Walks and the use graph *)
Section Graph.
Context {Sh Us : Type} (K : pyclass Sh Us) (i : ini).
Notation ev := (ev Sh Us).

Definition item_of (t : str) (m : means Sh Us) : Prop :=
  exists items item, ini_items i t = Some items /\ In item items /\ meaning K t item m.

(** Where a step of a walk of [s] comes from. *)
Definition origin (s : str) (e : ev) : Prop :=
  match e with
  | Enter t | Leave t => reaches K i s t /\ ini_items i t <> None
  | Missing t => reaches K i s t /\ ini_items i t = None
  | SpecWalk.Plain t _ _ _ | Call t _ _ _ _ _ | Stop t _ => reaches K i s t /\ item_of t (MStep e)
  | UseIn t u h k v | UseOut t u h k v | Cycle t u h k v =>
      reaches K i s t /\ item_of t (MUse u h k v)
  | Hook _ _ => False
  end.

Lemma origin_trans s t e : reaches K i s t -> origin t e -> origin s e.
Proof.
  intros R. destruct e; cbn; try tauto; intros [H1 H2]; split; auto; eapply reaches_trans; eauto.
Qed.

Lemma meaning_step_sec s item e : meaning K s item (MStep e) ->
  match e with
  | SpecWalk.Plain t _ _ _ | Call t _ _ _ _ _ | Stop t _ => t = s
  | _ => False
  end.
Proof. intros M. inversion M; subst; reflexivity. Qed.

Lemma walk_origin :
  (forall path s evs n, walk K i path s evs n -> forall e, In e evs -> origin s e) /\
  (forall path s items evs n, walk_options K i path s items evs n ->
     (exists its, ini_items i s = Some its /\ incl items its) ->
     forall e, In e evs -> origin s e).
Proof.
  apply walk_both.
  - intros path s Hi e [<-|[]]. cbn. split; [constructor|auto].
  - intros path s items evs n Hi W IH e H.
    assert (N : reaches K i s s /\ ini_items i s <> None) by (split; [constructor|congruence]).
    destruct H as [<-|H]; [exact N|]. apply in_app_or in H as [H|[<-|[]]]; [|exact N].
    apply IH; auto. exists items. split; auto. apply incl_refl.
  - intros path s X e [].
  - intros path s item rest e0 evs n M W IH (its & HI & IN) e [<-|H].
    + assert (X : item_of s (MStep e0)).
      { exists its, item. split; auto. split; auto. apply IN. now left. }
      pose proof (meaning_step_sec _ _ _ M) as Y. destruct e0; try contradiction; subst; cbn; (split; [constructor|exact X]).
    + apply IH; auto. exists its. split; auto. intros y Hy. apply IN. now right.
  - intros path s item rest t h k v evs1 n1 evs2 n2 M Ht W1 IH1 W2 IH2 (its & HI & IN) e H.
    assert (X : item_of s (MUse t h k v)).
    { exists its, item. split; auto. split; auto. apply IN. now left. }
    assert (U : reaches K i s t).
    { econstructor; [|constructor]. exists its, item, h, k, v. split; auto. split; auto. apply IN. now left. }
    destruct H as [<-|H]; [cbn; split; [constructor|exact X]|].
    apply in_app_or in H as [H|[<-|H]].
    + eapply origin_trans; [exact U|]. auto.
    + cbn. split; [constructor|exact X].
    + apply IH2; auto. exists its. split; auto. intros y Hy. apply IN. now right.
  - intros path s item rest t h k v evs n M Ht W IH (its & HI & IN) e [<-|H].
    + cbn. split; [constructor|]. exists its, item. split; auto. split; auto. apply IN. now left.
    + apply IH; auto. exists its. split; auto. intros y Hy. apply IN. now right.
Qed.

(** A [use] option of the section being read shows up as a step. *)
Lemma walk_options_item path s items evs n : walk_options K i path s items evs n ->
  forall item m, In item items -> meaning K s item m ->
  match m with
  | MStep e => In e evs
  | MUse t h k v =>
      In t path /\ In (Cycle s t h k v) evs \/
      ~ In t path /\ In (UseIn s t h k v) evs /\
      exists evs1 n1, walk K i path t evs1 n1 /\ incl evs1 evs
  end.
Proof.
  intros W. induction W as [path s|path s item rest e evs n M W IH
    |path s item rest t h k v evs1 n1 evs2 n2 M Ht W1 W2 IH
    |path s item rest t h k v evs n M Ht W IH]; intros item' m H M'.
  - destruct H.
  - destruct H as [<-|H].
    + pose proof (meaning_fun K s _ _ _ M M') as <-. now left.
    + specialize (IH _ _ H M'). destruct m; [now right|].
      destruct IH as [[A B]|(A & B & e1 & m1 & C & D)]; [left|right]; (split; [exact A|]).
      * now right.
      * split; [now right|]. exists e1, m1. split; auto. intros y Hy. right. auto.
  - destruct H as [<-|H].
    + pose proof (meaning_fun K s _ _ _ M M') as <-. right. split; auto. split; [now left|].
      exists evs1, n1. split; auto. intros y Hy. right. apply in_or_app. now left.
    + assert (J : forall y, In y evs2 -> In y (UseIn s t h k v :: evs1 ++ UseOut s t h k v :: evs2)).
      { intros y Hy. right. apply in_or_app. right. now right. }
      specialize (IH _ _ H M'). destruct m; [now apply J|].
      destruct IH as [[A B]|(A & B & e1 & m1 & C & D)]; [left|right]; (split; [exact A|]).
      * now apply J.
      * split; [now apply J|]. exists e1, m1. split; auto. intros y Hy. apply J. auto.
  - destruct H as [<-|H].
    + pose proof (meaning_fun K s _ _ _ M M') as <-. left. split; auto. now left.
    + specialize (IH _ _ H M'). destruct m; [now right|].
      destruct IH as [[A B]|(A & B & e1 & m1 & C & D)]; [left|right]; (split; [exact A|]).
      * now right.
      * split; [now right|]. exists e1, m1. split; auto. intros y Hy. right. auto.
Qed.

(** A walk reads every section it can reach without passing through [path]. *)
Lemma walk_visits l : forall path s evs n t,
  walk K i path s evs n -> route K i s l t -> NoDup (s :: l) -> (forall x, In x l -> ~ In x path) ->
  exists path' evs' n', walk K i path' t evs' n' /\ incl evs' evs /\ incl path path'.
Proof.
  induction l as [|u l IH]; intros path s evs n t W R N A; inversion R; subst.
  - exists path, evs, n. split; auto. split; apply incl_refl.
  - match goal with H : uses K i s u |- _ => destruct H as (items & item & h & k & v & HI & IN & M) end.
    inversion W; subst; filed; [congruence|]. assert (items0 = items) by congruence. subst items0.
    match goal with H : walk_options K i _ s items _ _ |- _ =>
      pose proof (walk_options_item _ _ _ _ _ H _ _ IN M) as X end. cbn in X.
    destruct X as [[X _]|(X & _ & e1 & n1 & W1 & I1)].
    + exfalso. destruct X as [->|X]; [inversion N as [|? ? Q _]; apply Q; now left|].
      apply (A u); auto. now left.
    + destruct (IH (s :: path) u e1 n1 t) as (p' & e' & n' & W' & I' & P'); auto.
      * now inversion N.
      * intros x Hx [<-|Hp]; [inversion N as [|? ? Q _]; apply Q; now right|].
        apply (A x); auto. now right.
      * exists p', e', n'. split; auto. split.
        -- intros y Hy. right. apply in_or_app. left. auto.
        -- intros y Hy. apply P'. now right.
Qed.

Lemma walk_visits_reach s evs n t : walk K i [] s evs n -> reaches K i s t ->
  exists path' evs' n', walk K i path' t evs' n' /\ incl evs' evs.
Proof.
  intros W R. apply reaches_route in R as (l & R & N).
  destruct (walk_visits l [] s evs n t W R N (fun _ _ F => F)) as (p & e & m & A & B & _). eauto.
Qed.

Lemma walk_item path s evs n e : walk K i path s evs n -> item_of s (MStep e) -> In e evs.
Proof.
  intros W (items & item & HI & IN & M). inversion W; subst; filed; [congruence|].
  assert (items0 = items) by congruence. subst items0.
  match goal with H : walk_options K i _ s items _ _ |- _ =>
    pose proof (walk_options_item _ _ _ _ _ H _ _ IN M) as X end. cbn in X.
  right. apply in_or_app. now left.
Qed.

(** Coming back to a section being read is reported. *)
Lemma walk_cycle l : forall path s evs n t,
  walk K i path s evs n -> route K i s l t -> l <> [] -> In t (s :: path) ->
  exists a b h k v, In (Cycle a b h k v) evs.
Proof.
  induction l as [|u l IH]; intros path s evs n t W R NL T; [contradiction|].
  inversion R; subst.
  match goal with H : uses K i s u |- _ => destruct H as (items & item & h & k & v & HI & IN & M) end.
  inversion W; subst; filed; [congruence|]. assert (items0 = items) by congruence. subst items0.
  match goal with H : walk_options K i _ s items _ _ |- _ =>
    pose proof (walk_options_item _ _ _ _ _ H _ _ IN M) as X end. cbn in X.
  destruct X as [[_ X]|(X & _ & e1 & n1 & W1 & I1)].
  - exists s, u, h, k, v. right. apply in_or_app. now left.
  - destruct (IH (s :: path) u e1 n1 t) as (a & b & h' & k' & v' & Y); auto.
    + intros ->. match goal with H : route K i u [] t |- _ => inversion H; subst end. contradiction.
    + now right.
    + exists a, b, h', k', v'. right. apply in_or_app. left. auto.
Qed.

(** A reported cycle is one. *)
Lemma walk_cycle_sound :
  (forall path s evs n, walk K i path s evs n -> (forall p, In p path -> reaches K i p s) ->
     forall a b h k v, In (Cycle a b h k v) evs -> reaches K i b a) /\
  (forall path s items evs n, walk_options K i path s items evs n ->
     (exists its, ini_items i s = Some its /\ incl items its) ->
     (forall p, In p path -> reaches K i p s) ->
     forall a b h k v, In (Cycle a b h k v) evs -> reaches K i b a).
Proof.
  apply walk_both.
  - intros path s Hi P a b h k v [H|[]]; discriminate.
  - intros path s items evs n Hi W IH P a b h k v [H|H]; [discriminate|].
    apply in_app_or in H as [H|[H|[]]]; [|discriminate].
    eapply IH; eauto.
    + exists items. split; auto. apply incl_refl.
    + intros p [<-|Hp]; [constructor|auto].
  - intros path s X P a b h k v [].
  - intros path s item rest e0 evs n M W IH (its & HI & IN) P a b h k v [H|H].
    + subst. inversion M.
    + eapply IH; eauto. exists its. split; auto. intros y Hy. apply IN. now right.
  - intros path s item rest t h0 k0 v0 evs1 n1 evs2 n2 M Ht W1 IH1 W2 IH2 (its & HI & IN) P a b h k v H.
    destruct H as [H|H]; [discriminate|]. apply in_app_or in H as [H|[H|H]]; [|discriminate|].
    + eapply IH1; eauto. intros p Hp. eapply reaches_trans; [apply P, Hp|].
      econstructor; [|constructor]. exists its, item, h0, k0, v0. split; auto. split; auto. apply IN. now left.
    + eapply IH2; eauto. exists its. split; auto. intros y Hy. apply IN. now right.
  - intros path s item rest t h0 k0 v0 evs n M Ht W IH (its & HI & IN) P a b h k v [H|H].
    + inversion H; subst. apply P, Ht.
    + eapply IH; eauto. exists its. split; auto. intros y Hy. apply IN. now right.
Qed.
End Graph.
