(** * Reading a file into a parser is reading it alone and merging. *)
From Coq Require Import String NArith Arith List Bool Lia.
Import ListNotations.
From Verif Require Import PyBase PyFacts IniView IniRead Cpe SpecWalk SpecParse SpecRead WalkProofs.

(** ** Dicts *)
Section D.
Context {A B : Type}.
Definition vmap (f : A -> B) (d : dict A) : dict B := map (fun kv => (fst kv, f (snd kv))) d.

Lemma dget_vmap f k (d : dict A) : dget k (vmap f d) = option_map f (dget k d).
Proof. induction d as [|[k' v] d IH]; cbn; auto. destruct (str_eqb k k'); auto. Qed.
Lemma dmem_vmap f k (d : dict A) : dmem k (vmap f d) = dmem k d.
Proof. unfold dmem. rewrite dget_vmap. now destruct (dget k d). Qed.
Lemma dset_vmap f k v (d : dict A) : vmap f (dset k v d) = dset k (f v) (vmap f d).
Proof. induction d as [|[k' v'] d IH]; cbn; auto. destruct (str_eqb k k'); cbn; auto. f_equal. exact IH. Qed.
Lemma dkeys_vmap f (d : dict A) : dkeys (vmap f d) = dkeys d.
Proof. unfold dkeys, vmap. rewrite map_map. apply map_ext. auto. Qed.
Lemma overlay_vmap f (n : dict A) : forall d, vmap f (overlay n d) = overlay (vmap f n) (vmap f d).
Proof.
  induction n as [|[k v] n IH]; intros d; auto.
  change (vmap f (overlay n (dset k v d)) = overlay (vmap f n) (dset k (f v) (vmap f d))).
  now rewrite IH, dset_vmap.
Qed.
End D.

Section O.
Context {A : Type}.
Implicit Types d n : dict A.

Lemma overlay_app a b d : overlay (a ++ b) d = overlay b (overlay a d).
Proof. unfold overlay. apply fold_left_app. Qed.

Lemma dset_overlay k v n : forall d, ~ In k (dkeys n) -> In k (dkeys d) ->
  dset k v (overlay n d) = overlay n (dset k v d).
Proof.
  unfold overlay. induction n as [|[k1 v1] n IH]; intros d N I; cbn [fold_left fst snd]; auto.
  rewrite IH.
  - f_equal. apply dset_comm1; auto. intros ->. apply N. now left.
  - intros X. apply N. now right.
  - apply In_dkeys_dset. now right.
Qed.

Lemma overlay_dset k v n : NoDup (dkeys n) -> forall d,
  overlay (dset k v n) d = dset k v (overlay n d).
Proof.
  induction n as [|[k1 v1] n IH]; intros ND d; cbn [dset]; auto. inversion ND; subst.
  destruct (str_eqb_spec k k1) as [->|NE].
  - change (overlay n (dset k1 v d) = dset k1 v (overlay n (dset k1 v1 d))).
    rewrite dset_overlay; auto; [|apply In_dkeys_dset; now left]. now rewrite dset_dset_same.
  - change (overlay (dset k v n) (dset k1 v1 d) = dset k v (overlay n (dset k1 v1 d))). now apply IH.
Qed.

Lemma dget_overlay k n : NoDup (dkeys n) -> forall d,
  dget k (overlay n d) = match dget k n with Some v => Some v | None => dget k d end.
Proof.
  induction n as [|[k1 v1] n IH]; intros ND d; auto. inversion ND; subst.
  change (dget k (overlay n (dset k1 v1 d)) = match dget k ((k1, v1) :: n) with Some v => Some v | None => dget k d end).
  rewrite IH by auto. cbn [dget]. rewrite dget_dset. destruct (str_eqb_spec k k1) as [->|NE]; auto.
  assert (E : dget k1 n = None) by (now apply dget_None_keys). now rewrite E.
Qed.
Lemma In_dkeys_overlay k n : forall d, In k (dkeys (overlay n d)) <-> In k (dkeys n) \/ In k (dkeys d).
Proof.
  induction n as [|[k1 v1] n IH]; intros d; [cbn; tauto|].
  change (In k (dkeys (overlay n (dset k1 v1 d))) <-> In k (dkeys ((k1, v1) :: n)) \/ In k (dkeys d)).
  rewrite IH, In_dkeys_dset. cbn. intuition.
Qed.
Lemma NoDup_overlay n : forall d, NoDup (dkeys d) -> NoDup (dkeys (overlay n d)).
Proof.
  induction n as [|[k1 v1] n IH]; intros d ND; auto.
  change (NoDup (dkeys (overlay n (dset k1 v1 d)))). apply IH. now apply NoDup_dkeys_dset.
Qed.
End O.

(** ** Merging dicts of dicts *)
Section M.
Context {A : Type}.
Definition opts (s : str) (d : dict (dict A)) : dict A := match dget s d with Some o => o | None => [] end.
Definition merge (new old : dict (dict A)) : dict (dict A) :=
  fold_left (fun d so => dset (fst so) (overlay (snd so) (opts (fst so) d)) d) new old.

(** Each new section overlaid on the old one of that name. *)
Definition lifted (old : dict (dict A)) (new : dict (dict A)) : dict (dict A) :=
  map (fun so => (fst so, overlay (snd so) (opts (fst so) old))) new.

Lemma lifted_ext n : forall d d', (forall s, In s (dkeys n) -> opts s d = opts s d') -> lifted d n = lifted d' n.
Proof.
  unfold lifted. intros d d' H. apply map_ext_in. intros [s o] I. cbn [fst snd]. f_equal. f_equal.
  apply H. apply in_map_iff. exists (s, o). auto.
Qed.

Lemma merge_lifted n : forall d, NoDup (dkeys n) -> merge n d = overlay (lifted d n) d.
Proof.
  induction n as [|[s o] n IH]; intros d ND; auto. inversion ND; subst.
  change (merge n (dset s (overlay o (opts s d)) d) = overlay (lifted d n) (dset s (overlay o (opts s d)) d)).
  rewrite IH by auto. f_equal. apply lifted_ext. intros t T. unfold opts at 1.
  rewrite dget_dset_other; auto. intros ->. contradiction.
Qed.

Lemma dkeys_lifted d n : dkeys (lifted d n) = dkeys n.
Proof. unfold dkeys, lifted. rewrite map_map. apply map_ext. auto. Qed.

Lemma lifted_dset d s o n : lifted d (dset s o n) = dset s (overlay o (opts s d)) (lifted d n).
Proof.
  induction n as [|[s1 o1] n IH]; cbn; auto. destruct (str_eqb_spec s s1) as [->|NE]; cbn; auto. f_equal. exact IH.
Qed.
Lemma dget_lifted d s n : dget s (lifted d n) = match dget s n with Some o => Some (overlay o (opts s d)) | None => None end.
Proof. induction n as [|[s1 o1] n IH]; cbn; auto. destruct (str_eqb_spec s s1) as [->|NE]; auto. Qed.

Lemma merge_dset s o n d : NoDup (dkeys n) -> merge (dset s o n) d = dset s (overlay o (opts s d)) (merge n d).
Proof.
  intros ND. rewrite !merge_lifted by (auto; now apply NoDup_dkeys_dset). rewrite lifted_dset, overlay_dset; auto.
  now rewrite dkeys_lifted.
Qed.
Lemma dget_merge s n d : NoDup (dkeys n) ->
  dget s (merge n d) = match dget s n with Some o => Some (overlay o (opts s d)) | None => dget s d end.
Proof.
  intros ND. rewrite merge_lifted, dget_overlay, dget_lifted; auto; [|now rewrite dkeys_lifted].
  destruct (dget s n); auto.
Qed.
Lemma In_dkeys_merge s n d : In s (dkeys (merge n d)) <-> In s (dkeys n) \/ In s (dkeys d).
Proof.
  revert d. induction n as [|[s1 o] n IH]; intros d; [cbn; tauto|].
  change (In s (dkeys (merge n (dset s1 (overlay o (opts s1 d)) d))) <-> In s (dkeys ((s1, o) :: n)) \/ In s (dkeys d)).
  rewrite IH, In_dkeys_dset. cbn. intuition.
Qed.
Lemma NoDup_merge n : forall d, NoDup (dkeys d) -> NoDup (dkeys (merge n d)).
Proof.
  induction n as [|[s1 o] n IH]; intros d ND; auto.
  change (NoDup (dkeys (merge n (dset s1 (overlay o (opts s1 d)) d)))). apply IH. now apply NoDup_dkeys_dset.
Qed.
End M.

Lemma opts_vmap {A B} (f : A -> B) s (d : dict (dict A)) : opts s (vmap (vmap f) d) = vmap f (opts s d).
Proof. unfold opts. rewrite dget_vmap. destruct (dget s d); auto. Qed.
Lemma merge_vmap {A B} (f : A -> B) n : forall d, vmap (vmap f) (merge n d) = merge (vmap (vmap f) n) (vmap (vmap f) d).
Proof.
  induction n as [|[s o] n IH]; intros d; auto.
  change (vmap (vmap f) (merge n (dset s (overlay o (opts s d)) d)) =
          merge (vmap (vmap f) n) (dset s (overlay (vmap f o) (opts s (vmap (vmap f) d))) (vmap (vmap f) d))).
  rewrite IH, dset_vmap, overlay_vmap, opts_vmap. reflexivity.
Qed.

(** The same at type [ropts]. *)
Lemma dget_mergeR s (n d : dict ropts) : NoDup (dkeys n) ->
  dget s (merge n d) = match dget s n with Some o => Some (overlay o (opts s d)) | None => dget s d end.
Proof. exact (dget_merge s n d). Qed.
Lemma merge_dsetR s (o : ropts) (n d : dict ropts) : NoDup (dkeys n) ->
  merge (dset s o n) d = dset s (overlay o (opts s d)) (merge n d).
Proof. exact (merge_dset s o n d). Qed.

(** ** The simulation *)
Section Sim.
Variables (delims : list str) (dn : str).
(** The parser before the file is read. *)
Variables (bs : dict ropts) (bd : ropts).
Hypothesis no_def : dget dn bs = None.

Record inv (r : rstate) : Prop := {
  iv_secs : NoDup (dkeys (r_secs r));
  iv_each : forall s o, dget s (r_secs r) = Some o -> NoDup (dkeys o);
  iv_defs : NoDup (dkeys (r_defs r));
  iv_added : forall s, str_mem s (r_addsec r) = dmem s (r_secs r);
  iv_nodef : dget dn (r_secs r) = None;
  iv_cur : forall n, r_cur r = CurSec n -> dget n (r_secs r) <> None;
  iv_opt : forall k, cur_is_none (r_cur r) = false -> opt_active (r_optname r) = Some k -> dget k (cur_opts r) <> None
}.

(** The state when the file is read into the old parser. *)
Definition full (r : rstate) : rstate :=
  RState (merge (r_secs r) bs) (overlay (r_defs r) bd) (r_cur r) (r_sectname r) (r_optname r)
         (r_indent r) (r_err r) (r_addsec r) (r_addopt r).

Definition base_opts (c : cursect) : ropts :=
  match c with CurNone => [] | CurDefaults => bd | CurSec n => opts n bs end.

Lemma cur_nodup r : inv r -> NoDup (dkeys (cur_opts r)).
Proof.
  intros V. unfold cur_opts. destruct (r_cur r); [constructor|apply V|].
  destruct (dget n (r_secs r)) eqn:E; [eapply V; eauto|constructor].
Qed.

Lemma cur_full r : inv r -> r_cur r <> CurNone -> cur_opts (full r) = overlay (cur_opts r) (base_opts (r_cur r)).
Proof.
  intros V N. unfold cur_opts. cbn [full r_cur r_secs r_defs]. destruct (r_cur r) eqn:C; [congruence|reflexivity|].
    rewrite dget_mergeR by apply V. pose proof (iv_cur _ V _ C) as X. destruct (dget n (r_secs r)); [reflexivity|congruence].
Qed.

Lemma set_full r k v : inv r -> r_cur r <> CurNone ->
  set_cur_opts (full r) (dset k v (cur_opts (full r))) = full (set_cur_opts r (dset k v (cur_opts r))).
Proof.
  intros V N. rewrite cur_full by auto. rewrite <- overlay_dset by now apply cur_nodup.
  unfold set_cur_opts. cbn [full r_cur]. destruct (r_cur r) eqn:C; [congruence| |].
  - unfold full. cbn [r_secs r_defs r_cur r_sectname r_optname r_indent r_err r_addsec r_addopt]. rewrite ?C; reflexivity.
  - unfold full. cbn [r_secs r_defs r_cur r_sectname r_optname r_indent r_err r_addsec r_addopt base_opts].
    rewrite merge_dsetR by apply V. rewrite ?C; reflexivity.
Qed.

Lemma cur_set r o : r_cur r <> CurNone -> cur_opts (set_cur_opts r o) = o.
Proof.
  intros N. unfold cur_opts, set_cur_opts. destruct (r_cur r) eqn:C; [congruence|reflexivity|].
  cbn. now rewrite dget_dset_same.
Qed.

Lemma inv_set r k v k' e i' ao : inv r -> r_cur r <> CurNone -> (opt_active k' = Some k \/ opt_active k' = None) ->
  inv (set_cur_opts (RState (r_secs r) (r_defs r) (r_cur r) (r_sectname r) k' i' e (r_addsec r) ao)
                    (dset k v (cur_opts r))).
Proof.
  intros V N O. pose proof (cur_nodup r V) as ND. pose proof (NoDup_dkeys_dset k v _ ND) as ND'.
  set (r1 := RState _ _ _ _ _ _ _ _ _).
  assert (CO : forall k0, opt_active k' = Some k0 -> dget k0 (dset k v (cur_opts r)) <> None).
  { intros k0 E. destruct O as [O|O]; [|congruence]. assert (k0 = k) by congruence. subst.
    rewrite dget_dset_same. discriminate. }
  destruct (r_cur r) eqn:C; [congruence| |].
  - constructor; unfold set_cur_opts, cur_opts in *; cbn [r1 r_cur r_secs r_defs r_optname r_addsec cur_is_none];
      rewrite ?C; cbn [r_cur r_secs r_defs r_optname r_addsec cur_is_none]; try apply V; auto.
    + now rewrite C in ND'.
    + discriminate.
    + intros k0 _ E. specialize (CO k0 E). now rewrite C in CO.
  - assert (HN : dget n (r_secs r) <> None) by now apply (iv_cur _ V).
    assert (DM : dmem n (r_secs r) = true) by (unfold dmem; destruct (dget n (r_secs r)); congruence).
    unfold set_cur_opts. cbn [r1 r_cur]. rewrite ?C.
    constructor; cbn [r_cur r_secs r_defs r_optname r_addsec cur_is_none].
    + apply NoDup_dkeys_dset, V.
    + intros s o'. rewrite dget_dset. destruct (str_eqb_spec s n); [intros E; inversion E; subst; auto|apply V].
    + apply V.
    + intros s. rewrite (iv_added _ V), dmem_dset. destruct (str_eqb_spec s n); subst; auto.
    + rewrite dget_dset. destruct (str_eqb_spec dn n) as [EQ|]; [|apply V].
      exfalso. apply HN; rewrite <- EQ; apply V.
    + intros m E. inversion E; subst. rewrite dget_dset_same. discriminate.
    + intros k0 _ E. unfold cur_opts. cbn [r_cur r_secs]. rewrite dget_dset_same. now apply CO.
Qed.

Lemma cin_false c : c <> CurNone -> cur_is_none c = false.
Proof. destruct c; auto; congruence. Qed.
Lemma cin_true c : cur_is_none c = false -> c <> CurNone.
Proof. destruct c; discriminate. Qed.

(** Changes that do not touch the data. *)
Lemma inv_ext r sn k' i' e ao : inv r -> (opt_active k' = opt_active (r_optname r) \/ opt_active k' = None) ->
  inv (RState (r_secs r) (r_defs r) (r_cur r) sn k' i' e (r_addsec r) ao).
Proof.
  intros V O. constructor; cbn [r_cur r_secs r_defs r_optname r_addsec cur_is_none]; try apply V.
  intros k C E. change (cur_opts (RState (r_secs r) (r_defs r) (r_cur r) sn k' i' e (r_addsec r) ao)) with (cur_opts r).
  apply V; auto. destruct O; congruence.
Qed.

Lemma dget_full_cur r k : inv r -> r_cur r <> CurNone -> dget k (cur_opts r) <> None ->
  dget k (cur_opts (full r)) = dget k (cur_opts r).
Proof.
  intros V N H. rewrite cur_full, dget_overlay by (auto; now apply cur_nodup).
  destruct (dget k (cur_opts r)); congruence.
Qed.

(** A line that is not handled in the same way only leaves dead state behind. *)
Lemma read_line_full line r : inv r ->
  let (a, r1) := read_line delims dn line r in
  read_line delims dn line (full r) = (a, full r1) /\ (a = Ok tt -> inv r1).
Proof.
  intros V. unfold read_line.
  set (comment := starts_with $"#" (strip_ws line) || starts_with $";" (strip_ws line)).
  set (value := if comment then [] else strip_ws line).
  change (r_cur (full r)) with (r_cur r). change (r_optname (full r)) with (r_optname r).
  change (r_indent (full r)) with (r_indent r).
  destruct value as [|c0 value'] eqn:EV.
  - destruct comment; [auto|]. destruct (cur_is_none (r_cur r)) eqn:CN; [auto|].
    destruct (opt_active (r_optname r)) as [k|] eqn:OA; [|auto].
    pose proof (cin_true _ CN) as N. pose proof (iv_opt _ V k CN OA) as HK.
    rewrite dget_full_cur by auto.
    destruct (dget k (cur_opts r)) as [[|s|ls]|] eqn:DK; [auto| | |congruence].
    + split; auto.
    + rewrite set_full by auto. split; auto. intros _.
      pose proof (inv_set r k (RLines (ls ++ [[]])) (r_optname r) (r_err r) (r_indent r) (r_addopt r) V N (or_introl OA)) as X.
      destruct r; exact X.
  - destruct (if cur_is_none (r_cur r) then None
              else if r_indent r <? indent line then opt_active (r_optname r) else None) as [k|] eqn:M.
    { (* continuation line *)
      destruct (cur_is_none (r_cur r)) eqn:CN; [discriminate|].
      destruct (r_indent r <? indent line); [|discriminate].
      pose proof (cin_true _ CN) as N. pose proof (iv_opt _ V k CN M) as HK.
      rewrite dget_full_cur by auto.
      destruct (dget k (cur_opts r)) as [[|s|ls]|] eqn:DK; [split; auto| | |congruence].
      - split; auto.
      - rewrite set_full by auto. split; auto. intros _.
        pose proof (inv_set r k (RLines (ls ++ [c0 :: value'])) (r_optname r) (r_err r) (r_indent r) (r_addopt r) V N (or_introl M)) as X.
        destruct r; exact X. }
    clear M. cbv zeta. cbn [r_cur r_secs r_addsec r_defs r_sectname r_optname r_indent r_err r_addopt full].
    destruct (sectcre (c0 :: value')) as [name|] eqn:SC.
    { (* section header *)
      assert (DM : @dmem ropts name (merge (r_secs r) bs) = dmem name (r_secs r) || dmem name bs).
      { unfold dmem. rewrite dget_mergeR by apply V. destruct (dget name (r_secs r)); reflexivity. }
      rewrite DM, (iv_added _ V). destruct (dmem name (r_secs r)) eqn:D1; cbn [orb].
      - split; [reflexivity|discriminate].
      - assert (G1 : dget name (r_secs r) = None) by (unfold dmem in D1; destruct (dget name (r_secs r)); congruence).
        destruct (str_eqb_spec name dn) as [EQ|ND].
        + subst name. unfold dmem. rewrite no_def. split; [reflexivity|]. intros _.
          constructor; cbn [r_cur r_secs r_defs r_optname r_addsec cur_is_none opt_active]; try apply V; try discriminate.
        + split.
          * assert (EQ : merge (dset name [] (r_secs r)) bs =
                if dmem name bs then merge (r_secs r) bs else dset name [] (merge (r_secs r) bs)).
            { rewrite merge_dsetR by apply V. cbn [overlay fold_left]. unfold dmem, opts. unfold ropts in *.
              destruct (dget name bs) as [o|] eqn:GB; [|reflexivity].
              apply dset_same_id. rewrite dget_merge, G1 by apply V. auto. }
            unfold full. cbn [r_cur r_secs r_addsec r_defs r_sectname r_optname r_indent r_err r_addopt].
            rewrite EQ. destruct (dmem name bs); reflexivity.
          * intros _.
            constructor; cbn [r_cur r_secs r_defs r_optname r_addsec cur_is_none opt_active].
            -- apply NoDup_dkeys_dset, V.
            -- intros s o. rewrite dget_dset. destruct (str_eqb s name); [intros E; inversion E; constructor|apply V].
            -- apply V.
            -- intros s. rewrite str_mem_sadd, dmem_dset, (iv_added _ V). reflexivity.
            -- rewrite dget_dset_other by congruence. apply V.
            -- intros n E. inversion E; subst. rewrite dget_dset_same. discriminate.
            -- discriminate. }
    destruct (cur_is_none (r_cur r)) eqn:CN; [split; [reflexivity|discriminate]|].
    pose proof (cin_true _ CN) as N.
    destruct (optcre delims (c0 :: value')) as [[opt val]|].
    2: { split; [reflexivity|]. intros _. apply inv_ext; auto. }
    destruct (pair_mem (r_sectname r) (rstrip_ws opt) (r_addopt r)); [split; [reflexivity|discriminate]|].
    set (e := match opt with [] => true | _ => r_err r end).
    set (v := match val with Some s => RLines [strip_ws s] | None => RNone end).
    set (r3 := RState (r_secs r) (r_defs r) (r_cur r) (r_sectname r) (Some (rstrip_ws opt)) (indent line) e
                 (r_addsec r) ((r_sectname r, rstrip_ws opt) :: r_addopt r)).
    assert (V3 : inv (set_cur_opts r3 (dset (rstrip_ws opt) v (cur_opts r3)))).
    { apply (inv_set r); auto. cbn [opt_active]. destruct (rstrip_ws opt); auto. }
    split; [|auto].
    (* writing the option *)
    f_equal. unfold set_cur_opts at 1. cbn [r_cur].
    change (cur_opts (RState (merge (r_secs r) bs) (overlay (r_defs r) bd) (r_cur r) (r_sectname r)
        (Some (rstrip_ws opt)) (indent line) e (r_addsec r) ((r_sectname r, rstrip_ws opt) :: r_addopt r)))
      with (cur_opts (full r)).
    rewrite cur_full, <- overlay_dset by (auto; now apply cur_nodup).
    unfold r3, set_cur_opts, full. cbn [r_cur r_secs r_addsec r_defs r_sectname r_optname r_indent r_err r_addopt].
    destruct (r_cur r) eqn:C; [congruence| |];
      cbn [r_cur r_secs r_addsec r_defs r_sectname r_optname r_indent r_err r_addopt base_opts]; f_equal.
    + unfold cur_opts. cbn [r_cur r_defs]. now rewrite C.
    + rewrite merge_dsetR by apply V. unfold cur_opts. cbn [r_cur r_secs]. now rewrite C.
Qed.

Lemma read_lines_full ls : forall r, inv r ->
  let (a, r1) := read_lines delims dn ls r in read_lines delims dn ls (full r) = (a, full r1).
Proof.
  induction ls as [|l ls IH]; intros r V; cbn [read_lines]; auto.
  pose proof (read_line_full l r V) as H. destruct (read_line delims dn l r) as [[[]|e] r1].
  - destruct H as [-> V1]. apply IH. auto.
  - now destruct H as [-> _].
Qed.
End Sim.

(** ** Files *)
Lemma join_to_ropts o : join_opts (to_ropts o) = o.
Proof.
  unfold join_opts, to_ropts. rewrite map_map. transitivity (map (fun x : str * option str => x) o); [|apply map_id].
  apply map_ext. intros [k [v|]]; reflexivity.
Qed.

Lemma merge_secs_merge n d : merge_secs n d = merge n d.
Proof. reflexivity. Qed.

Definition well_formed (i : ini) : Prop := dget (i_defname i) (i_secs i) = None.

Theorem read_file_merge delims t i : well_formed i ->
  let (r, n) := read_file delims t (empty_ini (i_defname i)) in
  read_file delims t i = (r, merge_ini n i).
Proof.
  intros WF. unfold read_file, empty_ini. cbn [i_secs i_defs i_defname map].
  set (bs := map (fun so => (fst so, to_ropts (snd so))) (i_secs i)).
  set (bd := to_ropts (i_defs i)).
  change (to_ropts []) with (@nil (str * rval)).
  set (r0 := RState [] [] CurNone [] None 0 false [] []).
  assert (ND : dget (i_defname i) bs = None).
  { unfold bs. change (map _ _) with (vmap to_ropts (i_secs i)). now rewrite dget_vmap, WF. }
  assert (V : inv (i_defname i) r0).
  { constructor; cbn; auto; try discriminate; try constructor. }
  pose proof (read_lines_full delims (i_defname i) bs bd ND (text_lines t) r0 V) as H.
  change (full bs bd r0) with (RState bs bd CurNone [] None 0 false [] []) in H.
  destruct (read_lines delims (i_defname i) (text_lines t) r0) as [a r1]. rewrite H.
  assert (EQ : Ini (map (fun so => (fst so, join_opts (snd so))) (r_secs (full bs bd r1)))
                   (join_opts (r_defs (full bs bd r1))) (i_defname i) =
               merge_ini (Ini (map (fun so => (fst so, join_opts (snd so))) (r_secs r1)) (join_opts (r_defs r1)) (i_defname i)) i).
  { unfold merge_ini. cbn [i_secs i_defs i_defname full r_secs r_defs]. f_equal.
    - change (vmap (vmap join_rval) (merge (r_secs r1) bs) = merge (vmap (vmap join_rval) (r_secs r1)) (i_secs i)).
      rewrite merge_vmap. f_equal. unfold bs.
      transitivity (map (fun so : str * options => so) (i_secs i)); [|apply map_id].
      unfold vmap at 1. rewrite map_map. apply map_ext. intros [s o]. cbn [fst snd]. f_equal. apply join_to_ropts.
    - change (vmap join_rval (overlay (r_defs r1) bd) = overlay (vmap join_rval (r_defs r1)) (i_defs i)).
      rewrite overlay_vmap. f_equal. apply join_to_ropts. }
  rewrite EQ. change (r_err (full bs bd r1)) with (r_err r1).
  destruct a; reflexivity.
Qed.
