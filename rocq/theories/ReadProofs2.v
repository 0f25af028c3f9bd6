(** * Several files, duplicates, and what a failed read leaves. *)
From Coq Require Import String NArith Arith List Bool Lia.
Import ListNotations.
From Verif Require Import PyBase PyFacts IniView IniRead Cpe SpecWalk SpecParse SpecRead WalkProofs ReadProofs.

(** ** Keys in order of first occurrence *)
Definition addk (d : list str) (k : str) : list str := if str_mem k d then d else d ++ [k].

Lemma fold_addk l : forall d, fold_left addk l d = d ++ filter (fun k => negb (str_mem k d)) (first_keys l).
Proof.
  induction l as [|k l IH]; intros d; cbn [fold_left first_keys filter]; [now rewrite app_nil_r|].
  rewrite IH, filter_filter. unfold addk. destruct (str_mem k d) eqn:M; cbn [negb].
  - f_equal. apply filter_ext. intros x.
    destruct (str_eqb_spec x k) as [->|N]; cbn [negb]; [now rewrite M|now rewrite andb_true_r].
  - rewrite <- app_assoc. cbn [app]. do 2 f_equal.
    apply filter_ext. intros x. unfold str_mem. rewrite existsb_app. cbn. now rewrite orb_false_r, negb_orb.
Qed.

Lemma filter_true {A} (f : A -> bool) l : (forall x, f x = true) -> filter f l = l.
Proof. intros H. induction l; cbn; auto. rewrite H. now f_equal. Qed.

Lemma first_keys_fold l : first_keys l = fold_left addk l [].
Proof. rewrite fold_addk. cbn [app]. symmetry. apply filter_true. reflexivity. Qed.

Lemma dkeys_dset_addk {A} k (v : A) d : dkeys (dset k v d) = addk (dkeys d) k.
Proof.
  unfold addk. destruct (str_mem k (dkeys d)) eqn:M.
  - apply dkeys_dset_mem. now apply str_mem_In.
  - apply dkeys_dset_new. now apply str_mem_not_In.
Qed.

Lemma dkeys_overlay {A} (n : dict A) : forall d, dkeys (overlay n d) = fold_left addk (dkeys n) (dkeys d).
Proof.
  induction n as [|[k v] n IH]; intros d; auto.
  change (dkeys (overlay n (dset k v d)) = fold_left addk (dkeys n) (addk (dkeys d) k)).
  now rewrite IH, dkeys_dset_addk.
Qed.
Lemma dkeys_merge {A} (n : dict (dict A)) : forall d, dkeys (merge n d) = fold_left addk (dkeys n) (dkeys d).
Proof.
  induction n as [|[k v] n IH]; intros d; auto.
  change (dkeys (merge n (dset k (overlay v (opts k d)) d)) = fold_left addk (dkeys n) (addk (dkeys d) k)).
  now rewrite IH, dkeys_dset_addk.
Qed.

(** ** Parsers as the reader leaves them *)
Record neat (n : ini) : Prop := {
  nt_secs : NoDup (dkeys (i_secs n));
  nt_each : forall s, NoDup (dkeys (options_in s (i_secs n)));
  nt_defs : NoDup (dkeys (i_defs n));
  nt_def : dget (i_defname n) (i_secs n) = None
}.

Lemma neat_empty d : neat (empty_ini d).
Proof. constructor; cbn; constructor. Qed.

Lemma dget_mergeO s (n d : dict options) : NoDup (dkeys n) ->
  dget s (merge_secs n d) = match dget s n with Some o => Some (overlay o (opts s d)) | None => dget s d end.
Proof. exact (dget_merge s n d). Qed.

Lemma options_merge s n d : NoDup (dkeys n) ->
  options_in s (merge_secs n d) = overlay (options_in s n) (options_in s d).
Proof.
  intros ND. unfold options_in. rewrite dget_mergeO by auto.
  destruct (dget s n); reflexivity.
Qed.

Lemma neat_merge n i : neat n -> neat i -> i_defname n = i_defname i -> neat (merge_ini n i).
Proof.
  intros N I E. constructor; cbn [merge_ini i_secs i_defs i_defname].
  - apply NoDup_merge, I.
  - intros s. rewrite options_merge by apply N. apply NoDup_overlay, I.
  - apply NoDup_overlay, I.
  - rewrite dget_mergeO by apply N. rewrite <- E at 1. rewrite (nt_def _ N). apply I.
Qed.

(** ** The loop *)
Section Loop.
Variables (delims : list str) (dn : str).
Notation rl := (read_line delims dn).
Notation rls := (read_lines delims dn).

Lemma read_lines_app a : forall b r, rls (a ++ b) r =
  match rls a r with (Ok _, r') => rls b r' | (Err e, r') => (Err e, r') end.
Proof.
  induction a as [|l a IH]; intros b r; cbn [app read_lines]; auto.
  destruct (rl l r) as [[u|e] r']; auto.
Qed.

Lemma read_lines_err ls : forall r e r1, rls ls r = (Err e, r1) ->
  exists l1 l l2 r0, ls = l1 ++ l :: l2 /\ rls l1 r = (Ok tt, r0) /\ rl l r0 = (Err e, r1).
Proof.
  induction ls as [|l ls IH]; intros r e r1; cbn [read_lines]; [discriminate|].
  destruct (rl l r) as [[[]|e'] r'] eqn:E; intros H.
  - apply IH in H as (l1 & l' & l2 & r0 & -> & A & B).
    exists (l :: l1), l', l2, r0. repeat split; auto. cbn [read_lines]. now rewrite E.
  - inversion H; subst. exists [], l, ls, r. auto.
Qed.

(** A line that raises changes no data. *)
Lemma read_line_err l r e r1 : rl l r = (Err e, r1) ->
  r_secs r1 = r_secs r /\ r_defs r1 = r_defs r /\ r_err r1 = r_err r \/
  e = DuplicateOptionError /\ r_secs r1 = r_secs r /\ r_defs r1 = r_defs r.
Proof.
  unfold read_line.
  set (comment := starts_with $"#" (strip_ws l) || starts_with $";" (strip_ws l)).
  destruct (if comment then [] else strip_ws l) as [|c0 value].
  - destruct comment; [discriminate|]. destruct (cur_is_none (r_cur r)); [discriminate|].
    destruct (opt_active (r_optname r)) as [k|]; [|discriminate].
    destruct (dget k (cur_opts r)) as [[]|]; intros E; inversion E; auto.
  - destruct (if cur_is_none (r_cur r) then _ else _) as [k|].
    + destruct (dget k (cur_opts r)) as [[]|]; intros E; inversion E; auto.
    + cbv zeta. cbn [r_cur r_secs r_addsec r_defs r_sectname r_optname r_indent r_err r_addopt].
      destruct (sectcre (c0 :: value)) as [name|].
      * destruct (dmem name (r_secs r)); [destruct (str_mem name (r_addsec r))|destruct (str_eqb name dn)];
          intros E; inversion E; auto.
      * destruct (cur_is_none (r_cur r)); [intros E; inversion E; auto|].
        destruct (optcre delims (c0 :: value)) as [[opt val]|]; [|discriminate].
        destruct (pair_mem _ _ _); intros E; inversion E; subst. right. auto.
Qed.

Lemma read_line_inv l r r1 : inv dn r -> rl l r = (Ok tt, r1) -> inv dn r1.
Proof.
  intros V E. pose proof (read_line_full delims dn [] [] eq_refl l r V) as H. rewrite E in H. now apply H.
Qed.
Lemma read_lines_inv ls : forall r r1, inv dn r -> rls ls r = (Ok tt, r1) -> inv dn r1.
Proof.
  induction ls as [|l ls IH]; intros r r1 V; cbn [read_lines]; [intros E; inversion E; now subst|].
  destruct (rl l r) as [[[]|e] r'] eqn:E; [|discriminate]. apply IH. eapply read_line_inv; eauto.
Qed.

Definition start : rstate := RState [] [] CurNone [] None 0 false [] [].
Lemma start_inv : inv dn start.
Proof. constructor; cbn; auto; try discriminate; try constructor. Qed.

Definition content (r : rstate) : ini :=
  Ini (map (fun so => (fst so, join_opts (snd so))) (r_secs r)) (join_opts (r_defs r)) dn.

Lemma dkeys_join o : dkeys (join_opts o) = dkeys o.
Proof. apply (dkeys_vmap join_rval). Qed.

Lemma content_neat r : inv dn r -> neat (content r).
Proof.
  intros V. unfold content. change (map _ (r_secs r)) with (vmap join_opts (r_secs r)).
  constructor; cbn [i_secs i_defs i_defname].
  - rewrite dkeys_vmap. apply V.
  - intros s. unfold options_in. rewrite dget_vmap. destruct (dget s (r_secs r)) as [o|] eqn:E; cbn; [|constructor].
    change (NoDup (dkeys (join_opts o))). rewrite dkeys_join. eapply V; eauto.
  - rewrite dkeys_join. apply V.
  - rewrite dget_vmap, (iv_nodef _ _ V). reflexivity.
Qed.

Lemma content_ext r r' : r_secs r = r_secs r' -> r_defs r = r_defs r' -> content r = content r'.
Proof. unfold content. now intros -> ->. Qed.

Lemma read_file_start t : read_file delims t (empty_ini dn) =
  let (out, r) := rls (text_lines t) start in
  match out with
  | Err e => (Err e, content r)
  | Ok _ => (if r_err r then Err ParsingError else Ok tt, content r)
  end.
Proof. unfold read_file. cbn [empty_ini i_secs i_defs i_defname map]. reflexivity. Qed.

Theorem read_file_neat t r n : read_file delims t (empty_ini dn) = (r, n) -> neat n /\ i_defname n = dn.
Proof.
  rewrite read_file_start. destruct (rls (text_lines t) start) as [[[]|e] r1] eqn:E; intros H; inversion H; subst;
    split; auto.
  - apply content_neat. eapply read_lines_inv; eauto using start_inv.
  - apply read_lines_err in E as (l1 & l & l2 & r0 & _ & A & B).
    assert (V : inv dn r0) by (eapply read_lines_inv; eauto using start_inv).
    rewrite (content_ext r1 r0); [now apply content_neat|..]; apply read_line_err in B as [(X & Y & _)|(_ & X & Y)]; auto.
Qed.
End Loop.

(** ** Several files *)

Lemma defname_merge ns : forall i, i_defname (merge_all ns i) = i_defname i.
Proof. induction ns as [|n ns IH]; intros i; auto. cbn. unfold merge_all in IH. now rewrite IH. Qed.

Lemma neat_well_formed i : neat i -> well_formed i.
Proof. intros N. apply N. Qed.

Theorem read_files_spec delims ts : forall i, neat i ->
  (exists ns, Forall2 (reads delims (i_defname i)) ts ns /\
     read_files delims ts i = (Ok tt, merge_all ns i)) \/
  (exists ts1 t ts2 ns e n, ts = ts1 ++ t :: ts2 /\ Forall2 (reads delims (i_defname i)) ts1 ns /\
     read_file delims t (empty_ini (i_defname i)) = (Err e, n) /\
     read_files delims ts i = (Err e, merge_ini n (merge_all ns i))).
Proof.
  induction ts as [|t ts IH]; intros i N; cbn [read_files].
  - left. exists []. split; [constructor|reflexivity].
  - pose proof (read_file_merge delims t i (neat_well_formed i N)) as H.
    destruct (read_file delims t (empty_ini (i_defname i))) as [[[]|e] n] eqn:E.
    + destruct (read_file_neat _ _ _ _ _ E) as [NN DN].
      destruct (IH (merge_ini n i) (neat_merge n i NN N DN)) as [(ns & F & R)|(ts1 & t1 & ts2 & ns & e & n1 & -> & F & R1 & R)].
      * left. exists (n :: ns). split; [constructor; auto|]. rewrite H. exact R.
      * right. exists (t :: ts1), t1, ts2, (n :: ns), e, n1. split; auto. split; [constructor; auto|]. split; auto. rewrite H. exact R.
    + right. exists [], t, ts, [], e, n. rewrite H. auto.
Qed.

(** *** What the merge contains *)
Lemma reads_neat delims dn ts ns : Forall2 (reads delims dn) ts ns -> Forall (fun n => neat n /\ i_defname n = dn) ns.
Proof. intros F. induction F; constructor; auto. eapply read_file_neat; eauto. Qed.

Lemma merge_all_secs ns : forall i, ini_sections (merge_all ns i) =
  fold_left addk (flat_map ini_sections ns) (ini_sections i).
Proof.
  induction ns as [|n ns IH]; intros i; auto. cbn [merge_all fold_left flat_map].
  unfold merge_all in IH. rewrite IH, fold_left_app. f_equal. apply dkeys_merge.
Qed.

Lemma merge_all_options ns : forall i s, Forall neat ns ->
  options_in s (i_secs (merge_all ns i)) =
  fold_left (fun d n => overlay (options_in s (i_secs n)) d) ns (options_in s (i_secs i)).
Proof.
  induction ns as [|n ns IH]; intros i s F; auto. inversion F; subst. cbn [merge_all fold_left].
  unfold merge_all in IH. rewrite IH by auto. f_equal. cbn [merge_ini i_secs]. apply options_merge. apply H1.
Qed.

Lemma merge_all_defs ns : forall i,
  i_defs (merge_all ns i) = fold_left (fun d n => overlay (i_defs n) d) ns (i_defs i).
Proof. induction ns as [|n ns IH]; intros i; auto. cbn. unfold merge_all in IH. now rewrite IH. Qed.

Lemma fold_overlay_get {A B} (f : A -> dict B) k ns : Forall (fun n => NoDup (dkeys (f n))) ns -> forall d,
  dget k (fold_left (fun d n => overlay (f n) d) ns d) =
  match last_some (fun n => dget k (f n)) ns with Some v => Some v | None => dget k d end.
Proof.
  induction ns as [|n ns IH]; intros F d; auto. inversion F; subst. cbn [fold_left last_some].
  rewrite IH by auto. destruct (last_some _ ns); auto. now rewrite dget_overlay.
Qed.
Lemma fold_overlay_keys {A B} (f : A -> dict B) ns : forall d,
  dkeys (fold_left (fun d n => overlay (f n) d) ns d) = fold_left addk (flat_map (fun n => dkeys (f n)) ns) (dkeys d).
Proof.
  induction ns as [|n ns IH]; intros d; auto. cbn [fold_left flat_map]. rewrite IH, fold_left_app. f_equal. apply dkeys_overlay.
Qed.

Theorem files_merge delims dn ts i : read_files delims ts (empty_ini dn) = (Ok tt, i) ->
  exists ns, Forall2 (reads delims dn) ts ns /\
    ini_sections i = first_keys (flat_map ini_sections ns) /\
    (forall s k, raw_value i s k = last_some (fun n => raw_value n s k) ns) /\
    (forall s, dkeys (options_in s (i_secs i)) = first_keys (flat_map (fun n => dkeys (options_in s (i_secs n))) ns)) /\
    (forall k, dget k (i_defs i) = last_some (fun n => dget k (i_defs n)) ns) /\
    dkeys (i_defs i) = first_keys (flat_map (fun n => dkeys (i_defs n)) ns).
Proof.
  intros E. destruct (read_files_spec delims ts (empty_ini dn) (neat_empty dn))
    as [(ns & F & R)|(ts1 & t & ts2 & ns & e & n & _ & _ & _ & R)]; rewrite R in E; [|discriminate].
  inversion E; subst i. exists ns. split; [exact F|]. pose proof (reads_neat _ _ _ _ F) as NT.
  cbn [empty_ini i_defname] in F.
  assert (NE : Forall neat ns) by (eapply Forall_impl; [|exact NT]; cbn; tauto).
  split; [|split; [|split; [|split]]].
  - rewrite merge_all_secs, first_keys_fold. reflexivity.
  - intros s k. unfold raw_value at 1. rewrite merge_all_options by auto.
    rewrite fold_overlay_get; [|eapply Forall_impl; [|exact NE]; cbn; intros a N; apply N].
    unfold raw_value. destruct (last_some _ ns); reflexivity.
  - intros s. rewrite merge_all_options, fold_overlay_keys, first_keys_fold by auto. reflexivity.
  - intros k. rewrite merge_all_defs, fold_overlay_get; [|eapply Forall_impl; [|exact NE]; cbn; intros a N; apply N].
    destruct (last_some _ ns); reflexivity.
  - rewrite merge_all_defs, fold_overlay_keys, first_keys_fold. reflexivity.
Qed.

(** Reading succeeds iff every file can be read alone. *)
Theorem files_ok delims dn ts : fst (read_files delims ts (empty_ini dn)) = Ok tt <->
  Forall (fun t => fst (read_file delims t (empty_ini dn)) = Ok tt) ts.
Proof.
  destruct (read_files_spec delims ts (empty_ini dn) (neat_empty dn))
    as [(ns & F & R)|(ts1 & t & ts2 & ns & e & n & -> & F & R1 & R)]; rewrite R; cbn [fst].
  - split; auto. intros _. clear R. unfold reads in F. cbn [empty_ini i_defname] in F.
    induction F as [|t n ts ns H F IH]; constructor; auto. now rewrite H.
  - split; [discriminate|]. intros FA. apply Forall_app in FA as [_ FA]. inversion FA; subst.
    cbn [empty_ini i_defname] in R1. rewrite R1 in H1. discriminate.
Qed.

(** The first failing file decides the error. *)
Theorem files_error delims dn ts e i : read_files delims ts (empty_ini dn) = (Err e, i) ->
  exists ts1 t ts2 ns n, ts = ts1 ++ t :: ts2 /\ Forall2 (reads delims dn) ts1 ns /\
    read_file delims t (empty_ini dn) = (Err e, n) /\ i = merge_ini n (merge_all ns (empty_ini dn)).
Proof.
  intros E. destruct (read_files_spec delims ts (empty_ini dn) (neat_empty dn))
    as [(ns & F & R)|(ts1 & t & ts2 & ns & e' & n & -> & F & R1 & R)]; rewrite R in E; [discriminate|].
  inversion E; subst. exists ts1, t, ts2, ns, n. auto.
Qed.
