(** * Proofs about [ExceptionControl], [Debuggable] and [typed_property]. *)
From Coq Require Import String NArith ZArith List Bool Lia ZifyBool.
Import ListNotations.
From Verif Require Import PyBase PyFacts ExcControl Debuggable TypedProp SpecBase.

Lemma threshold_map ev t : threshold ev t <-> dget ev event_map = Some t.
Proof.
  split.
  - intros []; reflexivity.
  - unfold event_map. cbn [dget].
    repeat match goal with
    | |- context [str_eqb ev ?x] => destruct (str_eqb_spec ev x) as [->|?]
    end; intros E; inversion E; constructor.
Qed.

Lemma unknown_map ev : ~ known_event ev -> dget ev event_map = None.
Proof.
  intros H. destruct (dget ev event_map) as [t|] eqn:E; auto.
  exfalso. apply H. exists t. now apply threshold_map.
Qed.

Lemma event_raise_iff (s : ecs) ev t e msg :
  threshold (upper ev) t ->
  fst (ec_event s ev (XClass e) msg) = if (t <=? ec_level s)%Z then Err e else Ok tt.
Proof.
  intros H. apply threshold_map in H. unfold ec_event. cbn [is_raisable negb].
  rewrite H. destruct (t <=? ec_level s)%Z; auto.
  destruct (0 <? ec_level s)%Z; auto.
  destruct (negb (ec_silent s) && _); auto.
Qed.

Lemma event_monotone (s s' : ecs) ev x msg :
  ec_silent s = ec_silent s' -> ec_compact s = ec_compact s' ->
  (ec_level s <= ec_level s')%Z ->
  raises (ec_event s ev x msg) -> raises (ec_event s' ev x msg).
Proof.
  intros _ _ L [e H]. unfold raises, ec_event in *.
  destruct (negb (is_raisable x)); [eexists; reflexivity|].
  destruct (dget (upper ev) event_map) as [t|]; [|eexists; reflexivity].
  destruct (t <=? ec_level s')%Z eqn:E'; [eexists; reflexivity|].
  assert (E : (t <=? ec_level s)%Z = false) by (clear - E' L; lia). rewrite E in H.
  destruct (0 <? ec_level s)%Z eqn:E0.
  - assert (E1 : (0 <? ec_level s')%Z = true) by (clear - E0 L; lia). rewrite E1.
    destruct x; try (eexists; reflexivity).
    destruct (negb (ec_silent s) && _); discriminate.
  - discriminate.
Qed.

Lemma event_unknown (s : ecs) ev x msg :
  ~ known_event (upper ev) -> is_raisable x = true ->
  ec_event s ev x msg = (Err KeyError, []).
Proof.
  intros H R. unfold ec_event. rewrite R. cbn [negb]. now rewrite unknown_map.
Qed.

Lemma event_not_exception (s : ecs) ev x msg :
  is_raisable x = false -> ec_event s ev x msg = (Err TypeError, []).
Proof. intros R. unfold ec_event. now rewrite R. Qed.

Lemma event_instance_not_suppressed (s : ecs) ev t e msg :
  threshold (upper ev) t -> (0 < ec_level s < t)%Z ->
  ec_event s ev (XInstance e) msg = (Err TypeError, []).
Proof.
  intros H L. apply threshold_map in H. unfold ec_event. cbn [is_raisable negb].
  rewrite H. replace (t <=? ec_level s)%Z with false by lia.
  now replace (0 <? ec_level s)%Z with true by lia.
Qed.

Lemma event_output (s : ecs) ev e msg :
  known_event (upper ev) ->
  snd (ec_event s ev (XClass e) msg) =
  if (match fst (ec_event s ev (XClass e) msg) with Ok _ => true | _ => false end)
     && (0 <? ec_level s)%Z && negb (ec_silent s) && negb (str_eqb (upper ev) $"SILENT")
  then [OWarn (ec_compact s) (upper ev) e (msg && negb (ec_compact s))]
  else [].
Proof.
  intros [t H]. apply threshold_map in H. unfold ec_event. cbn [is_raisable negb].
  rewrite H. destruct (t <=? ec_level s)%Z; auto.
  destruct (0 <? ec_level s)%Z; auto.
  destruct (negb (ec_silent s) && negb (str_eqb (upper ev) $"SILENT")) eqn:E;
    cbn [fst snd andb]; rewrite <- ?andb_assoc, E; reflexivity.
Qed.

Lemma event_raise_prints_nothing (s : ecs) ev x msg :
  raises (ec_event s ev x msg) -> snd (ec_event s ev x msg) = [].
Proof.
  intros [e H]. unfold ec_event in *.
  destruct (negb (is_raisable x)); auto.
  destruct (dget (upper ev) event_map) as [t|]; auto.
  destruct (t <=? ec_level s)%Z; auto.
  destruct (0 <? ec_level s)%Z; auto.
  destruct x; auto. destruct (negb (ec_silent s) && _); auto. discriminate.
Qed.

Lemma clamp_eq v : Z.min 5 (Z.max 0 v) = clamped v.
Proof. unfold clamped. destruct (v <? 0)%Z eqn:A; destruct (5 <? v)%Z eqn:B; lia. Qed.

Lemma level_history (l : list Z) (s : ecs) :
  ec_level (fold_left (fun s v => ec_set_level v s) l s) =
  match rev l with [] => ec_level s | v :: _ => clamped v end.
Proof.
  induction l as [|v l IH] using rev_ind; auto.
  rewrite fold_left_app, rev_app_distr. cbn. apply clamp_eq.
Qed.

Lemma clamped_range v : (0 <= clamped v <= 5)%Z.
Proof. unfold clamped. destruct (v <? 0)%Z eqn:A; destruct (5 <? v)%Z eqn:B; lia. Qed.

Lemma level_history_range (l : list Z) (s : ecs) :
  (0 <= ec_level s <= 5)%Z ->
  (0 <= ec_level (fold_left (fun s v => ec_set_level v s) l s) <= 5)%Z.
Proof.
  intros H. rewrite level_history. destruct (rev l); auto. apply clamped_range.
Qed.

Lemma debug_history (l : list Z) (d : Z) :
  fold_left (fun _ v => dbg_set v) l d =
  match rev l with [] => d | v :: _ => Z.max v 0 end.
Proof.
  induction l as [|v l IH] using rev_ind; auto.
  now rewrite fold_left_app, rev_app_distr.
Qed.

(** ** Decimal rendering *)
Lemma dec_value_acc_app acc s t :
  dec_value_acc acc (s ++ t) = dec_value_acc (dec_value_acc acc s) t.
Proof. revert acc; induction s as [|c s IH]; intros acc; cbn; auto. Qed.

Lemma dec_digits_value fuel n rest :
  (n < 2 ^ N.of_nat fuel)%N ->
  exists ds, dec_digits (S fuel) n rest = ds ++ rest /\ dec_value ds = n /\
             Forall is_digit ds /\ ds <> [].
Proof.
  revert n rest. induction fuel as [|fuel IH]; intros n rest H.
  - cbn in H. assert (n = 0)%N by lia. subst. exists [48%N]. cbn.
    repeat split; auto; try discriminate. constructor; auto. split; discriminate.
  - cbn [dec_digits] in *. destruct (n <? 10)%N eqn:E.
    + apply N.ltb_lt in E. exists [(48 + n mod 10)%N]. rewrite N.mod_small by lia.
      repeat split; try discriminate.
      * unfold dec_value. cbn [dec_value_acc]. rewrite N.mul_0_r, N.add_0_l.
        rewrite N.add_comm, N.add_sub. reflexivity.
      * constructor; auto. unfold is_digit. lia.
    + apply N.ltb_ge in E.
      destruct (IH (n / 10)%N ((48 + n mod 10)%N :: rest)) as (ds & E1 & E2 & E3 & E4).
      { apply N.div_lt_upper_bound; [lia|].
        replace (N.of_nat (S fuel)) with (N.succ (N.of_nat fuel)) in H by lia.
        rewrite N.pow_succ_r' in H. lia. }
      exists (ds ++ [(48 + n mod 10)%N]). cbn [dec_digits] in E1. rewrite E1.
      assert (Hm : (n mod 10 < 10)%N) by (apply N.mod_lt; discriminate).
      repeat split.
      * now rewrite <- app_assoc.
      * unfold dec_value in *. rewrite dec_value_acc_app, E2. cbn [dec_value_acc].
        rewrite (N.add_comm 48), N.add_sub. symmetry. apply N.div_mod. lia.
      * apply Forall_app. split; auto. constructor; auto. unfold is_digit.
        clear - Hm. generalize dependent (n mod 10)%N. intros m Hm. lia.
      * destruct ds; discriminate.
Qed.

Lemma dec_of_N_value n :
  dec_value (dec_of_N n) = n /\ Forall is_digit (dec_of_N n) /\ dec_of_N n <> [].
Proof.
  unfold dec_of_N.
  destruct (dec_digits_value (N.to_nat (N.size n)) n []) as (ds & E1 & E2 & E3 & E4).
  - rewrite N2Nat.id. apply N.size_gt.
  - rewrite E1, app_nil_r. auto.
Qed.

Lemma debug_message_spec self level m endl up :
  debug_message self level m endl up =
  if (level <=? self)%Z then
    Some ((if (0 <? level)%Z && up then $"[D-" ++ dec_of_N (Z.to_N level) ++ $"] " else [])
          ++ m ++ endl)
  else None.
Proof.
  unfold debug_message. destruct (level <=? self)%Z; auto.
  destruct (0 <? level)%Z eqn:E; auto.
  destruct level; try discriminate. destruct up; cbn [andb dec_of_Z Z.to_N];
  now rewrite <- ?app_assoc.
Qed.

(** ** [typed_property] *)
Section Typed.
Context {V : Type} (d : tp_decl V).

Lemma convert_iff v w : tp_convert d v = Ok w <-> convertsto d v w.
Proof.
  unfold tp_convert. split.
  - destruct (tp_internal d) eqn:E; intros H.
    + eapply conv_some; eauto.
    + injection H as ->. now constructor.
  - intros [v' E|f v' w' E H]; rewrite E; auto.
Qed.

Lemma transform_iff v w : tp_apply_transform d v = Ok w <-> transformsto d v w.
Proof.
  unfold tp_apply_transform. split.
  - destruct (tp_transform d) as [[f|]|] eqn:E; intros H; try discriminate.
    + destruct (f v) eqn:F; try discriminate. apply convert_iff in H.
      eapply trans_some; eauto.
    + injection H as ->. now constructor.
  - intros [v' E|f v' v1 v2 E F H]; rewrite E; auto. rewrite F. now apply convert_iff.
Qed.

Lemma validate_iff v w : tp_validate d v = Ok w <-> v = w /\ valid d v.
Proof.
  unfold tp_validate, valid. split.
  - destruct (tp_validator d) as [[f|]|] eqn:E; intros H; try discriminate.
    + destruct (f v) as [[|]|] eqn:F; try discriminate. injection H as <-. split; auto.
      right. eauto.
    + injection H as <-. auto.
  - intros [<- [E|(f & E & F)]]; rewrite E; auto. now rewrite F.
Qed.

Lemma prepare_iff v w : tp_prepare d v = Ok w <-> accepts d v w.
Proof.
  unfold tp_prepare, accepts. split.
  - destruct (tp_isinstance d v); try discriminate.
    destruct (tp_convert d v) eqn:E1; try discriminate.
    destruct (tp_apply_transform d a) eqn:E2; try discriminate.
    intros H. apply validate_iff in H as [<- H].
    apply convert_iff in E1. apply transform_iff in E2. eauto.
  - intros [-> (v1 & H1 & H2 & H3)]. apply convert_iff in H1. apply transform_iff in H2.
    rewrite H1, H2. apply validate_iff. auto.
Qed.

(** Representation invariant. *)
Definition tp_rel (s : tp_state V) (cur : option V) : Prop :=
  match cur with
  | Some v => tp_var s = Some v /\ tp_isset s = Some true
  | None => (tp_isset s = None \/ tp_isset s = Some false) /\
            (tp_var s = None \/
             (exists v, tp_var s = Some v /\ tp_default d = Some v) \/
             (exists v, tp_var s = Some v /\ tp_default d = None /\ tp_factory d = Some (Ok v)))
  end.

Lemma tp_run_refines l s cur :
  tp_rel s cur ->
  exists cur', spec_run d l cur (fst (tp_run d l s)) cur' /\ tp_rel (snd (tp_run d l s)) cur'.
Proof.
  revert s cur. induction l as [|o l IH]; intros s cur R.
  - exists cur. split; [constructor|auto].
  - cbn [tp_run]. destruct (tp_step d o s) as [a s'] eqn:Hs.
    destruct (tp_run d l s') as [ans s''] eqn:Hr. cbn [fst snd].
    assert (IH' : forall cur', tp_rel s' cur' ->
              exists cur'', spec_run d l cur' ans cur'' /\ tp_rel s'' cur'').
    { intros cur' R'. specialize (IH s' cur' R'). now rewrite Hr in IH. }
    destruct o as [|v|]; cbn [tp_step] in Hs.
    + assert (G : tp_get d s = (match cur with Some v => Ok v | None => unassigned d end, s')
                  /\ a = AnsGet (match cur with Some v => Ok v | None => unassigned d end)
                  /\ tp_rel s' cur).
      { unfold tp_get in *. destruct cur as [v|]; cbn [tp_rel] in R.
        - destruct R as [Rv Rs]. rewrite Rs, Rv in *. cbn [negb] in *. rewrite andb_false_r in *.
          cbn [tp_var] in *. injection Hs as <- <-. repeat split; auto.
        - destruct R as [Rs Rv].
          assert (F : match tp_isset s with None => false | Some b => b end = false)
            by (destruct Rs as [-> | ->]; auto).
          rewrite F in *. cbn [negb] in *. rewrite andb_true_r in *. unfold unassigned.
          destruct (tp_req d).
          { injection Hs as <- <-. repeat split; cbn; auto. }
          cbn [tp_var] in *.
          destruct Rv as [Rv|[(v & Rv & Rd)|(v & Rv & Rd & Rf)]]; rewrite Rv in *.
          + destruct (tp_default d) eqn:Ed.
            { injection Hs as <- <-. repeat split; cbn; auto. right; left; eauto. }
            destruct (tp_factory d) as [[v|e]|] eqn:Ef;
              injection Hs as <- <-; repeat split; cbn; auto. right; right; eauto.
          + rewrite Rd. injection Hs as <- <-. repeat split; cbn; auto. right; left; eauto.
          + rewrite Rd, Rf. injection Hs as <- <-. repeat split; cbn; auto.
            right; right; eauto. }
      destruct G as (_ & -> & R'). destruct (IH' cur R') as (c & H1 & H2).
      exists c. split; auto. now constructor.
    + unfold tp_set in Hs. destruct (tp_prepare d v) as [w|e] eqn:P.
      * injection Hs as <- <-. destruct (IH' (Some w)) as (c & H1 & H2).
        { split; reflexivity. }
        exists c. split; auto. eapply sr_set_ok; eauto. now apply prepare_iff.
      * injection Hs as <- <-. destruct (IH' cur R) as (c & H1 & H2).
        exists c. split; auto. apply sr_set_err; auto.
        intros w Hw. apply prepare_iff in Hw. congruence.
    + unfold tp_del in Hs. injection Hs as <- <-. destruct (IH' None) as (c & H1 & H2).
      { split; cbn; auto. }
      exists c. split; auto. now constructor.
Qed.

Lemma tp_history l :
  exists cur, spec_run d l None (fst (tp_run d l tp_init)) cur.
Proof.
  destruct (tp_run_refines l tp_init None) as (cur & H & _).
  - split; cbn; auto.
  - eauto.
Qed.

(** The abstract run, read off directly. *)
Definition last_assigned (l : list tp_op) : option V :=
  fold_left (fun cur o => match o with
                          | TGet => cur
                          | TSet v => match tp_prepare d v with Ok w => Some w | Err _ => cur end
                          | TDel => None
                          end) l None.

Lemma tp_state_rel l s cur :
  tp_rel s cur ->
  tp_rel (snd (tp_run d l s))
    (fold_left (fun cur o => match o with
                          | TGet => cur
                          | TSet v => match tp_prepare d v with Ok w => Some w | Err _ => cur end
                          | TDel => None
                          end) l cur).
Proof.
  intros R. destruct (tp_run_refines l s cur R) as (c & H1 & H2).
  enough (c = fold_left (fun cur o => match o with
                          | TGet => cur
                          | TSet v => match tp_prepare d v with Ok w => Some w | Err _ => cur end
                          | TDel => None
                          end) l cur) by (subst; auto).
  clear R H2. induction H1; cbn [fold_left]; auto.
  - apply prepare_iff in H. now rewrite H.
  - destruct (tp_prepare d v) eqn:P; auto. apply prepare_iff in P. destruct (H _ P).
Qed.

Lemma tp_get_unbound_iff l :
  tp_req d = true ->
  (fst (tp_get d (snd (tp_run d l tp_init))) = Err UnboundLocalError <-> last_assigned l = None).
Proof.
  intros Q. pose proof (tp_state_rel l tp_init None) as R.
  assert (R0 : tp_rel tp_init None) by (split; cbn; auto).
  specialize (R R0). fold (last_assigned l) in R.
  unfold tp_get. rewrite Q. destruct (last_assigned l) as [v|]; cbn [tp_rel] in R.
  - destruct R as [Rv Rs]. rewrite Rs. cbn [negb andb tp_var]. rewrite Rv. cbn. split; discriminate.
  - destruct R as [[Rs|Rs] _]; rewrite Rs; cbn; tauto.
Qed.

Lemma spec_run_cur l cur ans c :
  spec_run d l cur ans c ->
  c = fold_left (fun cur o => match o with
                          | TGet => cur
                          | TSet v => match tp_prepare d v with Ok w => Some w | Err _ => cur end
                          | TDel => None
                          end) l cur.
Proof.
  intros H1. induction H1; cbn [fold_left]; auto.
  - apply prepare_iff in H. now rewrite H.
  - destruct (tp_prepare d v) eqn:P; auto. apply prepare_iff in P. destruct (H _ P).
Qed.

Lemma tp_get_unbound_spec l ans cur :
  tp_req d = true -> spec_run d l None ans cur ->
  (fst (tp_get d (snd (tp_run d l tp_init))) = Err UnboundLocalError <-> cur = None).
Proof.
  intros Q H. apply spec_run_cur in H. rewrite H. now apply tp_get_unbound_iff.
Qed.

Lemma tp_failed_set_noop v s e :
  fst (tp_set d v s) = Err e -> snd (tp_set d v s) = s.
Proof. unfold tp_set. destruct (tp_prepare d v); cbn; congruence. Qed.

Lemma tp_set_get v s s' :
  tp_set d v s = (Ok tt, s') ->
  exists w, accepts d v w /\ fst (tp_get d s') = Ok w.
Proof.
  unfold tp_set. destruct (tp_prepare d v) as [w|] eqn:P; intros H; [|discriminate].
  injection H as <-. exists w. split; [now apply prepare_iff|].
  unfold tp_get. cbn. now rewrite andb_false_r.
Qed.
End Typed.
