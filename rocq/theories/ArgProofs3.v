(** * Proofs about command lines: settings, help and the two tables. *)
From Coq Require Import String NArith List Bool Arith Lia.
Import ListNotations.
From Verif Require Import PyBase PyFacts SpecText ArgParse SpecArgs ArgProofs ArgProofs2.

Section Settings.
Variable uni_digit : pychar -> bool.
Variable resolve : str -> str.
Variable t : list opt.
Variable positional : str.
Notation is_digit := (fun c => digit uni_digit c = true).
Notation reading := (reading is_digit t).
Notation effects := (effects resolve positional).
Notation effect := (effect resolve positional).
Notation sound_event := (sound_event t).
Hypothesis G : good_table is_digit t.
Hypothesis P : ~ In positional (map o_dest t).

(** ** Settings *)
Lemma dest_apart o o' : In o t -> In o' t -> o_dest o = o_dest o' -> o = o'.
Proof.
  assert (N := gt_dest _ _ G). clear G. induction t as [|x l IH]; [intros []|]. cbn [map] in N. inversion N as [|? ? N1 N2]; subst.
  intros [->|I] [->|I'] E.
  - reflexivity.
  - exfalso. apply N1. rewrite E. now apply in_map.
  - exfalso. apply N1. rewrite <- E. now apply in_map.
  - apply IH; auto. intros J. apply P. now right.
Qed.
Lemma opt_dec (o o' : opt) : In o t -> In o' t -> o = o' \/ o_dest o <> o_dest o'.
Proof.
  intros I I'. destruct (str_eqb (o_dest o) (o_dest o')) eqn:E.
  - apply str_eqb_eq in E. left. now apply dest_apart.
  - right. intros X. apply str_eqb_eq in X. congruence.
Qed.
Lemma effect_other o e ns : In o t -> sound_event e -> (forall v, e <> EOption o v) -> dget (o_dest o) (effect e ns) = dget (o_dest o) ns.
Proof.
  intros I S N. destruct e as [o' v|w].
  - destruct S as (I' & _). destruct (opt_dec o o' I I') as [->|D]; [now elim (N v)|].
    unfold ArgProofs2.effect. destruct (o_kind o'); [|destruct v|]; try reflexivity; now apply dget_dset_other.
  - apply dget_dset_other. intros E. apply P. rewrite <- E. now apply in_map.
Qed.
Lemma effects_other o evs : In o t -> Forall sound_event evs -> (forall v, ~ In (EOption o v) evs) -> forall ns, dget (o_dest o) (effects evs ns) = dget (o_dest o) ns.
Proof.
  intros I F. induction F as [|e evs S F IH]; intros N ns; [reflexivity|].
  change (effects (e :: evs) ns) with (effects evs (effect e ns)). rewrite IH.
  - apply effect_other; auto. intros v ->. apply (N v). now left.
  - intros v J. apply (N v). now right.
Qed.
Lemma flag_event_none o b v : sound_event (EOption o v) -> o_kind o = KFlag b -> v = None.
Proof. intros (_ & T) K. destruct v; [|reflexivity]. exfalso. unfold takes in T. assert (o_kind o = KStore) by (apply T; discriminate). congruence. Qed.
Lemma effects_flag_kept o b evs : In o t -> o_kind o = KFlag b -> Forall sound_event evs ->
  forall ns, dget (o_dest o) ns = Some (VBool b) -> dget (o_dest o) (effects evs ns) = Some (VBool b).
Proof.
  intros I K F. induction F as [|e evs S F IH]; intros ns E; [exact E|]. change (effects (e :: evs) ns) with (effects evs (effect e ns)). apply IH.
  destruct e as [o' v|w].
  - destruct (opt_dec o o' I (proj1 S)) as [<-|D].
    + cbn [ArgProofs2.effect]. rewrite K. apply dget_dset_same.
    + rewrite effect_other; auto. intros v' [= -> _]. now elim D.
  - rewrite effect_other; auto. discriminate.
Qed.
Lemma effects_flag o b evs : In o t -> o_kind o = KFlag b -> Forall sound_event evs -> In (EOption o None) evs ->
  forall ns, dget (o_dest o) (effects evs ns) = Some (VBool b).
Proof.
  intros I K F. induction F as [|e evs S F IH]; [intros []|]. intros [J|J] ns; change (effects (e :: evs) ns) with (effects evs (effect e ns)).
  - subst e. apply effects_flag_kept; auto. cbn [ArgProofs2.effect]. rewrite K. apply dget_dset_same.
  - now apply IH.
Qed.
Lemma effects_store o evs v : In o t -> o_kind o = KStore -> Forall sound_event evs -> last_value o evs v ->
  forall ns, dget (o_dest o) (effects evs ns) = Some (VPath (resolve v)).
Proof.
  intros I K F (a & b & -> & N) ns. apply Forall_app in F as [_ F]. inversion F as [|? ? S F']; subst.
  change (EOption o (Some v) :: b) with ([EOption o (Some v)] ++ b). rewrite !effects_app. rewrite effects_other; auto.
  - unfold ArgProofs2.effects. cbn [fold_left ArgProofs2.effect]. rewrite K. apply dget_dset_same.
  - intros [v'|] J; [now apply (N v')|]. assert (S' := proj1 (Forall_forall _ _) F' _ J). destruct S' as (_ & T). now apply (proj1 T).
Qed.
Lemma effects_no_build evs : Forall sound_event evs -> (forall w, ~ In (EBuild w) evs) -> forall ns, dget positional (effects evs ns) = dget positional ns.
Proof.
  induction 1 as [|e evs S F IH]; intros N ns; [reflexivity|]. change (effects (e :: evs) ns) with (effects evs (effect e ns)). rewrite IH.
  - destruct e as [o v|w]; [|exfalso; apply (N w); now left].
    assert (D : positional <> o_dest o) by (intros E; apply P; rewrite E; apply in_map, S).
    unfold ArgProofs2.effect. destruct (o_kind o); [|destruct v|]; try reflexivity; now apply dget_dset_other.
  - intros w J. apply (N w). now right.
Qed.
Lemma words_no_build w evs p : opt_word t w evs p -> forall x, ~ In (EBuild x) evs.
Proof.
  intros O x. destruct (word_says uni_digit resolve t G _ _ _ O) as (_ & l & _ & -> & _). unfold said. rewrite in_map_iff. intros (q & E & _). discriminate.
Qed.
Lemma reading_builds f l evs : reading f l evs -> Forall sound_event evs /\
  (f = false -> forall w, ~ In (EBuild w) evs) /\ (forall w, In (EBuild w) evs -> exists a b, evs = a ++ EBuild w :: b /\ forall x, ~ In (EBuild x) b).
Proof.
  revert f l evs. apply (reading_ind2 uni_digit t (fun f l evs => Forall sound_event evs /\
  (f = false -> forall w, ~ In (EBuild w) evs) /\ (forall w, In (EBuild w) evs -> exists a b, evs = a ++ EBuild w :: b /\ forall x, ~ In (EBuild x) b))).
  - intros f. split; [constructor|]. split; [intros _ w []|intros w []].
  - intros f w evs1 l evs O RD (F & N & B). split; [apply Forall_app; split; [apply (word_sound t _ _ _ O)|exact F]|]. split.
    + intros E x J. apply in_app_or in J as [J|J]; [now apply (words_no_build _ _ _ O) in J|]. now apply (N E x).
    + intros x J. apply in_app_or in J as [J|J]; [now apply (words_no_build _ _ _ O) in J|]. destruct (B x J) as (a & b & -> & M).
      exists (evs1 ++ a), b. split; [now rewrite <- app_assoc|exact M].
  - intros f w evs1 o v l evs O Q RD (F & N & B). destruct (word_sound t _ _ _ O) as (F1 & T). destruct (T o eq_refl) as (I & TO).
    split; [apply Forall_app; split; [exact F1|]; constructor; [now apply value_event|exact F]|]. split.
    + intros E x J. apply in_app_or in J as [J|[J|J]]; [now apply (words_no_build _ _ _ O) in J|discriminate|]. now apply (N E x).
    + intros x J. apply in_app_or in J as [J|[J|J]]; [now apply (words_no_build _ _ _ O) in J|discriminate|]. destruct (B x J) as (a & b & -> & M).
      exists (evs1 ++ EOption o (Some v) :: a), b. split; [now rewrite <- app_assoc|exact M].
  - intros w l evs Q RD (F & N & B). split; [now constructor|]. split; [discriminate|]. intros x [[= <-]|J]; [|now elim (N eq_refl x)].
    exists [], evs. split; [reflexivity|]. now apply N.
  - intros w Q. split; [repeat constructor|]. split; [discriminate|]. intros x [[= <-]|[]]. exists [], []. split; [reflexivity|]. intros x [].
  - split; [constructor|]. split; [discriminate|]. intros x [].
  - intros w. split; [repeat constructor|]. split; [discriminate|]. intros x [[= <-]|[]]. exists [], []. split; [reflexivity|]. intros x [].
Qed.
Lemma dget_flat o l : In o l -> NoDup (map o_dest l) -> dget (o_dest o) (flat_map default_of l) = match o_kind o with KFlag _ => Some (VBool false) | KStore => Some VNone | KHelp => None end.
Proof.
  assert (SK : forall x d, o_dest o <> o_dest x -> dget (o_dest o) (default_of x ++ d) = dget (o_dest o) d).
  { intros x d D. unfold default_of. destruct (o_kind x); cbn [app dget]; try reflexivity;
      (destruct (str_eqb (o_dest o) (o_dest x)) eqn:E; [apply str_eqb_eq in E; now elim D|reflexivity]). }
  assert (NI : forall k, ~ In (o_dest o) (map o_dest k) -> dget (o_dest o) (flat_map default_of k) = None).
  { induction k as [|x k IH]; intros N; [reflexivity|]. cbn [flat_map]. rewrite SK; [apply IH; intros J; apply N; now right|]. intros E. apply N. left. congruence. }
  induction l as [|x l IH]; [intros []|]. cbn [map]. intros I N. inversion N as [|? ? N1 N2]; subst. cbn [flat_map].
  destruct I as [->|I].
  - unfold default_of at 1. destruct (o_kind o); cbn [app dget]; rewrite ?str_eqb_refl; try reflexivity. now apply NI.
  - rewrite SK; [now apply IH|]. intros E. apply N1. rewrite <- E. now apply in_map.
Qed.
Lemma default_get o : In o t -> dget (o_dest o) (defaults t positional) = match o_kind o with KFlag _ => Some (VBool false) | KStore => Some VNone | KHelp => None end.
Proof.
  intros I. unfold defaults. cbn [dget]. destruct (str_eqb (o_dest o) positional) eqn:E.
  - apply str_eqb_eq in E. exfalso. apply P. rewrite <- E. now apply in_map.
  - apply dget_flat; [exact I|]. apply (gt_dest _ _ G).
Qed.
Lemma event_dec o evs : In o t -> Forall sound_event evs -> (exists v, In (EOption o v) evs) \/ forall v, ~ In (EOption o v) evs.
Proof.
  intros I F. induction F as [|e evs S F IH]; [right; intros v []|]. destruct IH as [(v & J)|N]; [left; exists v; now right|].
  destruct e as [o' v|w].
  - destruct (opt_dec o o' I (proj1 S)) as [<-|D]; [left; exists v; now left|]. right. intros v' [[= -> _]|J]; [now elim D|now apply (N v')].
  - right. intros v' [J|J]; [discriminate|now apply (N v')].
Qed.
Lemma effects_settle l evs : reading true l evs -> settles resolve t positional evs (effects evs (defaults t positional)).
Proof.
  intros R. destruct (reading_builds _ _ _ R) as (F & _ & B). split.
  - intros o b I K. split; [intros J; now apply effects_flag|]. intros N. rewrite effects_other; auto.
    + now rewrite (default_get o I), K.
    + intros v J. assert (S := proj1 (Forall_forall _ _) F _ J). apply (flag_event_none o b v S) in K. subst. now apply N.
  - intros o I K. split; [intros v LV; now apply effects_store|]. intros N. rewrite effects_other; auto.
    + now rewrite (default_get o I), K.
    + intros [v|] J; [now apply (N v)|]. assert (S := proj1 (Forall_forall _ _) F _ J). destruct S as (_ & T). now apply (proj1 T).
  - split.
    + intros w J. destruct (B w J) as (a & b & -> & N). apply Forall_app in F as [_ F]. inversion F; subst.
      change (EBuild w :: b) with ([EBuild w] ++ b). rewrite !effects_app, effects_no_build; auto. apply dget_dset_same.
    + intros N. rewrite effects_no_build by auto. cbn [defaults dget]. now rewrite str_eqb_refl.
Qed.
(** ** Results *)
Notation parse_args := (parse_args uni_digit resolve t positional).
Lemma parse_reads l evs : reading true l evs -> no_help evs -> parse_args l = Done (effects evs (defaults t positional)).
Proof.
  intros R N. destruct (loop_reads uni_digit resolve t positional G P _ _ _ R N) as (cl & C & K). unfold ArgParse.parse_args. rewrite C. cbn [obind].
  rewrite K; [reflexivity|lia|]. intros _. cbn [defaults dget]. now rewrite str_eqb_refl.
Qed.
Lemma classify_result l : (exists cl, classify uni_digit t l = Done cl) \/ (classify uni_digit t l = Exit 2 /\ ~ clear_line t l).
Proof.
  induction l as [|w l IH]; [left; now exists []|]. cbn [classify]. destruct (str_eqb w $"--") eqn:E; [left; eexists; reflexivity|].
  assert (D : w <> [45; 45]%N) by (intros ->; discriminate).
  assert (H : (exists q, parse_optional uni_digit t w = Done q) \/ ambiguous t w /\ parse_optional uni_digit t w = Exit 2).
  { destruct (word_cases uni_digit t G w D) as [(_ & X)|[(o & s & sep & e & _ & _ & X)|[(o & c & r & _ & _ & X)|[(A & X)|X]]]];
      [left; eexists; exact X|left; eexists; exact X|left; eexists; exact X|right; now split|left; eexists; exact X]. }
  destruct H as [(q & ->)|(A & ->)].
  - cbn [obind]. destruct IH as [(cl & ->)|(-> & N)]; [left; eexists; reflexivity|]. right. split; [reflexivity|]. intros CL. apply N.
    intros a x b -> NA DX. apply (CL (w :: a) x b eq_refl); [|exact DX]. intros [J|J]; [now elim D|now apply NA].
  - right. split; [reflexivity|]. intros CL. now apply (CL [] w l eq_refl (fun x => x) D).
Qed.
Lemma parse_result l :
  match parse_args l with
  | Done ns => exists evs, reading true l evs /\ no_help evs /\ ns = effects evs (defaults t positional)
  | Exit n => n = 2%N \/ n = 0%N /\ help_asked t l
  | Stuck => False
  end.
Proof.
  unfold ArgParse.parse_args. destruct (classify_result l) as [(cl & C)|(-> & _)]; [|now left]. rewrite C. cbn [obind].
  assert (X := loop_is_good uni_digit resolve t positional G P (S (length cl)) l cl true [] (defaults t positional) C (Nat.lt_succ_diag_r _)).
  assert (IV : true = true -> dget positional (defaults t positional) = Some (VStr [])).
  { intros _. cbn [defaults dget]. now rewrite str_eqb_refl. }
  specialize (X IV). unfold good_result in X. destruct (parse_loop _ _ _ _ _ _ _ _) as [(ns' & ex)|n|]; cbn [obind snd fst]; [|exact X|exact X].
  destruct X as (_ & X). destruct ex; [|now left]. now apply X.
Qed.
Lemma parse_exits l : (exists ns, parse_args l = Done ns) \/ parse_args l = Exit 2 \/ parse_args l = Exit 0 /\ help_asked t l.
Proof.
  assert (X := parse_result l). destruct (parse_args l) as [ns|n|]; [left; now exists ns|right|destruct X].
  destruct X as [->|(-> & H)]; [now left|right; now split].
Qed.
Lemma parse_accepts l : (exists ns, parse_args l = Done ns) <-> exists evs, reading true l evs /\ no_help evs.
Proof.
  split.
  - intros (ns & E). assert (X := parse_result l). rewrite E in X. destruct X as (evs & R & N & _). now exists evs.
  - intros (evs & R & N). eexists. exact (parse_reads l evs R N).
Qed.
Lemma parse_settles l evs ns : reading true l evs -> parse_args l = Done ns -> no_help evs -> settles resolve t positional evs ns.
Proof. intros R E N. rewrite (parse_reads l evs R N) in E. injection E as <-. now apply (effects_settle l). Qed.

(** ** Help *)
Lemma help_dec l : Forall (sound_action t) l -> {no_help (said l)} + {exists o v, In (o, v) l /\ o_kind o = KHelp}.
Proof.
  intros _. induction l as [|(o & v) l IH]; [left; intros o v []|]. destruct IH as [N|H].
  - destruct (o_kind o) eqn:K.
    + left. intros o' v' [[= <- <-]|J]; [congruence|now apply (N o' v')].
    + left. intros o' v' [[= <- <-]|J]; [congruence|now apply (N o' v')].
    + right. exists o, v. split; [now left|exact K].
  - right. destruct H as (o' & v' & J & K). exists o', v'. split; [now right|exact K].
Qed.
Lemma classify_reads f l evs : reading f l evs -> ~ In [45; 45]%N l -> forall l2 c2, classify uni_digit t l2 = Done c2 ->
  exists cl, classify uni_digit t (l ++ l2) = Done cl.
Proof.
  intros RD N' l2 c2 C2. revert N'. revert f l evs RD.
  apply (reading_ind2 uni_digit t (fun f l evs => ~ In [45; 45]%N l -> exists cl, classify uni_digit t (l ++ l2) = Done cl)).
  - intros _ _. now exists c2.
  - intros f w evs1 l evs O RD IH N. destruct IH as (cl & C); [intros J; apply N; now right|].
    destruct (word_says uni_digit (fun x => x) t G _ _ _ O) as (D & l1 & tp & -> & PO & _). eexists. cbn [app]. apply classify_option; [exact D|exact PO|exact C].
  - intros f w evs1 o v l evs O Q RD IH N. destruct IH as (cl & C); [intros J; apply N; right; now right|].
    destruct (word_says uni_digit (fun x => x) t G _ _ _ O) as (D & l1 & tp & -> & PO & _). eexists. cbn [app]. apply classify_option; [exact D|exact PO|].
    apply classify_plain; [exact G|exact Q|exact C].
  - intros w l evs Q RD IH N. destruct IH as (cl & C); [intros J; apply N; now right|]. eexists. cbn [app]. apply classify_plain; [exact G|exact Q|exact C].
  - intros w Q N. exfalso. apply N. right. now left.
  - intros N. exfalso. apply N. now left.
  - intros w N. exfalso. apply N. now left.
Qed.
Lemma help_reads f l evs : reading f l evs -> ~ In [45; 45]%N l -> some_help evs -> forall l2 c2, classify uni_digit t l2 = Done c2 ->
  exists cl, classify uni_digit t (l ++ l2) = Done cl /\ existsb is_option cl = true /\
  forall fuel extras ns, length cl < fuel -> parse_loop resolve t positional fuel cl f extras ns = Exit 0.
Proof.
  revert f l evs. apply (reading_ind2 uni_digit t (fun f l evs => ~ In [45; 45]%N l -> some_help evs -> forall l2 c2, classify uni_digit t l2 = Done c2 ->
  exists cl, classify uni_digit t (l ++ l2) = Done cl /\ existsb is_option cl = true /\
  forall fuel extras ns, length cl < fuel -> parse_loop resolve t positional fuel cl f extras ns = Exit 0)).
  - intros f _ (o & v & [] & _).
  - intros f w evs1 l evs O RD IH N H l2 c2 C2.
    destruct (word_says uni_digit resolve t G _ _ _ O) as (D & l1 & tp & -> & PO & K).
    assert (F := proj1 (sound_said t l1) (proj1 (word_sound t _ _ _ O))).
    assert (N' : ~ In [45; 45]%N l) by (intros J; apply N; now right).
    destruct (help_dec l1 F) as [NH|(o & v & J & KH)].
    + destruct H as (o & v & J & KH). apply in_app_or in J as [J|J]; [exfalso; now apply (NH o v)|].
      destruct (IH N' (ex_intro _ o (ex_intro _ v (conj J KH))) l2 c2 C2) as (cl & C & EO & X).
      destruct (option_step uni_digit resolve t positional G _ _ O NH) as (_ & tp' & PO' & E). exists ((w, CO tp') :: cl).
      split; [cbn [app]; now apply classify_option|]. split; [reflexivity|]. intros [|fuel] extras ns L; [cbn [length] in L; lia|]. cbn [length] in L.
      rewrite E. apply X. lia.
    + destruct (classify_reads _ _ _ RD N' l2 c2 C2) as (cl & C).
      exists ((w, CO tp) :: cl). split; [cbn [app]; now apply classify_option|]. split; [reflexivity|].
      intros [|fuel] extras ns L; [cbn [length] in L; lia|]. cbn [parse_loop existsb is_option snd orb negb before_option]. rewrite K. unfold after.
      destruct (actions_cases resolve t positional l1 F ns) as [(NH & _)|(_ & ->)]; [|reflexivity]. exfalso. apply (NH o v); [now apply said_in|exact KH].
  - intros f w evs1 o v l evs O Q RD IH N H l2 c2 C2.
    destruct (word_says uni_digit resolve t G _ _ _ O) as (D & l1 & tp & -> & PO & K).
    destruct (word_sound t _ _ _ O) as (F' & TT). destruct (TT o eq_refl) as (IO & TO). assert (F := proj1 (sound_said t l1) F').
    assert (N' : ~ In [45; 45]%N l) by (intros J; apply N; right; now right).
    destruct (help_dec l1 F) as [NH|(o1 & v1 & J & KH)].
    + destruct H as (o1 & v1 & J & KH). apply in_app_or in J as [J|[[= <- <-]|J]]; [exfalso; now apply (NH o1 v1)|unfold takes in TO; congruence|].
      destruct (IH N' (ex_intro _ o1 (ex_intro _ v1 (conj J KH))) l2 c2 C2) as (cl & C & EO & X).
      destruct (option_next uni_digit resolve t positional G _ _ o v O NH) as (_ & tp' & PO' & E). exists ((w, CO tp') :: (v, CA) :: cl).
      split; [cbn [app]; apply classify_option; auto; now apply classify_plain|]. split; [reflexivity|]. intros [|fuel] extras ns L; [cbn [length] in L; lia|]. cbn [length] in L.
      rewrite E. apply X. lia.
    + destruct (classify_reads _ _ _ RD N' l2 c2 C2) as (cl & C).
      exists ((w, CO tp) :: (v, CA) :: cl). split; [cbn [app]; apply classify_option; auto; now apply classify_plain|]. split; [reflexivity|].
      intros [|fuel] extras ns L; [cbn [length] in L; lia|]. cbn [parse_loop existsb is_option snd orb negb before_option]. rewrite K. unfold after.
      assert (F2 : Forall (sound_action t) (l1 ++ [(o, Some v)])).
      { apply Forall_app. split; [exact F|]. constructor; [|constructor]. split; [exact IO|]. cbn. split; [discriminate|auto]. }
      destruct (actions_cases resolve t positional _ F2 ns) as [(NH & _)|(_ & ->)]; [|reflexivity]. exfalso. apply (NH o1 v1); [|exact KH].
      apply said_in, in_or_app. now left.
  - intros w l evs Q RD IH N H l2 c2 C2. assert (N' : ~ In [45; 45]%N l) by (intros J; apply N; now right).
    assert (H' : some_help evs). { destruct H as (o & v & [J|J] & KH); [discriminate|]. now exists o, v. }
    destruct (IH N' H' l2 c2 C2) as (cl & C & EO & X). exists ((w, CA) :: cl). split; [cbn [app]; now apply classify_plain|].
    split; [exact EO|]. intros [|fuel] extras ns L; [cbn [length] in L; lia|]. cbn [length] in L. cbn [parse_loop existsb is_option snd orb]. rewrite EO. cbn [negb].
    unfold consume_positionals, match_optional. cbn [dashes skipn]. rewrite (dashes_before_option uni_digit t G _ _ C EO). cbn [Nat.add skipn firstn map fst length].
    rewrite (proj2 (Nat.ltb_lt _ _)) by lia. apply X. lia.
  - intros w Q N. exfalso. apply N. right. now left.
  - intros N. exfalso. apply N. now left.
  - intros w N. exfalso. apply N. now left.
Qed.
Lemma parse_help l l2 evs : reading true l evs -> ~ In [45; 45]%N l -> some_help evs -> clear_line t l2 -> parse_args (l ++ l2) = Exit 0.
Proof.
  intros R N H CL. destruct (classify_result l2) as [(c2 & C2)|(_ & X)]; [|now elim X].
  destruct (help_reads _ _ _ R N H l2 c2 C2) as (cl & C & _ & X). unfold ArgParse.parse_args. rewrite C. cbn [obind]. now rewrite X by lia.
Qed.
End Settings.
