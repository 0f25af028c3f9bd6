(** * Proofs of C85 and C86. *)
From Coq Require Import String NArith ZArith List Bool Lia.
Import ListNotations.
From Verif Require Import PyBase PyFacts EnvVar SpecEnv EnvProofs SetEnv SpecSetEnv SpecOrder.

(** ** Expansion looks only at the variables mentioned *)
Lemma mentions_cons c v n : mentions v n -> mentions (c :: v) n.
Proof.
  intros [(a & b & -> & H)|(a & b & -> & H)]; [left|right]; exists (c :: a), b; split; auto.
Qed.
Lemma mentions_app p v n : mentions v n -> mentions (p ++ v) n.
Proof. intros H. induction p; [exact H|]. cbn. apply mentions_cons, IHp. Qed.

Lemma expands_same e e' v t : expands e v t ->
  (forall n, mentions v n -> dget n e' = dget n e) -> expands e' v t.
Proof.
  intros H. induction H; intros M.
  - constructor.
  - apply ex_char; auto. apply IHexpands. intros n Hn. apply M, mentions_cons, Hn.
  - apply ex_dollar; auto. apply IHexpands. intros n Hn. apply M, mentions_cons, Hn.
  - apply ex_name; auto.
    + rewrite M; [assumption|]. left. exists [], s. auto.
    + apply IHexpands. intros m Hm. apply M, mentions_cons, mentions_app, Hm.
  - apply ex_name_unset; auto.
    + rewrite M; [assumption|]. left. exists [], s. auto.
    + apply IHexpands. intros m Hm. apply M, mentions_cons, mentions_app, Hm.
  - apply ex_brace; auto.
    + rewrite M; [assumption|]. right. exists [], s. auto.
    + apply IHexpands. intros m Hm. apply M. do 2 apply mentions_cons. apply mentions_app, mentions_cons, Hm.
  - apply ex_brace_unset; auto.
    + rewrite M; [assumption|]. right. exists [], s. auto.
    + apply IHexpands. intros m Hm. apply M. do 2 apply mentions_cons. apply mentions_app, mentions_cons, Hm.
Qed.

Lemma expand_same e e' v : (forall n, mentions v n -> dget n e' = dget n e) -> expandvars e' v = expandvars e v.
Proof.
  intros M. symmetry. apply expandvars_spec. apply (expands_same e); [|exact M]. apply expandvars_spec. reflexivity.
Qed.

(** ** One operation *)
Section Ops.
Variable which : environ -> str -> option str.
Hypothesis path : searches_path which.

Definition agree (op n v : str) (e e' : environ) : Prop :=
  dget n e' = dget n e /\ forall m, looks_at op v m -> dget m e' = dget m e.

(** The outcomes are the same for variable [n]; the others stay. *)
Definition alike (n : str) (e e' : environ) (x x' : res Z * environ) : Prop :=
  fst x' = fst x /\ dget n (snd x') = dget n (snd x) /\ same_but n e (snd x) /\ same_but n e' (snd x').

Lemma alike_same n e e' r : dget n e' = dget n e -> alike n e e' (r, e) (r, e').
Proof. intros H. split; [reflexivity|]. split; [exact H|]. split; intros m _; reflexivity. Qed.

Lemma alike_assign n v e e' : dget n e' = dget n e ->
  alike n e e' ((env_assign n v ;; ret 0%Z)%sm e) ((env_assign n v ;; ret 0%Z)%sm e').
Proof.
  intros H. unfold bind, env_assign. destruct (char_mem 61%N n || char_mem 0%N n || char_mem 0%N v); [apply alike_same, H|].
  destruct n as [|c n]; [apply alike_same, H|]. unfold alike, ret. cbn [fst snd].
  split; [reflexivity|]. cbn [snd]. split; [rewrite !dget_dset_same; reflexivity|].
  split; intros m Hm; apply dget_dset_other; auto.
Qed.

Lemma alike_set n v b e e' : dget n e' = dget n e -> alike n e e' (envvar_set n v b e) (envvar_set n v b e').
Proof.
  intros H. unfold envvar_set. destruct (negb b && empty_str v); [apply alike_same, H|]. apply alike_assign, H.
Qed.

Ltac start_get e := match goal with |- context[bind get ?k e] => change (bind get k e) with (k e e) end; cbv beta zeta.

Lemma op_local op n v e e' : agree op n v e e' ->
  alike n e e' (envvar_op which op n v true e) (envvar_op which op n v true e').
Proof.
  intros [H1 H2]. unfold envvar_op. cbn [negb andb]. start_get e. start_get e'.
  assert (EV : (if char_mem 36%N v then expandvars e' v else v) = (if char_mem 36%N v then expandvars e v else v)).
  { destruct (char_mem 36%N v); [|reflexivity]. apply expand_same. intros m Hm. apply H2. left. exact Hm. }
  rewrite EV, H1. set (w := if char_mem 36%N v then expandvars e v else v).
  destruct (str_eqb op $"set"); [apply alike_set, H1|].
  destruct (str_eqb op $"set_if_empty").
  { unfold envvar_set_if_empty. cbn [negb andb]. start_get e. start_get e'.
    unfold str in *. rewrite H1.
    match goal with |- context[match ?d with Some _ => _ | None => _ end] => destruct d as [[|c o]|] eqn:E end;
      [apply alike_assign; exact (eq_trans H1 (eq_sym E))| |apply alike_assign; exact (eq_trans H1 (eq_sym E))].
    cbn. apply alike_same. exact (eq_trans H1 (eq_sym E)). }
  destruct (str_eqb op $"append"); [apply alike_set, H1|].
  destruct (str_eqb op $"prepend"); [apply alike_set, H1|].
  destruct (str_eqb op $"unset").
  { destruct (dget n e) as [o|] eqn:E; cbv iota; unfold bind, modify, ret.
    - unfold alike. cbn [fst snd]. split; [reflexivity|]. split; [rewrite !dget_ddel_same; reflexivity|].
      split; intros m Hm; apply dget_ddel_other; exact Hm.
    - apply alike_same. congruence. }
  destruct (str_eqb op $"remove_substr").
  { destruct (dget n e) as [o|] eqn:E; [apply alike_set; congruence|apply alike_same; congruence]. }
  destruct (str_eqb op $"remove_path_entry").
  { destruct (dget n e) as [o|] eqn:E; [apply alike_set; congruence|apply alike_same; congruence]. }
  destruct (str_eqb op $"find_in_path") eqn:F.
  { apply str_eqb_eq in F. rewrite (path e e' w) by (apply H2; right; auto). apply alike_set, H1. }
  destruct (str_eqb op $"assert_not_empty").
  { destruct (dget n e) as [[|c o]|] eqn:E; apply alike_same; congruence. }
  apply alike_same, H1.
Qed.

Lemma op_same_but op n v e : same_but n e (snd (envvar_op which op n v true e)).
Proof. apply (op_local op n v e e). split; auto. Qed.

(** Setting and unsetting do not look at the old value. *)
Definition settled (op : str) : Prop := op = $"set" \/ op = $"unset" \/ op = $"find_in_path".

Ltac decide_ops := repeat match goal with |- context[str_eqb (lit ?a) (lit ?b)] =>
  let r := eval vm_compute in (str_eqb (lit a) (lit b)) in change (str_eqb (lit a) (lit b)) with r end; cbv iota.

Lemma settled_local op n v e e' : settled op ->
  (forall m, looks_at op v m -> dget m e' = dget m e) ->
  forall z e1, envvar_op which op n v true e = (Ok z, e1) ->
  exists e1', envvar_op which op n v true e' = (Ok z, e1') /\ dget n e1' = dget n e1.
Proof.
  intros O H2.
  assert (EV : (if char_mem 36%N v then expandvars e' v else v) = (if char_mem 36%N v then expandvars e v else v)).
  { destruct (char_mem 36%N v); [|reflexivity]. apply expand_same. intros m Hm. apply H2. left. exact Hm. }
  assert (ST : forall w z e1, envvar_set n w true e = (Ok z, e1) ->
    exists e1', envvar_set n w true e' = (Ok z, e1') /\ dget n e1' = dget n e1).
  { intros w z e1. unfold envvar_set. cbn [negb andb]. unfold bind, env_assign.
    destruct (char_mem 61%N n || char_mem 0%N n || char_mem 0%N w); [discriminate|].
    destruct n as [|c n']; [discriminate|]. unfold ret. intros E. inversion E; subst.
    eexists. split; [reflexivity|]. rewrite !dget_dset_same. reflexivity. }
  assert (P : op = $"find_in_path" -> dget $"PATH" e' = dget $"PATH" e).
  { intros ->. apply H2. right. auto. }
  clear H2. destruct O as [->|[->| ->]]; intros z e1; unfold envvar_op; cbn [negb andb]; start_get e; start_get e';
    rewrite EV; set (w := if char_mem 36%N v then expandvars e v else v); decide_ops.
  - apply ST.
  - unfold bind, modify, ret. destruct (dget n e) as [o|] eqn:E1, (dget n e') as [o'|] eqn:E2; cbv iota;
      intros E; inversion E; subst; eexists; (split; [reflexivity|]); rewrite ?dget_ddel_same; congruence.
  - rewrite (path e e' w (P eq_refl)). apply ST.
Qed.
End Ops.

(** ** Actions *)
Section Actions.
Variable which : environ -> str -> option str.
Variable mods : list str -> environ -> res Z * environ.
Hypothesis path : searches_path which.
Hypothesis modules : orderless mods.

Inductive acts : action -> str -> str -> str -> Prop :=
| ac_op op n v : In op documented_ops -> op <> $"unset" -> acts (AEnv ($"envvar_" ++ op) n (Some v)) op n v
| ac_unset n v : acts (AEnv $"envvar_unset" n v) $"unset" n [].

Lemma performs_acts o n v e z e1 : performs which mods (AEnv o n v) e (Ok z) e1 ->
  exists op w, acts (AEnv o n v) op n w /\ envvar_op which op n w true e = (Ok z, e1).
Proof.
  intros H. inversion H; subst.
  - eexists. eexists. split; [constructor|]; eassumption.
  - eexists. eexists. split; [constructor|]; eassumption.
Qed.
Lemma acts_performs a op n w e r e1 : acts a op n w -> envvar_op which op n w true e = (r, e1) ->
  performs which mods a e r e1.
Proof. intros H E. destruct H; constructor; assumption. Qed.

Lemma no_mention n : ~ mentions [] n.
Proof. intros [(a & b & E & _)|(a & b & E & _)]; destruct a; discriminate E. Qed.

Lemma acts_looks a op n w m : acts a op n w -> looks_at op w m -> depends a m.
Proof.
  intros H L. destruct H.
  - exists op, n, v. auto.
  - destruct L as [L|[L _]]; [destruct (no_mention _ L)|discriminate L].
Qed.
Lemma acts_target a op n w : acts a op n w -> target a n.
Proof. intros []; reflexivity. Qed.

Lemma same_env_refl e : same_env e e. Proof. intros n. reflexivity. Qed.
Lemma same_env_sym e f : same_env e f -> same_env f e. Proof. intros H n. symmetry. apply H. Qed.
Lemma same_env_trans e f g : same_env e f -> same_env f g -> same_env e g.
Proof. intros H1 H2 n. rewrite H2. apply H1. Qed.

(** The same action in another order of the variables. *)
Lemma performs_same a e z e1 f : performs which mods a e (Ok z) e1 -> same_env e f ->
  exists f1, performs which mods a f (Ok z) f1 /\ same_env e1 f1.
Proof.
  intros H S. destruct a as [o n v|o n v].
  - destruct (performs_acts _ _ _ _ _ _ H) as (op & w & A & E).
    destruct (op_local which path op n w e f) as (L1 & L2 & L3 & L4); [split; auto|].
    rewrite E in *. cbn [fst snd] in *.
    destruct (envvar_op which op n w true f) as [r f1] eqn:F. cbn [fst snd] in *. subst r.
    exists f1. split; [exact (acts_performs _ _ _ _ _ _ _ A F)|].
    intros m. destruct (list_eq_dec N.eq_dec m n) as [->|NE]; [exact L2|].
    rewrite (L3 m NE), (L4 m NE). apply S.
  - assert (M : forall args, mods args e = (Ok z, e1) -> exists f1, mods args f = (Ok z, f1) /\ same_env e1 f1).
    { intros args E. destruct (modules args e f S) as [M1 M2]. rewrite E in *. cbn [fst snd] in *.
      destruct (mods args f) as [r f1]. cbn [fst snd] in *. subst r. eauto. }
    inversion H; subst;
      match goal with E : mods _ _ = _ |- _ => destruct (M _ E) as (f1 & F & S1) end;
      exists f1; (split; [|exact S1]).
    + apply pf_purge, F.
    + apply pf_use, F.
    + apply pf_load; assumption.
    + apply pf_load_version; assumption.
    + apply pf_unload, F.
    + apply pf_swap, F.
Qed.

Lemma all_done_cons a l e e2 : all_done which mods (a :: l) e e2 ->
  exists e1, performs which mods a e (Ok 0%Z) e1 /\ all_done which mods l e1 e2.
Proof. intros H. inversion H; subst. eauto. Qed.
Lemma all_done_nil e e2 : all_done which mods [] e e2 -> e2 = e.
Proof. intros H. inversion H; subst. reflexivity. Qed.

Lemma all_done_same l : forall e e1 f, all_done which mods l e e1 -> same_env e f ->
  exists f1, all_done which mods l f f1 /\ same_env e1 f1.
Proof.
  induction l as [|a l IH]; intros e e1 f H S.
  - rewrite (all_done_nil _ _ H). exists f. split; [constructor|exact S].
  - destruct (all_done_cons _ _ _ _ H) as (e' & H3 & H5).
    destruct (performs_same _ _ _ _ f H3 S) as (g & P & S').
    destruct (IH _ _ g H5 S') as (f1 & D & S1). exists f1. split; [|exact S1]. econstructor; eassumption.
Qed.

Lemma swap_two a b e e1 e2 : independent a b ->
  performs which mods a e (Ok 0%Z) e1 -> performs which mods b e1 (Ok 0%Z) e2 ->
  exists f1 f2, performs which mods b e (Ok 0%Z) f1 /\ performs which mods a f1 (Ok 0%Z) f2 /\ same_env e2 f2.
Proof.
  intros ((oa & na & va & ->) & (ob & nb & vb & ->) & I) Ha Hb.
  destruct (performs_acts _ _ _ _ _ _ Ha) as (pa & wa & Aa & Ea).
  destruct (performs_acts _ _ _ _ _ _ Hb) as (pb & wb & Ab & Eb).
  assert (NE : nb <> na). { intros ->. destruct (I na) as [I1 _]. destruct (I1 eq_refl) as [I2 _]. apply I2. reflexivity. }
  assert (Da : forall m, looks_at pa wa m -> m <> nb).
  { intros m L ->. destruct (I nb) as [_ I1]. apply (I1 eq_refl). exact (acts_looks _ _ _ _ _ Aa L). }
  assert (Db : forall m, looks_at pb wb m -> m <> na).
  { intros m L ->. destruct (I na) as [I1 _]. destruct (I1 eq_refl) as [_ I2]. apply I2. exact (acts_looks _ _ _ _ _ Ab L). }
  pose proof (op_same_but which path pa na wa e) as Sa. rewrite Ea in Sa. cbn [snd] in Sa.
  destruct (op_local which path pb nb wb e1 e) as (L1 & L2 & L3 & L4).
  { split; [symmetry; apply Sa, NE|]. intros m L. symmetry. apply Sa, Db, L. }
  rewrite Eb in *. cbn [fst snd] in *.
  destruct (envvar_op which pb nb wb true e) as [rb f1] eqn:F1. cbn [fst snd] in *. subst rb.
  destruct (op_local which path pa na wa e f1) as (M1 & M2 & M3 & M4).
  { split; [apply L4; auto|]. intros m L. apply L4, Da, L. }
  rewrite Ea in *. cbn [fst snd] in *.
  destruct (envvar_op which pa na wa true f1) as [ra f2] eqn:F2. cbn [fst snd] in *. subst ra.
  exists f1, f2. split; [exact (acts_performs _ _ _ _ _ _ _ Ab F1)|].
  split; [exact (acts_performs _ _ _ _ _ _ _ Aa F2)|].
  intros m. destruct (list_eq_dec N.eq_dec m na) as [->|N1].
  - rewrite M2. symmetry. apply L3. auto.
  - rewrite (M4 m N1). destruct (list_eq_dec N.eq_dec m nb) as [->|N2]; [exact L2|].
    rewrite (L4 m N2), (L3 m N2). symmetry. apply Sa, N1.
Qed.

Theorem reordered l l' : reorders l l' -> forall e e1, all_done which mods l e e1 ->
  exists f1, all_done which mods l' e f1 /\ same_env e1 f1.
Proof.
  intros R. induction R; intros e e1 D.
  - exists e1. split; [exact D|apply same_env_refl].
  - revert e D. induction l as [|c l IH]; cbn [app]; intros e D;
      destruct (all_done_cons _ _ _ _ D) as (e' & H3 & H5).
    + destruct (all_done_cons _ _ _ _ H5) as (e'' & H6 & H8). destruct (swap_two a b _ _ _ H H3 H6) as (f1 & f2 & P1 & P2 & S).
      destruct (all_done_same _ _ _ f2 H8 S) as (g & G & S').
      exists g. split; [|exact S']. econstructor; [exact P1|]. econstructor; [exact P2|exact G].
    + destruct (IH _ H5) as (f1 & D' & S'). exists f1. split; [|exact S']. econstructor; eassumption.
  - destruct (IHR1 e e1 D) as (f & D1 & S1). destruct (IHR2 e f D1) as (g & D2 & S2).
    exists g. split; [exact D2|]. exact (same_env_trans _ _ _ S1 S2).
Qed.

(** ** Twice *)
Lemma acts_settled o n v op w : acts (AEnv o n v) op n w -> In o settled_ops -> settled op.
Proof.
  intros H. inversion H; subst; intros I; unfold settled.
  - destruct I as [I|[I|[I|[]]]]; vm_compute in I; injection I as I; subst op; auto.
  - auto.
Qed.

Lemma second_run l : repeatable l -> forall q, incl q l ->
  forall a a1 b, all_done which mods q a a1 ->
    (forall n, (forall x, In x l -> ~ target x n) -> dget n b = dget n a) ->
    exists b1, all_done which mods q b b1 /\
      (forall n, (exists x, In x q /\ target x n) -> dget n b1 = dget n a1) /\
      (forall n, (forall x, In x q -> ~ target x n) -> dget n b1 = dget n b /\ dget n a1 = dget n a).
Proof.
  intros [RL RI]. induction q as [|x q IH]; intros I a a1 b D B.
  - rewrite (all_done_nil _ _ D). exists b. split; [constructor|]. split; [intros n (x & [] & _)|auto].
  - destruct (all_done_cons _ _ _ _ D) as (e1 & H2 & H4).
    assert (Ix : In x l) by (apply I; left; reflexivity).
    rewrite Forall_forall in RL. destruct (RL x Ix) as (o & n & v & -> & Io).
    destruct (performs_acts _ _ _ _ _ _ H2) as (op & w & A & E).
    assert (LK : forall m, looks_at op w m -> dget m b = dget m a).
    { intros m L. apply B. intros y Iy T. apply (RI y _ m Iy Ix T). exact (acts_looks _ _ _ _ _ A L). }
    destruct (settled_local which path op n w a b (acts_settled _ _ _ _ _ A Io) LK _ _ E) as (b' & E' & V).
    pose proof (op_same_but which path op n w a) as Sa. rewrite E in Sa. cbn [snd] in Sa.
    pose proof (op_same_but which path op n w b) as Sb. rewrite E' in Sb. cbn [snd] in Sb.
    destruct (IH (fun y Hy => I y (or_intror Hy)) e1 a1 b' H4) as (b1 & D1 & T1 & T2).
    { intros m Hm. assert (NE : m <> n) by (intros ->; exact (Hm _ Ix eq_refl)).
      rewrite (Sa m NE), (Sb m NE). apply B, Hm. }
    exists b1. split; [econstructor; [exact (acts_performs _ _ _ _ _ _ _ A E')|exact D1]|].
    assert (DEC : forall q m, (exists y, In y q /\ target y m) \/ (forall y, In y q -> ~ target y m)).
    { clear. intros q m. induction q as [|y q [IH|IH]].
      - right. intros y [].
      - left. destruct IH as (z & Iz & Tz). exists z. split; [right; exact Iz|exact Tz].
      - destruct y as [o k v|o k v].
        + destruct (list_eq_dec N.eq_dec k m) as [->|NE].
          * left. exists (AEnv o m v). split; [left; reflexivity|reflexivity].
          * right. intros y [<-|Iy]; [exact NE|apply IH, Iy].
        + right. intros y [<-|Iy]; [intros []|apply IH, Iy]. }
    split.
    + intros m (y & Iy & Ty). destruct (DEC q m) as [Q|Q]; [apply T1, Q|].
      destruct Iy as [<-|Iy]; [|destruct (Q y Iy Ty)]. cbn in Ty. subst m.
      destruct (T2 n Q) as [-> ->]. exact V.
    + intros m Hm. assert (NE : m <> n) by (intros ->; exact (Hm _ (or_introl eq_refl) eq_refl)).
      destruct (T2 m (fun y Hy => Hm y (or_intror Hy))) as [-> ->].
      split; [apply Sb, NE|apply Sa, NE].
Qed.

Theorem repeated l : repeatable l -> forall e e1, all_done which mods l e e1 ->
  exists e2, all_done which mods l e1 e2 /\ same_env e1 e2.
Proof.
  intros R e e1 D.
  destruct (second_run l R l (incl_refl l) e e1 e D (fun n _ => eq_refl)) as (x & _ & _ & T0).
  destruct (second_run l R l (incl_refl l) e e1 e1 D) as (e2 & D2 & T1 & T2).
  { intros n Hn. apply (T0 n Hn). }
  exists e2. split; [exact D2|]. intros n.
  assert (DEC : (exists y, In y l /\ target y n) \/ (forall y, In y l -> ~ target y n)).
  { clear. induction l as [|y l [IH|IH]].
    - right. intros y [].
    - left. destruct IH as (z & Iz & Tz). exists z. split; [right; exact Iz|exact Tz].
    - destruct y as [o k v|o k v].
      + destruct (list_eq_dec N.eq_dec k n) as [->|NE].
        * left. exists (AEnv o n v). split; [left; reflexivity|reflexivity].
        * right. intros y [<-|Iy]; [exact NE|apply IH, Iy].
      + right. intros y [<-|Iy]; [intros []|apply IH, Iy]. }
  destruct DEC as [Q|Q]; [apply T1, Q|apply T2, Q].
Qed.
End Actions.

(** ** [apply] *)
From Verif Require Import IniView Cpe SpecWalk SpecRun SetEnvProofs2 SetEnvProofs3.
Section Applied.
Variable which : environ -> str -> option str.
Variable mods : list str -> environ -> res Z * environ.
Variable other : str -> environ -> res Z * environ.
Hypothesis path : searches_path which.
Hypothesis modules : orderless mods.
Variables (uniword : pychar -> bool).
Notation apply := (apply which mods other uniword).

Lemma applied fs i fuel s l o e : recorded fs i s l o ->
  forall z w, apply fs fuel s (World o e) = (Ok z, w) ->
  z = 0%Z /\ all_done which mods l e (w_env w) /\ recorded fs i s l (w_obj w).
Proof.
  intros (H & C & (d & SE) & D & AA & PA & L) z w E.
  destruct (apply_result which mods other uniword fs i fuel s o d l e H C SE D AA PA L) as [R _].
  destruct (R z w E) as [-> A]. split; [reflexivity|]. split; [exact A|].
  destruct (apply_again which mods other uniword fs i fuel s o d l H C SE D AA PA e)
    as (r & e' & o' & E' & _ & U & L' & H' & C' & S').
  rewrite E in E'. assert (W : w = World o' e') by exact (f_equal snd E'). subst w. cbn [w_obj].
  unfold recorded. rewrite U, L'. split; [exact H'|]. split; [exact C'|]. split; [exists d; exact S'|].
  split; [exact D|]. split; [exact AA|]. split; assumption.
Qed.
Lemma applies fs i fuel s l o e e' : recorded fs i s l o -> all_done which mods l e e' ->
  exists o', apply fs fuel s (World o e) = (Ok 0%Z, World o' e').
Proof.
  intros (H & C & (d & SE) & D & AA & PA & L) A.
  destruct (apply_result which mods other uniword fs i fuel s o d l e H C SE D AA PA L) as [_ R]. exact (R e' A).
Qed.

Theorem apply_reordered fs fs' i i' fuel fuel' s s' l l' o o' e :
  recorded fs i s l o -> recorded fs' i' s' l' o' -> reorders l l' ->
  forall z w, apply fs fuel s (World o e) = (Ok z, w) ->
  exists w', apply fs' fuel' s' (World o' e) = (Ok z, w') /\ same_env (w_env w) (w_env w').
Proof.
  intros R R' RE z w E. destruct (applied _ _ _ _ _ _ _ R z w E) as (-> & A & _).
  destruct (reordered which mods path modules l l' RE e _ A) as (f & A' & S).
  destruct (applies _ _ fuel' _ _ _ _ _ R' A') as [o2 E2]. exists (World o2 f). split; [exact E2|exact S].
Qed.

Theorem apply_repeated fs i fuel s l o e : recorded fs i s l o -> repeatable l ->
  forall z w, apply fs fuel s (World o e) = (Ok z, w) ->
  exists w', apply fs fuel s w = (Ok z, w') /\ same_env (w_env w) (w_env w').
Proof.
  intros R RE z w E. destruct (applied _ _ _ _ _ _ _ R z w E) as (-> & A & R').
  destruct (repeated which mods path l RE e _ A) as (f & A' & S).
  destruct w as [o1 e1]. destruct (applies _ _ fuel _ _ _ _ _ R' A') as [o2 E2].
  exists (World o2 f). split; [exact E2|exact S].
Qed.
End Applied.

(** ** Operations *)
Theorem operations_commute :
  forall which, searches_path which ->
  forall op n v op' n' v' e, n <> n' -> ~ looks_at op v n' -> ~ looks_at op' v' n ->
    let '(r1, e1) := envvar_op which op n v true e in
    let '(r2, e2) := envvar_op which op' n' v' true e1 in
    let '(r2', f1) := envvar_op which op' n' v' true e in
    let '(r1', f2) := envvar_op which op n v true f1 in
    r1 = r1' /\ r2 = r2' /\ same_env e2 f2.
Proof.
  intros which path op n v op' n' v' e NE A B.
  pose proof (op_same_but which path op n v e) as Sa.
  destruct (envvar_op which op n v true e) as [r1 e1] eqn:E1. cbn [snd] in Sa.
  destruct (op_local which path op' n' v' e1 e) as (L1 & L2 & L3 & L4).
  { split; [symmetry; apply Sa; auto|]. intros m L. symmetry. apply Sa. intros ->. exact (B L). }
  destruct (envvar_op which op' n' v' true e1) as [r2 e2] eqn:E2.
  destruct (envvar_op which op' n' v' true e) as [r2' f1] eqn:F1. cbn [fst snd] in *.
  destruct (op_local which path op n v e f1) as (M1 & M2 & M3 & M4).
  { split; [apply L4; auto|]. intros m L. apply L4. intros ->. exact (A L). }
  rewrite E1 in *. destruct (envvar_op which op n v true f1) as [r1' f2] eqn:F2. cbn [fst snd] in *.
  split; [auto|]. split; [auto|]. intros m.
  destruct (list_eq_dec N.eq_dec m n) as [->|N1].
  - rewrite M2. symmetry. apply L3. auto.
  - rewrite (M4 m N1). destruct (list_eq_dec N.eq_dec m n') as [->|N2]; [exact L2|].
    rewrite (L4 m N2), (L3 m N2). symmetry. apply Sa, N1.
Qed.
