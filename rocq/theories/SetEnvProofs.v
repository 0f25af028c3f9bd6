(** * Proofs about [SetEnvironment]: the recorded actions. *)
From Coq Require Import String NArith ZArith List Bool Lia.
Import ListNotations.
From Verif Require Import PyBase PyFacts Shlex IniView IniRead ExcControl Cpe EnvVar SetEnv
  SpecText SpecFile SpecShell ShellProofs FileProofs SpecWalk MeaningProofs SpecRun SpecParse SpecEnv SpecSetEnv WalkProofs RunProofs ParseProofs ParseProofs3 ParseProofs4.

(** ** The specification, computed *)
Definition asked (q : request) : option action :=
  let 'Req op ps v := q in
  if str_mem op module_requests then Some (AMod op (hd_error ps) v)
  else match ps with
       | [] => None
       | n :: _ =>
           if str_mem op envvar_requests then Some (AEnv op n v)
           else if str_eqb op $"envvar_assert_not_empty" then
             Some (AEnv op n (match v with None => Some [] | _ => v end))
           else None
       end.
Definition cancelb (q : request) (a : action) : bool :=
  let 'Req op ps _ := q in
  match ps with
  | [] => false
  | n :: _ =>
      match a with
      | AEnv _ m _ => str_eqb op $"envvar_remove" && str_eqb m n
      | AMod _ m v =>
          str_eqb op $"module_remove" &&
          ((match m with Some m => str_eqb m n | None => false end) ||
           (match v with Some v => contains n v | None => false end))
      end
  end.

Lemma disjoint_requests op : In op envvar_requests -> In op module_requests -> False.
Proof.
  unfold envvar_requests, module_requests. cbn [In]. intros A B.
  repeat (destruct A as [A|A]; [subst; repeat (destruct B as [B|B]; [discriminate|]); contradiction|]).
  contradiction.
Qed.

Lemma asks_spec q a : asks q a <-> asked q = Some a.
Proof.
  split.
  - intros H. destruct H as [op n ps v I|n ps v|n ps|op ps v I]; unfold asked.
    + replace (str_mem op module_requests) with false.
      * apply str_mem_In in I. now rewrite I.
      * symmetry. apply not_true_iff_false. rewrite str_mem_In. eauto using disjoint_requests.
    + reflexivity.
    + reflexivity.
    + apply str_mem_In in I. now rewrite I.
  - destruct q as [op ps v]. unfold asked. destruct (str_mem op module_requests) eqn:M.
    + intros E. inversion E; subst. constructor. now apply str_mem_In.
    + destruct ps as [|n ps]; [discriminate|]. destruct (str_mem op envvar_requests) eqn:V.
      * intros E. inversion E; subst. constructor. now apply str_mem_In.
      * destruct (str_eqb_spec op $"envvar_assert_not_empty") as [->|N]; [|discriminate].
        intros E. inversion E; subst. destruct v; [apply as_assert|apply as_assert_novalue].
Qed.

Lemma starts_with_app p s : starts_with p s = true <-> exists r, s = p ++ r.
Proof.
  revert s. induction p as [|x p IH]; intros s; cbn.
  - split; eauto.
  - destruct s as [|y s].
    + split; [discriminate|]. intros [r H]. discriminate.
    + rewrite andb_true_iff, N.eqb_eq, IH. split.
      * intros [-> [r ->]]. now exists r.
      * intros [r H]. inversion H; subst. eauto.
Qed.
Lemma contains_spec sub s : contains sub s = true <-> occurs_in sub s.
Proof.
  unfold occurs_in. induction s as [|c s IH]; cbn [contains]; rewrite orb_true_iff, starts_with_app.
  - split.
    + intros [[r E]|X]; [|discriminate]. now exists [], r.
    + intros (a & b & E). left. symmetry in E. apply app_eq_nil in E as [-> E]. now exists b.
  - rewrite IH. split.
    + intros [[r E]|(a & b & E)]; [now exists [], r|]. exists (c :: a), b. cbn. congruence.
    + intros ([|d a] & b & E); [left; now exists b|]. right. inversion E; subst. eauto.
Qed.

Lemma cancels_spec q a : cancels q a <-> cancelb q a = true.
Proof.
  split.
  - intros H. destruct H as [n ps w op v|n ps w op v|n ps w op m v O]; unfold cancelb.
    + now rewrite !str_eqb_refl.
    + now rewrite !str_eqb_refl.
    + apply contains_spec in O. rewrite O, str_eqb_refl, orb_true_r. reflexivity.
  - destruct q as [op ps w]. unfold cancelb. destruct ps as [|n ps]; [discriminate|].
    destruct a as [o m v|o m v].
    + rewrite andb_true_iff. intros [A B].
      destruct (str_eqb_spec op $"envvar_remove") as [->|]; [|discriminate].
      destruct (str_eqb_spec m n) as [->|]; [|discriminate]. constructor.
    + rewrite andb_true_iff, orb_true_iff. intros [A B].
      destruct (str_eqb_spec op $"module_remove") as [->|]; [|discriminate].
      destruct B as [B|B].
      * destruct m as [m|]; [|discriminate]. destruct (str_eqb_spec m n) as [->|]; [|discriminate]. constructor.
      * destruct v as [v|]; [|discriminate]. constructor. now apply contains_spec.
Qed.

Definition answer (q : request) : list action :=
  match asked q with Some a => [a] | None => [] end.
Fixpoint left_over (l : list request) : list action :=
  match l with
  | [] => []
  | q :: l' => filter (fun a => negb (existsb (fun q' => cancelb q' a) l')) (answer q) ++ left_over l'
  end.
Lemma remain_spec l r : remain l r <-> r = left_over l.
Proof.
  split.
  - induction 1 as [|q l r N R IH|q a l r A F R IH|q a q' l r A I C R IH]; cbn [left_over]; auto.
    + unfold answer. destruct (asked q) as [a|] eqn:E; [apply asks_spec in E; now apply N in E|]. exact IH.
    + apply asks_spec in A. unfold answer. rewrite A. cbn [filter].
      replace (existsb (fun q' => cancelb q' a) l) with false; [cbn; congruence|].
      symmetry. apply not_true_iff_false. rewrite existsb_exists. intros (x & I & X).
      rewrite Forall_forall in F. apply (F x I). now apply cancels_spec.
    + apply asks_spec in A. unfold answer. rewrite A. cbn [filter].
      replace (existsb (fun q' => cancelb q' a) l) with true; [exact IH|].
      symmetry. apply existsb_exists. exists q'. split; auto. now apply cancels_spec.
  - intros ->. induction l as [|q l IH]; cbn [left_over]; [constructor|].
    unfold answer. destruct (asked q) as [a|] eqn:E; cbn [filter].
    + destruct (existsb (fun q' => cancelb q' a) l) eqn:X; cbn [negb app].
      * apply existsb_exists in X as (q' & I & C). apply (re_drop q a q'); auto.
        -- now apply asks_spec.
        -- now apply cancels_spec.
      * apply re_keep; auto; [now apply asks_spec|]. apply Forall_forall. intros q' I C.
        apply cancels_spec in C. apply not_true_iff_false in X. apply X. apply existsb_exists. eauto.
    + apply re_none; auto. intros a A. apply asks_spec in A. congruence.
Qed.
Lemma remain_det l r r' : remain l r -> remain l r' -> r = r'.
Proof. rewrite !remain_spec. congruence. Qed.

(** The same, from the front. *)
Definition act (l : list action) (q : request) : list action :=
  filter (fun a => negb (cancelb q a)) l ++ answer q.
Lemma filter_filter {A} (p q : A -> bool) l : filter p (filter q l) = filter (fun x => q x && p x) l.
Proof. induction l as [|x l IH]; cbn; auto. destruct (q x); cbn; destruct (p x); cbn; congruence. Qed.
Lemma fold_act qs : forall l,
  fold_left act qs l = filter (fun a => negb (existsb (fun q => cancelb q a) qs)) l ++ left_over qs.
Proof.
  induction qs as [|q qs IH]; intros l; cbn [fold_left left_over].
  - rewrite app_nil_r. induction l as [|a l IHl]; [reflexivity|]. cbn [filter existsb negb]. f_equal. exact IHl.
  - rewrite IH. unfold act at 1. rewrite filter_app, filter_filter, <- app_assoc. f_equal.
    apply filter_ext. intros a. cbn [existsb]. now rewrite negb_orb.
Qed.

(** ** The handlers *)
Section Handlers.
Variable uniword : pychar -> bool.
Notation K := (SetEnvironment uniword).
Notation ev := (ev shared cache).

Lemma dget_In {A} n (d : dict A) a : dget n d = Some a -> In (n, a) d.
Proof.
  induction d as [|[k v] d IH]; cbn; [discriminate|]. destruct (str_eqb_spec n k) as [->|N].
  - intros E. inversion E. now left.
  - intros E. right. auto.
Qed.

(** What a handler call does to the list and to the cache. *)
Definition effects_as (q : request) (s : str) (f : handler) : Prop :=
  forall hp sh us, hp_op hp = q_op q -> hp_params hp = q_params q -> hp_value hp = q_value q ->
  exists r sh', f s hp sh us =
    (r, sh', match sh with
             | Some l => if str_eqb (q_op q) $"finalize" then dset s l us else us
             | None => us
             end) /\
    init_shared sh' = act (init_shared sh) q /\ (sh <> None -> sh' <> None) /\
    (r = Ok (Some 0%Z) \/ exists x, r = Err x).

Lemma keep_all (l : list action) q : (forall a, cancelb q a = false) -> filter (fun a => negb (cancelb q a)) l = l.
Proof. intros H. induction l as [|a l IH]; cbn; auto. rewrite H. cbn. congruence. Qed.

Lemma act_plain l op ps v : str_eqb op $"envvar_remove" = false -> str_eqb op $"module_remove" = false ->
  act l (Req op ps v) = l ++ answer (Req op ps v).
Proof.
  intros A B. unfold act. rewrite keep_all; auto. intros a. unfold cancelb.
  destruct ps as [|n ps]; auto. destruct a; [rewrite A|rewrite B]; reflexivity.
Qed.
Definition distinct_op (op : str) : Prop :=
  str_eqb op $"envvar_remove" = false /\ str_eqb op $"module_remove" = false /\ str_eqb op $"finalize" = false.

Lemma eff_envvar op ps v s : distinct_op op -> str_mem op module_requests = false ->
  str_mem op envvar_requests = true -> effects_as (Req op ps v) s h_envvar.
Proof.
  intros (A & B & C) M V hp sh us. cbn [q_op q_params q_value]. intros Hop Hps Hv.
  unfold h_envvar, common_envvar. rewrite Hps, C, Hop, Hv, act_plain by auto.
  unfold answer, asked. rewrite M, V. destruct ps as [|n ps].
  - exists (Err IndexError), sh. rewrite app_nil_r. split; [now destruct sh|]. split; auto. split; auto. right. eauto.
  - exists (Ok (Some 0%Z)), (Some (init_shared sh ++ [AEnv op n v])). split; [now destruct sh|].
    split; auto. split; [discriminate|auto].
Qed.
Lemma eff_assert ps v s : effects_as (Req $"envvar_assert_not_empty" ps v) s h_assert.
Proof.
  intros hp sh us. cbn [q_op q_params q_value]. intros Hop Hps Hv.
  unfold h_assert, common_envvar. rewrite Hps, Hop, Hv, act_plain by reflexivity. destruct ps as [|n ps].
  - exists (Err IndexError), sh. split; [now destruct sh|]. split; [symmetry; apply app_nil_r|].
    split; auto. right. eauto.
  - eexists (Ok (Some 0%Z)), (Some _). split; [destruct sh; reflexivity|]. split; [destruct v; reflexivity|].
    split; [discriminate|auto].
Qed.
Lemma eff_module op ps v s : distinct_op op -> str_mem op module_requests = true ->
  effects_as (Req op ps v) s h_module.
Proof.
  intros (A & B & C) M hp sh us. cbn [q_op q_params q_value]. intros Hop Hps Hv.
  unfold h_module. rewrite Hps, C, Hop, Hv, act_plain by auto. unfold answer, asked. rewrite M.
  eexists (Ok (Some 0%Z)), (Some _). split; [destruct sh; reflexivity|].
  split; [now destruct ps|]. split; [discriminate|auto].
Qed.
Lemma eff_envvar_remove ps v s : effects_as (Req $"envvar_remove" ps v) s h_envvar_remove.
Proof.
  intros hp sh us. cbn [q_op q_params q_value]. intros Hop Hps Hv. unfold h_envvar_remove. rewrite Hps.
  destruct sh as [l|].
  - destruct ps as [|n ps].
    + exists (Err IndexError), (Some l). split; [reflexivity|]. split; [|split; [auto|right; eauto]].
      cbn [init_shared]. unfold act. rewrite keep_all by reflexivity. symmetry. apply app_nil_r.
    + eexists (Ok (Some 0%Z)), (Some _). split; [reflexivity|]. split; [|split; [discriminate|auto]].
      cbn [init_shared]. unfold act. change (answer _) with (@nil action). rewrite app_nil_r.
      apply filter_ext. intros [o m w|o m w]; reflexivity.
  - exists (Err KeyError), None. split; [reflexivity|]. split; [|split; [auto|right; eauto]].
    now destruct ps.
Qed.
Lemma eff_module_remove ps v s : effects_as (Req $"module_remove" ps v) s h_module_remove.
Proof.
  intros hp sh us. cbn [q_op q_params q_value]. intros Hop Hps Hv. unfold h_module_remove. rewrite Hps.
  destruct sh as [l|].
  - destruct ps as [|n ps].
    + exists (Err IndexError), (Some l). split; [reflexivity|]. split; [|split; [auto|right; eauto]].
      cbn [init_shared]. unfold act. rewrite keep_all by reflexivity. symmetry. apply app_nil_r.
    + eexists (Ok (Some 0%Z)), (Some _). split; [reflexivity|]. split; [|split; [discriminate|auto]].
      cbn [init_shared]. unfold act. change (answer _) with (@nil action). rewrite app_nil_r.
      apply filter_ext. intros [o m w|o m w]; [reflexivity|].
      unfold cancelb. cbn [andb]. rewrite negb_andb, negb_orb. cbn [negb orb]. now destruct w.
  - exists (Err KeyError), None. split; [reflexivity|]. split; [|split; [auto|right; eauto]].
    now destruct ps.
Qed.
Lemma eff_initialize ps v s : effects_as (Req $"initialize" ps v) s h_initialize.
Proof.
  intros hp sh us Hop Hps Hv. unfold h_initialize. cbn [q_op]. rewrite act_plain by reflexivity.
  exists (Ok (Some 0%Z)), (Some (init_shared sh)). split; [now destruct sh|]. split; [|split; [discriminate|auto]].
  cbn [init_shared]. replace (answer _) with (@nil action) by now destruct ps. symmetry. apply app_nil_r.
Qed.
Lemma eff_finalize ps v s : effects_as (Req $"finalize" ps v) s h_finalize.
Proof.
  intros hp sh us Hop Hps Hv. unfold h_finalize. cbn [q_op]. rewrite act_plain by reflexivity.
  replace (answer _) with (@nil action) by now destruct ps. rewrite app_nil_r. destruct sh as [l|].
  - exists (Ok (Some 0%Z)), (Some l). auto.
  - exists (Err KeyError), None. split; [reflexivity|]. split; [reflexivity|]. split; auto. right. eauto.
Qed.

Lemma attr_cases op kind (f : handler) name :
  (name = public_name op \/ name = private_name op) -> find_attr K name = Some (AUser kind f) ->
  kind = Decorated /\ forall s ps v, effects_as (Req op ps v) s f.
Proof.
  intros N F. unfold find_attr in F. cbn [k_over SetEnvironment] in F.
  destruct (dget name setenv_attrs) as [a|] eqn:E.
  - inversion F; subst a. apply dget_In in E. clear F. unfold setenv_attrs in E. cbn [In] in E.
    repeat (destruct E as [E|E];
      [ apply pair_equal_spec in E as [X Y];
        injection Y as Y1 Y2; subst kind f; split; [reflexivity|];
        destruct N as [N|N]; rewrite <- X in N; clear X;
        [try discriminate N|try discriminate N];
        unfold public_name, private_name in N; cbn in N; injection N as N; subst op
      |]); try contradiction.
    all: intros s ps v.
    all: first [ apply eff_envvar; [split; [|split]|..]; reflexivity
               | apply eff_module; [split; [|split]|..]; reflexivity
               | exact (eff_assert ps v s) | exact (eff_envvar_remove ps v s)
               | exact (eff_module_remove ps v s) | exact (eff_initialize ps v s)
               | exact (eff_finalize ps v s) ].
  - apply dget_In in F. cbn [base_attrs In] in F.
    destruct F as [F|[F|[F|F]]]; try contradiction; apply pair_equal_spec in F as [X Y];
      try discriminate Y; subst name; discriminate E.
Qed.

(** No operation has a public and a private handler. *)
Lemma one_handler op a b : has_attr K (public_name op) = Some a -> has_attr K (private_name op) = Some b -> False.
Proof.
  intros A B.
  assert (C : op = $"finalize" \/ op = $"initialize").
  { unfold has_attr, find_attr in A. cbn [k_over SetEnvironment] in A.
    destruct (dget (public_name op) setenv_attrs) as [x|] eqn:E.
    - apply dget_In in E. unfold setenv_attrs in E. cbn [In] in E.
      repeat (destruct E as [E|E]; [apply pair_equal_spec in E as [X Y];
        try discriminate X; unfold public_name in X; cbn in X; injection X as X; subst op; auto|]). contradiction.
    - destruct (dget (public_name op) base_attrs) as [x|] eqn:E2; [|discriminate].
      apply dget_In in E2. cbn [base_attrs In] in E2.
      repeat (destruct E2 as [E2|E2]; [apply pair_equal_spec in E2 as [X Y];
        try discriminate X; unfold public_name in X; cbn in X; injection X as X; subst op; auto|]). contradiction. }
  destruct C; subst op; discriminate B.
Qed.

(** ** The walk as a list of requests *)
Definition good_call (e : ev) : Prop :=
  match e with
  | Call s h kind f k v => effects_as (Req (h_op h) (h_params h) v) s f /\ kind = Decorated /\ h_amb h = false
  | _ => True
  end.
Lemma meaning_good s item e : meaning K s item (MStep e) -> good_call e.
Proof.
  intros M. inversion M; subst; cbn [good_call]; auto.
  match goal with H : handler_of _ _ _ |- _ => inversion H; subst end; cbn [h_op h_params h_amb].
  - unfold has_attr in *. destruct (find_attr K (public_name (undash w))) as [a|] eqn:F; [|discriminate].
    destruct a; try discriminate.
    match goal with H : Some (AUser _ _) = Some (AUser _ _) |- _ => inversion H; subst end.
    destruct (attr_cases (undash w) kind f _ (or_introl eq_refl) F). auto.
  - unfold has_attr in *. destruct (find_attr K (private_name (undash w))) as [a|] eqn:F; [|discriminate].
    destruct a; try discriminate.
    match goal with H : Some (AUser _ _) = Some (AUser _ _) |- _ => inversion H; subst end.
    destruct (attr_cases (undash w) kind f _ (or_intror eq_refl) F). auto.
  - exfalso. eauto using one_handler.
Qed.
End Handlers.

Section Recorded.
Variable uniword : pychar -> bool.
Notation K := (SetEnvironment uniword).
Notation ev := (ev shared cache).
Variables (fs : str -> option str) (i : ini).

Lemma walk_good dname s init fin evs n : parse_walk K i dname s init fin evs n -> Forall (good_call) evs.
Proof.
  intros W. apply Forall_forall. intros e I.
  assert (O : forall t, origin K i t e -> good_call e).
  { intros t. destruct e; cbn [origin good_call]; auto. intros (_ & items & item & _ & _ & M).
    now apply meaning_good in M. }
  destruct (parse_walk_origin K i _ _ _ _ _ _ _ W I) as [(nm & ->)|[X|(_ & _ & X)]]; eauto. exact Logic.I.
Qed.

(** No option of the walk calls [finalize]. *)
Definition no_finalize (evs : list ev) : Prop :=
  forall q, In q (requests evs) -> q_op q <> $"finalize".
Definition is_hook (e : ev) : Prop := match e with Hook _ _ => True | _ => False end.

Lemma requests_app a b : requests (a ++ b) = requests a ++ requests b.
Proof. apply flat_map_app. Qed.

(** Events other than the hooks, from a list that exists. *)
Lemma run_requests root lvl ps (evs : list ev) : Forall good_call evs -> Forall (fun e => ~ is_hook e) evs ->
  forall l us r sh us' done,
  run K root lvl ps evs (Some l) us = (r, sh, us', done) ->
  (r = Ok tt -> sh = Some (fold_left act (requests evs) l)) /\ sh <> None /\
  (no_finalize evs -> us' = us) /\
  (forall t, ~ finalizes t evs -> dget t us' = dget t us).
Proof.
  intros G NH. induction evs as [|e evs IH]; intros l us r sh us' done R; cbn [run] in R.
  - inversion R; subst. cbn. repeat split; auto. discriminate.
  - inversion G as [|? ? Ge Gs]; subst. inversion NH as [|? ? Ne Ns]; subst.
    assert (S : exists r1 l1 us1, step K root lvl ps e (Some l) us = (r1, Some l1, us1) /\
      (r1 = Ok tt -> l1 = fold_left act (request_of e) l) /\
      ((forall q, In q (request_of e) -> q_op q <> $"finalize") -> us1 = us) /\
      (forall t, ~ finalizes t [e] -> dget t us1 = dget t us)).
    { destruct e as [s|s|s|s w k v|s h kind f k v|s t h k v|s t h k v|s t h k v|s st|s nm];
        try (cbn [step request_of fold_left]; eexists _, l, us; split; [reflexivity|]; auto; fail).
      - cbn [step request_of fold_left]. destruct Ge as (E & KD & A). subst kind. unfold ambiguity. rewrite A. cbn [andb].
        unfold run_handler.
        destruct (E (params_of root h k v) (Some l) us eq_refl eq_refl eq_refl) as (r1 & sh1 & F & I1 & N1 & X).
        rewrite F. destruct sh1 as [l1|]; [|exfalso; apply N1; [discriminate|reflexivity]].
        cbn [init_shared] in I1. eexists _, l1, _. split; [reflexivity|]. split; [|split].
        + intros _. exact I1.
        + intros NF. specialize (NF _ (or_introl eq_refl)). cbn [q_op] in *.
          apply str_eqb_neq in NF. now rewrite NF.
        + intros t NC. cbn [q_op]. destruct (str_eqb_spec (h_op h) $"finalize") as [EF|]; auto.
          apply dget_dset_other. intros ->. apply NC. exists h, Decorated, f, k, v. split; [now left|exact EF].
      - cbn [step request_of fold_left]. destruct st; eexists _, l, us; (split; [reflexivity|]; auto).
      - exfalso. apply Ne. exact Logic.I. }
    destruct S as (r1 & l1 & us1 & S & S1 & S2 & S3). rewrite S in R. destruct r1 as [[]|x].
    + destruct (run K root lvl ps evs (Some l1) us1) as [[[r2 sh2] us2] d2] eqn:R2. inversion R; subst.
      destruct (IH Gs Ns _ _ _ _ _ _ R2) as (A & B & C & D). split; [|split; [|split]]; auto.
      * intros Hr. rewrite (A Hr). change (requests (e :: evs)) with (request_of e ++ requests evs).
        rewrite fold_left_app, S1 by auto. reflexivity.
      * intros NF. rewrite C, S2; auto.
        -- intros q Iq. apply NF. change (requests (e :: evs)) with (request_of e ++ requests evs).
           apply in_app_iff. auto.
        -- intros q Iq. apply NF. change (requests (e :: evs)) with (request_of e ++ requests evs).
           apply in_app_iff. auto.
      * intros t NC. rewrite D, S3; auto.
        -- intros (h & k & f & p & v & [->|[]] & EF). apply NC. exists h, k, f, p, v. split; [now left|exact EF].
        -- intros (h & k & f & p & v & In1 & EF). apply NC. exists h, k, f, p, v. split; [now right|exact EF].
    + inversion R; subst. split; [discriminate|]. split; [discriminate|]. split.
      * intros NF. apply S2. intros q Iq. apply NF. change (requests (e :: evs)) with (request_of e ++ requests evs).
        apply in_app_iff. auto.
      * intros t NC. apply S3. intros (h & k & f & p & v & [->|[]] & EF). apply NC.
        exists h, k, f, p, v. split; [now left|exact EF].
Qed.

Lemma run_split root lvl ps (a b : list ev) : forall sh us,
  run K root lvl ps (a ++ b) sh us =
  match run K root lvl ps a sh us with
  | (Ok _, sh1, us1, d1) => let '(r, sh2, us2, d2) := run K root lvl ps b sh1 us1 in (r, sh2, us2, d1 ++ d2)
  | (Err x, sh1, us1, d1) => (Err x, sh1, us1, d1)
  end.
Proof.
  induction a as [|e a IH]; intros sh us; cbn [app run].
  - destruct (run K root lvl ps b sh us) as [[[r sh2] us2] d2]. reflexivity.
  - destruct (step K root lvl ps e sh us) as [[r1 sh1] us1]. destruct r1 as [[]|x]; [|reflexivity].
    rewrite IH. destruct (run K root lvl ps a sh1 us1) as [[[r2 sh2] us2] d2]. destruct r2 as [[]|x]; [|reflexivity].
    destruct (run K root lvl ps b sh2 us2) as [[[r3 sh3] us3] d3]. reflexivity.
Qed.

(** A parse with both hooks: the middle has none. *)
Lemma parse_walk_middle dname s evs n : parse_walk K i dname s true true evs n ->
  exists mid, Forall (fun e => ~ is_hook e) mid /\ requests mid = requests evs /\
    (forall e, In e mid -> In e evs) /\
    ((ini_items i s = None /\ evs = Hook s $"handler_initialize" :: mid /\ In (Missing s) mid) \/
     (ini_items i s <> None /\
      evs = Hook s $"handler_initialize" :: mid ++ [Hook s $"handler_finalize"; Leave s])).
Proof.
  assert (D : forall evs0 n0, default_walk K i dname evs0 n0 -> Forall (fun e => ~ is_hook e) evs0).
  { intros evs0 n0 D. unfold default_walk in D. apply Forall_forall. intros e I H.
    destruct (ini_has_section i dname); [|destruct D as [-> _]; destruct I].
    pose proof (proj1 (walk_origin K i) _ _ _ _ D e I) as O. destruct e; try contradiction. }
  intros W. inversion W as [evs0 n0 D0 IT|evs0 n0 items evs1 n1 D0 IT WO]; subst; filed.
  - exists (evs0 ++ [Missing s]). split; [|split; [|split]].
    + apply Forall_app. split; eauto.
    + reflexivity.
    + intros e I. now right.
    + left. split; auto. split; [reflexivity|]. apply in_app_iff. right. now left.
  - exists (evs0 ++ Enter s :: evs1). split; [|split; [|split]].
    + apply Forall_app. split; eauto. constructor; [intros []|]. apply Forall_forall. intros e I H.
      pose proof (proj2 (walk_origin K i) _ _ _ _ _ WO) as O.
      assert (X : exists its, ini_items i s = Some its /\ incl items its) by (exists items; split; auto; apply incl_refl).
      specialize (O X e I). destruct e; try contradiction.
    + cbn [app]. change (requests (Hook s ?n :: ?l)) with (requests l).
      replace (evs0 ++ Enter s :: evs1 ++ [Hook s $"handler_finalize"; Leave s])
        with ((evs0 ++ Enter s :: evs1) ++ [Hook s $"handler_finalize"; Leave s])
        by (rewrite <- app_assoc; reflexivity).
      rewrite (requests_app (evs0 ++ Enter s :: evs1)). cbn [requests flat_map request_of app]. now rewrite app_nil_r.
    + intros e I. cbn [app]. right. apply in_app_iff in I as [I|I]; apply in_app_iff; auto.
      right. destruct I as [->|I]; [now left|]. right. apply in_app_iff. auto.
    + right. split; [congruence|]. cbn [app]. now rewrite <- app_assoc.
Qed.

Lemma step_initialize s lvl ps us : step K s lvl ps (Hook s $"handler_initialize") None us = (Ok tt, Some [], us).
Proof. reflexivity. Qed.
Lemma step_finalize s lvl ps l us :
  step K s lvl ps (Hook s $"handler_finalize") (Some l) us = (Ok tt, Some l, dset s l us).
Proof. reflexivity. Qed.

(** What a whole parse does to [actions]. *)
Theorem run_recorded dname s lvl ps evs n us r sh us' done :
  parse_walk K i dname s true true evs n ->
  run K s lvl ps evs None us = (r, sh, us', done) ->
  match r with
  | Ok _ => exists l, remain (requests evs) l /\ sh = Some l /\ dget s us' = Some l
  | Err _ => no_finalize evs -> us' = us
  end /\
  (forall t, t <> s -> ~ finalizes t evs -> dget t us' = dget t us).
Proof.
  intros W R. destruct (parse_walk_middle _ _ _ _ W) as (mid & NH & RQ & IN & SH).
  assert (G : Forall good_call mid).
  { pose proof (walk_good _ _ _ _ _ _ W) as G. rewrite Forall_forall in *. auto. }
  assert (NF : no_finalize evs -> no_finalize mid) by (intros X q; rewrite RQ; apply X).
  assert (NC : forall t, ~ finalizes t evs -> ~ finalizes t mid).
  { intros t X (h & k & f & p & v & I1 & EF). apply X. exists h, k, f, p, v. auto. }
  destruct SH as [(IT & EV & MI)|(IT & EV)]; rewrite EV in R; cbn [run] in R; rewrite step_initialize in R.
  - destruct (run K s lvl ps mid (Some []) us) as [[[r2 sh2] us2] d2] eqn:R2. inversion R; subst r2 sh2 us2 done.
    destruct (run_requests _ _ _ _ G NH _ _ _ _ _ _ R2) as (A & B & C & D). split; [|auto].
    destruct r as [[]|x]; [|auto].
    exfalso. clear - R2 MI. revert R2. generalize (Some (@nil action)) at 1. revert us d2. induction mid as [|e mid IH]; [destruct MI|].
    intros us d2 s0. cbn [run]. destruct (step K s lvl ps e s0 us) as [[r1 sh1] us1] eqn:S.
    destruct r1 as [[]|x]; [|discriminate].
    destruct (run K s lvl ps mid sh1 us1) as [[[r2 sh2] us2] d3] eqn:R2. intros E. inversion E; subst.
    destruct MI as [->|MI]; [cbn in S; destruct ps; discriminate|]. eapply IH; eauto.
  - rewrite run_split in R.
    destruct (run K s lvl ps mid (Some []) us) as [[[r2 sh2] us2] d2] eqn:R2.
    destruct (run_requests _ _ _ _ G NH _ _ _ _ _ _ R2) as (A & B & C & D).
    destruct r2 as [[]|x].
    + rewrite A in R by auto. cbn [run] in R. rewrite step_finalize in R. cbn [step] in R. inversion R; subst. split.
      * exists (fold_left act (requests mid) []). split; [|split; [reflexivity|apply dget_dset_same]].
        apply remain_spec. rewrite fold_act, RQ. reflexivity.
      * intros t N X. rewrite dget_dset_other by auto. auto.
    + inversion R; subst. auto.
Qed.

Theorem recorded fuel s (o : sobj) v o' :
  has_file fs o i -> level_ok o -> parse_section_str K fs fuel s true true o = (Ok v, o') ->
  exists evs n l, parse_walk K i (o_defname o) s true true evs n /\ remain (requests evs) l /\
    v = Some l /\ dget s (o_user o') = Some l /\
    (forall t, t <> s -> ~ finalizes t evs -> dget t (o_user o') = dget t (o_user o)).
Proof.
  intros H [L _] E. destruct (parse_section_Ok K fs i _ _ _ _ _ _ _ H L E) as (_ & _ & evs & n & us & W & R & P).
  destruct (run_recorded _ _ _ _ _ _ _ _ _ _ _ W R) as [(l & RE & -> & D) F].
  rewrite <- (pa_user _ _ _ _ _ _ _ _ _ _ P) in *. exists evs, n, l. auto.
Qed.

Theorem recorded_on_failure fuel s (o : sobj) x o' :
  s <> [] -> has_file fs o i -> level_ok o -> default_ok K i (o_defname o) s true ->
  length (ini_sections i) + 3 <= fuel ->
  parse_section_str K fs fuel s true true o = (Err x, o') ->
  exists evs n, parse_walk K i (o_defname o) s true true evs n /\
    ((forall q, In q (requests evs) -> q_op q <> $"finalize") -> o_user o' = o_user o).
Proof.
  intros NE H L DO F E.
  destruct (ParseProofs2.parse_outcome K fs i fuel s true true o NE H L DO F)
    as (evs & n & r & sh & us & done & o1 & W & R & E' & P & _).
  rewrite E in E'. destruct r as [u|y]; inversion E'; subst.
  destruct (run_recorded _ _ _ _ _ _ _ _ _ _ _ W R) as [U _].
  exists evs, n. split; auto. intros NF. rewrite (pa_user _ _ _ _ _ _ _ _ _ _ P). auto.
Qed.
End Recorded.
