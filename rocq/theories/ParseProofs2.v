(** * Proofs about outcomes: recursion, cycles, missing sections, repetition. *)
From Coq Require Import String NArith ZArith List Bool Lia Arith.
Import ListNotations.
From Verif Require Import PyBase PyFacts Shlex IniView IniRead ExcControl Debuggable Cpe
  SpecBase SpecText SpecFile SpecShell ShellProofs FileProofs SpecWalk MeaningProofs SpecRun SpecParse BaseProofs Refine RefineRoot RefineOk RunProofs Trace WalkProofs
  ParseProofs.
Local Open Scope sm_scope.

Section P.
Context {Sh Us : Type} (K : pyclass Sh Us) (fs : str -> option str) (i : ini).
Notation ev := (ev Sh Us).
Notation obj := (obj Sh Us).
Notation ctx := (ctx Sh Us).

Lemma parse_outcome fuel s init fin (o : obj) :
  s <> [] -> has_file fs o i -> level_ok o -> default_ok K i (o_defname o) s init ->
  length (ini_sections i) + 3 <= fuel ->
  exists evs n r sh us done o', parse_walk K i (o_defname o) s init fin evs n /\
    run K s (level_of o) (path_set_of o) evs (k_empty K) (o_user o) = (r, sh, us, done) /\
    parse_section_str K fs fuel s init fin o = (match r with Ok _ => Ok sh | Err e => Err e end, o') /\
    parsed K fs i o o' s r sh us done /\ (r = Ok tt -> done = evs).
Proof.
  intros NE H [L _] DO F. destruct (parse_walk_exists K i (o_defname o) s init fin) as (evs & n & W & N).
  pose proof (parse_section_spec K fs i fuel s init fin o evs n NE H L W DO ltac:(lia)) as X.
  destruct (run K s (level_of o) (path_set_of o) evs (k_empty K) (o_user o)) as [[[r sh] us] done] eqn:R.
  destruct X as (o' & E & P & D). exists evs, n, r, sh, us, done, o'. auto.
Qed.

(** ** C05: fuel does not matter beyond the number of sections *)
Theorem fuel_irrelevant f f' s init fin (o : obj) :
  s <> [] -> has_file fs o i -> level_ok o -> default_ok K i (o_defname o) s init ->
  length (ini_sections i) + 3 <= f -> length (ini_sections i) + 3 <= f' ->
  parse_section_str K fs f s init fin o = parse_section_str K fs f' s init fin o.
Proof.
  intros NE H [L _] DO F F'. rewrite !parse_section_start by auto.
  destruct (parse_walk_exists K i (o_defname o) s init fin) as (evs & n & W & N).
  pose proof (start_ready K fs i o s H) as RD.
  rewrite (psr_parse K fs i f s init fin evs n (start K o s)); auto; [|lia|intros x; reflexivity].
  rewrite (psr_parse K fs i f' s init fin evs n (start K o s)); auto; [lia|intros x; reflexivity].
Qed.

Lemma split_percent_len s : length (snd (split_percent s)) <= length s.
Proof.
  induction s as [|c s IH]; [auto|]. cbn [split_percent].
  destruct (N.eqb c 37); [auto|]. destruct (split_percent s). cbn in *. lia.
Qed.

Lemma take_name_len s : forall n r, take_name s = Some (n, r) -> length r < length s.
Proof.
  induction s as [|c s IH]; intros n r H; [discriminate|]. cbn [take_name] in H.
  destruct (N.eqb c 41); [inversion H; subst; cbn; lia|].
  destruct (take_name s) as [[n1 r1]|]; [|discriminate]. inversion H; subst.
  specialize (IH _ _ eq_refl). cbn. lia.
Qed.

Lemma interp_loop_err look rec : (forall v e, rec v = Err e -> e <> RecursionError) ->
  forall fuel rest e, length rest < fuel -> interp_loop look rec fuel rest = Err e -> e <> RecursionError.
Proof.
  intros HR fuel. induction fuel as [|fuel IH]; intros rest x L H; [lia|].
  cbn [interp_loop] in H. destruct rest as [|c0 rest0]; [discriminate|].
  pose proof (split_percent_len (c0 :: rest0)) as SP.
  destruct (split_percent (c0 :: rest0)) as [pre rest1]. cbn [snd] in SP.
  destruct rest1 as [|p [|c r]]; [discriminate|inversion H; discriminate|].
  cbn [length] in L, SP.
  assert (G : forall (f : str -> str) r', length r' < fuel ->
    match interp_loop look rec fuel r' with Ok tl => Ok (f tl) | Err e => Err e end = Err x ->
    x <> RecursionError).
  { intros f r' L' E. destruct (interp_loop look rec fuel r') eqn:E'; [discriminate|].
    inversion E; subst. eapply IH; eauto. }
  destruct (N.eqb c 37); [eapply (G (fun tl => _)); [|exact H]; lia|].
  destruct (N.eqb c 40); [|inversion H; discriminate].
  unfold keycre in H. destruct (take_name r) as [[n1 r1]|] eqn:ET; [|inversion H; discriminate].
  apply take_name_len in ET. destruct n1 as [|n0 n1]; [inversion H; discriminate|].
  destruct r1 as [|t r1]; [inversion H; discriminate|]. destruct (N.eqb t 115); [|inversion H; discriminate].
  cbn [length] in ET.
  destruct (look (n0 :: n1)) as [[v|]|]; [|inversion H; discriminate|inversion H; discriminate].
  destruct (char_mem 37%N v); [|eapply (G (fun tl => _)); [|exact H]; lia].
  destruct (rec v) eqn:EI; [eapply (G (fun tl => _)); [|exact H]; lia|].
  inversion H; subst. eauto.
Qed.

Lemma interp_some_err look depth : forall s e, interp_some look depth s = Err e -> e <> RecursionError.
Proof.
  induction depth as [|depth IH]; intros s e H; cbn [interp_some] in H; [inversion H; discriminate|].
  eapply interp_loop_err; [exact IH| |exact H]. lia.
Qed.

Lemma ini_items_err t items k e : ini_items i t = Some items -> In (k, Err e) items -> e <> RecursionError.
Proof.
  unfold ini_items. destruct (own_options i t) as [own|]; [|discriminate]. intros H I. inversion H; subst.
  apply in_map_iff in I as ([k0 v0] & E & _). cbn in E. inversion E as [[E1 E2]].
  unfold ini_get in E2. destruct v0 as [v0|]; [|discriminate].
  destruct (interp_some _ _ _) eqn:EI; [discriminate|]. inversion E2; subst. eapply interp_some_err; eauto.
Qed.

Lemma sh_run_err st tok q s e : sh_run st tok q s = Err e -> e = ValueError.
Proof.
  revert st tok q e. induction s as [|c s IH]; intros st tok q e H; cbn in H.
  - destruct st; try (now inversion H); destruct (negb q && str_eqb tok []); discriminate.
  - assert (G : forall st tok q (f : list str -> list str),
        match sh_run st tok q s with Ok l => Ok (f l) | Err e => Err e end = Err e -> e = ValueError).
    { intros st' tok' q' f H'. destruct (sh_run st' tok' q' s) eqn:E; [discriminate|]. inversion H'; subst. eauto. }
    destruct st as [| |qc|[qc|]];
    repeat match type of H with (if ?b then _ else _) = _ => destruct b end; eauto;
    try (eapply (G _ _ _ (fun l => tok :: l)); exact H).
Qed.

Lemma step_not_recursion root lvl ps s e sh us :
  no_recursion_handlers K -> (origin K i s e \/ exists t name, e = Hook t name) ->
  fst (fst (step K root lvl ps e sh us)) <> Err RecursionError.
Proof.
  intros NR O.
  assert (RH : forall name kind f t hp, find_attr K name = Some (AUser kind f) ->
      fst (fst (run_handler lvl kind f t hp sh us)) <> Err RecursionError).
  { intros name kind f t hp E. unfold run_handler. pose proof (NR _ _ _ E t hp sh us) as X.
    destruct (f t hp sh us) as [[[rv|x] sh'] us']; cbn in *; [|congruence].
    destruct kind; try discriminate. unfold rval_policy. destruct rv as [z|]; [|discriminate].
    destruct (z =? 0)%Z, (10 <? z)%Z, (5 <=? lvl)%Z; discriminate. }
  assert (HA : forall name a, has_attr K name = Some a -> find_attr K name = Some a).
  { intros name a. unfold has_attr. destruct (find_attr K name) as [[]|]; congruence. }
  destruct e; cbn [step]; unfold ambiguity; cbn; try discriminate.
  - destruct ps; discriminate.
  - destruct (h_amb h && (3 <=? lvl)%Z); [discriminate|].
    destruct O as [[_ (items & item & _ & _ & M)]|(t & name & E)]; [|discriminate].
    inversion M; subst. match goal with H : handler_of K _ _ |- _ => inversion H; subst end; eapply RH; eauto.
  - destruct (h_amb h && (3 <=? lvl)%Z); discriminate.
  - destruct (h_amb h && (3 <=? lvl)%Z), ps, (5 <=? lvl)%Z; discriminate.
  - destruct O as [[_ (items & item & HI & IN & M)]|(t & name & E)]; [|discriminate].
    destruct r as [x|k v x|h k v|h k v]; cbn.
    + inversion M; subst. intros Q. inversion Q; subst. eapply ini_items_err; eauto.
    + inversion M; subst; discriminate.
    + destruct (h_amb h && (3 <=? lvl)%Z); discriminate.
    + destruct (h_amb h && (3 <=? lvl)%Z); discriminate.
  - destruct (find_attr K name) as [[]|] eqn:E; try discriminate. eapply RH; eauto.
Qed.

Lemma run_not_recursion root lvl ps (evs : list ev) :
  (forall e, In e evs -> forall sh us, fst (fst (step K root lvl ps e sh us)) <> Err RecursionError) ->
  forall sh us r sh' us' done, run K root lvl ps evs sh us = (r, sh', us', done) -> r <> Err RecursionError.
Proof.
  induction evs as [|e evs IH]; intros H sh us r sh' us' done R; cbn [run] in R.
  - inversion R; discriminate.
  - pose proof (H e (or_introl eq_refl) sh us) as X.
    destruct (step K root lvl ps e sh us) as [[r1 sh1] us1]. cbn in X.
    destruct r1 as [[]|x]; [|inversion R; subst; congruence].
    destruct (run K root lvl ps evs sh1 us1) as [[[r2 sh2] us2] d2] eqn:E2. inversion R; subst.
    eapply IH; [|exact E2]. intros e' I'. apply H. now right.
Qed.

Theorem no_recursion_error fuel s init fin (o : obj) :
  s <> [] -> has_file fs o i -> level_ok o -> default_ok K i (o_defname o) s init ->
  no_recursion_handlers K -> length (ini_sections i) + 3 <= fuel ->
  fst (parse_section_str K fs fuel s init fin o) <> Err RecursionError.
Proof.
  intros NE H L DO NR F.
  destruct (parse_outcome fuel s init fin o NE H L DO F) as (evs & n & r & sh & us & done & o' & W & R & E & _).
  rewrite E. cbn. destruct r as [u|x]; [discriminate|]. intros Q. inversion Q; subst.
  eapply run_not_recursion; [|exact R|reflexivity].
  intros e I sh1 us1. destruct (parse_walk_origin K i _ _ _ _ _ _ _ W I) as [(nm & ->)|[O|(_ & _ & O)]];
  [eapply (step_not_recursion _ _ _ s); eauto|..];
  eapply step_not_recursion; eauto.
Qed.

(** ** Well-behaved classes: the outcome of a step *)
Definition wb_res (lvl : Z) (ps : bool) (e : ev) : res unit :=
  match e with
  | Missing _ => Err (if ps then KeyError else ValueError)
  | Stop _ (StopValue x) | Stop _ (StopKey _ _ x) => Err x
  | Stop _ (StopUse _ _ _) => Err IndexError
  | Stop _ (StopObj _ _ _) => Err TypeError
  | Cycle _ _ _ _ _ => if ps && (lvl <? 5)%Z then Ok tt else Err ValueError
  | _ => Ok tt
  end.

Definition is_hook (e : ev) : Prop :=
  exists t, e = Hook t $"handler_initialize" \/ e = Hook t $"handler_finalize".

Lemma wb_amb op name a amb : well_behaved K -> handler_of K op (Some (name, a, amb)) -> amb = false.
Proof. intros WB H. inversion H; subst; auto. destruct (wb_unambiguous K WB op); congruence. Qed.

Lemma step_wb root lvl ps s e sh us : well_behaved K ->
  (origin K i s e \/ is_hook e) ->
  exists sh' us', step K root lvl ps e sh us = (wb_res lvl ps e, sh', us').
Proof.
  intros WB O.
  assert (RH : forall name kind f t hp, find_attr K name = Some (AUser kind f) ->
      exists sh' us', run_handler lvl kind f t hp sh us = (Ok tt, sh', us')).
  { intros name kind f t hp E. unfold run_handler.
    destruct (wb_handlers K WB _ _ _ E t hp sh us) as (sh' & us' & ->). destruct kind; cbn; eauto. }
  assert (HA : forall name a, has_attr K name = Some a -> find_attr K name = Some a).
  { intros name a. unfold has_attr. destruct (find_attr K name) as [[]|]; congruence. }
  destruct e; cbn [step wb_res]; unfold ambiguity; eauto.
  - destruct ps; eauto.
  - destruct O as [[_ (items & item & _ & _ & M)]|(t & [E|E])]; try discriminate.
    inversion M; subst.
    match goal with H : handler_of K _ _ |- _ => pose proof (wb_amb _ _ _ _ WB H) as -> end. cbn.
    match goal with H : handler_of K _ _ |- _ => inversion H; subst end; eapply RH; eauto.
  - destruct O as [[_ (items & item & _ & _ & M)]|(t' & [E|E])]; try discriminate.
    inversion M; subst.
    match goal with H : handler_of K _ _ |- _ => pose proof (wb_amb _ _ _ _ WB H) as -> end. cbn. eauto.
  - destruct O as [[_ (items & item & _ & _ & M)]|(t' & [E|E])]; try discriminate.
    inversion M; subst.
    match goal with H : handler_of K _ _ |- _ => pose proof (wb_amb _ _ _ _ WB H) as -> end. cbn.
    destruct ps; cbn; eauto. rewrite Z.leb_antisym. destruct (lvl <? 5)%Z; cbn; eauto.
  - destruct O as [[_ (items & item & HI & IN & M)]|(t' & [E|E])]; try discriminate.
    destruct r as [x|k v x|h k v|h k v]; eauto; inversion M; subst;
    match goal with H : handler_of K _ _ |- _ => pose proof (wb_amb _ _ _ _ WB H) as -> end; cbn; eauto.
  - destruct O as [[]|(t' & [E|E])]; inversion E; subst.
    + destruct (wb_initialize K WB) as (kind & f & E'). rewrite E'. eapply RH; eauto.
    + destruct (wb_finalize K WB) as (kind & f & E'). rewrite E'. eapply RH; eauto.
Qed.

Lemma run_wb root lvl ps (evs : list ev) :
  (forall e, In e evs -> forall sh us, exists sh' us', step K root lvl ps e sh us = (wb_res lvl ps e, sh', us')) ->
  forall sh us, exists sh' us',
    (Forall (fun e => wb_res lvl ps e = Ok tt) evs /\ run K root lvl ps evs sh us = (Ok tt, sh', us', evs)) \/
    (exists pre e post x, evs = pre ++ e :: post /\ Forall (fun e => wb_res lvl ps e = Ok tt) pre /\
       wb_res lvl ps e = Err x /\ run K root lvl ps evs sh us = (Err x, sh', us', pre)).
Proof.
  induction evs as [|e evs IH]; intros H sh us.
  - exists sh, us. left. split; [constructor|reflexivity].
  - destruct (H e (or_introl eq_refl) sh us) as (sh1 & us1 & E). cbn [run]. rewrite E.
    destruct (wb_res lvl ps e) as [[]|x] eqn:EW.
    + destruct (IH (fun e' I => H e' (or_intror I)) sh1 us1) as (sh2 & us2 & [[F R]|(pre & e' & post & x & -> & F & X & R)]).
      * rewrite R. exists sh2, us2. left. split; auto.
      * rewrite R. exists sh2, us2. right. exists (e :: pre), e', post, x. repeat split; auto.
    + exists sh1, us1. right. exists [], e, evs, x. repeat split; auto.
Qed.

Lemma parse_walk_hooks dname s init fin evs n t name :
  parse_walk K i dname s init fin evs n -> In (Hook t name) evs -> is_hook (Hook t name).
Proof.
  intros W I. unfold is_hook.
  assert (D : forall evs0 n0, (if init then default_walk K i dname evs0 n0 else evs0 = [] /\ n0 = 0) ->
     In (Hook t name) evs0 -> False).
  { intros evs0 n0 D I0. destruct init; [|destruct D as [-> _]; destruct I0].
    unfold default_walk in D. destruct (ini_has_section i dname); [|destruct D as [-> _]; destruct I0].
    exact (proj1 (walk_origin K i) _ _ _ _ D _ I0). }
  inversion W; subst; filed.
  - apply in_app_or in I as [I|[I|[]]]; [|discriminate]. destruct init; [|destruct I].
    destruct I as [I|I]; [inversion I; eauto|]. exfalso; eauto.
  - apply in_app_or in I as [I|I].
    + destruct init; [|destruct I]. destruct I as [I|I]; [inversion I; eauto|]. exfalso; eauto.
    + destruct I as [I|I]; [discriminate|]. apply in_app_or in I as [I|I].
      * exfalso. match goal with H : walk_options K i _ _ ?its _ _, HI : ini_items i s = Some ?its |- _ =>
          exact (proj2 (walk_origin K i) _ _ _ _ _ H (ex_intro _ its (conj HI (incl_refl its))) _ I) end.
      * apply in_app_or in I as [I|[I|[]]]; [|discriminate].
        destruct fin; [destruct I as [I|[]]; inversion I; eauto|destruct I].
Qed.

Lemma run_parse_wb dname s init fin evs n lvl ps sh us :
  well_behaved K -> parse_walk K i dname s init fin evs n ->
  exists sh' us',
    (Forall (fun e => wb_res lvl ps e = Ok tt) evs /\ run K s lvl ps evs sh us = (Ok tt, sh', us', evs)) \/
    (exists pre e post x, evs = pre ++ e :: post /\ Forall (fun e => wb_res lvl ps e = Ok tt) pre /\
       wb_res lvl ps e = Err x /\ run K s lvl ps evs sh us = (Err x, sh', us', pre)).
Proof.
  intros WB W. apply run_wb. intros e I sh0 us0.
  destruct (parse_walk_origin K i _ _ _ _ _ _ _ W I) as [(nm & ->)|[O|(_ & _ & O)]].
  - eapply (step_wb _ _ _ s); auto. right. eapply parse_walk_hooks; eauto.
  - eapply step_wb; eauto.
  - eapply step_wb; eauto.
Qed.

(** ** The steps a parse can meet *)
Lemma contributes_of dname s init e t :
  (origin K i s e \/ (init = true /\ ini_has_section i dname = true /\ origin K i dname e)) ->
  match e with
  | Enter u | Leave u | Missing u | SpecWalk.Plain u _ _ _ | Call u _ _ _ _ _ | Stop u _
  | UseIn u _ _ _ _ | UseOut u _ _ _ _ | Cycle u _ _ _ _ => u = t
  | Hook _ _ => False
  end -> contributes K i dname s init t.
Proof.
  intros O E. unfold contributes.
  destruct e; try contradiction; subst; cbn in O; destruct O as [[O _]|(A & B & O & _)]; auto.
Qed.

Lemma walk_missing_iff s evs n t : walk K i [] s evs n ->
  (In (Missing t) evs <-> reaches K i s t /\ ini_items i t = None).
Proof.
  intros W. split.
  - intros I. exact (proj1 (walk_origin K i) _ _ _ _ W _ I).
  - intros [R N]. destruct (walk_visits_reach K i _ _ _ _ W R) as (p & e & m & W' & I).
    apply I. inversion W'; subst; filed; [now left|congruence].
Qed.

Lemma walk_cycle_iff s evs n : walk K i [] s evs n ->
  (Exists is_cycle evs <-> exists t, reaches K i s t /\ on_cycle K i t).
Proof.
  intros W. split.
  - intros X. apply Exists_exists in X as (e & I & C). destruct e; try contradiction.
    pose proof (proj1 (walk_origin K i) _ _ _ _ W _ I) as [R (items & item & A & B & M)].
    exists s0. split; auto. exists t. split.
    + exists items, item, h, k, v. auto.
    + eapply (proj1 (walk_cycle_sound K i)); [exact W|intros ? []|exact I].
  - intros (t & R & u & U & RU).
    destruct (walk_visits_reach K i _ _ _ _ W R) as (p & e & m & W' & I).
    apply reaches_route in RU as (l & RU & _).
    destruct (walk_cycle K i (u :: l) _ _ _ _ t W') as (a & b & h & k & v & J);
      [econstructor; eauto|discriminate|now left|].
    apply Exists_exists. eexists. split; [apply I, J|exact Logic.I].
Qed.

Lemma walk_stop_iff s evs n t r : walk K i [] s evs n ->
  (In (Stop t r) evs <-> reaches K i s t /\ item_of K i t (MStep (Stop t r))).
Proof.
  intros W. split.
  - intros I. exact (proj1 (walk_origin K i) _ _ _ _ W _ I).
  - intros [R M]. destruct (walk_visits_reach K i _ _ _ _ W R) as (p & e & m & W' & I).
    apply I. eapply walk_item; eauto.
Qed.

(** A set of sections closed by walking. *)
Lemma parse_walk_In dname s init fin evs n (e : ev) :
  parse_walk K i dname s init fin evs n -> ini_items i s <> None -> ~ is_hook e ->
  (In e evs <->
   (exists evs1 n1, walk K i [] s evs1 n1 /\ In e evs1) \/
   (init = true /\ ini_has_section i dname = true /\ exists evs0 n0, walk K i [] dname evs0 n0 /\ In e evs0)).
Proof.
  intros W N NH. destruct (parse_walk_parts K i _ _ _ _ _ _ W N) as (e0 & n0 & e1 & n1 & D & W1 & _ & P & Q & _).
  split.
  - intros I. pose proof I as I'. apply P in I as [I|[I|(nm & ->)]].
    + right. destruct init; [|destruct D as [-> _]; destruct I]. unfold default_walk in D.
      destruct (ini_has_section i dname); [|destruct D as [-> _]; destruct I]. eauto 7.
    + left. eauto.
    + exfalso. apply NH. eapply parse_walk_hooks; eauto.
  - intros [(e1' & n1' & W1' & I)|(-> & HS & e0' & n0' & W0' & I)]; apply Q.
    + right. destruct (walk_unique K i) as [U _]. destruct (U _ _ _ _ W1 _ _ W1') as [-> _]. auto.
    + left. unfold default_walk in D. rewrite HS in D.
      destruct (walk_unique K i) as [U _]. destruct (U _ _ _ _ D _ _ W0') as [-> _]. auto.
Qed.

End P.
