(** * Proofs of the parser properties. *)
From Coq Require Import String NArith ZArith List Bool Lia Arith.
Import ListNotations.
From Verif Require Import PyBase PyFacts Shlex IniView IniRead ExcControl Debuggable Cpe
  SpecBase SpecText SpecFile SpecShell ShellProofs FileProofs SpecWalk MeaningProofs SpecRun SpecParse BaseProofs Refine RefineRoot RefineOk RunProofs Trace WalkProofs.
Local Open Scope sm_scope.

Section P.
Context {Sh Us : Type} (K : pyclass Sh Us) (fs : str -> option str) (i : ini).
Notation ev := (ev Sh Us).
Notation obj := (obj Sh Us).
Notation ctx := (ctx Sh Us).

(** ** Walk of a parse in two parts *)
Lemma parse_walk_parts dname s init fin evs n :
  parse_walk K i dname s init fin evs n -> ini_items i s <> None ->
  exists evs0 n0 evs1 n1,
    (if init then default_walk K i dname evs0 n0 else evs0 = [] /\ n0 = 0) /\
    walk K i [] s evs1 n1 /\
    plains evs = plains evs0 ++ plains evs1 /\
    (forall e, In e evs -> In e evs0 \/ In e evs1 \/ exists name, e = Hook s name) /\
    (forall e, In e evs0 \/ In e evs1 -> In e evs) /\
    In (Enter s) evs1.
Proof.
  intros W N. inversion W; subst; filed; [congruence|].
  exists evs0, n0, (Enter s :: evs1 ++ [Leave s]), (S n1). split; [auto|].
  split; [econstructor; eauto|]. split; [|split; [|split; [|now left]]].
  - rewrite !plains_app. cbn [plains flat_map plain_of app]. fold (plains evs1).
    change (flat_map plain_of (evs1 ++ ?x)) with (plains (evs1 ++ x)).
    rewrite !plains_app. destruct init.
    + cbn [plains flat_map plain_of app]. destruct fin; cbn; rewrite ?app_nil_r; reflexivity.
    + match goal with H : _ /\ _ |- _ => destruct H as [-> ->] end.
      destruct fin; cbn; rewrite ?app_nil_r; reflexivity.
  - intros e HI. apply in_app_or in HI as [HI|HI].
    + destruct init; [|destruct HI]. destruct HI as [<-|HI]; eauto.
    + destruct HI as [<-|HI]; [right; left; now left|].
      apply in_app_or in HI as [HI|HI]; [right; left; right; apply in_or_app; now left|].
      apply in_app_or in HI as [HI|HI].
      * destruct fin; [destruct HI as [<-|[]]; eauto|destruct HI].
      * right; left; right; apply in_or_app; now right.
  - intros e [HI|[<-|HI]].
    + apply in_or_app. left. destruct init; [now right|].
      match goal with H : _ /\ _ |- _ => destruct H as [-> ->] end. destruct HI.
    + apply in_or_app. right. now left.
    + apply in_or_app. right. right. apply in_app_or in HI as [HI|HI]; apply in_or_app; auto.
      right. apply in_or_app. now right.
Qed.

Lemma parse_walk_items dname s init fin evs n :
  parse_walk K i dname s init fin evs n -> ini_items i s = None -> In (Missing s) evs.
Proof.
  intros W N. inversion W; subst; filed; [|congruence]. apply in_or_app. right. now left.
Qed.

Lemma parse_walk_origin dname s init fin evs n e :
  parse_walk K i dname s init fin evs n -> In e evs ->
  (exists name, e = Hook s name) \/ origin K i s e \/
  (init = true /\ ini_has_section i dname = true /\ origin K i dname e).
Proof.
  intros W H.
  assert (D : forall evs0 n0, (if init then default_walk K i dname evs0 n0 else evs0 = [] /\ n0 = 0) ->
     In e evs0 -> init = true /\ ini_has_section i dname = true /\ origin K i dname e).
  { intros evs0 n0 D I0. destruct init; [|destruct D as [-> _]; destruct I0].
    unfold default_walk in D. destruct (ini_has_section i dname); [|destruct D as [-> _]; destruct I0].
    repeat split; auto. eapply (proj1 (walk_origin K i)); eauto. }
  destruct (ini_items i s) as [its|] eqn:E.
  - destruct (parse_walk_parts _ _ _ _ _ _ W) as (e0 & n0 & e1 & n1 & D0 & W1 & _ & P & _); [congruence|].
    apply P in H as [H|[H|H]]; eauto. right; left. eapply (proj1 (walk_origin K i)); eauto.
  - inversion W; subst; filed; [|congruence]. apply in_app_or in H as [H|[<-|[]]].
    + destruct init; [|destruct H]. destruct H as [<-|H]; eauto.
    + right; left. cbn. split; [constructor|auto].
Qed.

(** ** Steps that cannot fail *)
Lemma run_steps root lvl ps (evs : list ev) : forall sh us sh' us' done,
  run K root lvl ps evs sh us = (Ok tt, sh', us', done) ->
  forall e, In e evs -> exists sh0 us0 sh1 us1, step K root lvl ps e sh0 us0 = (Ok tt, sh1, us1).
Proof.
  induction evs as [|e0 evs IH]; intros sh us sh' us' done H e I; [destruct I|].
  cbn [run] in H. destruct (step K root lvl ps e0 sh us) as [[r sh1] us1] eqn:E.
  destruct r as [[]|x]; [|discriminate].
  destruct (run K root lvl ps evs sh1 us1) as [[[r2 sh2] us2] d2] eqn:E2.
  destruct I as [<-|I]; [eauto 6|]. inversion H; subst. eapply IH; eauto.
Qed.

Lemma run_no_missing root lvl ps (evs : list ev) sh us sh' us' done s :
  run K root lvl ps evs sh us = (Ok tt, sh', us', done) -> ~ In (Missing s) evs.
Proof.
  intros H I. destruct (run_steps _ _ _ _ _ _ _ _ _ H _ I) as (a & b & c & d & E).
  cbn in E. destruct ps; discriminate.
Qed.

Lemma ok_items fuel s init fin o v o' :
  has_file fs o i -> (0 <= level_of o)%Z ->
  parse_section_str K fs fuel s init fin o = (Ok v, o') -> ini_items i s <> None.
Proof.
  intros H L E N. destruct (parse_section_Ok K fs i _ _ _ _ _ _ _ H L E) as (_ & _ & evs & n & us & W & R & _).
  eapply run_no_missing; [exact R|]. eapply parse_walk_items; eauto.
Qed.

Lemma options_of_opts (o : obj) s : options_of o s = opts_in s (data_of o).
Proof. reflexivity. Qed.

(** ** C01 *)
Theorem use_is_inclusion fuel s init fin o v o' :
  has_file fs o i -> level_ok o ->
  parse_section_str K fs fuel s init fin o = (Ok v, o') ->
  exists evs n, parse_walk K i (o_defname o) s init fin evs n /\
    section_of o' s = Some (write_all (plains evs) (options_of o s)).
Proof.
  intros H [L _] E. destruct (parse_section_Ok K fs i _ _ _ _ _ _ _ H L E) as (NE & DO & evs & n & us & W & R & P).
  exists evs, n. split; auto. unfold section_of. rewrite (pa_data _ _ _ _ _ _ _ _ _ _ P).
  rewrite dget_data_after, opts_data_after, str_eqb_refl.
  replace (dmem s (data_after s evs (data_of o))) with true; auto.
  symmetry. apply mem_data_after. right; left.
  pose proof (ok_items _ _ _ _ _ _ _ H L E) as N.
  destruct (parse_walk_parts _ _ _ _ _ _ W N) as (e0 & n0 & e1 & n1 & _ & _ & _ & _ & Q & I). auto.
Qed.

(** ** C02 *)
Theorem last_wins fuel s init fin o v o' evs n :
  has_file fs o i -> level_ok o ->
  parse_section_str K fs fuel s init fin o = (Ok v, o') ->
  parse_walk K i (o_defname o) s init fin evs n ->
  (forall k, dget k (options_of o' s) =
     match last_value k (plains evs) with Some x => Some x | None => dget k (options_of o s) end) /\
  dkeys (options_of o' s) =
    dkeys (options_of o s) ++
    filter (fun k => negb (str_mem k (dkeys (options_of o s)))) (first_keys (map fst (plains evs))).
Proof.
  intros H L E W. destruct (use_is_inclusion _ _ _ _ _ _ _ H L E) as (evs' & n' & W' & S).
  destruct (parse_walk_unique K i _ _ _ _ _ _ _ _ W W') as [<- _].
  unfold options_of at 1 3. rewrite S. split.
  - intros k. apply dget_write_all.
  - apply dkeys_write_all.
Qed.

(** ** C03 *)
Lemma plains_In (evs : list ev) k : In k (map fst (plains evs)) <->
  exists t w v, In (SpecWalk.Plain t w k v) evs.
Proof.
  split.
  - intros H. apply in_map_iff in H as ([k' v] & Ek & H). cbn in Ek. subst k'.
    apply in_flat_map in H as (e & I & H). destruct e; cbn in H; try contradiction.
    destruct H as [H|[]]. inversion H; subst. eauto.
  - intros (t & w & v & H). apply in_map_iff. exists (k, v). split; auto.
    apply in_flat_map. eexists. split; [exact H|]. now left.
Qed.

Lemma walk_plain_In s evs n k : walk K i [] s evs n ->
  ((exists t w v, In (SpecWalk.Plain t w k v) evs) <-> exists t, reaches K i s t /\ has_plain K i t k).
Proof.
  intros W. split.
  - intros (t & w & v & I). pose proof (proj1 (walk_origin K i) _ _ _ _ W _ I) as O. cbn in O.
    destruct O as [R (items & item & A & B & M)]. exists t. split; auto. exists items, item, w, v. auto.
  - intros (t & R & items & item & w & v & A & B & M).
    destruct (walk_visits_reach K i _ _ _ _ W R) as (p & e & m & W' & I).
    exists t, w, v. apply I. eapply walk_item; eauto. exists items, item. auto.
Qed.

Theorem closure_contributes fuel s init fin o v o' :
  has_file fs o i -> level_ok o -> options_of o s = [] ->
  parse_section_str K fs fuel s init fin o = (Ok v, o') ->
  forall k, In k (dkeys (options_of o' s)) <->
    exists t, contributes K i (o_defname o) s init t /\ has_plain K i t k.
Proof.
  intros H L F E k. destruct (use_is_inclusion _ _ _ _ _ _ _ H L E) as (evs & n & W & S).
  destruct (last_wins _ _ _ _ _ _ _ _ _ H L E W) as [_ D]. rewrite D, F. cbn [dkeys map app].
  rewrite filter_In, first_keys_In. cbn [str_mem existsb negb].
  destruct (parse_walk_parts _ _ _ _ _ _ W (ok_items _ _ _ _ _ _ _ H (proj1 L) E))
    as (e0 & n0 & e1 & n1 & D0 & W1 & P & _). rewrite P, map_app, in_app_iff, !plains_In.
  rewrite (walk_plain_In _ _ _ k W1). unfold contributes. destruct init.
  - unfold default_walk in D0. destruct (ini_has_section i (o_defname o)).
    + rewrite (walk_plain_In _ _ _ k D0). split.
      * intros [[(t & A & B)|(t & A & B)] _]; exists t; auto.
      * intros (t & [A|(_ & _ & A)] & B); split; eauto.
    + destruct D0 as [-> _]. split.
      * intros [[(t & w & x & [])|(t & A & B)] _]; exists t; auto.
      * intros (t & [A|(_ & A & _)] & B); [|discriminate]. split; eauto.
  - destruct D0 as [-> _]. split.
    + intros [[(t & w & x & [])|(t & A & B)] _]; exists t; auto.
    + intros (t & [A|(A & _)] & B); [|discriminate]. split; eauto.
Qed.

(** ** C04 *)
Lemma plain_not_handled s item w k v :
  meaning K s item (MStep (SpecWalk.Plain s w k v)) -> ~ handled_key K k.
Proof.
  intros M (w' & ps & SP & OP & HA). apply shlex_words in SP. apply op_word_iff in OP. meaning_cases M.
  - congruence.
  - match goal with A : shlex_split ?x = Ok (?w0 :: ?p0) |- _ => rewrite A in SP; inversion SP; subst end.
    match goal with A : handler_of K _ None |- _ => inversion A; subst end. destruct HA; congruence.
Qed.

End P.

Section Any.
Context {Sh Us : Type} (K : pyclass Sh Us) (fs : str -> option str).
Notation obj := (obj Sh Us).

Theorem handled_never_written fuel s init fin (o : obj) k :
  handled_key K k ->
  forall t, dget k (options_of (snd (parse_section_str K fs fuel s init fin o)) t) =
            dget k (options_of o t).
Proof.
  intros HK t. pose proof (parse_section_any K fs fuel s init fin o) as X.
  destruct (parse_section_str K fs fuel s init fin o) as [r o']. cbn [snd].
  destruct X as (es & D & _ & _ & L). rewrite !options_of_opts, D, opts_data_after.
  destruct (str_eqb_spec t s) as [->|N]; auto. rewrite dget_write_all.
  replace (last_value k (plains es)) with (@None (option str)); auto.
  symmetry. apply last_value_None. intros I. apply plains_In in I as (u & w & v & I).
  destruct L as [->|(i & _ & L)]; [destruct I|].
  rewrite Forall_forall in L. specialize (L _ I). cbn in L. destruct L as (u' & items & item & _ & _ & M).
  pose proof (meaning_step_sec _ _ _ _ M) as <-. eapply plain_not_handled; eauto.
Qed.

(** ** C10 *)
Theorem others_untouched fuel s init fin (o : obj) t :
  t <> s ->
  let o' := snd (parse_section_str K fs fuel s init fin o) in
  section_of o' t = section_of o t \/ (section_of o t = None /\ section_of o' t = Some []).
Proof.
  intros N. pose proof (parse_section_any K fs fuel s init fin o) as X.
  destruct (parse_section_str K fs fuel s init fin o) as [r o']. cbn.
  destruct X as (es & D & _). unfold section_of. rewrite D, dget_data_after, opts_data_after.
  apply str_eqb_neq in N as N'. rewrite N'. unfold opts_in.
  destruct (dget t (data_of o)) as [x|] eqn:E.
  - left. replace (dmem t (data_after s es (data_of o))) with true; auto.
    symmetry. apply mem_data_after. left. unfold dmem. now rewrite E.
  - destruct (dmem t (data_after s es (data_of o))); auto.
Qed.
End Any.
