(** * Proofs about cycles, missing sections, defaults, repetition and failures. *)
From Coq Require Import String NArith ZArith List Bool Lia Arith.
Import ListNotations.
From Verif Require Import PyBase PyFacts Shlex IniView IniRead ExcControl Debuggable Cpe
  SpecBase SpecText SpecFile SpecShell ShellProofs FileProofs SpecWalk MeaningProofs SpecRun SpecParse BaseProofs Refine RefineRoot RefineOk RunProofs Trace WalkProofs
  ParseProofs ParseProofs2.
Local Open Scope sm_scope.

Lemma not_hook {Sh Us} (e : ev Sh Us) : (forall t n, e <> Hook t n) -> ~ is_hook e.
Proof. intros H (t & [->| ->]); eapply H; reflexivity. Qed.

Section P.
Context {Sh Us : Type} (K : pyclass Sh Us) (fs : str -> option str) (i : ini).
Notation ev := (ev Sh Us).
Notation obj := (obj Sh Us).
Notation ctx := (ctx Sh Us).

Lemma clean_no_missing_stop dname s init fin evs n :
  parse_walk K i dname s init fin evs n ->
  (forall t, contributes K i dname s init t -> clean_section K i t) ->
  Forall (fun e => ~ is_missing e /\ ~ is_stop e) evs.
Proof.
  intros W C. apply Forall_forall. intros e I.
  destruct (parse_walk_origin K i _ _ _ _ _ _ _ W I) as [(nm & ->)|O]; [cbn; tauto|].
  destruct e; cbn; split; auto; intros _.
  - destruct (C s0) as (items & HI & _); [eapply contributes_of; [exact O|reflexivity]|].
    filed. destruct O as [[_ O]|(_ & _ & _ & O)]; congruence.
  - destruct (C s0) as (items & HI & HS); [eapply contributes_of; [exact O|reflexivity]|].
    assert (X : item_of K i s0 (MStep (Stop s0 r))) by (destruct O as [[_ O]|(_ & _ & _ & O)]; exact O).
    destruct X as (items' & item & HI' & IN & M). filed. assert (items' = items) by congruence. subst.
    exact (HS _ _ IN M).
Qed.

Lemma cycle_iff dname s init fin evs n :
  parse_walk K i dname s init fin evs n -> ini_items i s <> None ->
  (Exists is_cycle evs <-> exists t, contributes K i dname s init t /\ on_cycle K i t).
Proof.
  intros W N.
  assert (EX : forall s, exists evs n, walk K i [] s evs n).
  { intros s0. destruct (parse_walk_exists K i dname s0 false false) as (e & m & W0 & _).
    destruct (ini_items i s0) eqn:E.
    - destruct (parse_walk_parts K i _ _ _ _ _ _ W0) as (? & ? & e1 & n1 & _ & W1 & _); [congruence|eauto].
    - exists [Missing s0], 1. constructor; auto. }
  split.
  - intros X. apply Exists_exists in X as (e & I & C).
    apply (parse_walk_In K i _ _ _ _ _ _ _ W N) in I; [|apply not_hook; intros t nm ->; exact C].
    destruct I as [(e1 & n1 & W1 & I)|(A & B & e0 & n0 & W0 & I)].
    + destruct (proj1 (walk_cycle_iff K i _ _ _ W1)) as (t & R & Y); [apply Exists_exists; eauto|].
      exists t. split; auto. now left.
    + destruct (proj1 (walk_cycle_iff K i _ _ _ W0)) as (t & R & Y); [apply Exists_exists; eauto|].
      exists t. split; auto. right. auto.
  - intros (t & C & Y). apply Exists_exists.
    assert (Z : exists e, is_cycle e /\ ((exists evs1 n1, walk K i [] s evs1 n1 /\ In e evs1) \/
       (init = true /\ ini_has_section i dname = true /\ exists evs0 n0, walk K i [] dname evs0 n0 /\ In e evs0))).
    { destruct C as [R|(A & B & R)].
      - destruct (EX s) as (e1 & n1 & W1).
        pose proof (proj2 (walk_cycle_iff K i _ _ _ W1) (ex_intro _ t (conj R Y))) as X.
        apply Exists_exists in X as (e & I & C). exists e. split; auto. left. eauto.
      - destruct (EX dname) as (e1 & n1 & W1).
        pose proof (proj2 (walk_cycle_iff K i _ _ _ W1) (ex_intro _ t (conj R Y))) as X.
        apply Exists_exists in X as (e & I & C). exists e. split; auto. right. eauto 7. }
    destruct Z as (e & C' & Z). exists e. split; auto.
    apply (parse_walk_In K i _ _ _ _ _ _ _ W N); auto. apply not_hook. intros t' nm ->. exact C'.
Qed.

Lemma missing_iff dname s init fin evs n t :
  parse_walk K i dname s init fin evs n -> ini_items i s <> None ->
  (In (Missing t) evs <-> contributes K i dname s init t /\ ini_items i t = None).
Proof.
  intros W N. rewrite (parse_walk_In K i _ _ _ _ _ _ _ W N) by (apply not_hook; discriminate).
  assert (EX : forall s, exists evs n, walk K i [] s evs n).
  { intros s0. destruct (parse_walk_exists K i dname s0 false false) as (e & m & W0 & _).
    destruct (ini_items i s0) eqn:E.
    - destruct (parse_walk_parts K i _ _ _ _ _ _ W0) as (? & ? & e1 & n1 & _ & W1 & _); [congruence|eauto].
    - exists [Missing s0], 1. constructor; auto. }
  unfold contributes. split.
  - intros [(e & m & W' & I)|(A & B & e & m & W' & I)];
    apply (walk_missing_iff K i _ _ _ _ W') in I as [R X]; auto.
  - intros [[R|(A & B & R)] X].
    + left. destruct (EX s) as (e & m & W'). exists e, m. split; auto. apply (walk_missing_iff K i _ _ _ _ W'); auto.
    + right. destruct (EX dname) as (e & m & W'). split; auto. split; auto.
      exists e, m. split; auto. apply (walk_missing_iff K i _ _ _ _ W'); auto.
Qed.

(** ** C07 *)
Theorem cycle_policy fuel s init fin (o : obj) :
  well_behaved K -> s <> [] -> has_file fs o i -> level_ok o -> path_set_of o = true ->
  default_ok K i (o_defname o) s init -> length (ini_sections i) + 3 <= fuel ->
  (forall t, contributes K i (o_defname o) s init t -> clean_section K i t) ->
  let cyclic := exists t, contributes K i (o_defname o) s init t /\ on_cycle K i t in
  (level_of o = 5%Z -> cyclic -> fst (parse_section_str K fs fuel s init fin o) = Err ValueError) /\
  ((level_of o < 5)%Z \/ ~ cyclic -> exists v, fst (parse_section_str K fs fuel s init fin o) = Ok v).
Proof.
  intros WB NE H L PS DO F C cyclic.
  destruct (parse_outcome K fs i fuel s init fin o NE H L DO F)
    as (evs & n & r & sh & us & done & o' & W & R & E & _). rewrite E. cbn [fst].
  assert (N : ini_items i s <> None).
  { destruct (C s) as (its & HI & _); [left; constructor|filed; congruence]. }
  pose proof (cycle_iff _ _ _ _ _ _ W N) as CI. fold cyclic in CI.
  pose proof (clean_no_missing_stop _ _ _ _ _ _ W C) as CL.
  destruct (run_parse_wb K i _ _ _ _ _ _ (level_of o) (path_set_of o) (k_empty K) (o_user o) WB W)
    as (sh' & us' & [[FA R']|(pre & e & post & x & EE & FA & X & R')]);
  rewrite R' in R; inversion R; subst r.
  - split; [|eauto]. intros L5 CY. apply CI, Exists_exists in CY as (e & I & CY).
    rewrite Forall_forall in FA. specialize (FA e I). destruct e; try contradiction.
    cbn in FA. rewrite PS, L5 in FA. discriminate.
  - assert (IE : In e evs) by (rewrite EE; apply in_or_app; right; now left).
    rewrite Forall_forall in CL. destruct (CL e IE) as [NM NS].
    destruct e; cbn in X; try discriminate; try (cbn in NM; tauto); try (cbn in NS; tauto).
    rewrite PS in X. cbn in X. destruct (Z.ltb_spec (level_of o) 5); [discriminate|].
    inversion X; subst x. split; auto. intros [Q|Q]; [lia|]. exfalso. apply Q, CI, Exists_exists.
    eexists. split; [exact IE|exact Logic.I].
Qed.

(** ** C08 *)
Theorem missing_keyerror fuel s init fin (o : obj) t :
  well_behaved K -> s <> [] -> has_file fs o i -> (0 <= level_of o < 5)%Z -> path_set_of o = true ->
  default_ok K i (o_defname o) s init -> length (ini_sections i) + 3 <= fuel ->
  present i s ->
  contributes K i (o_defname o) s init t -> ~ present i t ->
  (forall u, contributes K i (o_defname o) s init u -> ~ present i u \/ clean_section K i u) ->
  exists o' evs n pre u post, parse_section_str K fs fuel s init fin o = (Err KeyError, o') /\
    parse_walk K i (o_defname o) s init fin evs n /\
    evs = pre ++ Missing u :: post /\ (forall x, ~ In (Missing x) pre) /\
    options_of o' s = write_all (plains pre) (options_of o s) /\ o_last o' = o_last o.
Proof.
  intros WB NE H L PS DO F N CT NT C. filed.
  destruct (parse_outcome K fs i fuel s init fin o NE H ltac:(split; lia) DO F)
    as (evs & n & r & sh & us & done & o' & W & R & E & P & _).
  pose proof (proj2 (missing_iff _ _ _ _ _ _ t W N) (conj CT NT)) as IM.
  destruct (run_parse_wb K i _ _ _ _ _ _ (level_of o) (path_set_of o) (k_empty K) (o_user o) WB W)
    as (sh' & us' & [[FA R']|(pre & e & post & x & EE & FA & X & R')]);
  rewrite R' in R; inversion R; subst.
  - exfalso. rewrite Forall_forall in FA. specialize (FA _ IM). cbn in FA. discriminate.
  - assert (IE : In e (done ++ e :: post)) by (apply in_or_app; right; now left).
    assert (NM : forall y, ~ In (Missing y) done).
    { intros y Iy. rewrite Forall_forall in FA. specialize (FA _ Iy). discriminate. }
    destruct (parse_walk_origin K i _ _ _ _ _ _ _ W IE) as [(nm & ->)|O]; [discriminate|].
    destruct e; cbn in X; try discriminate.
    + rewrite PS in X. inversion X; subst x.
      exists o', (done ++ Missing s0 :: post), n, done, s0, post.
      split; [auto|]. split; [auto|]. split; [auto|]. split; [auto|]. split.
      * rewrite !options_of_opts, (pa_data _ _ _ _ _ _ _ _ _ _ P), opts_data_after, str_eqb_refl. reflexivity.
      * exact (pa_last _ _ _ _ _ _ _ _ _ _ P).
    + rewrite PS in X. cbn in X. destruct (Z.ltb_spec (level_of o) 5); [discriminate|lia].
    + exfalso. destruct (C s0) as [Z|(its & HI & HS)]; [eapply contributes_of; [exact O|reflexivity]|..];
      (assert (Y : item_of K i s0 (MStep (Stop s0 r))) by (destruct O as [[_ O]|(_ & _ & _ & O)]; exact O);
       destruct Y as (items' & item & HI' & IN & M)); filed; [congruence|].
      assert (items' = its) by congruence. subst. exact (HS _ _ IN M).
Qed.

(** The section asked for is itself missing: [KeyError], and only the default
    section's options have been read. *)
Theorem missing_root fuel s init fin (o : obj) :
  well_behaved K -> s <> [] -> has_file fs o i -> (0 <= level_of o < 5)%Z -> path_set_of o = true ->
  default_ok K i (o_defname o) s init -> length (ini_sections i) + 3 <= fuel ->
  ~ present i s ->
  (forall u, contributes K i (o_defname o) s init u -> u <> s -> clean_section K i u) ->
  exists o' evs0 n0, parse_section_str K fs fuel s init fin o = (Err KeyError, o') /\
    (if init then default_walk K i (o_defname o) evs0 n0 else evs0 = [] /\ n0 = 0) /\
    options_of o' s = write_all (plains evs0) (options_of o s) /\ o_last o' = o_last o.
Proof.
  intros WB NE H L PS DO F NT C. filed.
  destruct (parse_outcome K fs i fuel s init fin o NE H ltac:(split; lia) DO F)
    as (evs & n & r & sh & us & done & o' & W & R & E & P & _).
  assert (ND : forall u, (init = true /\ ini_has_section i (o_defname o) = true /\ reaches K i (o_defname o) u) -> u <> s).
  { intros u (A & B & D) ->. assert (o_defname o = s \/ o_defname o <> s) as [Q|Q]
      by (destruct (str_eqb_spec (o_defname o) s); auto).
    - rewrite Q in *. unfold ini_items, own_options, ini_has_section, dmem in *.
      destruct (str_eqb s (i_defname i)); [discriminate|]. destruct (dget s (i_secs i)); discriminate.
    - exact (DO A B Q D). }
  inversion W as [evs0 n0 D HI EQ EN|]; subst; filed; [|congruence].
  destruct (run_parse_wb K i _ _ _ _ _ _ (level_of o) (path_set_of o) (k_empty K) (o_user o) WB W)
    as (sh' & us' & [[FA R']|(pre & e & post & x & EE & FA & X & R')]);
  rewrite R' in R; inversion R; subst.
  { exfalso. rewrite Forall_forall in FA.
    specialize (FA (Missing s) ltac:(apply in_or_app; right; now left)). discriminate. }
  assert (OKD : forall y, In y (if init then Hook s $"handler_initialize" :: evs0 else []) ->
                wb_res (level_of o) (path_set_of o) y = Ok tt).
  { intros y Hy.
    assert (Hin : In y ((if init then Hook s $"handler_initialize" :: evs0 else []) ++ [Missing s]))
      by (apply in_or_app; now left).
    destruct init; [|destruct Hy]. destruct Hy as [<-|Hy]; [reflexivity|].
    unfold default_walk in D. destruct (ini_has_section i (o_defname o)) eqn:HS; [|destruct D as [-> _]; destruct Hy].
    pose proof (proj1 (walk_origin K i) _ _ _ _ D _ Hy) as O.
    assert (CL : forall u, reaches K i (o_defname o) u -> clean_section K i u).
    { intros u Ru. apply C; [right; auto|]. apply ND. auto. }
    destruct y; cbn in *; auto.
    - destruct O as [O1 O2]. destruct (CL _ O1) as (its & HI' & _). filed. congruence.
    - rewrite PS. cbn. destruct (Z.ltb_spec (level_of o) 5); [reflexivity|lia].
    - destruct O as [O1 (items' & item & HI' & IN & M)]. destruct (CL _ O1) as (its & HI2 & HS2). filed.
      assert (items' = its) by congruence. subst. exfalso. exact (HS2 _ _ IN M). }
  assert (Z : done = (if init then Hook s $"handler_initialize" :: evs0 else []) /\ e = Missing s).
  { set (l := if init then Hook s $"handler_initialize" :: evs0 else []) in *.
    clearbody l. clear - EE X OKD. revert done EE. induction l as [|y l IH]; intros done EE.
    - destruct done as [|d done]; [cbn in EE; inversion EE; auto|].
      exfalso. cbn in EE. inversion EE as [[A B]]. destruct done; discriminate.
    - destruct done as [|d done]; cbn in EE; inversion EE as [[A B]].
      + subst. rewrite OKD in X by now left. discriminate.
      + destruct (IH (fun z Hz => OKD z (or_intror Hz)) _ B) as [-> ->]. auto. }
  destruct Z as [-> ->]. cbn in X. rewrite PS in X. inversion X; subst x.
  exists o', evs0, n0. split; auto. split; auto. split; [|exact (pa_last _ _ _ _ _ _ _ _ _ _ P)].
  rewrite !options_of_opts, (pa_data _ _ _ _ _ _ _ _ _ _ P), opts_data_after, str_eqb_refl.
  destruct init; [reflexivity|]. destruct D as [-> _]. reflexivity.
Qed.

(** ** C09 *)
Theorem default_first fuel s fin (o : obj) v o' :
  has_file fs o i -> level_ok o -> ini_has_section i (o_defname o) = true ->
  parse_section_str K fs fuel s true fin o = (Ok v, o') ->
  exists evs0 n0 evs1 n1,
    walk K i [] (o_defname o) evs0 n0 /\ walk K i [] s evs1 n1 /\
    section_of o' s = Some (write_all (plains evs1) (write_all (plains evs0) (options_of o s))) /\
    forall k, dget k (options_of o' s) =
      match last_value k (plains evs1) with
      | Some x => Some x
      | None => match last_value k (plains evs0) with
                | Some x => Some x
                | None => dget k (options_of o s)
                end
      end.
Proof.
  intros H L HS E. destruct (use_is_inclusion K fs i _ _ _ _ _ _ _ H L E) as (evs & n & W & S).
  destruct (parse_walk_parts K i _ _ _ _ _ _ W (ok_items K fs i _ _ _ _ _ _ _ H (proj1 L) E))
    as (e0 & n0 & e1 & n1 & D & W1 & P & _).
  unfold default_walk in D. rewrite HS in D. exists e0, n0, e1, n1. split; auto. split; auto.
  assert (S' : section_of o' s = Some (write_all (plains e1) (write_all (plains e0) (options_of o s))))
    by now rewrite S, P, write_all_app.
  split; auto. intros k. unfold options_of at 1. rewrite S', !dget_write_all. reflexivity.
Qed.

Theorem no_default fuel s init fin (o : obj) v o' :
  has_file fs o i -> level_ok o -> (init = false \/ ini_has_section i (o_defname o) = false) ->
  parse_section_str K fs fuel s init fin o = (Ok v, o') ->
  exists evs1 n1, walk K i [] s evs1 n1 /\
    section_of o' s = Some (write_all (plains evs1) (options_of o s)).
Proof.
  intros H L HS E. destruct (use_is_inclusion K fs i _ _ _ _ _ _ _ H L E) as (evs & n & W & S).
  destruct (parse_walk_parts K i _ _ _ _ _ _ W (ok_items K fs i _ _ _ _ _ _ _ H (proj1 L) E))
    as (e0 & n0 & e1 & n1 & D & W1 & P & _).
  exists e1, n1. split; auto. rewrite S, P.
  replace e0 with (@nil ev); [reflexivity|]. destruct init; [|now destruct D].
  destruct HS as [HS|HS]; [discriminate|]. unfold default_walk in D. rewrite HS in D. now destruct D.
Qed.

(** ** C11 *)
Theorem parse_twice fuel fuel' s init fin (o : obj) v o1 v' o2 :
  has_file fs o i -> level_ok o ->
  parse_section_str K fs fuel s init fin o = (Ok v, o1) ->
  parse_section_str K fs fuel' s init fin o1 = (Ok v', o2) ->
  data_of o2 = data_of o1 /\ checked_of o2 = checked_of o1.
Proof.
  intros H [L _] E1 E2.
  pose proof (ok_items K fs i _ _ _ _ _ _ _ H L E1) as N.
  destruct (parse_section_Ok K fs i _ _ _ _ _ _ _ H L E1) as (_ & _ & evs & n & us & W & _ & P).
  pose proof (pa_file _ _ _ _ _ _ _ _ _ _ P) as H1.
  assert (L1 : (0 <= level_of o1)%Z) by (unfold level_of in *; rewrite (pa_ec _ _ _ _ _ _ _ _ _ _ P); auto).
  destruct (parse_section_Ok K fs i _ _ _ _ _ _ _ H1 L1 E2) as (_ & _ & evs' & n' & us' & W' & _ & P').
  rewrite (pa_defname _ _ _ _ _ _ _ _ _ _ P) in W'.
  destruct (parse_walk_unique K i _ _ _ _ _ _ _ _ W W') as [-> _].
  rewrite (pa_data _ _ _ _ _ _ _ _ _ _ P'), (pa_data _ _ _ _ _ _ _ _ _ _ P).
  rewrite (pa_checked _ _ _ _ _ _ _ _ _ _ P'), (pa_checked _ _ _ _ _ _ _ _ _ _ P). split.
  - apply data_after_idem.
    destruct (parse_walk_parts K i _ _ _ _ _ _ W N) as (? & ? & ? & ? & _ & _ & _ & _ & Q & I). auto.
  - unfold sadd. destruct (str_mem s (checked_of o)) eqn:M; [now rewrite M|].
    change (str_mem s (s :: checked_of o)) with (str_eqb s s || str_mem s (checked_of o)).
    now rewrite str_eqb_refl.
Qed.

Theorem parse_again_ok fuel fuel' s init fin (o : obj) v o1 :
  well_behaved K -> has_file fs o i -> level_ok o -> length (ini_sections i) + 3 <= fuel' ->
  parse_section_str K fs fuel s init fin o = (Ok v, o1) ->
  exists v' o2, parse_section_str K fs fuel' s init fin o1 = (Ok v', o2) /\ data_of o2 = data_of o1.
Proof.
  intros WB H L F E1.
  destruct (parse_section_Ok K fs i _ _ _ _ _ _ _ H (proj1 L) E1) as (NE & DO & evs & n & us & W & R & P).
  pose proof (pa_file _ _ _ _ _ _ _ _ _ _ P) as H1.
  assert (LE : level_of o1 = level_of o) by (unfold level_of; now rewrite (pa_ec _ _ _ _ _ _ _ _ _ _ P)).
  assert (PE : path_set_of o1 = path_set_of o) by (unfold path_set_of; now rewrite (pa_files _ _ _ _ _ _ _ _ _ _ P)).
  assert (L1 : level_ok o1) by (unfold level_ok; rewrite LE; exact L).
  assert (DO1 : default_ok K i (o_defname o1) s init) by (rewrite (pa_defname _ _ _ _ _ _ _ _ _ _ P); exact DO).
  destruct (parse_outcome K fs i fuel' s init fin o1 NE H1 L1 DO1 F)
    as (evs' & n' & r & sh & us' & done & o2 & W' & R' & E & P' & _).
  rewrite (pa_defname _ _ _ _ _ _ _ _ _ _ P) in W'.
  destruct (parse_walk_unique K i _ _ _ _ _ _ _ _ W W') as [-> _].
  assert (RO : r = Ok tt).
  { rewrite LE, PE in R'.
    destruct (run_parse_wb K i _ _ _ _ _ _ (level_of o) (path_set_of o) (k_empty K) (o_user o1) WB W)
      as (? & ? & [[FA R2]|(pre & e & post & x & EE & FA & X & R2)]); rewrite R2 in R'; inversion R'; auto.
    destruct (run_parse_wb K i _ _ _ _ _ _ (level_of o) (path_set_of o) (k_empty K) (o_user o) WB W)
      as (? & ? & [[FA3 R3]|(pre3 & e3 & post3 & x3 & EE3 & FA3 & X3 & R3)]); rewrite R3 in R; inversion R; subst.
    rewrite Forall_forall in FA3. rewrite FA3 in X; [discriminate|apply in_or_app; right; now left]. }
  subst r. exists sh, o2. split; auto.
  exact (proj1 (parse_twice fuel fuel' s init fin o v o1 sh o2 H L E1 E)).
Qed.
End P.
