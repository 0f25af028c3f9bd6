(** * Proofs about loading an environment. *)
From Coq Require Import String NArith ZArith List Bool Lia.
Import ListNotations.
From Verif Require Import PyBase PyFacts Shlex IniView IniRead ExcControl Cpe EnvVar SetEnv
  SpecBase SpecText SpecFile SpecShell ShellProofs FileProofs SpecWalk MeaningProofs SpecRun SpecParse SpecApi SpecEnv SpecSetEnv SpecLoadRun BaseProofs Refine RefineRoot RunProofs WalkProofs ParseProofs
  ParseProofs3 SetEnvProofs SetEnvProofs2 SetEnvProofs3.
Local Open Scope sm_scope.

(** Decides [no_finalize_options]. *)
Definition not_finalize (kv : str * option str) : bool :=
  match shlex_split (strip_ws (fst kv)) with
  | Ok (w :: _) => negb (str_eqb (undash w) $"finalize")
  | _ => true
  end.
Lemma no_finalize_check j :
  forallb (fun s => forallb not_finalize (snd s)) (i_secs j) && forallb not_finalize (i_defs j) = true -> no_finalize_options j.
Proof.
  intros H s items k key v w ps IT IN T SP E. filed. apply trimmed_iff in T. subst key. apply shlex_words in SP. apply andb_true_iff in H as [A B].
  unfold ini_items, own_options, section_raw in IT.
  assert (X : exists v', In (k, v') (i_defs j) \/ exists own, dget s (i_secs j) = Some own /\ In (k, v') own).
  { assert (Y : forall own, In (k, v) (map (fun kv => (fst kv, ini_get j own (snd kv))) (own ++ filter (fun kv => negb (dmem (fst kv) own)) (i_defs j))) ->
      exists v', In (k, v') (i_defs j) \/ In (k, v') own).
    { intros own I. apply in_map_iff in I as ([k' v'] & E1 & I). cbn [fst snd] in E1. assert (k' = k) by congruence. subst k'. exists v'.
      apply in_app_or in I as [I|I]; [auto|]. apply filter_In in I as [I _]. auto. }
    destruct (str_eqb s (i_defname j)).
    - injection IT as <-. destruct (Y [] IN) as (v' & [I|[]]). eauto.
    - destruct (dget s (i_secs j)) as [own|] eqn:D; [|discriminate]. injection IT as <-.
      destruct (Y own IN) as (v' & [I|I]); eauto. }
  destruct X as [v' X]. assert (Y : not_finalize (k, v') = true).
  { destruct X as [X|(own & D & X)].
    - rewrite forallb_forall in B. now apply B.
    - rewrite forallb_forall in A. specialize (A _ (dget_In _ _ _ D)). cbn [snd] in A. rewrite forallb_forall in A. now apply A. }
  unfold not_finalize in Y. cbn [fst] in Y. rewrite SP in Y. rewrite E in Y. discriminate.
Qed.

Section Load.
Variables (uniword : pychar -> bool) (fs : str -> option str) (i : ini) (fuel : nat).
Notation K := (SetEnvironment uniword).
Hypothesis NF : no_finalize_options i.

Lemma never_finalizes dname s init fin evs n t : parse_walk K i dname s init fin evs n -> ~ finalizes t evs.
Proof.
  intros W (h & k & f & p & v & I & E).
  assert (O : forall t0, origin K i t0 (Call t h k f p v) -> False).
  { intros t0 (_ & items & item & IT & IN & M). inversion M as [| | | | |k0 v0 k1 v1 w ps nm kd f0 amb T C SP| | |]; subst. cbn [h_op] in E. exact (NF _ _ _ _ _ _ _ (proj2 (shows_iff _ _ _) IT) IN T SP E). }
  destruct (parse_walk_origin K i _ _ _ _ _ _ _ W I) as [(nm & X)|[X|(_ & _ & X)]]; [discriminate|eauto|eauto].
Qed.

(** What a section that has been read looks like in the object. *)
Definition read_section (o : sobj) (t : str) : Prop :=
  exists evs n l, parse_walk K i $"DEFAULT" t true true evs n /\ remain (requests evs) l /\
    dget t (o_user o) = Some l /\ section_of o t = Some (write_all (plains evs) []).
Record loaded (o : sobj) : Prop := {
  lo_file : has_file fs o i;
  lo_level : level_of o = 5%Z;
  lo_default : o_defname o = $"DEFAULT";
  lo_in : forall t, str_mem t (checked_of o) = true -> In t (ini_sections i);
  lo_read : forall t, str_mem t (checked_of o) = true -> read_section o t;
  lo_unread : forall t, str_mem t (checked_of o) = false -> options_of o t = [] /\ dget t (o_user o) = None
}.

Lemma loaded_ext (o o' : sobj) : loaded o -> has_file fs o' i -> o_ec o' = o_ec o -> o_defname o' = o_defname o ->
  checked_of o' = checked_of o -> data_of o' = data_of o -> o_user o' = o_user o -> loaded o'.
Proof.
  intros [F L D Q R U] F' E N C A S. constructor; auto.
  - unfold level_of in *. congruence.
  - congruence.
  - intros t H. rewrite C in H. auto.
  - intros t H. rewrite C in H. destruct (R t H) as (evs & n & l & W & RM & G & SE). exists evs, n, l.
    unfold section_of in *. rewrite A, S. auto.
  - intros t H. rewrite C in H. rewrite options_of_opts, A, <- options_of_opts, S. auto.
Qed.

(** [o'] differs from [o] in caches and output only. *)
Definition alike (o o' : sobj) : Prop :=
  o_ec o' = o_ec o /\ o_defname o' = o_defname o /\ checked_of o' = checked_of o /\ data_of o' = data_of o /\
  o_user o' = o_user o.
Lemma loaded_alike o o' : loaded o -> has_file fs o' i -> alike o o' -> loaded o'.
Proof. intros L F (A & B & C & D & E). eapply loaded_ext; eauto. Qed.

Lemma get_edata_alike (o : sobj) : exists d o', get_edata o = (Ok d, o') /\ alike o o' /\
  o_edata o' = Some d /\ d_checked d = checked_of o /\ d_data d = data_of o /\ (forall j, has_file fs o j -> has_file fs o' j).
Proof.
  unfold get_edata, alike, checked_of, data_of. destruct (o_edata o) as [d|] eqn:E.
  - exists d, o. rewrite E. auto 10.
  - eexists _, _. split; [reflexivity|]. cbn. repeat split. intros j H. unfold has_file in *. rewrite <- H.
    now apply get_cpd_fst_ext.
Qed.

(** Sections read before stay. *)
Definition stay (o o1 : sobj) : Prop :=
  forall t, str_mem t (checked_of o) = true -> str_mem t (checked_of o1) = true /\ section_of o1 t = section_of o t.
Lemma stay_trans a b c : stay a b -> stay b c -> stay a c.
Proof. intros A B t H. destruct (A t H) as [H1 E1]. destruct (B t H1) as [H2 E2]. split; congruence. Qed.
Lemma alike_stay a b : alike a b -> stay a b.
Proof. intros (_ & _ & C & D & _) t H. unfold section_of. now rewrite C, D. Qed.

(** Reading a section. *)
Lemma owner_loaded s o o1 : loaded o -> In s (ini_sections i) -> parse_owner (owner_parse K fs fuel) s false o = (Ok tt, o1) ->
  loaded o1 /\ str_mem s (checked_of o1) = true /\ stay o o1.
Proof.
  intros L IS E. unfold parse_owner, bind in E.
  destruct (get_edata_alike o) as (d & o2 & E1 & A & ED & CK & DA & HF). rewrite E1 in E.
  pose proof (loaded_alike _ _ L (HF _ (lo_file _ L)) A) as L2.
  destruct A as (A1 & A2 & A3 & A4 & A5).
  destruct (str_mem s (d_checked d)) eqn:C; cbn [negb orb] in E.
  { unfold ret in E. injection E as <-. rewrite CK in C. split; auto. split; [now rewrite A3|].
    apply alike_stay. repeat split; auto. }
  unfold set_owner_options, get_edata in E. rewrite ED in E. cbn [o_edata set_edata] in E.
  unfold put_edata, modify in E. unfold owner_parse, bind in E.
  match type of E with context [parse_section_str K fs fuel s true true ?op] => set (o3 := op) in * end.
  assert (H3 : has_file fs o3 i).
  { pose proof (lo_file _ L2) as X. unfold has_file in *. rewrite <- X. now apply get_cpd_fst_ext. }
  assert (L3 : level_of o3 = 5%Z) by (pose proof (lo_level _ L2) as X; unfold level_of in *; exact X).
  assert (LK : level_ok o3) by (unfold level_ok; rewrite L3; lia).
  destruct (parse_section_str K fs fuel s true true o3) as [[v|x] o4] eqn:P; [|discriminate].
  injection E as <-.
  destruct (recorded uniword fs i fuel s o3 v o4 H3 LK P) as (evs & n & l & W & R & _ & D & F).
  destruct (parse_section_Ok K fs i _ _ _ _ _ _ _ H3 (proj1 LK) P) as (NE & _ & evs' & n' & us & W' & RUN & PA).
  replace (o_defname o3) with $"DEFAULT" in * by (symmetry; exact (lo_default _ L2)).
  destruct (parse_walk_unique K i _ _ _ _ _ _ _ _ W W') as [-> ->].
  assert (C3 : checked_of o3 = sadd s (checked_of o)) by (subst o3; unfold checked_of; cbn; now rewrite CK).
  assert (D3 : data_of o3 = data_of o) by (subst o3; unfold data_of; cbn; exact DA).
  assert (U3 : o_user o3 = o_user o) by (subst o3; cbn; exact A5).
  assert (CS : forall t, str_mem t (checked_of o4) = true <-> t = s \/ str_mem t (checked_of o) = true).
  { intros t. rewrite (pa_checked _ _ _ _ _ _ _ _ _ _ PA), C3, !str_mem_In, !In_sadd. tauto. }
  assert (OPT : forall t, t <> s -> options_of o4 t = options_of o t).
  { intros t N. rewrite !options_of_opts, (pa_data _ _ _ _ _ _ _ _ _ _ PA), opts_data_after, D3.
    destruct (str_eqb_spec t s); [contradiction|reflexivity]. }
  assert (SEC : forall t, t <> s -> section_of o t <> None -> section_of o4 t = section_of o t).
  { intros t N X. destruct (others_untouched K fs fuel s true true o3 t N) as [Y|[Y _]]; try (rewrite P in Y; cbn [snd] in Y);
      unfold section_of in *; rewrite D3 in Y; auto; contradiction. }
  rewrite CK in C. pose proof (lo_unread _ L s C) as [OS _].
  assert (SS : section_of o4 s = Some (write_all (plains evs) [])).
  { destruct (use_is_inclusion K fs i fuel s true true o3 v o4 H3 LK P) as (evs2 & n2 & W2 & S2).
    replace (o_defname o3) with $"DEFAULT" in * by (symmetry; exact (lo_default _ L2)).
    destruct (parse_walk_unique K i _ _ _ _ _ _ _ _ W W2) as [-> ->]. rewrite S2.
    rewrite options_of_opts, D3, <- options_of_opts, OS. reflexivity. }
  split; [|split].
  - constructor.
    + exact (pa_file _ _ _ _ _ _ _ _ _ _ PA).
    + unfold level_of in *. rewrite (pa_ec _ _ _ _ _ _ _ _ _ _ PA). exact L3.
    + rewrite (pa_defname _ _ _ _ _ _ _ _ _ _ PA). exact (lo_default _ L2).
    + intros t H. apply CS in H as [->|H]; [exact IS|exact (lo_in _ L t H)].
    + intros t H. destruct (str_eqb_spec t s) as [->|N].
      * exists evs, n, l. auto.
      * apply CS in H as [H|H]; [contradiction|]. destruct (lo_read _ L t H) as (ev & m & lt & WT & RT & GT & ST).
        exists ev, m, lt. rewrite F, U3; auto; [|eapply never_finalizes; eauto].
        rewrite SEC; auto. rewrite ST. discriminate.
    + intros t H. assert (N : t <> s /\ str_mem t (checked_of o) = false).
      { split; [intros ->|destruct (str_mem t (checked_of o)) eqn:X; auto].
        - rewrite (proj2 (CS s)) in H; [discriminate|auto].
        - rewrite (proj2 (CS t)) in H; [discriminate|auto]. }
      destruct N as [N UN]. rewrite OPT, F, U3; auto; [|eapply never_finalizes; eauto]. exact (lo_unread _ L t UN).
  - apply CS. now left.
  - intros t H. split; [apply CS; auto|]. destruct (str_eqb_spec t s) as [->|N]; [congruence|].
    apply SEC; auto. destruct (lo_read _ L t H) as (? & ? & ? & _ & _ & _ & S). rewrite S. discriminate.
Qed.
Lemma set_cpd_alike (o : sobj) : has_file fs o i -> alike o (set_cpd (Some i) o) /\ has_file fs (set_cpd (Some i) o) i.
Proof. intros H. split; [repeat split|reflexivity]. Qed.
Lemma has_section_checked s o : loaded o -> str_mem s (checked_of o) = true ->
  exists o', has_section K fs fuel s o = (Ok true, o') /\ loaded o' /\ alike o o'.
Proof.
  intros L C. exists (set_cpd (Some i) o). destruct (set_cpd_alike o (lo_file _ L)) as [A F].
  split; [|split; [exact (loaded_alike _ _ L F A)|exact A]].
  unfold has_section, data_has_section, bind. rewrite (get_cpd_ready fs i) by exact (lo_file _ L).
  destruct (lo_read _ L s C) as (? & ? & ? & _ & _ & _ & S). unfold section_of, data_of in S. unfold checked_of in C.
  destruct (o_edata o) as [d|] eqn:ED; [|discriminate].
  destruct (ini_has_section i s); unfold get_edata, ret; cbn [o_edata set_cpd]; rewrite ED; rewrite ?C;
    cbn [o_edata set_cpd]; rewrite ?ED; unfold dmem; rewrite S; reflexivity.
Qed.
Lemma data_get_loaded s o g o1 : loaded o -> In s (ini_sections i) -> data_get K fs fuel s None o = (Ok g, o1) ->
  loaded o1 /\ str_mem s (checked_of o1) = true /\ stay o o1 /\
  exists d, g = GotSection d /\ section_of o1 s = Some d.
Proof.
  intros L IS E. unfold data_get, bind in E.
  destruct (get_edata_alike o) as (d & o2 & E1 & A & ED & CK & DA & HF). rewrite E1 in E.
  pose proof (loaded_alike _ _ L (HF _ (lo_file _ L)) A) as L2.
  assert (X : exists o3, loaded o3 /\ str_mem s (checked_of o3) = true /\ stay o o3 /\
     (b <- has_section K fs fuel s ;; (if b then x <- data_section s ;; ret (GotSection x) else raise KeyError)) o3 = (Ok g, o1)).
  { destruct (str_mem s (d_checked d)) eqn:C.
    - exists o2. split; auto. rewrite CK in C. split; [now rewrite (proj1 (proj2 (proj2 A)))|]. split; [now apply alike_stay|exact E].
    - destruct (parse_owner (owner_parse K fs fuel) s false o2) as [[[]|x] o3] eqn:P; [|discriminate].
      destruct (owner_loaded s o2 o3 L2 IS P) as (L3 & C3 & S3). exists o3. split; auto. split; auto.
      split; [eapply stay_trans; [apply alike_stay, A|exact S3]|exact E]. }
  destruct X as (o3 & L3 & C3 & S3 & F). clear E. unfold bind in F.
  destruct (has_section_checked s o3 L3 C3) as (o4 & E4 & L4 & A4). rewrite E4 in F.
  assert (C4 : str_mem s (checked_of o4) = true) by now rewrite (proj1 (proj2 (proj2 A4))).
  destruct (lo_read _ L4 s C4) as (? & ? & ? & _ & _ & _ & S).
  unfold data_section, bind, get_edata in F. unfold section_of, data_of in S. unfold checked_of in C4.
  destruct (o_edata o4) as [d4|] eqn:E5; [|discriminate]. rewrite S in F. unfold ret in F.
  assert (O : o4 = o1) by congruence. subst o1.
  split; auto. split; [unfold checked_of; now rewrite E5|].
  split; [eapply stay_trans; [exact S3|apply alike_stay, A4]|].
  eexists. split; [|unfold section_of, data_of; rewrite E5; exact S]. congruence.
Qed.
Lemma assert_section_loaded s o m o1 : loaded o -> In s (ini_sections i) -> assert_section K fs fuel s false o = (Ok m, o1) ->
  loaded o1 /\ str_mem s (checked_of o1) = true /\ stay o o1 /\ (m = None -> section_of o1 s = Some []).
Proof.
  intros L IS E. unfold assert_section, bind in E.
  destruct (data_get K fs fuel s None o) as [[g|x] o2] eqn:G; [|discriminate].
  destruct (data_get_loaded s o g o2 L IS G) as (L2 & C2 & S2 & d & -> & D2).
  destruct d as [|kv d]; unfold ret in E.
  - assert (o2 = o1) by congruence. subst. auto.
  - assert (o2 = o1 /\ m <> None) as [-> N] by (split; [congruence|intros ->; congruence]).
    split; auto. split; auto. split; auto. intros ->. congruence.
Qed.
Lemma print_alike t (o : sobj) : exists o', print_line t o = (Ok tt, o') /\ alike o o' /\ (has_file fs o i -> has_file fs o' i).
Proof.
  eexists. split; [reflexivity|]. split; [repeat split|]. intros H. unfold has_file in *. rewrite <- H. now apply get_cpd_fst_ext.
Qed.
Lemma assert_sections_loaded l : incl l (ini_sections i) -> forall b o b1 o1, loaded o -> assert_sections K fs fuel l b o = (Ok b1, o1) ->
  loaded o1 /\ stay o o1 /\ (forall s, In s l -> str_mem s (checked_of o1) = true) /\
  (b1 = false -> b = false /\ forall s, In s l -> section_of o1 s = Some []).
Proof.
  induction l as [|s l IH]; intros IS b o b1 o1 L E; cbn [assert_sections] in E.
  - unfold ret in E. assert (b = b1 /\ o = o1) as [-> ->] by (split; congruence).
    split; auto. split; [intros t H; auto|]. split; [intros s []|]. intros ->. split; auto. intros s [].
  - unfold bind in E. destruct (assert_section K fs fuel s false o) as [[m|x] o2] eqn:A; [|discriminate].
    destruct (assert_section_loaded s o m o2 L (IS s (or_introl eq_refl)) A) as (L2 & C2 & S2 & M2).
    assert (X : exists b' o3, loaded o3 /\ alike o2 o3 /\ assert_sections K fs fuel l b' o3 = (Ok b1, o1) /\
              (b' = false -> b = false /\ m = None)).
    { destruct m as [m|].
      - destruct (print_alike m o2) as (o3 & E3 & A3 & F3). rewrite E3 in E.
        exists true, o3. split; [eapply loaded_alike; eauto; apply F3, L2|]. split; auto. split; auto. discriminate.
      - exists b, o2. split; auto. split; [repeat split|]. auto. }
    destruct X as (b' & o3 & L3 & A3 & E3 & B3).
    destruct (IH (fun x J => IS x (or_intror J)) b' o3 b1 o1 L3 E3) as (L1 & S1 & C1 & B1).
    assert (S21 : stay o2 o1) by (eapply stay_trans; [apply alike_stay, A3|exact S1]).
    split; auto. split; [eapply stay_trans; eauto|]. split.
    + intros t [<-|I]; [|auto]. apply (S21 s C2).
    + intros ->. destruct (B1 eq_refl) as [-> B]. destruct (B3 eq_refl) as [-> ->]. split; auto.
      intros t [<-|I]; [|auto]. rewrite (proj2 (S21 s C2)). auto.
Qed.

(** The check of the whole file at level 5. *)
Lemma assert_file_loaded o z o1 : loaded o -> assert_file K fs fuel o = (Ok z, o1) ->
  loaded o1 /\ z = 0%Z /\ (forall s, In s (ini_sections i) -> str_mem s (checked_of o1) = true /\ section_of o1 s = Some []).
Proof.
  intros L E. unfold assert_file in E. cbn [data_sections] in E. unfold data_keys, bind at 1 2 in E.
  rewrite (get_cpd_ready fs i) in E by exact (lo_file _ L). unfold ret at 1 in E.
  destruct (set_cpd_alike o (lo_file _ L)) as [A F]. pose proof (loaded_alike _ _ L F A) as L2.
  unfold bind at 1 in E.
  destruct (assert_sections K fs fuel (ini_sections i) false (set_cpd (Some i) o)) as [[b|x] o2] eqn:AS; [|discriminate].
  destruct (assert_sections_loaded _ (incl_refl _) _ _ _ _ L2 AS) as (L3 & _ & C & B).
  destruct b.
  - exfalso. unfold bind, get_files in E. destruct (o_files o2) as [fl|] eqn:FL; [|discriminate].
    destruct (get_known_operations_message K fs o2) as [[m|x] o4] eqn:E4; [|discriminate].
    assert (KO : level_of o4 = level_of o2).
    { revert E4. unfold get_known_operations_message, get_known_operations, bind. rewrite (get_cpd_ready fs i) by exact (lo_file _ L3).
      destruct (get_edata_alike (set_cpd (Some i) o2)) as (d & o5 & E5 & A5 & _). rewrite E5. unfold get_files.
      destruct (o_files o5); unfold ret; intros E4; [|discriminate]. assert (o5 = o4) by congruence. subst.
      unfold level_of. rewrite (proj1 A5). reflexivity. }
    unfold print_line, modify in E.
    match type of E with context [event _ _ ?op] => set (o5 := op) in * end.
    assert (L5 : level_of o5 = 5%Z) by (rewrite <- (lo_level _ L3), <- KO; reflexivity).
    pose proof (event_raise_iff (o_ec o5) $"SERIOUS" 3 ValueError true th_serious) as H. unfold event in E.
    unfold level_of in L5. rewrite L5 in H. change (3 <=? 5)%Z with true in H.
    destruct (ec_event (o_ec o5) $"SERIOUS" (XClass ValueError) true) as [r out]. cbn [fst] in H. subst r. discriminate.
  - unfold ret in E. assert (z = 0%Z /\ o2 = o1) as [-> ->] by (split; congruence).
    split; auto. split; auto. intros s I. split; auto. now apply (proj2 (B eq_refl)).
Qed.
End Load.
