(** * Proofs about handlers that read other sections: nested reads, and histories. *)
From Coq Require Import String NArith ZArith List Bool Lia Arith.
Import ListNotations.
From Verif Require Import PyBase PyFacts Shlex IniView IniRead ExcControl Debuggable Cpe
  SpecWalk SpecRun SpecParse SpecApi BaseProofs Refine RefineRoot Trace ApiProofs ApiProofs2 Reentrant SpecReentrant ReentrantProofs.
Local Open Scope sm_scope.

Section P.
Context {Sh Us : Type} (R : rclass (Sh := Sh)) (fs : str -> option str) (i : ini) (dname : str) (fuel : nat).
Variable ex : str -> dict (option str).
Variable rank : str -> nat.
Notation obj := (obj Sh Us).
Notation ctx := (ctx Sh Us).
Let K : pyclass Sh Us := told_class ex R.
Hypothesis WB : well_behaved K.
Hypothesis F : length (ini_sections i) + 3 <= fuel.
Hypothesis AP : all_parsable K i dname.
Hypothesis EX : forall s, ini_has_section i s = true -> expansion K i dname s (ex s).
Hypothesis DOWN : reads_down (Us := Us) i dname ex rank R.
Notation lower_than := (lower_than i rank).
Notation good n := (inv K fs i dname (lower_than n) False).
Notation did := (did R fs i dname ex rank).
Notation frame := (@frame Sh Us).
Notation same := (@same Sh Us fs i).

Lemma same_trans (a b c : obj) : same a b -> same b c -> same a c.
Proof. intros [] []. constructor; auto; congruence. Qed.
Lemma same_set_log l (o : obj) : same o (set_log l o).
Proof. constructor; try reflexivity. intros H. unfold has_file in *. rewrite <- H. apply get_cpd_fst_ext; reflexivity. Qed.
Lemma same_set_last l (o : obj) : same o (set_last l o).
Proof. constructor; try reflexivity. intros H. unfold has_file in *. rewrite <- H. apply get_cpd_fst_ext; reflexivity. Qed.

(** A parse up to the parser proper: the section is marked. *)
Lemma parse_start t (o : obj) : t <> [] -> has_file fs o i -> exists om,
  marked fs i t o om /\ str_mem t (checked_of om) = true /\
  forall (C : pyclass Sh Us) p, parse_section_with C p t true true o =
    match p t t true true (Ctx om (k_empty C) []) with
    | (Ok _, c) => (Ok (x_sh c), set_last (Some (x_sh c)) (x_obj c))
    | (Err e, c) => (Err e, x_obj c)
    end.
Proof.
  intros N H. destruct (edata_val (set_log None o)) as (d & E & D & C & _).
  pose proof (same_trans _ _ _ (same_set_log None o) (same_edata fs i (set_log None o))) as S.
  exists (set_edata (Some (ed_check t d)) (snd (get_edata (set_log None o)))). split; [|split].
  - constructor.
    + exact D.
    + intros s NS. change (str_mem s (sadd t (d_checked d)) = str_mem s (checked_of o)). rewrite str_mem_sadd.
      apply str_eqb_neq in NS. rewrite NS, C. reflexivity.
    + exact (sm_files _ _ _ _ S).
    + exact (sm_ec _ _ _ _ S).
    + exact (sm_def _ _ _ _ S).
    + pose proof (sm_has _ _ _ _ S H) as X. unfold has_file in *. rewrite <- X. apply get_cpd_fst_ext; reflexivity.
  - change (str_mem t (sadd t (d_checked d)) = true). now rewrite str_mem_sadd, str_eqb_refl.
  - intros c p. unfold parse_section_with, parse_root. rewrite !bind_eq. cbn [modify].
    apply str_eqb_neq in N. rewrite N, !bind_eq.
    destruct (get_edata (set_log None o)) as [r o1]. cbn [fst snd] in *. subst r.
    unfold put_edata, modify. rewrite bind_eq. cbn [set_edata].
    match goal with |- context [p t t true true ?x] => destruct (p t t true true x) as [[[]|e] c1] end; reflexivity.
Qed.

Lemma marked_trans t (o o1 o2 : obj) : marked fs i t o o1 -> marked fs i t o1 o2 -> marked fs i t o o2.
Proof.
  intros [a b c d e f] [a' b' c' d' e' f']. constructor; auto; try congruence.
  intros s N. rewrite b', b; auto.
Qed.
Lemma same_marked t (o o1 : obj) : has_file fs o i -> same o o1 -> marked fs i t o o1.
Proof. intros H [a b c d e f]. constructor; auto. intros s _. now rewrite e. Qed.
Lemma marked_inv t n files (o o1 : obj) : n <= rank t -> marked fs i t o o1 -> good n files o -> good n files o1.
Proof.
  intros L [a b c d e f] [v1 v2 v3 v4 v5 v6 v7 v8 v9].
  assert (N : forall s, lower_than n s -> s <> t) by (intros s [_ X] Y; subst s; lia).
  assert (S : forall s, section_of o1 s = section_of o s) by (intros; unfold section_of; now rewrite a).
  constructor; auto; try tauto; try congruence.
  - unfold level_ok, level_of in *. now rewrite d.
  - unfold level_of in *. now rewrite d.
  - intros s g. rewrite b, S by auto. apply v6; auto.
  - intros s g. unfold options_of. rewrite b, S by auto. apply v7; auto.
Qed.
Lemma marked_frame t (X : str -> Prop) (o o1 : obj) : X t -> marked fs i t o o1 -> frame X o o1.
Proof.
  intros x [a b c d e f]. constructor; auto.
  - intros s N. apply b. intros Q. subst s. auto.
  - intros s q _. unfold section_of. now rewrite a.
  - intros s _. unfold options_of, section_of. now rewrite a.
Qed.
Lemma lower_weaken m n files (o : obj) : m <= n -> good n files o -> good m files o.
Proof. intros L. apply inv_weaken. intros s [A B]. split; auto. lia. Qed.

(** One parse, its handlers being answered. *)
Lemma parse_did read files t (o oa : obj) n : ini_has_section i t = true -> rank t < n -> good n files o -> marked fs i t o oa ->
  (forall u (o : obj), ini_has_section i u = true -> rank u < rank t -> good (rank t) files o ->
    exists o1, read u o = (Ok (ex u), o1) /\ did files u o o1) ->
  exists v o1, parse_section_with (bare R) (r_psr R fs read fuel) t true true oa = (Ok v, o1) /\ did files t o o1 /\
    fst (parse_section_str K fs fuel t true true oa) = Ok v.
Proof.
  intros HT L V M READ.
  assert (GP : forall s, eq t s -> parsable K i dname s) by (intros s Q; subst s; now apply AP).
  assert (V1 : inv K fs i dname (eq t) False files o).
  { eapply inv_weaken; [|exact V]. intros s Q. subst s. split; auto. }
  destruct (parse_good_marked K fs i dname fuel WB F (eq t) False GP files t o oa V1 eq_refl M) as (v & o' & PE & GO & CK).
  pose proof (AP t HT) as (NE & _).
  destruct (parse_start t oa NE (mk_file _ _ _ _ _ M)) as (om & M2 & CM & ST).
  rewrite PE. unfold parse_section_str in PE. rewrite ST in *. clear ST.
  pose proof (marked_trans _ _ _ _ M M2) as MM.
  assert (RL : rel R fs i dname ex rank files t o (Ctx om (k_empty K) []) (Ctx om (k_empty K) [])).
  { constructor; auto. cbn [x_obj]. constructor; auto.
    - apply (marked_inv t (rank t) files o); auto. eapply lower_weaken; [|exact V]. lia.
    - eapply marked_frame; [|exact MM]. left; auto.
    - apply MM. }
  destruct (sim_psr R fs i dname fuel ex rank F EX DOWN files t HT o read READ fuel t true true (or_introl (reach_refl _ _ t)) _ _ RL) as (A & B & _).
  change (k_empty (bare R)) with (k_empty K).
  destruct (r_psr R fs read fuel t t true true (Ctx om (k_empty K) [])) as [r c].
  unfold K in *.
  destruct (psr (told_class ex R) fs fuel t t true true (Ctx om (k_empty (told_class ex R)) [])) as [r' c']. cbn [fst snd] in *. subst r'.
  destruct r as [u|e]; [|discriminate]. inversion PE; subst v o'. clear PE.
  destruct B as [[a b cc d e f g h j k] es ep].
  exists (x_sh c), (set_last (Some (x_sh c)) (x_obj c)). split; [reflexivity|]. split; [|cbn; congruence].
  pose proof (same_set_last (Some (x_sh c)) (x_obj c)) as SL.
  constructor.
  - eapply frame_trans; [exact b|]. eapply same_frame. exact SL.
  - eapply same_inv; eauto.
  - exact g.
  - destruct (iv_parsed _ _ _ _ _ _ _ _ (go_inv _ _ _ _ _ _ _ _ _ GO) t eq_refl CK) as (q & Q1 & Q2).
    rewrite (expansion_unique _ _ _ _ _ _ Q1 (EX t HT)) in Q2. apply k. exact Q2.
Qed.

Lemma read_did depth : forall files n t (o : obj), ini_has_section i t = true -> rank t < n -> rank t < depth -> good n files o ->
  exists o1, r_read R fs fuel depth t o = (Ok (ex t), o1) /\ did files t o o1.
Proof.
  induction depth as [|depth IH]; intros files n t o HT L D V; [lia|].
  cbn [r_read]. unfold data_has_section. rewrite !bind_eq.
  pose proof (iv_file _ _ _ _ _ _ _ _ V) as HF. rewrite (get_cpd_ready fs i o HF), HT, !bind_eq.
  pose proof (same_cpd fs i o) as S0. set (oa := set_cpd (Some i) o) in *.
  pose proof (same_trans _ _ _ S0 (same_edata fs i oa)) as S1. destruct (edata_val oa) as (d & E & DD & C1 & _).
  destruct (get_edata oa) as [r ob]. cbn [fst snd] in *. subst r.
  assert (CC : d_checked d = checked_of o) by (rewrite C1; reflexivity). rewrite CC.
  assert (X : exists oc, (if str_mem t (checked_of o) then ret tt
     else parse_owner (fun u => parse_section_with (bare R) (r_psr R fs (r_read R fs fuel depth) fuel) u true true ;; ret tt) t false) ob
     = (Ok tt, oc) /\ did files t o oc).
  { destruct (str_mem t (checked_of o)) eqn:CK.
    - exists ob. split; [reflexivity|]. constructor.
      + eapply same_frame. exact S1.
      + eapply same_inv; [exact S1|]. eapply lower_weaken; [|exact V]. lia.
      + now rewrite (sm_checked _ _ _ _ S1).
      + destruct (iv_parsed _ _ _ _ _ _ _ _ V t (conj HT L) CK) as (q & Q1 & Q2).
        rewrite (expansion_unique _ _ _ _ _ _ Q1 (EX t HT)) in Q2. unfold section_of in *. now rewrite (sm_data _ _ _ _ S1).
    - unfold parse_owner, set_owner_options. rewrite !bind_eq.
      pose proof (same_trans _ _ _ S1 (same_edata fs i ob)) as S2. destruct (edata_val ob) as (d2 & E2 & D2 & C2 & O2).
      destruct (get_edata ob) as [r oc]. cbn [fst snd] in *. subst r.
      assert (CN : str_mem t (d_checked d2) = false) by (rewrite C2, (sm_checked _ _ _ _ S1); exact CK).
      rewrite CN. cbn [negb orb]. rewrite !bind_eq. unfold get_edata at 1. rewrite O2. rewrite !bind_eq.
      unfold get_edata. cbn [o_edata set_edata]. unfold put_edata, modify. rewrite (bind_eq (fun s => _)), bind_eq.
      match goal with |- context [parse_section_with _ _ t true true ?x] => set (om := x) end.
      assert (M : marked fs i t o om).
      { constructor.
        - unfold om, data_of at 1. cbn. rewrite D2. apply S1.
        - intros s N. change (str_mem s (sadd t (d_checked d2)) = str_mem s (checked_of o)). rewrite str_mem_sadd.
          apply str_eqb_neq in N. rewrite N, C2, (sm_checked _ _ _ _ S1). reflexivity.
        - exact (sm_files _ _ _ _ S2).
        - exact (sm_ec _ _ _ _ S2).
        - exact (sm_def _ _ _ _ S2).
        - pose proof (sm_has _ _ _ _ S2 HF) as Q. unfold has_file in *. rewrite <- Q. apply get_cpd_fst_ext; reflexivity. }
      destruct (parse_did (r_read R fs fuel depth) files t o om n HT L V M) as (v & o1 & PE & DI & _).
      { intros u ou HU LU GU. apply (IH files (rank t)); auto. lia. }
      rewrite PE. exists o1. split; [reflexivity|exact DI]. }
  destruct X as (oc & EC & DI). rewrite EC, bind_eq.
  pose proof (same_edata fs i oc) as S3. destruct (edata_val oc) as (d3 & E3 & D3 & C3 & O3).
  destruct (get_edata oc) as [r od]. cbn [fst snd] in *. subst r. unfold ret at 1.
  pose proof (di_section _ _ _ _ _ _ _ _ _ _ DI) as SEC. unfold section_of in SEC.
  assert (MM : dmem t (d_data d3) = true) by (rewrite D3; unfold dmem; now rewrite SEC).
  rewrite MM. unfold data_section. rewrite bind_eq. unfold get_edata. rewrite O3, D3, SEC.
  exists od. split; [reflexivity|]. destruct DI as [p q r s]. constructor.
  - eapply frame_trans; [exact p|]. eapply same_frame. exact S3.
  - eapply same_inv; eauto.
  - now rewrite (sm_checked _ _ _ _ S3).
  - unfold section_of in *. now rewrite (sm_data _ _ _ _ S3).
Qed.

Variable depth : nat.
Hypothesis RK : forall s, ini_has_section i s = true -> rank s <= depth.
Notation whole := (inv K fs i dname (fun s => ini_has_section i s = true) False).

Lemma whole_good files (o : obj) : whole files o -> good (S depth) files o.
Proof. apply inv_weaken. intros s [A _]. exact A. Qed.

Lemma read_whole files t (o : obj) : ini_has_section i t = true -> whole files o ->
  exists o1, r_read R fs fuel (S depth) t o = (Ok (ex t), o1) /\ whole files o1 /\ section_of o1 t = Some (ex t).
Proof.
  intros HT V. pose proof (RK t HT) as L.
  assert (L' : rank t < S depth) by lia.
  destruct (read_did (S depth) files (S depth) t o HT L' L' (whole_good files o V)) as (o1 & E & DI).
  exists o1. split; auto. split; [|exact (di_section _ _ _ _ _ _ _ _ _ _ DI)]. exact (did_inv R fs i dname ex rank EX (fun s => ini_has_section i s = true) files t o o1 (fun s H => H) V DI HT).
Qed.
Lemma parse_whole files t (o : obj) : ini_has_section i t = true -> whole files o ->
  exists v o1, r_parse R fs fuel depth t o = (Ok v, o1) /\ whole files o1 /\ section_of o1 t = Some (ex t) /\
    fst (parse_section_str K fs fuel t true true o) = Ok v.
Proof.
  intros HT V. pose proof (RK t HT) as L.
  assert (L' : rank t < S depth) by lia.
  assert (M : marked fs i t o o) by (apply same_marked; [apply V|apply same_refl]).
  destruct (parse_did (r_read R fs fuel depth) files t o o (S depth) HT L' (whole_good files o V) M) as (v & o1 & E & DI & Q).
  - intros u ou HU LU GU. apply (read_did depth files (rank t)); auto. lia.
  - exists v, o1. split; auto. split; [|split; [exact (di_section _ _ _ _ _ _ _ _ _ _ DI)|exact Q]]. exact (did_inv R fs i dname ex rank EX (fun s => ini_has_section i s = true) files t o o1 (fun s H => H) V DI HT).
Qed.
Lemma after_whole files l : forall o : obj, Forall (of_file i) l -> whole files o -> whole files (r_after R fs fuel depth l o).
Proof.
  induction l as [|c l IH]; intros o H V; [exact V|]. inversion H as [|? ? H1 H2]; subst. apply (IH _ H2).
  destruct c as [s|s]; cbn [r_after1].
  - destruct (parse_whole files s o H1 V) as (v & o1 & E & W & _). now rewrite E.
  - destruct (read_whole files s o H1 V) as (o1 & E & W & _). now rewrite E.
Qed.
Lemma opened_whole (o : obj) : opened K fs i dname o -> exists files, whole files o.
Proof.
  intros [A B C D E G]. unfold path_set_of in B. destruct (o_files o) as [files|] eqn:Fi; [|discriminate].
  exists files. constructor; auto.
  - intros s _ M. unfold checked_of in M. rewrite G in M. discriminate.
  - intros s _ _. unfold options_of, section_of, data_of. now rewrite G.
  - tauto.
  - unfold data_of. rewrite G. constructor.
Qed.

Lemma reads_answered l s (o : obj) : opened K fs i dname o -> Forall (of_file i) l -> ini_has_section i s = true ->
  fst (r_read R fs fuel (S depth) s (r_after R fs fuel depth l o)) = Ok (ex s).
Proof.
  intros O H HS. destruct (opened_whole o O) as (files & V).
  destruct (read_whole files s _ HS (after_whole files l o H V)) as (o1 & E & _). now rewrite E.
Qed.
Lemma parses_answered l s (o : obj) : opened K fs i dname o -> Forall (of_file i) l -> ini_has_section i s = true ->
  let o1 := r_after R fs fuel depth l o in
  exists v, fst (r_parse R fs fuel depth s o1) = Ok v /\ fst (parse_section_str K fs fuel s true true o1) = Ok v /\
    section_of (snd (r_parse R fs fuel depth s o1)) s = Some (ex s).
Proof.
  intros O H HS o1. destruct (opened_whole o O) as (files & V).
  destruct (parse_whole files s _ HS (after_whole files l o H V)) as (v & o2 & E & W & SE & Q).
  exists v. fold o1 in E, Q. rewrite E. auto.
Qed.
End P.
