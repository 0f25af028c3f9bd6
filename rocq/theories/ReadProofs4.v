(** * Duplicates, failed reads, and files in the usual layout. *)
From Coq Require Import String NArith Arith List Bool Lia.
Import ListNotations.
From Verif Require Import PyBase PyFacts IniView IniRead Cpe SpecWalk SpecParse SpecRead WalkProofs ReadProofs
  ReadProofs2 ReadProofs3.

Local Arguments is_space : simpl never.

Section Dup.
Variables (delims : list str) (dn : str).
Notation rl := (read_line delims dn).
Notation rls := (read_lines delims dn).

Lemma no_parsing_error l r e r1 : rl l r = (Err e, r1) -> e <> ParsingError.
Proof.
  unfold read_line.
  set (comment := starts_with $"#" (strip_ws l) || starts_with $";" (strip_ws l)).
  destruct (if comment then [] else strip_ws l) as [|c0 value].
  - destruct comment; [discriminate|]. destruct (cur_is_none (r_cur r)); [discriminate|].
    destruct (opt_active (r_optname r)) as [k|]; [|discriminate].
    destruct (dget k (cur_opts r)) as [[]|]; intros E; inversion E; discriminate.
  - destruct (if cur_is_none (r_cur r) then _ else _) as [k|].
    + destruct (dget k (cur_opts r)) as [[]|]; intros E; inversion E; discriminate.
    + cbv zeta. cbn [r_cur r_secs r_addsec r_defs r_sectname r_optname r_indent r_err r_addopt].
      destruct (sectcre (c0 :: value)) as [name|].
      * destruct (dmem name (r_secs r)); [destruct (str_mem name (r_addsec r))|destruct (str_eqb name dn)];
          intros E; inversion E; discriminate.
      * destruct (cur_is_none (r_cur r)); [intros E; inversion E; discriminate|].
        destruct (optcre delims (c0 :: value)) as [[opt val]|]; [|discriminate].
        destruct (pair_mem _ _ _); intros E; inversion E; discriminate.
Qed.

Lemma lines_runs t ls : lines_of t ls ->
  (runs (fst (read_file delims t (empty_ini dn))) <-> fst (rls ls (start)) = Ok tt).
Proof.
  intros L. apply lines_iff in L. subst ls. rewrite read_file_start.
  destruct (rls (text_lines t) start) as [[[]|e] r1] eqn:E; cbn [fst].
  - split; auto. intros _. unfold runs. destruct (r_err r1); auto.
  - split; [|discriminate]. apply read_lines_err in E as (l1 & l & l2 & r0 & _ & _ & E).
    apply no_parsing_error in E. intros [X|X]; congruence.
Qed.

Theorem duplicate_section t pre h1 mid h2 post s :
  s <> dn -> header_line s h1 -> header_line s h2 -> lines_of t (pre ++ h1 :: mid ++ h2 :: post) ->
  (exists e, fst (read_file delims t (empty_ini dn)) = Err e) /\
  (forall t', lines_of t' (pre ++ h1 :: mid) -> runs (fst (read_file delims t' (empty_ini dn))) ->
     fst (read_file delims t (empty_ini dn)) = Err DuplicateSectionError).
Proof.
  intros ND H1 H2 L. apply lines_iff in L. rewrite read_file_start, L.
  assert (X : forall r1, rls (pre ++ h1 :: mid) start = (Ok tt, r1) ->
      exists r2, rls (pre ++ h1 :: mid ++ h2 :: post) start = (Err DuplicateSectionError, r2)).
  { intros r1 E. replace (pre ++ h1 :: mid ++ h2 :: post) with ((pre ++ h1 :: mid) ++ h2 :: post)
      by (rewrite <- app_assoc; reflexivity).
    rewrite read_lines_app, E. cbn [read_lines]. rewrite (read_header delims dn s) by auto.
    assert (V : inv dn r1) by (eapply read_lines_inv; eauto using start_inv).
    rewrite read_lines_app in E. destruct (rls pre start) as [[[]|e] r0] eqn:E0; [|discriminate].
    cbn [read_lines] in E. destruct (rl h1 r0) as [[[]|e] r0'] eqn:E1; [|discriminate].
    assert (V0 : inv dn r0) by exact (read_lines_inv _ _ _ _ _ (start_inv dn) E0).
    assert (M : str_mem s (r_addsec r0') = true).
    { rewrite (read_header delims dn s) in E1 by auto.
      destruct (dmem s (r_secs r0)) eqn:D.
      - rewrite (iv_added _ _ V0), D in E1. discriminate.
      - destruct (str_eqb_spec s dn); [contradiction|]. inversion E1; subst. cbn [r_addsec].
        now rewrite str_mem_sadd, str_eqb_refl. }
    apply read_lines_keeps in E as (A & _). apply A in M. rewrite <- (iv_added _ _ V), M. eauto. }
  split.
  - destruct (rls (pre ++ h1 :: mid) start) as [[[]|e] r1] eqn:E.
    + destruct (X r1 eq_refl) as (r2 & ->). cbn. eauto.
    + replace (pre ++ h1 :: mid ++ h2 :: post) with ((pre ++ h1 :: mid) ++ h2 :: post) by (rewrite <- app_assoc; reflexivity).
      rewrite read_lines_app, E. cbn. eauto.
  - intros t' L' R. apply (lines_runs _ _ L') in R.
    destruct (rls (pre ++ h1 :: mid) start) as [[[]|e] r1] eqn:E; [|discriminate].
    destruct (X r1 eq_refl) as (r2 & ->). reflexivity.
Qed.

Theorem duplicate_option t pre o1 mid o2 post k v1 v2 :
  good_delims delims -> plain_key delims k -> option_line delims k v1 o1 -> option_line delims k v2 o2 ->
  Forall (fun l => ~ bracket_line l) mid ->
  lines_of t (pre ++ o1 :: mid ++ o2 :: post) ->
  (exists e, fst (read_file delims t (empty_ini dn)) = Err e) /\
  (forall t', lines_of t' (pre ++ o1 :: mid) -> runs (fst (read_file delims t' (empty_ini dn))) ->
     fst (read_file delims t (empty_ini dn)) = Err DuplicateOptionError).
Proof.
  intros GD PK O1 O2 NB L. apply lines_iff in L. rewrite read_file_start, L.
  assert (X : forall r1, rls (pre ++ o1 :: mid) start = (Ok tt, r1) ->
      exists r2, rls (pre ++ o1 :: mid ++ o2 :: post) start = (Err DuplicateOptionError, r2)).
  { intros r1 E. replace (pre ++ o1 :: mid ++ o2 :: post) with ((pre ++ o1 :: mid) ++ o2 :: post)
      by (rewrite <- app_assoc; reflexivity).
    rewrite read_lines_app, E. cbn [read_lines].
    rewrite read_lines_app in E. destruct (rls pre start) as [[[]|e] r0] eqn:E0; [|discriminate].
    cbn [read_lines] in E. destruct (rl o1 r0) as [[[]|e] r0'] eqn:E1; [|discriminate].
    assert (NC : r_cur r0 <> CurNone).
    { intros C. clear E. revert E1. destruct (option_strip delims GD k v1 o1 PK O1) as (rest & ST & _).
      destruct PK as (NE & [EA EB] & F & H). destruct k as [|c0 k]; [congruence|].
      unfold read_line. rewrite ST. change ((c0 :: k) ++ rest) with (c0 :: k ++ rest). cbn [hd] in H.
      assert (C1 : starts_with $"#" (c0 :: k ++ rest) = false).
      { cbn. destruct c0 as [|p]; auto. destruct (Pos.eqb_spec 35 p) as [<-|]; auto. exfalso. apply H. now left. }
      assert (C2 : starts_with $";" (c0 :: k ++ rest) = false).
      { cbn. destruct c0 as [|p]; auto. destruct (Pos.eqb_spec 59 p) as [<-|]; auto. exfalso. apply H. right. now left. }
      rewrite C1, C2, C. cbn [orb cur_is_none]. cbv zeta.
      assert (SC : sectcre (c0 :: k ++ rest) = None).
      { cbn [sectcre]. destruct (N.eqb_spec c0 91) as [->|]; auto. exfalso. apply H. right. right. now left. }
      rewrite SC. discriminate. }
    rewrite (read_option delims dn GD k v1) in E1 by auto.
    destruct (pair_mem (r_sectname r0) k (r_addopt r0)); [discriminate|]. inversion E1 as [Q]. clear E1.
    assert (S0 : In (r_sectname r0', k) (r_addopt r0') /\ r_cur r0' <> CurNone).
    { rewrite <- Q. unfold set_cur_opts. cbn [r_cur]. destruct (r_cur r0); [congruence| |]; cbn; split; auto; discriminate. }
    destruct S0 as [IN NC'].
    apply read_lines_keeps in E as (_ & A & B & C). destruct (C NB) as [C1 C2].
    rewrite (read_option delims dn GD k v2) by auto.
    apply A in IN. rewrite <- C2 in IN. apply pair_mem_In in IN. rewrite IN. eauto. }
  split.
  - destruct (rls (pre ++ o1 :: mid) start) as [[[]|e] r1] eqn:E.
    + destruct (X r1 eq_refl) as (r2 & ->). cbn. eauto.
    + replace (pre ++ o1 :: mid ++ o2 :: post) with ((pre ++ o1 :: mid) ++ o2 :: post) by (rewrite <- app_assoc; reflexivity).
      rewrite read_lines_app, E. cbn. eauto.
  - intros t' L' R. apply (lines_runs _ _ L') in R.
    destruct (rls (pre ++ o1 :: mid) start) as [[[]|e] r1] eqn:E; [|discriminate].
    destruct (X r1 eq_refl) as (r2 & ->). reflexivity.
Qed.

(** ** What a failed read leaves *)
Lemma optcre_total s : exists kv, optcre delims s = Some kv.
Proof.
  induction s as [|c s [[k v] IH]]; cbn [optcre].
  - cbn [opt_at]. destruct (match_vi delims []); eauto.
  - destruct (opt_at delims (c :: s)); eauto. rewrite IH. eauto.
Qed.

Theorem failed_read t e n : read_file delims t (empty_ini dn) = (Err e, n) -> e <> ParsingError ->
  exists l1 l l2 r, lines_of t (l1 ++ l :: l2) /\ runs r /\
    read_file delims (text_of l1) (empty_ini dn) = (r, n) /\
    fst (read_file delims (text_of (l1 ++ [l])) (empty_ini dn)) = Err e.
Proof.
  intros E NP. rewrite read_file_start in E.
  destruct (rls (text_lines t) start) as [[[]|e'] r1] eqn:R.
  - destruct (r_err r1); inversion E; congruence.
  - inversion E; subst e' n. clear E. apply read_lines_err in R as (l1 & l & l2 & r0 & TL & R0 & R1).
    assert (L : lines_of t (l1 ++ l :: l2)) by now apply lines_iff.
    pose proof (lines_no_newline _ _ L) as NN. apply Forall_app in NN as [N1 N2]. inversion N2; subst.
    exists l1, l, l2, (if r_err r0 then Err ParsingError else Ok tt).
    split; auto. split; [unfold runs; destruct (r_err r0); auto|]. split.
    + rewrite read_file_start. pose proof (proj1 (lines_iff _ _) (lines_text_of _ N1)) as ->. rewrite R0.
      f_equal. apply read_line_err in R1 as [(A & B & _)|(_ & A & B)]; symmetry; now apply content_ext.
    + rewrite read_file_start. assert (N3 : Forall no_newline (l1 ++ [l])) by (apply Forall_app; auto).
      pose proof (proj1 (lines_iff _ _) (lines_text_of _ N3)) as ->.
      rewrite read_lines_app, R0. cbn [read_lines]. now rewrite R1.
Qed.
End Dup.

(** ** The raw data of an object *)
Section Access.
Context {Sh Us : Type} (fs : str -> option str).
Notation obj := (obj Sh Us).

Lemma texts_of_iff fl : forallb (file_exists fs) fl = true -> texts_of fs fl (file_texts fs fl).
Proof.
  induction fl as [|p fl IH]; cbn [forallb file_texts map]; [constructor|]. intros H. apply andb_true_iff in H as [E H].
  unfold file_exists in E. destruct (fs p) as [t|] eqn:EP; [|discriminate]. constructor; auto.
Qed.
Lemma texts_of_exists fl ts : texts_of fs fl ts -> forallb (file_exists fs) fl = true /\ file_texts fs fl = ts.
Proof.
  induction 1 as [|p t ps ts E T [IH1 IH2]]; auto. cbn [forallb file_texts map]. unfold file_exists at 1.
  rewrite E, IH1. split; auto. f_equal. exact IH2.
Qed.

(** The first access, completely. *)
Theorem first_access (o : obj) : o_cpd o = None ->
  match get_cpd fs o with
  | (Ok i, o1) => loading fs o i /\ o_cpd o1 = Some i
  | (Err e, o1) => exists i, failing fs o e i /\
      o_cpd o1 = (if match e with DuplicateOptionError => true | _ => false end then None else Some i) /\
      o_files o1 = o_files o /\ o_delims o1 = o_delims o /\ o_intname o1 = o_intname o
  end.
Proof.
  intros C. unfold get_cpd. rewrite C. cbn [set_cpd o_files o_delims o_intname].
  change (Ini [] [] (o_intname o)) with (empty_ini (o_intname o)).
  destruct (o_files o) as [[|p fl]|] eqn:F.
  - exists (empty_ini (o_intname o)). split; [constructor; auto|]. cbn. rewrite F. auto.
  - destruct (forallb (file_exists fs) (p :: fl)) eqn:FE.
    + pose proof (texts_of_iff _ FE) as T.
      destruct (read_files (o_delims o) (file_texts fs (p :: fl)) (empty_ini (o_intname o))) as [[[]|e] i] eqn:R.
      * destruct (read_files_spec (o_delims o) (file_texts fs (p :: fl)) (empty_ini (o_intname o)) (neat_empty _))
          as [(ns & FA & R')|(ts1 & t & ts2 & ns & e & n & _ & _ & _ & R')]; rewrite R' in R; [|discriminate].
        inversion R; subst. split; [|reflexivity]. apply (l_texts fs o (p :: fl) _ ns F ltac:(discriminate) T FA).
      * pose proof (files_error _ _ _ _ _ R) as (ts1 & t & ts2 & ns & n & TE & FA & RF & ->).
        rewrite TE in T.
        pose proof (f_text fs o (p :: fl) ts1 t ts2 ns n e F T FA RF) as FL.
        destruct e; (eexists; split; [exact FL|cbn; rewrite ?F; auto]).
    + exists (empty_ini (o_intname o)). split; [|cbn; rewrite F; auto].
      assert (X : exists q, In q (p :: fl) /\ fs q = None).
      { clear - FE. induction (p :: fl) as [|q l IH]; [discriminate|]. cbn [forallb] in FE. unfold file_exists at 1 in FE.
        destruct (fs q) eqn:E; [|exists q; split; [now left|auto]].
        destruct IH as (q' & I & Q); [exact FE|]. exists q'. split; [now right|auto]. }
      destruct X as (q & I & Q). apply (f_no_file fs o (p :: fl) q F I Q).
  - exists (empty_ini (o_intname o)). split; [constructor; auto|]. cbn. rewrite F. auto.
Qed.

Theorem load_errors (o : obj) e o1 : o_cpd o = None -> get_cpd fs o = (Err e, o1) ->
  (e = DuplicateOptionError -> fst (get_cpd fs o1) = Err DuplicateOptionError) /\
  (e <> DuplicateOptionError -> exists i, failing fs o e i /\ get_cpd fs o1 = (Ok i, o1)).
Proof.
  intros C E. pose proof (first_access o C) as H. rewrite E in H. destruct H as (i & FL & C1 & F1 & D1 & N1).
  split.
  - intros ->. cbn in C1. pose proof E as E0. unfold get_cpd in E0. rewrite C in E0. cbn [set_cpd o_files o_delims o_intname] in E0.
    unfold get_cpd. rewrite C1. cbn [set_cpd o_files o_delims o_intname]. rewrite F1, D1, N1.
    destruct (o_files o) as [[|p fl]|]; [discriminate| |discriminate].
    destruct (forallb (file_exists fs) (p :: fl)); [|discriminate].
    destruct (read_files (o_delims o) (file_texts fs (p :: fl)) (Ini [] [] (o_intname o))) as [[[]|e] i']; [discriminate|].
    destruct e; try discriminate E0; auto.
  - intros NE. exists i. split; auto. assert (C2 : o_cpd o1 = Some i) by (destruct e; congruence).
    unfold get_cpd. now rewrite C2.
Qed.

(** ** Which error *)
Theorem path_errors (o : obj) : o_cpd o = None ->
  (o_files o = None \/ o_files o = Some [] -> fst (get_cpd fs o) = Err ValueError) /\
  (forall fl p, o_files o = Some fl -> In p fl -> fs p = None -> fst (get_cpd fs o) = Err IOError).
Proof.
  intros C. unfold get_cpd. rewrite C. cbn [set_cpd o_files o_delims o_intname]. split.
  - intros [-> | ->]; reflexivity.
  - intros fl p -> I E. destruct fl as [|q fl]; [destruct I|].
    assert (X : forallb (file_exists fs) (q :: fl) = false).
    { destruct (forallb (file_exists fs) (q :: fl)) eqn:F; auto. rewrite forallb_forall in F. specialize (F p I).
      unfold file_exists in F. now rewrite E in F. }
    now rewrite X.
Qed.
End Access.
