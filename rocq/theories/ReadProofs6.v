(** * The raw data of an object and the files' texts. *)
From Coq Require Import String NArith ZArith Arith List Bool Lia.
Import ListNotations.
From Verif Require Import PyBase PyFacts IniView IniRead Cpe SpecWalk SpecRun SpecParse SpecRead
  ReadProofs ReadProofs2 ReadProofs3 ReadProofs4.

Section Access.
Context {Sh Us : Type} (fs : str -> option str).
Notation obj := (obj Sh Us).

Lemma access_files (o : obj) fl ts : o_cpd o = None -> o_files o = Some fl -> fl <> [] -> texts_of fs fl ts ->
  fst (get_cpd fs o) = match read_files (o_delims o) ts (empty_ini (o_intname o)) with
                       | (Ok _, i) => Ok i | (Err e, _) => Err e end.
Proof.
  intros C F NE T. destruct (texts_of_exists fs _ _ T) as [FE TX]. unfold get_cpd. rewrite C.
  cbn [set_cpd o_files o_delims o_intname]. rewrite F. destruct fl as [|p fl]; [congruence|]. rewrite FE, TX.
  change (Ini [] [] (o_intname o)) with (empty_ini (o_intname o)).
  destruct (read_files (o_delims o) ts (empty_ini (o_intname o))) as [[[]|e] i]; auto. destruct e; reflexivity.
Qed.

Theorem raw_access (o : obj) i o1 : o_cpd o = None -> get_cpd fs o = (Ok i, o1) ->
  exists fl ts ns, o_files o = Some fl /\ texts_of fs fl ts /\ Forall2 (reads (o_delims o) (o_intname o)) ts ns /\
    ini_sections i = first_keys (flat_map ini_sections ns) /\
    (forall s k, raw_value i s k = last_some (fun n => raw_value n s k) ns) /\
    (forall s, dkeys (options_in s (i_secs i)) = first_keys (flat_map (fun n => dkeys (options_in s (i_secs n))) ns)) /\
    (forall k, dget k (i_defs i) = last_some (fun n => dget k (i_defs n)) ns) /\
    dkeys (i_defs i) = first_keys (flat_map (fun n => dkeys (i_defs n)) ns).
Proof.
  intros C E. pose proof (first_access fs o C) as H. rewrite E in H. destruct H as [H _].
  destruct H as [fl ts ns F NE T FA]. pose proof (access_files o fl ts C F NE T) as A. rewrite E in A. cbn [fst] in A.
  destruct (read_files (o_delims o) ts (empty_ini (o_intname o))) as [[[]|e] i] eqn:R; [|discriminate].
  inversion A as [A1]. rewrite A1. destruct (files_merge _ _ _ _ R) as (ns' & FA' & M). exists fl, ts, ns'. auto.
Qed.

Theorem access_ok (o : obj) fl ts : o_cpd o = None -> o_files o = Some fl -> fl <> [] -> texts_of fs fl ts ->
  ((exists i, fst (get_cpd fs o) = Ok i) <->
   Forall (fun t => fst (read_file (o_delims o) t (empty_ini (o_intname o))) = Ok tt) ts).
Proof.
  intros C F NE T. rewrite (access_files o fl ts C F NE T). rewrite <- files_ok.
  destruct (read_files (o_delims o) ts (empty_ini (o_intname o))) as [[[]|e] i]; cbn [fst]; split; eauto.
  - intros [x X]. discriminate.
  - discriminate.
Qed.

Theorem access_error (o : obj) fl ts1 t ts2 e : o_cpd o = None -> o_files o = Some fl -> texts_of fs fl (ts1 ++ t :: ts2) ->
  Forall (fun t => fst (read_file (o_delims o) t (empty_ini (o_intname o))) = Ok tt) ts1 ->
  fst (read_file (o_delims o) t (empty_ini (o_intname o))) = Err e ->
  fst (get_cpd fs o) = Err e.
Proof.
  intros C F T FA E. assert (NE : fl <> []) by (intros ->; inversion T; destruct ts1; discriminate).
  rewrite (access_files o fl _ C F NE T). destruct (read_files_spec (o_delims o) (ts1 ++ t :: ts2) _ (neat_empty (o_intname o)))
    as [(ns & FB & R)|(us1 & u & us2 & ns & e' & n & TE & FB & RU & R)]; rewrite R.
  - exfalso. apply Forall2_app_inv_l in FB as (n1 & n2 & _ & FB & _). inversion FB as [|? ? ? ? RD]; subst.
    unfold reads in RD. cbn in *. rewrite RD in E. discriminate.
  - cut (u = t).
    { intros ->. cbn in RU. cbn in E. rewrite RU in E. cbn in E. congruence. }
    clear R T. revert us1 ns TE FB. induction FA as [|x ts1 HX FA IH]; intros us1 ns TE FB.
    + destruct us1 as [|y us1]; cbn in TE; [congruence|]. inversion TE; subst. inversion FB as [|? ? ? ? RD]; subst.
      unfold reads in RD. cbn in *. rewrite RD in E. discriminate.
    + destruct us1 as [|y us1]; cbn in TE.
      * inversion TE; subst. cbn in *. rewrite RU in HX. discriminate.
      * inversion TE; subst. inversion FB; subst. eauto.
Qed.
End Access.

Section Missing.
Context {Sh Us : Type} (fs : str -> option str).
Notation obj := (obj Sh Us).
Theorem missing_sticky (o : obj) : o_cpd o = None ->
  (o_files o = None \/ o_files o = Some [] \/ (exists fl p, o_files o = Some fl /\ In p fl /\ fs p = None)) ->
  exists o1, get_cpd fs o = (Err (match o_files o with None | Some [] => ValueError | _ => IOError end), o1) /\
    get_cpd fs o1 = (Ok (empty_ini (o_intname o)), o1) /\ ini_sections (empty_ini (o_intname o)) = [].
Proof.
  intros C H. assert (X : exists o1, get_cpd fs o =
    (Err (match o_files o with None | Some [] => ValueError | _ => IOError end), o1) /\
    o_cpd o1 = Some (empty_ini (o_intname o))).
  { unfold get_cpd. rewrite C. cbn [set_cpd o_files o_delims o_intname].
    destruct H as [->|[->|(fl & p & F & I & E)]]; [eexists; split; reflexivity|eexists; split; reflexivity|].
    rewrite F. destruct fl as [|q fl]; [destruct I|].
    assert (X : forallb (file_exists fs) (q :: fl) = false).
    { destruct (forallb (file_exists fs) (q :: fl)) eqn:FA; auto. rewrite forallb_forall in FA. specialize (FA p I).
      unfold file_exists in FA. now rewrite E in FA. }
    rewrite X. eexists; split; reflexivity. }
  destruct X as (o1 & E & C1). exists o1. split; auto. split; auto. unfold get_cpd. now rewrite C1.
Qed.
End Missing.
