(** * Proofs of C30, C31, C35 and C36. *)
From Coq Require Import String NArith ZArith List Bool Lia Arith ZifyBool.
Import ListNotations.
From Verif Require Import PyBase PyFacts Shlex IniView IniRead ExcControl Debuggable Cpe
  SpecBase SpecText SpecFile SpecShell ShellProofs FileProofs SpecWalk MeaningProofs SpecRun SpecParse SpecApi BaseProofs Refine RefineRoot RefineOk RunProofs Trace WalkProofs
  ParseProofs ParseProofs2 ParseProofs3 ParseProofs4 ApiProofs ApiProofs2 ApiProofs3.
Local Open Scope sm_scope.

Section P4.
Context {Sh Us : Type} (K : pyclass Sh Us) (fs : str -> option str) (fuel : nat).
Notation obj := (obj Sh Us).
Notation ctx := (ctx Sh Us).
Notation owner := (parse_owner (owner_parse K fs fuel)).
Notation parse s := (parse_section_str K fs fuel s true true).

Lemma get_edata_same (o : obj) : let p := get_edata o in
  exists d, fst p = Ok d /\ d_data d = data_of o /\ d_checked d = checked_of o /\ o_edata (snd p) = Some d /\
    snd p = set_edata (Some d) o.
Proof.
  unfold get_edata, data_of, checked_of. destruct (o_edata o) as [d|] eqn:E; cbn.
  - exists d. rewrite E. do 4 (split; auto). destruct o; cbn in *; now subst.
  - eexists. do 4 (split; [reflexivity|]). reflexivity.
Qed.

Lemma owner_eq s force (o : obj) :
  exists o1, data_of o1 = data_of o /\ checked_of o1 = checked_of o /\
    (forall i, has_file fs o i -> has_file fs o1 i) /\ conf o1 = conf o /\ o_cpd o1 = o_cpd o /\
    owner s force o =
    if negb (str_mem s (checked_of o)) || force
    then (parse s ;; ret tt) (set_edata (Some (EData (data_of o) (sadd s (checked_of o)) (ec_level (o_ec o)) (o_debug o))) o)
    else (Ok tt, o1).
Proof.
  destruct (get_edata_same o) as (d & A & B & C & D & E). exists (snd (get_edata o)).
  rewrite E. split; [|split; [|split; [|split; [|split]]]].
  - unfold data_of at 1. cbn. auto.
  - unfold checked_of at 1. cbn. auto.
  - intros i H. unfold has_file. rewrite <- H. now apply get_cpd_fst_ext.
  - reflexivity.
  - reflexivity.
  - unfold parse_owner. rewrite bind_eq. destruct (get_edata o) as [r o1]. cbn [fst snd] in *. subst r.
    rewrite C. destruct (negb (str_mem s (checked_of o)) || force).
    + subst o1. unfold set_owner_options, bind, get_edata, put_edata, modify, owner_parse. cbn.
      rewrite <- B, <- C. reflexivity.
    + now subst o1.
Qed.

(** ** The frame of a parse *)
Lemma ensure_other t s d : t <> s -> dget t (ensure s d) = dget t d.
Proof. intros N. unfold ensure. destruct (dmem s d); auto. rewrite dget_dset. apply str_eqb_neq in N. now rewrite N. Qed.

Lemma data_after_keeps t root (es : list (ev Sh Us)) : (forall s, In (Enter s) es -> s <> t) -> t <> root ->
  forall d, dget t (data_after root es d) = dget t d.
Proof.
  intros HE N. induction es as [|e es IH]; intros d; cbn [data_after fold_left]; auto.
  change (dget t (data_after root es (data_step root d e)) = dget t d).
  rewrite IH by (intros; apply HE; now right). destruct e; cbn [data_step]; auto.
  - apply ensure_other. intros <-. now apply (HE t); [left|].
  - unfold write. rewrite dget_dset. apply str_eqb_neq in N. now rewrite N.
Qed.

Lemma parse_other i t s (o : obj) : has_file fs o i -> ini_items i t = None -> t <> s ->
  section_of (snd (parse s o)) t = section_of o t.
Proof.
  intros H N NE. pose proof (parse_section_any K fs fuel s true true o) as X.
  destruct (parse s o) as [r o']. destruct X as (es & D & _ & _ & L). cbn [snd].
  unfold section_of. rewrite D. apply data_after_keeps; auto.
  intros x I. destruct L as [->|(j & Hj & L)]; [destruct I|].
  assert (j = i) by (unfold has_file in *; congruence). subst j.
  eapply Forall_forall in L; eauto. cbn in L. congruence.
Qed.

Lemma parse_checked s (o : obj) t : t <> s ->
  str_mem t (checked_of (snd (parse s o))) = str_mem t (checked_of o).
Proof.
  intros N. pose proof (parse_section_any K fs fuel s true true o) as X.
  destruct (parse s o) as [r o']. destruct X as (es & _ & C & _). cbn [snd]. rewrite C.
  destruct (str_eqb s []); auto. rewrite str_mem_sadd. apply str_eqb_neq in N. now rewrite N.
Qed.
Lemma parse_checks s (o : obj) : s <> [] -> str_mem s (checked_of (snd (parse s o))) = true.
Proof.
  intros N. pose proof (parse_section_any K fs fuel s true true o) as X.
  destruct (parse s o) as [r o']. destruct X as (es & _ & C & _). cbn [snd]. rewrite C.
  apply str_eqb_neq in N. rewrite N, str_mem_sadd, str_eqb_refl. reflexivity.
Qed.
Lemma parse_ec s (o : obj) : o_ec (snd (parse s o)) = o_ec o.
Proof.
  pose proof (parse_section_any K fs fuel s true true o) as X.
  destruct (parse s o) as [r o']. destruct X as (es & _ & _ & C & _). cbn [snd]. unfold conf in C. cbn in C. congruence.
Qed.
Lemma parse_defname s (o : obj) : o_defname (snd (parse s o)) = o_defname o.
Proof.
  pose proof (parse_section_any K fs fuel s true true o) as X.
  destruct (parse s o) as [r o']. destruct X as (es & _ & _ & C & _). cbn [snd]. unfold conf in C. cbn in C. congruence.
Qed.
Lemma parse_files s (o : obj) : o_files (snd (parse s o)) = o_files o.
Proof.
  pose proof (parse_section_any K fs fuel s true true o) as X.
  destruct (parse s o) as [r o']. destruct X as (es & _ & _ & C & _). cbn [snd]. unfold conf in C. cbn in C. congruence.
Qed.

(** Without a default section, a missing section leaves the data alone. *)
Lemma parse_missing i s (o : obj) : has_file fs o i -> ini_items i s = None ->
  ini_has_section i (o_defname o) = false -> data_of (snd (parse s o)) = data_of o.
Proof.
  intros H N D. destruct (str_eqb_spec s []) as [->|NE]; [reflexivity|].
  rewrite parse_section_start by auto.
  assert (X : dview (snd (psr K fs fuel s s true true (start K o s))) = dview (start K o s)).
  2:{ assert (E : data_of (x_obj (start K o s)) = data_of o).
      { unfold start, data_of. cbn. now destruct (o_edata o). }
      rewrite <- E. destruct (psr K fs fuel s s true true (start K o s)) as [[u|e] c']; unfold dview in X;
        cbn [snd] in *; injection X; auto. }
  set (c := start K o s). pose proof (start_ready K fs i o s H) as [R _]. fold c in R.
  assert (DN : o_defname (x_obj c) = o_defname o) by reflexivity. clearbody c.
  destruct fuel as [|f]; [reflexivity|]. cbn [psr].
  set (reparse := fun s : str => _). rewrite psr_body_split, str_eqb_refl. cbn [andb]. rewrite bind_assoc.
  rewrite (bind_first _ _ _ _ (call_named_hook K (psr K fs f s) $"handler_initialize" s s c)).
  pose proof (kd_hook K s s $"handler_initialize" c) as H1.
  pose proof (conf_exec_hook K s s $"handler_initialize" c) as H2.
  assert (ST : stable (fun o : obj => fst (get_cpd fs o) = Ok i)).
  { repeat split; intros x l Q; rewrite <- Q; now apply get_cpd_fst_ext. }
  pose proof (stable_hook K _ s s $"handler_initialize" ST c R) as H3.
  rewrite bind_eq. destruct (exec_hook K s s $"handler_initialize" c) as [[u|e] c1]; cbn [snd] in *; auto.
  rewrite <- H1. apply conf_defname in H2.
  assert (E1 : forall A (k : ini -> SM ctx A) c2, fst (get_cpd fs (x_obj c2)) = Ok i ->
     bind (lift (get_cpd fs)) k c2 = k i (loaded i c2)).
  { intros A k c2 Q. unfold bind, lift. now rewrite (get_cpd_ready fs i _ Q). }
  rewrite bind_assoc, E1 by exact H3. rewrite bind_assoc, bind_get.
  change (o_defname (x_obj (loaded i c1))) with (o_defname (x_obj c1)). rewrite H2, DN, D. sm.
  unfold section_part. sm. rewrite E1 by reflexivity. rewrite N. sm.
  assert (G : forall c2, dview (snd ((lift get_files ;; raise KeyError : SM ctx unit) c2)) = dview c2).
  { intros c2. unfold bind, lift, get_files. now destruct (o_files (x_obj c2)). }
  rewrite G. reflexivity.
Qed.

(** ** C31 *)
Lemma closed_ec e : closed K fs fuel (fun o => o_ec o = e) (fun _ => True) (fun _ => True).
Proof.
  assert (OW : forall s force, keeps (fun o : obj => o_ec o = e) (owner s force)).
  { intros s force o H. destruct (owner_eq s force o) as (o1 & _ & _ & _ & C & _ & E). rewrite E.
    destruct (negb _ || force).
    - rewrite bind_eq. pose proof (parse_ec s (set_edata (Some (EData (data_of o) (sadd s (checked_of o)) (ec_level (o_ec o)) (o_debug o))) o)) as Q.
      destruct (parse s _) as [[v|x] o2]; cbn [snd fst] in *; unfold ret; cbn [snd]; rewrite Q; exact H.
    - cbn [snd]. rewrite <- H. unfold conf in C. congruence. }
  constructor; auto.
  - intros o H. rewrite <- H. pose proof (conf_get_cpd fs o) as C. unfold conf in C. congruence.
  - intros o H. destruct (get_edata_same o) as (d & _ & _ & _ & _ & E). rewrite E. exact H.
  - intros s _ o H. rewrite parse_ec. exact H.
Qed.

Theorem unroll_level section b base (o : obj) : level_ok o ->
  let '(r, o') := unroll_to_str K fs fuel section b base o in
  if base then o_ec o' = o_ec o
  else match r with
       | Ok _ => level_of o' = level_of o
       | Err _ => level_of o' = 0%Z
       end.
Proof.
  intros L. unfold unroll_to_str. destruct base.
  { destruct (o_files o) as [fl|]; [|reflexivity].
    destruct (unroll_self (base_class (k_uniword K)) fs fuel section b (set_files (Some fl) (new_obj tt))). reflexivity. }
  unfold unroll_self. rewrite bind_eq. unfold get at 1. rewrite bind_eq. unfold set_level at 1, modify at 1. cbn zeta.
  set (o0 := set_ec (ec_set_level 0 (o_ec o)) o).
  set (delim := if b then $" : " else $":").
  pose proof (k_unroll_body K fs fuel _ _ _ (closed_ec (o_ec o0)) delim section o0 eq_refl) as Q.
  set (body := (l <- data_sections K fs fuel (PBool false) ;; match section with
           | None => generate_all K fs fuel delim l
           | Some s => generate_section K fs fuel delim s
           end) : SM obj str) in *.
  match goal with |- context [bind (data_sections K fs fuel (PBool false)) ?k o0] =>
    replace (bind (data_sections K fs fuel (PBool false)) k o0) with
      (bind body (fun t => set_level (ec_level (o_ec o)) ;; ret (strip_ws t ++ newline)) o0) by (unfold body; now rewrite bind_assoc) end.
  rewrite bind_eq. destruct (body o0) as [[t|e] o1]; cbn [snd] in Q.
  - cbn. unfold level_of at 1, ec_set_level. cbn. unfold level_ok, level_of in L. unfold level_of. lia.
  - unfold level_of. rewrite Q. reflexivity.
Qed.

(** ** C30 *)
Lemma has_section_missing i s (o : obj) : has_file fs o i -> ini_has_section i s = false ->
  exists o', has_section K fs fuel s o = (Ok (dmem s (data_of o)), o') /\ data_of o' = data_of o /\ has_file fs o' i.
Proof.
  intros H N. unfold has_section, data_has_section. rewrite bind_eq, (get_cpd_ready fs i o H), N, bind_eq.
  cbn [ret]. rewrite bind_eq. destruct (get_edata_same (set_cpd (Some i) o)) as (d & A & B & C & D & E).
  destruct (get_edata (set_cpd (Some i) o)) as [r o1]. cbn [fst snd] in *. subst r o1.
  eexists. split; [unfold ret; rewrite B; reflexivity|]. split; [|reflexivity].
  unfold data_of at 1. cbn. exact B.
Qed.
Theorem getitem_missing i s (o : obj) : has_file fs o i -> ini_has_section i s = false -> section_of o s = None ->
  fst (getitem K fs fuel s o) = Err KeyError /\ fst (data_items K fs fuel s o) = Err KeyError /\
  fst (has_section K fs fuel s o) = Ok false.
Proof.
  intros H N S.
  assert (M : dmem s (data_of o) = false) by (unfold dmem; unfold section_of in S; now rewrite S).
  assert (A : forall o : obj, has_file fs o i -> dmem s (data_of o) = false -> fst (getitem K fs fuel s o) = Err KeyError).
  { intros x Hx Mx. unfold getitem. rewrite bind_eq.
    destruct (has_section_missing i s x Hx N) as (o' & E & _). rewrite E, Mx. reflexivity. }
  split; [auto|]. split.
  - unfold data_items, data_options, data_keys. rewrite bind_eq. rewrite bind_eq, (get_cpd_ready fs i o H).
    unfold ret. apply A; [reflexivity|exact M].
  - destruct (has_section_missing i s o H N) as (o' & E & _). now rewrite E, M.
Qed.
Theorem unroll_missing i s b (o : obj) : has_file fs o i -> ini_has_section i s = false -> section_of o s = None ->
  fst (unroll_to_str K fs fuel (Some s) b false o) = Err KeyError.
Proof.
  intros H N S. unfold unroll_to_str, unroll_self. rewrite bind_eq. unfold get at 1. rewrite bind_eq.
  unfold set_level at 1, modify at 1. cbn zeta. rewrite bind_eq. unfold data_sections, data_keys. rewrite bind_eq.
  rewrite (get_cpd_ready fs i); [|unfold has_file in H; rewrite <- H; now apply get_cpd_fst_ext].
  unfold ret at 1. rewrite bind_eq. unfold generate_section. rewrite bind_eq.
  match goal with |- context [has_section K fs fuel s ?x] => set (o1 := x) end.
  destruct (has_section_missing i s o1 eq_refl N) as (o' & E & _). rewrite E.
  change (data_of o1) with (data_of o). unfold section_of in S. unfold dmem. rewrite S. reflexivity.
Qed.

Theorem unroll_base_only_files section b (o o' : obj) : o_files o = o_files o' ->
  fst (unroll_to_str K fs fuel section b true o) = fst (unroll_to_str K fs fuel section b true o').
Proof.
  intros E. unfold unroll_to_str. rewrite E. destruct (o_files o') as [fl|]; auto.
  now destruct (unroll_self (base_class (k_uniword K)) fs fuel section b (set_files (Some fl) (new_obj tt))).
Qed.
End P4.
