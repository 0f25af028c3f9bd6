(** * Proofs of C14: sections first parsed after the assignment. *)
From Coq Require Import String NArith ZArith List Bool Lia Arith ZifyBool.
Import ListNotations.
From Verif Require Import PyBase PyFacts Shlex IniView IniRead ExcControl Debuggable Cpe
  SpecBase SpecWalk SpecRun SpecParse SpecApi SpecReload BaseProofs Refine RefineRoot RefineOk RunProofs Trace WalkProofs
  ParseProofs ParseProofs2 ParseProofs3 ParseProofs4 ApiProofs ApiProofs2 ApiProofs3 ApiProofs4 ApiProofs5 ApiProofs6 ReloadProofs.
Local Open Scope sm_scope.

Section C.
Context {Sh Us : Type} (K : pyclass Sh Us) (fs : str -> option str) (fuel : nat) (s : str).
Notation obj := (obj Sh Us).
Notation owner := (parse_owner (owner_parse K fs fuel)).
Notation parse t := (parse_section_str K fs fuel t true true).

(** ** What calls about other sections leave alone *)
Variables (fl : list str) (dname : str) (lvl : Z) (b : bool) (x : option (dict (option str))) (j : option ini).
Record still (o : obj) : Prop := {
  st_files : o_files o = Some fl;
  st_def : o_defname o = dname;
  st_level : level_of o = lvl;
  st_nodup : NoDup (dkeys (data_of o));
  st_checked : str_mem s (checked_of o) = b;
  st_section : match x with Some d => section_of o s = Some d | None => options_of o s = [] end;
  st_file : match j with Some i => has_file fs o i | None => True end
}.

Lemma still_ext (o o' : obj) : o_files o' = o_files o -> o_defname o' = o_defname o -> o_ec o' = o_ec o ->
  data_of o' = data_of o -> checked_of o' = checked_of o -> (forall i, has_file fs o i -> has_file fs o' i) ->
  still o -> still o'.
Proof.
  intros A B C D E H [a1 a2 a3 a4 a5 a6 a7]. constructor; try congruence.
  - unfold level_of in *. congruence.
  - destruct x; unfold options_of, section_of in *; now rewrite D.
  - destruct j; auto.
Qed.

Lemma data_after_empty root (es : list (ev Sh Us)) : root <> s -> forall l : sections_data, match dget s l with Some d => d | None => [] end = [] ->
  match dget s (data_after root es l) with Some d => d | None => [] end = [].
Proof.
  intros N. induction es as [|e es IH]; intros l H; cbn [data_after fold_left]; auto.
  apply IH. destruct e; cbn [data_step]; auto.
  - unfold ensure. destruct (dmem s0 l) eqn:E; auto. rewrite dget_dset.
    destruct (str_eqb_spec s s0) as [Q|_]; auto.
  - unfold write. rewrite dget_dset. destruct (str_eqb_spec s root) as [Q|_]; auto. congruence.
Qed.
Lemma still_parse t (o : obj) : t <> s -> still o -> still (snd (parse t o)).
Proof.
  intros N [a1 a2 a3 a4 a5 a6 a7]. constructor.
  - now rewrite parse_files.
  - now rewrite parse_defname.
  - unfold level_of. now rewrite parse_ec.
  - pose proof (parse_section_any K fs fuel t true true o) as X.
    destruct (parse t o) as [r o']. destruct X as (es & D & _). cbn [snd]. rewrite D. now apply NoDup_data_after.
  - rewrite parse_checked; auto.
  - pose proof (parse_section_any K fs fuel t true true o) as X.
    destruct (parse t o) as [r o']. destruct X as (es & D & _). cbn [snd].
    unfold options_of, section_of in *. rewrite D. destruct x as [d|].
    + now apply (data_after_kept s d).
    + now apply data_after_empty.
  - destruct j as [i|]; auto. now apply parse_section_keeps_file.
Qed.
Lemma still_owner t force : t <> s -> keeps still (owner t force).
Proof.
  intros N o H. destruct (owner_eq K fs fuel t force o) as (o1 & D1 & C1 & F1 & CF & _ & E). rewrite E.
  destruct (negb (str_mem t (checked_of o)) || force) eqn:B.
  - rewrite bind_eq. match goal with |- context [parse_section_str K fs fuel t true true ?y] => set (o2 := y) end.
    assert (H2 : still o2).
    { destruct H as [a1 a2 a3 a4 a5 a6 a7]. constructor; auto.
      - change (str_mem s (sadd t (checked_of o)) = b). rewrite str_mem_sadd, a5.
        assert (NE : s <> t) by auto. apply str_eqb_neq in NE. now rewrite NE.
      - destruct j as [i|]; auto. unfold has_file; rewrite <- a7; now apply get_cpd_fst_ext. }
    pose proof (still_parse t o2 N H2) as R. destruct (parse t o2) as [[v|e] o3]; exact R.
  - unfold conf in CF. injection CF as c1 c2 c3 c4 c5 c6 c7. apply (still_ext o); auto.
Qed.
Lemma still_cpd : keeps still (get_cpd fs).
Proof.
  intros o H. pose proof H as [a1 a2 a3 a4 a5 a6 a7].
  assert (X : forall o', snd (get_cpd fs o) = o' -> o_files o' = o_files o /\ o_defname o' = o_defname o /\ o_ec o' = o_ec o /\
    data_of o' = data_of o /\ checked_of o' = checked_of o).
  { intros o' <-. unfold get_cpd. destruct (o_cpd o); [auto|]. cbn zeta. cbn [o_files set_cpd].
    destruct (o_files o) as [[|p ps]|] eqn:F; cbn [snd]; try (rewrite <- F; repeat split; reflexivity).
    destruct (forallb (file_exists fs) (p :: ps)); cbn [snd]; [|rewrite <- F; repeat split; reflexivity].
    match goal with |- context [read_files ?u ?v ?w] => destruct (read_files u v w) as [[[]|[]] k] end; cbn [snd];
      rewrite <- F; repeat split; reflexivity. }
  destruct (X _ eq_refl) as (X1 & X2 & X3 & X4 & X5). apply (still_ext o); auto.
  intros i Hi. rewrite (get_cpd_ready fs i o Hi). reflexivity.
Qed.
Lemma still_edata : keeps still get_edata.
Proof.
  intros o H. destruct (get_edata_same o) as (e & A & B & C & D & E). rewrite E.
  apply (still_ext o); auto. intros i Hi. unfold has_file. rewrite <- Hi. now apply get_cpd_fst_ext.
Qed.
Lemma still_out l (o : obj) : still o -> still (add_out l o).
Proof.
  intros H. apply (still_ext o); auto. intros i Hi. unfold has_file. rewrite <- Hi. now apply get_cpd_fst_ext.
Qed.
Local Hint Resolve still_cpd still_edata keeps_ret keeps_raise : core.

Lemma s_has_section t : t <> s -> keeps still (has_section K fs fuel t).
Proof.
  intros N. unfold has_section, data_has_section. apply keeps_bind; auto. intros i. apply keeps_bind.
  - destruct (ini_has_section i t); auto. apply keeps_bind; auto. intros d.
    destruct (str_mem t (d_checked d)); auto. now apply still_owner.
  - intros _. apply keeps_bind; auto.
Qed.
Lemma s_data_section t : keeps still (data_section t).
Proof. apply keeps_bind; auto. intros d. destruct (dget t (d_data d)); auto. Qed.
Lemma s_getitem t : t <> s -> keeps still (getitem K fs fuel t).
Proof. intros N. apply keeps_bind; [now apply s_has_section|]. intros []; auto. apply s_data_section. Qed.
Lemma s_has_option t k : t <> s -> keeps still (has_option K fs fuel t k).
Proof. intros N. apply keeps_bind; [now apply still_owner|]. intros _. apply keeps_bind; auto. Qed.
Lemma s_get t k : t <> s -> keeps still (data_get K fs fuel t k).
Proof.
  intros N. apply keeps_bind; auto. intros d. apply keeps_bind.
  { destruct (str_mem t (d_checked d)); auto. now apply still_owner. }
  intros _. apply keeps_bind; [now apply s_has_section|]. intros []; auto. destruct k as [k|].
  - apply keeps_bind; [now apply s_has_option|]. intros []; auto.
    apply keeps_bind; [apply s_data_section|]. intros y. destruct (dget k y); auto.
  - apply keeps_bind; [apply s_data_section|]. auto.
Qed.
Lemma s_keys : keeps still (data_keys fs).
Proof. apply keeps_bind; auto. Qed.
Lemma s_known : keeps still (get_known_operations K fs).
Proof.
  apply keeps_bind; auto. intros _. apply keeps_bind; auto. intros _.
  apply keeps_bind; [apply keeps_get_files|auto].
Qed.
Lemma s_assert_section t r : t <> s -> keeps still (assert_section K fs fuel t r).
Proof.
  intros N. apply keeps_bind; [now apply s_get|]. intros [[|kv d]|v]; auto. destruct r; auto.
  apply keeps_bind; [apply keeps_get_files|]. intros files.
  apply keeps_bind; [apply keeps_bind; [apply s_known|auto]|]. intros m. cbn zeta.
  apply keeps_bind; [apply keeps_event; intros; now apply still_out|auto].
Qed.

Lemma spared_exec c : spares s c = true -> (forall z, c <> OLevel z) -> keeps still (exec_op K fs fuel c).
Proof.
  intros S NL. unfold spares in S. destruct c as [t| |t|t|t k|t|t k| |t|p| | |t r| | | |z|z]; cbn [names] in S; try discriminate;
    try (apply negb_true_iff, str_eqb_neq in S); cbn [exec_op]; unfold fmap; apply keeps_bind; auto.
  - intros o H. now apply still_parse.
  - now apply s_getitem.
  - now apply s_getitem.
  - now apply s_get.
  - now apply s_has_section.
  - now apply s_has_option.
  - apply keeps_bind; [apply s_keys|]. intros _. now apply s_getitem.
  - destruct p as [[]|y|]; try discriminate; cbn [data_sections]; [apply s_keys|auto].
  - apply s_keys.
  - apply keeps_bind; [apply s_keys|auto].
  - now apply s_assert_section.
  - apply s_known.
  - destruct (NL z eq_refl).
  - apply keeps_modify. intros o H. apply (still_ext o); auto.
    intros i Hi. unfold has_file. rewrite <- Hi. now apply get_cpd_fst_ext.
Qed.
End C.

(** ** The section itself *)
Section D.
Context {Sh Us : Type} (K : pyclass Sh Us) (fs : str -> option str) (i : ini) (dname : str) (fuel : nat) (s : str) (fl : list str).
Notation obj := (obj Sh Us).
Hypothesis WB : well_behaved K.
Hypothesis F : length (ini_sections i) + 3 <= fuel.
Hypothesis PA : parsable K i dname s.
Let G (t : str) : Prop := t = s.
Lemma GP : forall t, G t -> parsable K i dname t.
Proof. intros t ->. exact PA. Qed.
Notation inv := (inv K fs i dname G False fl).
Notation still := (still fs s fl dname).

Lemma inv_still (o : obj) : inv o -> exists b x, still (level_of o) b x (Some i) o /\
  (b = true -> exists d, x = Some d /\ expansion K i dname s d) /\ (b = false -> x = None).
Proof.
  intros [v1 v2 v3 v4 v5 v6 v7 v8 v9]. destruct (str_mem s (checked_of o)) eqn:M.
  - destruct (v6 s eq_refl M) as (d & X & S). exists true, (Some d). split; [constructor; auto|].
    split; [eauto|discriminate].
  - exists false, None. split; [constructor; auto; apply v7; auto; reflexivity|]. split; [discriminate|auto].
Qed.
Lemma still_inv lvl b x (o : obj) : still lvl b x (Some i) o -> (0 <= lvl <= 5)%Z -> ((lvl < 5)%Z \/ acyclic K i dname s) ->
  (b = true -> exists d, x = Some d /\ expansion K i dname s d) -> (b = false -> x = None) -> inv o.
Proof.
  intros [a1 a2 a3 a4 a5 a6 a7] L S B1 B2. constructor; auto.
  - unfold level_ok. now rewrite a3.
  - rewrite a3. destruct S as [S|S]; [now left|right; intros t ->; auto].
  - intros t -> M. rewrite M in a5. destruct (B1 (eq_sym a5)) as (d & -> & X). eauto.
  - intros t -> M. rewrite M in a5. rewrite (B2 (eq_sym a5)) in a6. auto.
  - intros [].
Qed.

Notation allowed := (allowed K i dname s).

Lemma named_exec c (o : obj) : inv o -> names c = Some s ->
  answers K i dname (level_of o) c (fst (exec_op K fs fuel c o)) /\ inv (snd (exec_op K fs fuel c o)).
Proof.
  intros V N. assert (g : G s) by reflexivity. destruct (expansion_exists K i dname s) as (d & X).
  assert (Q : forall o', goes K fs i dname G False fl o o' -> inv o') by (intros o' [A B _]; auto).
  destruct c; cbn [names] in N; try discriminate; injection N as ->; cbn [exec_op] in *; unfold fmap; rewrite bind_eq.
  - destruct (parse_good K fs i dname fuel WB F G False GP _ s _ V g) as (v & o' & E & GO & _). rewrite E.
    cbn. split; [constructor|auto].
  - destruct (getitem_good K fs i dname fuel WB F G False GP _ s _ d V g X) as (o' & E & GO & _). rewrite E.
    cbn. split; [now constructor|auto].
  - unfold data_options.
    destruct (getitem_good K fs i dname fuel WB F G False GP _ s _ d V g X) as (o' & E & GO & _). rewrite E.
    cbn. split; [now constructor|auto].
  - destruct (data_get_good K fs i dname fuel WB F G False GP _ s k _ d V g X) as (o' & E & GO). rewrite E.
    destruct k as [k|]; [destruct (dget k d) eqn:D|]; cbn; (split; [|now apply Q]).
    + eapply a_get_opt; eauto.
    + eapply a_get_no_opt; eauto.
    + now constructor.
  - destruct (has_section_good K fs i dname fuel WB F G False GP _ s _ V g) as (o' & E & GO & _). rewrite E.
    cbn. split; [constructor|auto].
  - destruct (has_option_good K fs i dname fuel WB F G False GP _ s k _ d V g X) as (o' & E & GO & _). rewrite E.
    cbn. split; [now constructor|auto].
  - destruct (items_of_good K fs i dname fuel WB F G False GP _ s _ d V g X) as (o' & E & GO). rewrite E.
    cbn. split; [now constructor|auto].
  - destruct (assert_section_good K fs i dname fuel WB F G False GP _ s do_raise _ d V g X) as (r & o' & E & GO & A & B).
    rewrite E. destruct d as [|kv d].
    + rewrite A by auto. cbn. split; [now constructor|auto].
    + specialize (B ltac:(discriminate)). destruct (do_raise && (3 <=? level_of o)%Z) eqn:C.
      * subst r. apply andb_true_iff in C as [-> C]. cbn. split; [|auto].
        eapply a_unhandled_raise; eauto; [discriminate|lia].
      * destruct B as (m & -> & L). cbn. split; [|auto]. eapply a_unhandled; eauto; [discriminate|].
        apply andb_false_iff in C as [C|C]; auto. right. lia.
Qed.

Lemma allowed_exec c (o : obj) : inv o -> allowed c -> inv (snd (exec_op K fs fuel c o)).
Proof.
  intros V [N|[S L]]; [now apply named_exec|].
  destruct (inv_still o V) as (b & x & ST & B1 & B2).
  assert (LO : level_ok o) by apply (iv_level _ _ _ _ _ _ _ _ V).
  assert (SA : (level_of o < 5)%Z \/ acyclic K i dname s).
  { destruct (iv_safe _ _ _ _ _ _ _ _ V) as [A|A]; [now left|right; now apply A]. }
  assert (NL : (forall z, c <> OLevel z) \/ exists z, c = OLevel z) by (destruct c; eauto; left; discriminate).
  destruct NL as [NL|(z & ->)].
  - apply (still_inv (level_of o) b x); auto. now apply spared_exec.
  - cbn [exec_op]. rewrite snd_fmap. unfold set_level, modify. cbn [snd].
    replace (ec_set_level z (o_ec o)) with (ec_set_level (Z.min 5 (Z.max 0 z)) (o_ec o)).
    2:{ unfold ec_set_level. f_equal. lia. }
    apply (inv_level K fs i dname fuel F G False); auto; [lia|].
    destruct L as [L|L]; [left; lia|right; intros t ->; auto].
Qed.
Lemma allowed_after h : forall o, inv o -> Forall allowed h -> inv (after K fs fuel h o).
Proof.
  induction h as [|c h IH]; intros o V FA; cbn [after]; auto. inversion FA; subst. apply IH; auto. now apply allowed_exec.
Qed.
End D.

(** ** Before the assignment: any calls that spare the section *)
Lemma spared_after {Sh Us} (K : pyclass Sh Us) fs fuel s fl dname h : forall (o : obj Sh Us) lvl,
  (0 <= lvl <= 5)%Z -> still fs s fl dname lvl false None None o -> forallb (spares s) h = true ->
  exists lvl', (0 <= lvl' <= 5)%Z /\ still fs s fl dname lvl' false None None (after K fs fuel h o).
Proof.
  induction h as [|c h IH]; intros o lvl L ST SP; cbn [after forallb] in *; eauto.
  apply andb_true_iff in SP as [S SP].
  assert (NL : (forall z, c <> OLevel z) \/ exists z, c = OLevel z) by (destruct c; eauto; left; discriminate).
  destruct NL as [NL|(z & ->)].
  - apply (IH _ lvl); auto. now apply spared_exec.
  - apply (IH _ (Z.min 5 (Z.max 0 z))); auto; [lia|]. cbn [exec_op]. rewrite snd_fmap. unfold set_level, modify. cbn [snd].
    destruct ST as [a1 a2 a3 a4 a5 a6 a7]. constructor; auto.
Qed.

Theorem other_sections_follow {Sh Us} (K : pyclass Sh Us) fs fuel h (o : obj Sh Us) s a ps fs' j fuel' h' c o1 :
  well_behaved K -> o_edata o = None -> path_set_of o = true -> level_ok o -> forallb (spares s) h = true ->
  paths_of a = Some ps -> set_inifilepath a (after K fs fuel h o) = (Ok tt, o1) -> has_file fs' o1 j ->
  parsable K j (o_defname o) s -> length (ini_sections j) + 3 <= fuel' ->
  ((level_of o1 < 5)%Z \/ acyclic K j (o_defname o) s) ->
  Forall (allowed K j (o_defname o) s) h' -> names c = Some s ->
  let o' := after K fs' fuel' h' o1 in
  answers K j (o_defname o) (level_of o') c (fst (exec_op K fs' fuel' c o')).
Proof.
  intros WB ED PS LO SP PO SE HF PA FU SA FA N o'.
  unfold path_set_of in PS. destruct (o_files o) as [fl|] eqn:FI; [|discriminate].
  assert (D0 : data_of o = []) by (unfold data_of; now rewrite ED).
  assert (ST : still fs s fl (o_defname o) (level_of o) false None None o).
  { constructor; auto.
    - rewrite D0. constructor.
    - unfold checked_of. now rewrite ED.
    - unfold options_of, section_of. now rewrite D0. }
  destruct (spared_after K fs fuel s fl _ h o _ LO ST SP) as (lvl & L & [a1 a2 a3 a4 a5 a6 a7]).
  destruct (assignment a ps fl _ PO a1) as (o2 & E & E1 & E2 & E3 & E4 & E5 & E6 & E7 & E8 & E9 & _).
  rewrite SE in E. injection E as <-.
  assert (DD : data_of o1 = data_of (after K fs fuel h o)) by (unfold data_of; now rewrite E4).
  assert (CC : checked_of o1 = checked_of (after K fs fuel h o)) by (unfold checked_of; now rewrite E4).
  assert (ST1 : still fs' s ps (o_defname o) (level_of o1) false None (Some j) o1).
  { constructor; auto; try congruence. unfold options_of, section_of in *. now rewrite DD. }
  assert (LO1 : (0 <= level_of o1 <= 5)%Z) by (unfold level_of in *; rewrite E7; lia).
  assert (V : inv K fs' j (o_defname o) (fun t => t = s) False ps o1).
  { apply (still_inv K fs' j (o_defname o) s ps (level_of o1) false None); auto. discriminate. }
  apply (named_exec K fs' j (o_defname o) fuel' s ps WB FU PA); auto.
  now apply (allowed_after K fs' j (o_defname o) fuel' s ps WB FU PA).
Qed.
