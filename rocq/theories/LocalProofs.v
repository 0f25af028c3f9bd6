(** * A parse depends only on the sections it comes to. *)
From Coq Require Import String NArith ZArith List Bool Lia Arith.
Import ListNotations.
From Verif Require Import PyBase PyFacts Shlex IniView IniRead ExcControl Debuggable Cpe SpecText SpecFile FileProofs MeaningProofs
  SpecBase SpecWalk SpecRun SpecParse BaseProofs Refine RefineRoot RefineOk RunProofs Trace WalkProofs
  ParseProofs ParseProofs2 ParseProofs3 ParseProofs4 SpecApi SpecLocal.
Local Open Scope list_scope.

Lemma items_agree i i' u : i_defname i = i_defname i' -> i_defs i = i_defs i' -> dget u (i_secs i) = dget u (i_secs i') ->
  ini_items i u = ini_items i' u.
Proof.
  destruct i as [a b c], i' as [a' b' c']; cbn. intros -> -> E. unfold ini_items, own_options, section_raw. cbn.
  destruct (str_eqb u c'); [reflexivity|]. rewrite E. destruct (dget u a'); reflexivity.
Qed.

Section L.
Context {Sh Us : Type} (K : pyclass Sh Us).
Notation ev := (ev Sh Us).
Notation obj := (obj Sh Us).
Variables i i' : ini.
Definition alike (u : str) : Prop := ini_items i u = ini_items i' u.

Lemma alike_shows u items : alike u -> section_shows i u items -> section_shows i' u items.
Proof. unfold alike. intros E H. apply shows_iff in H. apply shows_iff. congruence. Qed.

Lemma walk_alike :
  (forall path s evs n, walk K i path s evs n -> (forall u, reaches K i s u -> alike u) -> walk K i' path s evs n) /\
  (forall path s items evs n, walk_options K i path s items evs n ->
     (forall item t h k v u, In item items -> meaning K s item (MUse t h k v) -> reaches K i t u -> alike u) ->
     walk_options K i' path s items evs n).
Proof.
  apply walk_both.
  - intros path s N A. apply walk_missing. specialize (A s (reach_refl K i s)). unfold alike in A. filed. apply absent_iff. congruence.
  - intros path s items evs n H W IH A. assert (H' : section_shows i s items) by (apply shows_iff; assumption). econstructor.
    + eapply alike_shows; [|exact H']. apply A. constructor.
    + apply IH. intros item t h k v u IN M R. apply A. econstructor; [|exact R]. exists items, item, h, k, v. auto.
  - intros. constructor.
  - intros path s item rest e evs n M W IH A. apply wo_step; auto. apply IH. intros. eapply A; eauto. now right.
  - intros path s item rest t h k v evs1 n1 evs2 n2 M NI W1 IH1 W2 IH2 A. apply wo_use; auto.
    + apply IH1. intros u R. eapply A; eauto. now left.
    + apply IH2. intros. eapply A; eauto. now right.
  - intros path s item rest t h k v evs n M IN W IH A. apply wo_cycle; auto. apply IH. intros. eapply A; eauto. now right.
Qed.

Lemma reaches_back s u : reaches K i' s u -> (forall v, reaches K i s v -> alike v) -> reaches K i s u.
Proof.
  induction 1 as [s|s t u (items & item & h & k & v & S & IN & M) R IH]; intros A; [constructor|].
  assert (U : uses K i s t).
  { exists items, item, h, k, v. split; auto. apply shows_iff in S. apply shows_iff. rewrite <- S. exact (A s (reach_refl K i s)). }
  econstructor; [exact U|]. apply IH. intros w Rw. apply A. econstructor; eauto.
Qed.

Lemma parse_walk_alike dname s init fin evs n : agree_for K i i' dname s init ->
  parse_walk K i dname s init fin evs n -> parse_walk K i' dname s init fin evs n.
Proof.
  intros (DN & DF & A & D) W.
  assert (AL : forall u, contributes K i dname s init u -> alike u) by (intros u C; apply items_agree; auto).
  assert (DW : forall e m, (if init then default_walk K i dname e m else e = [] /\ m = 0) ->
                           (if init then default_walk K i' dname e m else e = [] /\ m = 0)).
  { intros e m H. destruct init; auto. unfold default_walk in *. specialize (D eq_refl).
    assert (HS : ini_has_section i' dname = ini_has_section i dname) by (unfold ini_has_section, dmem; now rewrite D).
    rewrite HS. destruct (ini_has_section i dname) eqn:Q; auto. apply (proj1 walk_alike); auto.
    intros u R. apply AL. right. auto. }
  assert (AS : alike s) by (apply AL; left; constructor).
  inversion W as [e0 n0 H N|e0 n0 items e m H SS O]; subst.
  - apply pw_missing; [exact (DW _ _ H)|]. apply absent_iff. apply absent_iff in N. unfold alike in AS. congruence.
  - eapply pw_section; [exact (DW _ _ H)|eapply alike_shows; eauto|].
    apply (proj2 walk_alike); auto. intros item t h k v u IN M R. apply AL. left. econstructor; [|exact R]. exists items, item, h, k, v. auto.
Qed.

Lemma default_ok_alike dname s init : agree_for K i i' dname s init -> default_ok K i dname s init -> default_ok K i' dname s init.
Proof.
  intros (DN & DF & A & D) H HI HS NE R. specialize (D HI).
  assert (HS' : ini_has_section i dname = true) by (unfold ini_has_section, dmem in *; now rewrite D).
  apply (H HI HS' NE). apply reaches_back; auto. intros v Rv. apply items_agree; auto. apply A. right. auto.
Qed.
End L.

Theorem parse_local {Sh Us} (K : pyclass Sh Us) fs fs' i i' fuel fuel' s init fin (o o' : obj Sh Us) :
  s <> [] -> has_file fs o i -> has_file fs' o' i' -> level_ok o ->
  length (ini_sections i) + 3 <= fuel -> length (ini_sections i') + 3 <= fuel' ->
  default_ok K i (o_defname o) s init -> agree_for K i i' (o_defname o) s init ->
  o_defname o' = o_defname o -> level_of o' = level_of o -> path_set_of o' = path_set_of o -> o_debug o' = o_debug o ->
  o_user o' = o_user o -> options_of o' s = options_of o s ->
  let '(r1, o1) := parse_section_str K fs fuel s init fin o in
  let '(r2, o2) := parse_section_str K fs' fuel' s init fin o' in
  r1 = r2 /\ o_user o1 = o_user o2 /\ options_of o1 s = options_of o2 s /\ log_of o1 = log_of o2.
Proof.
  intros NE H H' L F F' DO AG ED EL EP EB EU EO.
  destruct (parse_outcome K fs i fuel s init fin o NE H L DO F) as (evs & n & r & sh & us & done & o1 & W & R & E & P & Q).
  assert (L' : level_ok o') by (unfold level_ok in *; now rewrite EL).
  assert (DO' : default_ok K i' (o_defname o') s init) by (rewrite ED; eapply default_ok_alike; eauto).
  destruct (parse_outcome K fs' i' fuel' s init fin o' NE H' L' DO' F') as (evs' & n' & r' & sh' & us' & done' & o2 & W' & R' & E' & P' & Q').
  rewrite ED in W'. pose proof (parse_walk_alike K i i' _ _ _ _ _ _ AG W) as W2.
  destruct (parse_walk_unique K i' _ _ _ _ _ _ _ _ W2 W') as [-> ->].
  rewrite EL, EP, EU, R in R'. inversion R'; subst r' sh' us' done'. clear R'.
  pose proof (parse_section_log K fs i fuel s init fin o evs n NE H (proj1 L) W DO) as G.
  pose proof (parse_section_log K fs' i' fuel' s init fin o' evs n NE H' (proj1 L') ltac:(rewrite ED; exact W2) DO') as G'.
  rewrite E in G. rewrite E' in G'. cbn [snd] in G, G'. rewrite E, E'.
  split; [reflexivity|]. split; [now rewrite (pa_user _ _ _ _ _ _ _ _ _ _ P), (pa_user _ _ _ _ _ _ _ _ _ _ P')|]. split.
  - rewrite !options_of_opts, (pa_data _ _ _ _ _ _ _ _ _ _ P), (pa_data _ _ _ _ _ _ _ _ _ _ P'), !opts_data_after, str_eqb_refl.
    rewrite !options_of_opts in EO. now rewrite EO.
  - destruct (parse_walk_exists K i (o_defname o) s init fin) as (e3 & n3 & W3 & N3).
    destruct (parse_walk_unique K i _ _ _ _ _ _ _ _ W W3) as [_ ->].
    destruct (parse_walk_exists K i' (o_defname o) s init fin) as (e4 & n4 & W4 & N4).
    destruct (parse_walk_unique K i' _ _ _ _ _ _ _ _ W2 W4) as [_ ->].
    rewrite G, G', EB, EL, EP, EU by lia. reflexivity.
Qed.

Theorem expansion_local {Sh Us} (K : pyclass Sh Us) i i' dname s d : agree_for K i i' dname s true ->
  SpecApi.expansion K i dname s d -> SpecApi.expansion K i' dname s d.
Proof. intros A (evs & n & W & ->). exists evs, n. split; auto. eapply parse_walk_alike; eauto. Qed.
