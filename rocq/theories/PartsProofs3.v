(** * Proofs of C93: the order of the sections does not matter to the answers. *)
From Coq Require Import String NArith ZArith List Bool Lia Arith Permutation.
Import ListNotations.
From Verif Require Import PyBase PyFacts Shlex IniView IniRead ExcControl Debuggable Cpe SpecText SpecFile FileProofs MeaningProofs
  SpecBase SpecWalk SpecRun SpecParse BaseProofs Refine RefineRoot RefineOk RunProofs Trace WalkProofs
  ParseProofs ParseProofs2 ParseProofs3 ParseProofs4 SpecApi ApiProofs ApiProofs2 SpecLocal LocalProofs SpecRead SpecParts PartsProofs2.
Local Open Scope list_scope.

Lemma shuffled_sym i i' : shuffled i i' -> shuffled i' i.
Proof.
  intros (P & N & D & E). split; [now apply Permutation_sym|]. split; [|auto]. unfold ini_sections in *.
  eapply Permutation_NoDup; [|exact N]. now apply Permutation_map.
Qed.
Lemma shuffled_get i i' u : shuffled i i' -> dget u (i_secs i) = dget u (i_secs i').
Proof.
  intros S. pose proof (shuffled_sym _ _ S) as (_ & N' & _). destruct S as (P & N & _). unfold ini_sections in *.
  destruct (dget u (i_secs i)) as [o|] eqn:E.
  - symmetry. apply In_dget; [exact N'|]. apply (Permutation_in _ P), dget_Some_In, E.
  - destruct (dget u (i_secs i')) as [o|] eqn:E'; [|reflexivity]. apply dget_Some_In in E'. apply (Permutation_in _ (Permutation_sym P)) in E'.
    apply (In_dget _ _ _ N) in E'. congruence.
Qed.
Lemma shuffled_items i i' u : shuffled i i' -> alike i i' u.
Proof. intros S. pose proof (shuffled_get i i' u S). destruct S as (_ & _ & D & E). now apply items_agree. Qed.
Lemma shuffled_has i i' u : shuffled i i' -> ini_has_section i u = ini_has_section i' u.
Proof. intros S. unfold ini_has_section, dmem. now rewrite (shuffled_get i i' u S). Qed.
Lemma shuffled_length i i' : shuffled i i' -> length (ini_sections i) = length (ini_sections i').
Proof. intros (P & _). unfold ini_sections, dkeys. rewrite !map_length. now apply Permutation_length. Qed.

Section S.
Context {Sh Us : Type} (K : pyclass Sh Us).

Lemma shuffled_agree i i' dname s init : shuffled i i' -> agree_for K i i' dname s init.
Proof.
  intros S. pose proof (fun u => shuffled_get i i' u S) as G. destruct S as (_ & _ & D & E). split; [exact E|]. split; [exact D|]. split; intros; apply G.
Qed.
Lemma shuffled_shows i i' u items : shuffled i i' -> section_shows i u items -> section_shows i' u items.
Proof. intros S. apply alike_shows. now apply shuffled_items. Qed.
Lemma shuffled_uses i i' s t : shuffled i i' -> uses K i s t -> uses K i' s t.
Proof. intros S (items & item & h & k & v & A & B). exists items, item, h, k, v. split; [eapply shuffled_shows; eauto|exact B]. Qed.
Lemma shuffled_reaches i i' s t : shuffled i i' -> reaches K i s t -> reaches K i' s t.
Proof. intros S. induction 1 as [|s t u U R IH]; [constructor|]. econstructor; [eapply shuffled_uses; eauto|exact IH]. Qed.
Lemma shuffled_contributes i i' dname s init t : shuffled i i' -> contributes K i dname s init t -> contributes K i' dname s init t.
Proof.
  intros S [R|(A & B & C)]; [left|right]; [eapply shuffled_reaches; eauto|]. split; [exact A|]. split; [|eapply shuffled_reaches; eauto].
  now rewrite <- (shuffled_has i i').
Qed.
Lemma shuffled_cycle i i' t : shuffled i i' -> on_cycle K i t -> on_cycle K i' t.
Proof. intros S (u & U & R). exists u. split; [eapply shuffled_uses|eapply shuffled_reaches]; eauto. Qed.
Lemma shuffled_acyclic i i' dname s : shuffled i i' -> acyclic K i dname s -> acyclic K i' dname s.
Proof.
  intros S A t C Y. apply shuffled_sym in S. apply (A t); [eapply shuffled_contributes|eapply shuffled_cycle]; eauto.
Qed.
Lemma shuffled_clean i i' t : shuffled i i' -> clean_section K i t -> clean_section K i' t.
Proof. intros S (items & A & B). exists items. split; [eapply shuffled_shows; eauto|exact B]. Qed.
Lemma shuffled_parsable i i' dname : shuffled i i' -> all_parsable K i dname -> all_parsable K i' dname.
Proof.
  intros S A s H. rewrite <- (shuffled_has i i' s S) in H. destruct (A s H) as (NE & _ & D & C). split; [exact NE|].
  split; [now rewrite <- (shuffled_has i i' s S)|]. split; [apply (default_ok_alike K i i'); [apply (shuffled_agree i i'); exact S|exact D]|].
  intros t X. eapply shuffled_clean; [exact S|]. apply C. eapply shuffled_contributes; [apply shuffled_sym; exact S|exact X].
Qed.
Lemma shuffled_in_file i i' dname c : shuffled i i' -> in_file K i dname c -> in_file K i' dname c.
Proof.
  intros S. destruct c; cbn [in_file]; try rewrite (shuffled_has i i' _ S); auto.
  - destruct s; [rewrite (shuffled_has i i' _ S)|]; auto.
  - intros [L|L]; [now left|right]. intros s H. rewrite <- (shuffled_has i i' _ S) in H. eapply shuffled_acyclic; eauto.
Qed.
Lemma shuffled_expansion i i' dname s d : shuffled i i' -> expansion K i dname s d -> expansion K i' dname s d.
Proof. intros S. apply expansion_local. now apply shuffled_agree. Qed.
Lemma shuffled_answers i i' dname lvl c r : shuffled i i' -> orderless c -> answers K i dname lvl c r -> answers K i' dname lvl c r.
Proof.
  intros S OL A. pose proof (fun s d => shuffled_expansion i i' dname s d S) as X. pose proof (fun s => shuffled_has i i' s S) as H.
  destruct A; cbn [orderless] in OL; try (destruct OL; fail); try (econstructor; eauto; fail).
  - apply a_items; [intros s G; rewrite <- H in G| |assumption].
    + destruct (H0 s G) as (d & E & Y). exists d. auto.
    + intros s d G. rewrite <- H in G. destruct S as (_ & _ & _ & <-). now apply H1.
  - rewrite (shuffled_length i i' S). constructor.
Qed.

Theorem shuffled_histories fs fs' i i' dname fuel fuel' (o o' : obj Sh Us) h h' c :
  well_behaved K -> length (ini_sections i) + 3 <= fuel -> length (ini_sections i) + 3 <= fuel' ->
  shuffled i i' -> all_parsable K i dname -> opened K fs i dname o -> opened K fs' i' dname o' ->
  Forall (in_file K i dname) h -> Forall (in_file K i dname) h' -> in_file K i dname c -> orderless c ->
  last_level h (level_of o) = last_level h' (level_of o') ->
  same_answer i c (fst (exec_op K fs fuel c (after K fs fuel h o))) (fst (exec_op K fs' fuel' c (after K fs' fuel' h' o'))).
Proof.
  intros WB F F' S GP O O' H H' C OL L.
  assert (GP' : all_parsable K i' dname) by (eapply shuffled_parsable; eauto).
  assert (HH : Forall (in_file K i' dname) h') by (eapply Forall_impl; [|exact H']; intros x; now apply shuffled_in_file).
  assert (F2 : length (ini_sections i') + 3 <= fuel') by (rewrite <- (shuffled_length i i' S); exact F').
  eapply (answers_unique K i dname) with (lvl := last_level h (level_of o)) (fuel := fuel); [exact F| |].
  - rewrite <- (history_level K fs i dname fuel) by assumption. now apply history_answers.
  - apply (shuffled_answers i' i dname); [now apply shuffled_sym|exact OL|].
    rewrite L, <- (history_level K fs' i' dname fuel' WB F2 GP' h' o' O' HH). apply history_answers; auto. eapply shuffled_in_file; eauto.
Qed.

Theorem shuffled_parse fs fs' i i' fuel fuel' s init fin (o o' : obj Sh Us) :
  s <> [] -> has_file fs o i -> has_file fs' o' i' -> shuffled i i' -> level_ok o ->
  length (ini_sections i) + 3 <= fuel -> length (ini_sections i) + 3 <= fuel' ->
  default_ok K i (o_defname o) s init ->
  o_defname o' = o_defname o -> level_of o' = level_of o -> path_set_of o' = path_set_of o -> o_debug o' = o_debug o ->
  o_user o' = o_user o -> options_of o' s = options_of o s ->
  let '(r1, o1) := parse_section_str K fs fuel s init fin o in
  let '(r2, o2) := parse_section_str K fs' fuel' s init fin o' in
  r1 = r2 /\ o_user o1 = o_user o2 /\ options_of o1 s = options_of o2 s /\ log_of o1 = log_of o2.
Proof.
  intros NE H H' S L F F' D. apply (parse_local K fs fs' i i'); auto; [|now apply shuffled_agree]. now rewrite <- (shuffled_length i i' S).
Qed.
End S.

(** The same at objects. *)
Lemma texts_file_texts fs fl ts : texts_of fs fl ts -> forallb (file_exists fs) fl = true /\ file_texts fs fl = ts.
Proof.
  induction 1 as [|p t fl ts E _ (IH1 & IH2)]; [auto|]. split.
  - cbn [forallb]. unfold file_exists at 1. now rewrite E, IH1.
  - unfold file_texts in *. cbn [map]. now rewrite E, IH2.
Qed.
Theorem split_access {Sh Us} fs fs' (o o' : obj Sh Us) p fl first rest t ts i :
  o_cpd o = None -> o_cpd o' = None -> o_delims o' = o_delims o -> o_intname o' = o_intname o ->
  o_files o = Some [p] -> fs p = Some t -> o_files o' = Some fl -> texts_of fs' fl ts ->
  Forall begins_section rest -> Forall2 lines_of ts (first :: rest) -> lines_of t (concat (first :: rest)) ->
  has_file fs o i -> has_file fs' o' i.
Proof.
  intros C C' D N FL E FL' T B F L. unfold has_file, get_cpd. rewrite C, C'. cbn [o_files set_cpd o_delims]. rewrite FL, FL'.
  destruct (texts_file_texts _ _ _ T) as (X & Y).
  destruct fl as [|q fl]; [inversion T; subst; inversion F|]. rewrite X, Y, D, N. unfold file_texts. cbn [forallb map]. unfold file_exists at 1. rewrite E. cbn [andb read_files].
  intros H. assert (R : reads (o_delims o) (o_intname o) t i).
  { unfold reads, empty_ini. destruct (read_file (o_delims o) t (Ini [] [] (o_intname o))) as [[[]|e] j]; [cbn [fst] in H; congruence|].
    exfalso. destruct e; discriminate. }
  pose proof (parts_split _ _ _ _ _ _ _ B F L R) as S. unfold empty_ini in S. rewrite S. reflexivity.
Qed.
