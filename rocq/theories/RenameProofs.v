(** * Proofs of C95: the names of the sections do not matter. *)
From Coq Require Import String NArith ZArith List Bool Lia Arith.
Import ListNotations.
From Verif Require Import PyBase PyFacts Shlex IniView IniRead ExcControl Debuggable Cpe SpecText SpecFile FileProofs MeaningProofs
  SpecBase SpecWalk SpecRun SpecParse BaseProofs Refine RefineRoot RefineOk RunProofs Trace WalkProofs
  ParseProofs ParseProofs2 ParseProofs3 ParseProofs4 SpecApi ApiProofs ApiProofs2 SpecRename.
Local Open Scope list_scope.

Section R.
Context {Sh Us : Type} (K : pyclass Sh Us) (rho : str -> str) (i i' : ini).
Notation ev := (ev Sh Us).
Notation obj := (obj Sh Us).
Hypothesis RF : renamed_file K rho i i'.
Let inj : forall a b, rho a = rho b -> a = b := proj1 RF.
Let has : forall s, ini_has_section i' (rho s) = ini_has_section i s := proj1 (proj2 (proj2 RF)).
Let shows := proj1 (proj2 (proj2 (proj2 (proj2 RF)))).
Let there := proj2 (proj2 (proj2 (proj2 (proj2 RF)))).

Definition called (f : hbody Sh Us) : Prop := exists name kind, find_attr K name = Some (AUser kind f).
(** The steps of the two walks. *)
Inductive ren : ev -> ev -> Prop :=
| r_enter s : ren (Enter s) (Enter (rho s))
| r_leave s : ren (Leave s) (Leave (rho s))
| r_missing s : ren (Missing s) (Missing (rho s))
| r_plain s w k v : ren (SpecWalk.Plain s w k v) (SpecWalk.Plain (rho s) w k v)
| r_call s h kind f k v : called f -> ren (Call s h kind f k v) (Call (rho s) h kind f k v)
| r_in s t h k v h' k' v' : h_amb h' = h_amb h -> ren (UseIn s t h k v) (UseIn (rho s) (rho t) h' k' v')
| r_out s t h k v h' k' v' : ren (UseOut s t h k v) (UseOut (rho s) (rho t) h' k' v')
| r_cycle s t h k v h' k' v' : h_amb h' = h_amb h -> ren (Cycle s t h k v) (Cycle (rho s) (rho t) h' k' v')
| r_stop s r : ren (Stop s r) (Stop (rho s) r)
| r_hook s n : ren (Hook s n) (Hook (rho s) n).

Lemma handler_called op name kind f b : handler_of K op (Some (name, AUser kind f, b)) -> called f.
Proof.
  assert (X : forall n, has_attr K n = Some (AUser kind f) -> called f).
  { intros n E. exists n, kind. unfold has_attr in E. destruct (find_attr K n) as [[]|]; congruence. }
  intros H. inversion H; subst; eauto.
Qed.
Lemma step_renamed s item e : meaning K s item (MStep e) -> exists e', meaning K (rho s) item (MStep e') /\ ren e e'.
Proof.
  intros M. assert (X : forall e', ren e e' -> meaning K (rho s) item (MStep e') -> exists e', meaning K (rho s) item (MStep e') /\ ren e e') by eauto.
  inversion M; subst.
  - eapply X; [constructor|]. constructor.
  - eapply X; [constructor|]. now constructor.
  - eapply X; [constructor|]. now constructor.
  - eapply X; [constructor|]. eapply m_noword; eauto.
  - eapply X; [constructor|]. eapply m_plain; eauto.
  - eapply X; [constructor; eapply handler_called; eauto|]. eapply m_user; eauto.
  - eapply X; [constructor|]. eapply m_use_bad; eauto.
  - eapply X; [constructor|]. eapply m_obj; eauto.
Qed.
Lemma handler_amb op n a b n' a' b' : handler_of K op (Some (n, a, b)) -> handler_of K op (Some (n', a', b')) -> b' = b.
Proof. intros H H'. inversion H; subst; inversion H'; subst; congruence. Qed.
Lemma use_amb s s' item item' t h k v t' h' k' v' : meaning K s item (MUse t h k v) -> meaning K s' item' (MUse t' h' k' v') -> h_op h' = h_op h -> h_amb h' = h_amb h.
Proof.
  intros M M' E. inversion M; subst. inversion M'; subst. cbn [h_op h_amb] in *.
  match goal with H : handler_of K (undash ?a) _, H' : handler_of K (undash ?b) _, E : undash ?b = undash ?a |- _ => rewrite E in H'; exact (handler_amb _ _ _ _ _ _ _ H H') end.
Qed.
Lemma in_path t path : In (rho t) (map rho path) <-> In t path.
Proof.
  split; [|apply in_map]. intros H. apply in_map_iff in H as (x & E & H). apply inj in E. now subst.
Qed.

Lemma walk_renamed :
  (forall path s evs n, walk K i path s evs n -> exists evs', walk K i' (map rho path) (rho s) evs' n /\ Forall2 ren evs evs') /\
  (forall path s items evs n, walk_options K i path s items evs n -> forall items', Forall2 (item_renamed K rho s) items items' ->
     exists evs', walk_options K i' (map rho path) (rho s) items' evs' n /\ Forall2 ren evs evs').
Proof.
  apply walk_both.
  - intros path s N. exists [Missing (rho s)]. split; [|repeat constructor]. apply walk_missing. intros P. apply there in P. filed. congruence.
  - intros path s items evs n H W IH. assert (H' : section_shows i s items) by (apply shows_iff; assumption).
    destruct (shows s items H') as (items' & S' & F). destruct (IH _ F) as (evs' & W' & R). exists (Enter (rho s) :: evs' ++ [Leave (rho s)]). split.
    + econstructor; [exact S'|exact W'].
    + constructor; [constructor|]. apply Forall2_app; [exact R|]. repeat constructor.
  - intros path s items' F. inversion F; subst. exists []. split; constructor.
  - intros path s item rest e evs n M W IH items' F. inversion F as [|x y l l' A B]; subst. destruct (IH _ B) as (evs' & W' & R).
    inversion A; subst.
    + destruct (step_renamed s y e M) as (e' & M' & Q). exists (e' :: evs'). split; [now apply wo_step|now constructor].
    + exfalso. match goal with U : meaning K s item (MUse _ _ _ _) |- _ => pose proof (meaning_fun K _ _ _ _ M U); discriminate end.
  - intros path s item rest t h k v evs1 n1 evs2 n2 M NI W1 (e1 & X1 & R1) W2 IH2 items' F. inversion F as [|x y l l' A B]; subst. destruct (IH2 _ B) as (e2 & X2 & R2).
    inversion A as [it e Q|it it' t0 h0 k0 v0 h' k' v' Q M' E]; subst; [pose proof (meaning_fun K _ _ _ _ M Q); discriminate|].
    pose proof (meaning_fun K _ _ _ _ M Q) as T. injection T as <- <- <- <-.
    exists (UseIn (rho s) (rho t) h' k' v' :: e1 ++ UseOut (rho s) (rho t) h' k' v' :: e2). split.
    + apply wo_use; auto. now rewrite in_path.
    + constructor; [constructor; exact (use_amb _ _ _ _ _ _ _ _ _ _ _ _ Q M' E)|]. apply Forall2_app; [exact R1|]. constructor; [constructor|exact R2].
  - intros path s item rest t h k v evs n M IN W IH items' F. inversion F as [|x y l l' A B]; subst. destruct (IH _ B) as (e2 & X2 & R2).
    inversion A as [it e Q|it it' t0 h0 k0 v0 h' k' v' Q M' E]; subst; [pose proof (meaning_fun K _ _ _ _ M Q); discriminate|].
    pose proof (meaning_fun K _ _ _ _ M Q) as T. injection T as <- <- <- <-.
    exists (Cycle (rho s) (rho t) h' k' v' :: e2). split.
    + apply wo_cycle; auto. now rewrite in_path.
    + constructor; [constructor; exact (use_amb _ _ _ _ _ _ _ _ _ _ _ _ Q M' E)|exact R2].
Qed.

Lemma parse_renamed dname s init fin evs n : parse_walk K i dname s init fin evs n ->
  exists evs', parse_walk K i' (rho dname) (rho s) init fin evs' n /\ Forall2 ren evs evs'.
Proof.
  intros W.
  assert (DW : forall e m, (if init then default_walk K i dname e m else e = [] /\ m = 0) ->
    exists e', (if init then default_walk K i' (rho dname) e' m else e' = [] /\ m = 0) /\ Forall2 ren e e').
  { intros e m H. destruct init; [|destruct H as (-> & ->); exists []; split; [auto|constructor]]. unfold default_walk in *. rewrite has.
    destruct (ini_has_section i dname); [|destruct H as (-> & ->); exists []; split; [auto|constructor]]. exact (proj1 walk_renamed [] dname e m H). }
  inversion W as [e0 n0 H N|e0 n0 items e m H SS O]; subst; destruct (DW _ _ H) as (e0' & H' & R0).
  - exists ((if init then Hook (rho s) $"handler_initialize" :: e0' else []) ++ [Missing (rho s)]). split.
    + apply pw_missing; [exact H'|]. intros P. apply N, there, P.
    + apply Forall2_app; [|repeat constructor]. destruct init; [constructor; [constructor|exact R0]|constructor].
  - destruct (shows s items SS) as (items' & S' & F). destruct (proj2 walk_renamed _ _ _ _ _ O _ F) as (e' & O' & R).
    exists ((if init then Hook (rho s) $"handler_initialize" :: e0' else []) ++ Enter (rho s) :: e' ++ (if fin then [Hook (rho s) $"handler_finalize"] else []) ++ [Leave (rho s)]). split.
    + eapply pw_section; [exact H'|exact S'|exact O'].
    + apply Forall2_app; [destruct init; [constructor; [constructor|exact R0]|constructor]|]. constructor; [constructor|]. apply Forall2_app; [exact R|].
      apply Forall2_app; [destruct fin; repeat constructor|repeat constructor].
Qed.
Lemma plains_renamed evs evs' : Forall2 ren evs evs' -> plains evs' = plains evs.
Proof. induction 1 as [|e e' l l' R _ IH]; [reflexivity|]. unfold plains in *. cbn [flat_map]. rewrite IH. destruct R; reflexivity. Qed.

Theorem expansion_renamed dname s d : expansion K i dname s d <-> expansion K i' (rho dname) (rho s) d.
Proof.
  split.
  - intros (evs & n & W & ->). destruct (parse_renamed _ _ _ _ _ _ W) as (evs' & W' & R). exists evs', n. split; [exact W'|]. now rewrite (plains_renamed _ _ R).
  - intros (evs' & n' & W' & ->). destruct (parse_walk_exists K i dname s true true) as (evs & n & W & _).
    destruct (parse_renamed _ _ _ _ _ _ W) as (e2 & W2 & R). destruct (parse_walk_unique K i' _ _ _ _ _ _ _ _ W' W2) as [-> _].
    exists evs, n. split; [exact W|]. now rewrite (plains_renamed _ _ R).
Qed.

(** ** Running the steps *)
Hypothesis CF : class_follows K rho.
Lemma step_same root lvl ps e e' sh us : ren e e' -> step K (rho root) lvl ps e' sh us = step K root lvl ps e sh us.
Proof.
  intros R. destruct R as [| | | |s h kind f k v (n & kd & C)|s t h k v h' k' v' E| |s t h k v h' k' v' E| |s n]; try reflexivity.
  - cbn [step]. destruct (ambiguity lvl h); [|reflexivity]. unfold run_handler. change (params_of (rho root) h k v) with (params_renamed rho (params_of root h k v)).
    now rewrite (CF _ _ _ C).
  - cbn [step]. unfold ambiguity. now rewrite E.
  - cbn [step]. unfold ambiguity. now rewrite E.
  - cbn [step]. destruct (find_attr K n) as [[]|] eqn:F; try reflexivity. unfold run_handler.
    change (hp_named (rho root) n) with (params_renamed rho (hp_named root n)). now rewrite (CF _ _ _ F).
Qed.
Lemma run_renamed root lvl ps evs evs' : Forall2 ren evs evs' -> forall sh us r sh1 us1 done,
  run K root lvl ps evs sh us = (r, sh1, us1, done) -> exists done', run K (rho root) lvl ps evs' sh us = (r, sh1, us1, done') /\ Forall2 ren done done'.
Proof.
  induction 1 as [|e e' l l' R _ IH]; intros sh us r sh1 us1 done E; cbn [run] in *.
  - injection E as <- <- <- <-. exists []. split; [reflexivity|constructor].
  - rewrite (step_same root lvl ps e e' sh us R). destruct (step K root lvl ps e sh us) as [[[[]|x] sh2] us2].
    + destruct (run K root lvl ps l sh2 us2) as [[[r3 sh3] us3] d3] eqn:E3. injection E as <- <- <- <-. destruct (IH _ _ _ _ _ _ E3) as (d' & -> & RR).
      exists (e' :: d'). split; [reflexivity|now constructor].
    + injection E as <- <- <- <-. exists []. split; [reflexivity|constructor].
Qed.

Lemma uses_forth s t : uses K i s t -> uses K i' (rho s) (rho t).
Proof.
  intros (items & item & h & k & v & S & IN & M). destruct (shows s items S) as (items' & S' & F).
  assert (X : exists item', In item' items' /\ item_renamed K rho s item item').
  { clear S S'. induction F as [|x y l l' A B IH]; [destruct IN|]. destruct IN as [->|IN]; [exists y; split; [now left|exact A]|].
    destruct (IH IN) as (z & Z & Q). exists z. split; [now right|exact Q]. }
  destruct X as (item' & IN' & A). inversion A as [it e Q|it it' t0 h0 k0 v0 h' k' v' Q M' E]; subst; [pose proof (meaning_fun K _ _ _ _ M Q); discriminate|].
  pose proof (meaning_fun K _ _ _ _ M Q) as T. injection T as <- <- <- <-. exists items', item', h', k', v'. auto.
Qed.
Lemma uses_back s u : uses K i' (rho s) u -> exists t, u = rho t /\ uses K i s t.
Proof.
  intros (items' & item' & h & k & v & S' & IN' & M').
  assert (P : present i s) by (apply there, present_shows; eauto). apply present_shows in P as (items & S). destruct (shows s items S) as (its & S2 & F).
  assert (its = items') as -> by (apply shows_iff in S2, S'; congruence).
  assert (X : exists item, In item items /\ item_renamed K rho s item item').
  { clear S S' S2. induction F as [|x y l l' A B IH]; [destruct IN'|]. destruct IN' as [->|IN']; [exists x; split; [now left|exact A]|].
    destruct (IH IN') as (z & Z & Q). exists z. split; [now right|exact Q]. }
  destruct X as (item & IN & A). inversion A as [it e Q|it it' t0 h0 k0 v0 h' k' v' Q Q' E]; subst.
  - destruct (step_renamed s item' e Q) as (e' & Q' & _). pose proof (meaning_fun K _ _ _ _ M' Q'). discriminate.
  - pose proof (meaning_fun K _ _ _ _ M' Q') as T. injection T as -> -> -> ->. exists t0. split; [reflexivity|]. exists items, item, h0, k0, v0. auto.
Qed.
Lemma reaches_back s u : reaches K i' (rho s) u -> exists t, u = rho t /\ reaches K i s t.
Proof.
  intros R. remember (rho s) as x eqn:E. revert s E. induction R as [x|x y z U R IH]; intros s ->; [exists s; split; [reflexivity|constructor]|].
  destruct (uses_back _ _ U) as (t & -> & U'). destruct (IH t eq_refl) as (w & -> & R'). exists w. split; [reflexivity|]. econstructor; eauto.
Qed.
Lemma default_renamed dname s init : default_ok K i dname s init -> default_ok K i' (rho dname) (rho s) init.
Proof.
  intros D I H NE R. rewrite has in H. destruct (reaches_back _ _ R) as (t & E & R'). apply inj in E. subst t. apply (D I H); [congruence|exact R'].
Qed.

Theorem parse_names fs fs' fuel fuel' s init fin (o o' : obj) :
  s <> [] -> has_file fs o i -> has_file fs' o' i' -> level_ok o ->
  length (ini_sections i) + 3 <= fuel -> length (ini_sections i') + 3 <= fuel' ->
  default_ok K i (o_defname o) s init ->
  o_defname o' = rho (o_defname o) -> level_of o' = level_of o -> path_set_of o' = path_set_of o ->
  o_user o' = o_user o -> options_of o' (rho s) = options_of o s ->
  let '(r1, o1) := parse_section_str K fs fuel s init fin o in
  let '(r2, o2) := parse_section_str K fs' fuel' (rho s) init fin o' in
  r1 = r2 /\ o_user o1 = o_user o2 /\ options_of o1 s = options_of o2 (rho s).
Proof.
  intros NE H H' L F F' DO ED EL EP EU EO.
  assert (NE' : rho s <> []) by (intros Q; apply NE; apply (proj1 (proj2 RF)); exact Q).
  destruct (parse_outcome K fs i fuel s init fin o NE H L DO F) as (evs & n & r & sh & us & done & o1 & W & R & E & P & Q).
  assert (L' : level_ok o') by (unfold level_ok in *; now rewrite EL).
  assert (DO' : default_ok K i' (o_defname o') (rho s) init) by (rewrite ED; now apply default_renamed).
  destruct (parse_outcome K fs' i' fuel' (rho s) init fin o' NE' H' L' DO' F') as (evs' & n' & r' & sh' & us' & done' & o2 & W' & R' & E' & P' & Q').
  rewrite ED in W'. destruct (parse_renamed _ _ _ _ _ _ W) as (e3 & W3 & HH).
  destruct (parse_walk_unique K i' _ _ _ _ _ _ _ _ W3 W') as [-> ->].
  destruct (run_renamed _ _ _ _ _ HH _ _ _ _ _ _ R) as (d3 & R3 & PL).
  rewrite EL, EP, EU, R3 in R'. inversion R'; subst r' sh' us' done'. rewrite E, E'.
  split; [reflexivity|]. split; [now rewrite (pa_user _ _ _ _ _ _ _ _ _ _ P), (pa_user _ _ _ _ _ _ _ _ _ _ P')|].
  rewrite !options_of_opts, (pa_data _ _ _ _ _ _ _ _ _ _ P), (pa_data _ _ _ _ _ _ _ _ _ _ P'), !opts_data_after, !str_eqb_refl.
  rewrite !options_of_opts in EO. now rewrite EO, (plains_renamed _ _ PL).
Qed.
End R.

(** ** Histories of calls *)
Section H.
Context {Sh Us : Type} (K : pyclass Sh Us) (rho : str -> str) (i i' : ini).
Hypothesis RF : renamed_file K rho i i'.
Lemma contributes_back dname s init u : contributes K i' (rho dname) (rho s) init u -> exists t, u = rho t /\ contributes K i dname s init t.
Proof.
  intros [R|(A & B & R)]; destruct (reaches_back K rho i i' RF _ _ R) as (t & E & R'); exists t; (split; [exact E|]); [now left|right].
  split; [exact A|]. split; [|exact R']. now rewrite <- (proj1 (proj2 (proj2 RF))).
Qed.
Lemma clean_renamed t : clean_section K i t -> clean_section K i' (rho t).
Proof.
  intros (items & S & C). destruct (proj1 (proj2 (proj2 (proj2 (proj2 RF)))) t items S) as (items' & S' & F). exists items'. split; [exact S'|].
  intros item' r IN' M'. assert (X : exists item, In item items /\ item_renamed K rho t item item').
  { clear S S' C. induction F as [|x y l l' A B IH]; [destruct IN'|]. destruct IN' as [->|IN']; [exists x; split; [now left|exact A]|].
    destruct (IH IN') as (z & Z & Q). exists z. split; [now right|exact Q]. }
  destruct X as (item & IN & A). inversion A as [it e Q|it it' t0 h0 k0 v0 h' k' v' Q Q' E]; subst.
  - destruct (step_renamed K rho t item' e Q) as (e' & Q' & RR). pose proof (meaning_fun K _ _ _ _ M' Q') as T. injection T as <-.
    inversion RR; subst. pose proof (meaning_step_sec _ _ _ _ Q) as Y. cbn in Y. subst. exact (C _ _ IN Q).
  - pose proof (meaning_fun K _ _ _ _ M' Q'). discriminate.
Qed.
Lemma parsable_renamed dname : all_parsable K i dname -> all_parsable K i' (rho dname).
Proof.
  intros A u H. destruct (proj1 (proj2 (proj2 (proj2 RF))) u H) as (s & ->). pose proof H as H2. rewrite (proj1 (proj2 (proj2 RF))) in H2. destruct (A s H2) as (NE & _ & D & C).
  split; [intros Q; apply NE; apply (proj1 (proj2 RF)); exact Q|]. split; [exact H|]. split; [now apply (default_renamed K rho i i' RF)|].
  intros t X. destruct (contributes_back _ _ _ _ X) as (t' & -> & X'). apply clean_renamed, C, X'.
Qed.
Lemma answers_renamed dname lvl c c' r : call_renamed rho c c' -> answers K i' (rho dname) lvl c' r -> answers K i dname lvl c r.
Proof.
  intros CR A. pose proof (fun s d => proj2 (expansion_renamed K rho i i' RF dname s d)) as X.
  destruct CR; inversion A; subst; econstructor; eauto.
Qed.
Lemma answers_level dname lvl lvl' c c' r : call_renamed rho c c' -> answers K i dname lvl c r -> answers K i dname lvl' c r.
Proof. intros CR A. destruct CR; inversion A; subst; econstructor; eauto. Qed.
Theorem histories_renamed fs fs' dname fuel fuel' (o o' : obj Sh Us) h h' c c' :
  well_behaved K -> length (ini_sections i) + 3 <= fuel -> length (ini_sections i') + 3 <= fuel' ->
  all_parsable K i dname -> opened K fs i dname o -> opened K fs' i' (rho dname) o' ->
  Forall (in_file K i dname) h -> Forall (in_file K i' (rho dname)) h' -> call_renamed rho c c' -> in_file K i dname c ->
  fst (exec_op K fs fuel c (after K fs fuel h o)) = fst (exec_op K fs' fuel' c' (after K fs' fuel' h' o')).
Proof.
  intros WB F F' GP O O' H H' CR C. pose proof (parsable_renamed dname GP) as GP'.
  assert (C' : in_file K i' (rho dname) c') by (destruct CR; cbn [in_file] in *; rewrite (proj1 (proj2 (proj2 RF))); exact C).
  pose proof (history_answers K fs i dname fuel WB F GP h c o O H C) as A.
  pose proof (history_answers K fs' i' (rho dname) fuel' WB F' GP' h' c' o' O' H' C') as A'.
  apply (answers_renamed dname _ c c') in A'; [|exact CR].
  assert (U : forall lvl, answers K i dname lvl c (fst (exec_op K fs fuel c (after K fs fuel h o))) ).
  { intros lvl. eapply answers_level; eauto. }
  pose proof (answers_unique K i dname) as AU. specialize (U (level_of (after K fs' fuel' h' o'))).
  assert (S : same_answer i c (fst (exec_op K fs fuel c (after K fs fuel h o))) (fst (exec_op K fs' fuel' c' (after K fs' fuel' h' o')))) by (eapply AU; eauto).
  clear -CR S. destruct CR; exact S.
Qed.
End H.
