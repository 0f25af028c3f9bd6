(** * [use] is pasting. *)
From Coq Require Import String NArith ZArith List Bool Lia Arith.
Import ListNotations.
From Verif Require Import PyBase PyFacts Shlex IniView IniRead ExcControl Debuggable Cpe SpecText SpecFile SpecShell FileProofs MeaningProofs
  SpecBase SpecWalk SpecRun SpecParse BaseProofs Refine RefineRoot RefineOk RunProofs Trace WalkProofs
  ParseProofs ParseProofs2 ParseProofs3 ParseProofs4 ApiProofs SpecApi SpecLocal.
Local Open Scope list_scope.

Section P.
Context {Sh Us : Type} (K : pyclass Sh Us).
Notation ev := (ev Sh Us).
Notation obj := (obj Sh Us).

(** What happens in a walk, without where: options written, handlers called, errors. *)
Definition happening (e : ev) : list ev :=
  match e with
  | Plain _ h k v => [Plain [] h k v]
  | Call _ h kind f k v => [Call [] h kind f k v]
  | Stop _ r => [Stop [] r]
  | Missing s => [Missing s]
  | Cycle _ t h k v => [Cycle [] t h k v]
  | Hook s n => [Hook s n]
  | _ => []
  end.
Definition happenings (evs : list ev) : list ev := flat_map happening evs.
Lemma happenings_app a b : happenings (a ++ b) = happenings a ++ happenings b.
Proof. apply flat_map_app. Qed.
Lemma happenings_plains evs : plains (happenings evs) = plains evs.
Proof.
  unfold plains, happenings. induction evs as [|e l IH]; [reflexivity|]. cbn [flat_map]. rewrite flat_map_app, IH.
  f_equal. destruct e; reflexivity.
Qed.

Lemma relabel_use s s' item t h k v : meaning K s item (MUse t h k v) -> meaning K s' item (MUse t h k v).
Proof. inversion 1; subst. econstructor; eauto. Qed.
Lemma relabel_step s s' item e : meaning K s item (MStep e) -> exists e', meaning K s' item (MStep e') /\ happening e' = happening e.
Proof. inversion 1; subst; eexists; (split; [econstructor; now eauto|reflexivity]). Qed.

Section W.
Variables (i i' : ini) (a b : str) (before rest more : list (str * res (option str))) (item : str * res (option str))
  (h0 : opinfo) (k0 : str) (v0 : option str).
Hypothesis SA : section_shows i a (before ++ item :: rest).
Hypothesis MI : meaning K a item (MUse b h0 k0 v0).
Hypothesis SB : section_shows i b more.
Hypothesis SA' : section_shows i' a (before ++ more ++ rest).
Hypothesis OTHER : forall u, u <> a -> forall items, section_shows i u items <-> section_shows i' u items.
Hypothesis NC : ~ on_cycle K i b.

Definition strictly (p t : str) : Prop := exists u, uses K i p u /\ reaches K i u t.
Lemma a_uses_b : uses K i a b.
Proof. exists (before ++ item :: rest), item, h0, k0, v0. split; auto. split; auto. apply in_or_app. right. now left. Qed.

Definition replaced (l l' : list (str * res (option str))) : Prop :=
  l' = l \/ exists x y, l = x ++ item :: y /\ l' = x ++ more ++ y.
Definition target_of (s : str) (l : list (str * res (option str))) (t : str) : Prop :=
  exists it h k v, In it l /\ meaning K s it (MUse t h k v).

Lemma options_app j path s l1 l2 e1 n1 e2 n2 : walk_options K j path s l1 e1 n1 -> walk_options K j path s l2 e2 n2 ->
  exists n, walk_options K j path s (l1 ++ l2) (e1 ++ e2) n.
Proof.
  induction 1 as [|path s it l e evs n M W IH|path s it l t h k v evs1 m1 evs2 m2 M NI W1 W2 IH|path s it l t h k v evs n M IN W IH]; intros H2.
  - eauto.
  - destruct (IH H2) as (m & H). eexists. cbn [app]. apply wo_step; eauto.
  - destruct (IH H2) as (m & H). eexists. cbn [app]. rewrite <- app_assoc. cbn [app]. apply wo_use; eauto.
  - destruct (IH H2) as (m & H). eexists. cbn [app]. apply wo_cycle; eauto.
Qed.

Lemma paste_walk :
  (forall path s evs n, walk K i path s evs n -> forall path',
     (forall p, In p path -> strictly p s) -> (forall w, reaches K i s w -> (In w path <-> In w path')) ->
     (exists evs' n', walk K i' path' s evs' n' /\ happenings evs' = happenings evs) /\
     (s = b -> forall s', exists evs' n', walk_options K i' path' s' more evs' n' /\ happenings evs' = happenings evs)) /\
  (forall path s items evs n, walk_options K i path s items evs n -> forall path' s' items',
     replaced items items' ->
     (forall p t, In p path -> target_of s items t -> strictly p t) ->
     (forall t w, target_of s items t -> reaches K i t w -> (In w path <-> In w path')) ->
     exists evs' n', walk_options K i' path' s' items' evs' n' /\ happenings evs' = happenings evs).
Proof.
  apply walk_both.
  - intros path s N path' H1 H2. split.
    + exists [Missing s], 1. split; [|reflexivity]. apply walk_missing. intros P. apply present_shows in P as (its & P).
      destruct (str_eqb_spec s a) as [->|NE].
      * apply shows_iff in SA. congruence.
      * apply OTHER in P; auto. apply shows_iff in P. congruence.
    + intros ->. exfalso. apply shows_iff in SB. congruence.
  - intros path s items evs n S W IH path' H1 H2. apply shows_iff in S.
    assert (T1 : forall p t, In p (s :: path) -> target_of s items t -> strictly p t).
    { intros p t IN (it & h & k & v & I & M). assert (U : uses K i s t) by (exists items, it, h, k, v; auto).
      destruct IN as [<-|IN]; [exists t; split; [auto|constructor]|]. destruct (H1 _ IN) as (u & U1 & R1). exists u. split; auto.
      eapply reaches_trans; [exact R1|]. econstructor; [exact U|constructor]. }
    assert (T2 : forall t w, target_of s items t -> reaches K i t w -> reaches K i s w).
    { intros t w (it & h & k & v & I & M) R. econstructor; [|exact R]. exists items, it, h, k, v. auto. }
    split.
    + assert (X : exists its', section_shows i' s its' /\ replaced items its').
      { destruct (str_eqb_spec s a) as [->|NE].
        - exists (before ++ more ++ rest). split; auto. right. exists before, rest. split; auto.
          apply shows_iff in S, SA. congruence.
        - exists items. split; [now apply OTHER|now left]. }
      destruct X as (its' & S' & R).
      destruct (IH (s :: path') s its' R T1) as (evs' & n' & W' & HH).
      { intros t w T R'. cbn [In]. rewrite (H2 w (T2 _ _ T R')). reflexivity. }
      exists (Enter s :: evs' ++ [Leave s]), (Datatypes.S n'). split; [econstructor; eauto|].
      unfold happenings in *. cbn [flat_map happening app]. rewrite !flat_map_app. cbn. now rewrite !app_nil_r.
    + intros -> s'. assert (items = more) as -> by (apply shows_iff in S, SB; congruence).
      destruct (IH path' s' more (or_introl eq_refl) T1) as (evs' & n' & W' & HH).
      { intros t w T R'. rewrite <- (H2 w (T2 _ _ T R')). cbn [In]. split; [|auto]. intros [<-|]; auto. exfalso. apply NC.
        destruct T as (it & h & k & v & I & M). exists t. split; auto. exists more, it, h, k, v. auto. }
      exists evs', n'. split; auto. unfold happenings in *. cbn [flat_map happening app]. rewrite !flat_map_app. cbn. now rewrite !app_nil_r.
  - intros path s path' s' items' [->|(x & y & E & _)] _ _; [|destruct x; discriminate].
    exists [], 0. split; [constructor|reflexivity].
  - intros path s it l e evs n M W IH path' s' items' R H1 H2.
    assert (T : forall t, target_of s l t -> target_of s (it :: l) t).
    { intros t (j & h & k & v & I & Q). exists j, h, k, v. split; [now right|auto]. }
    assert (X : exists l', items' = it :: l' /\ replaced l l').
    { destruct R as [->|(x & y & E & ->)]; [exists l; split; [auto|now left]|]. destruct x as [|c x]; cbn [app] in E; injection E as -> ->.
      - exfalso. pose proof (meaning_fun K _ _ _ _ M (relabel_use a s _ _ _ _ _ MI)). discriminate.
      - exists (x ++ more ++ y). split; [reflexivity|]. right. eauto. }
    destruct X as (l' & -> & R'). destruct (IH path' s' l' R') as (evs' & n' & W' & HH); [eauto|eauto|].
    destruct (relabel_step s s' it e M) as (e' & M' & HE). exists (e' :: evs'), n'. split; [apply wo_step; auto|].
    unfold happenings in *. cbn [flat_map]. now rewrite HE, HH.
  - intros path s it l t h k v evs1 n1 evs2 n2 M NI W1 IH1 W2 IH2 path' s' items' R H1 H2.
    assert (T0 : target_of s (it :: l) t) by (exists it, h, k, v; split; [now left|auto]).
    assert (T : forall t, target_of s l t -> target_of s (it :: l) t).
    { intros t' (j & h' & k' & v' & I & Q). exists j, h', k', v'. split; [now right|auto]. }
    destruct (IH1 path') as [A B]; [intros p I; eauto|intros w Rw; eauto|].
    assert (C : exists l', replaced l l' /\ (items' = it :: l' \/ (t = b /\ items' = more ++ l'))).
    { destruct R as [->|(x & y & E & ->)]; [exists l; split; [now left|auto]|]. destruct x as [|c x]; cbn [app] in E; injection E as -> ->.
      - exists y. split; [now left|]. right. split; [|reflexivity].
        pose proof (meaning_fun K _ _ _ _ M (relabel_use a s _ _ _ _ _ MI)) as Q. now injection Q.
      - exists (x ++ more ++ y). split; [right; eauto|now left]. }
    destruct C as (l' & R' & C). destruct (IH2 path' s' l' R') as (evs2' & n2' & W2' & HH2); [eauto|eauto|].
    destruct C as [->|[-> ->]].
    + destruct A as (evs1' & n1' & W1' & HH1). exists (UseIn s' t h k v :: evs1' ++ UseOut s' t h k v :: evs2'), (Nat.max n1' n2').
      split. { apply wo_use; auto. { eapply relabel_use; eauto. } intros Q. apply NI. apply (H2 t t T0); [constructor|auto]. }
      unfold happenings in *. cbn [flat_map happening app]. rewrite !flat_map_app. cbn [flat_map happening app]. now rewrite HH1, HH2.
    + destruct (B eq_refl s') as (evs1' & n1' & W1' & HH1). destruct (options_app _ _ _ _ _ _ _ _ _ W1' W2') as (n & W').
      exists (evs1' ++ evs2'), n. split; auto.
      unfold happenings in *. cbn [flat_map happening app]. rewrite !flat_map_app. cbn [flat_map happening app]. now rewrite HH1, HH2.
  - intros path s it l t h k v evs n M IN W IH path' s' items' R H1 H2.
    assert (T0 : target_of s (it :: l) t) by (exists it, h, k, v; split; [now left|auto]).
    assert (T : forall t, target_of s l t -> target_of s (it :: l) t).
    { intros t' (j & h' & k' & v' & I & Q). exists j, h', k', v'. split; [now right|auto]. }
    assert (X : exists l', items' = it :: l' /\ replaced l l').
    { destruct R as [->|(x & y & E & ->)]; [exists l; split; [auto|now left]|]. destruct x as [|c x]; cbn [app] in E; injection E as -> ->.
      - exfalso. pose proof (meaning_fun K _ _ _ _ M (relabel_use a s _ _ _ _ _ MI)) as Q. injection Q as -> _ _ _.
        apply NC. exact (H1 b b IN T0).
      - exists (x ++ more ++ y). split; [reflexivity|]. right. eauto. }
    destruct X as (l' & -> & R'). destruct (IH path' s' l' R') as (evs' & n' & W' & HH); [eauto|eauto|].
    exists (Cycle s' t h k v :: evs'), n'. split.
    { apply wo_cycle; auto. { eapply relabel_use; eauto. } apply (H2 t t T0); [constructor|auto]. }
    unfold happenings in *. cbn [flat_map happening app]. now rewrite HH.
Qed.
End W.

Lemma has_section_same (i i' : ini) s : ini_sections i = ini_sections i' -> ini_has_section i s = ini_has_section i' s.
Proof.
  intros E. apply eq_true_iff_eq. rewrite <- (in_sections i), <- (in_sections i'). now rewrite E.
Qed.

Lemma paste_parse i i' a b dname s init fin evs n : pasted K i i' a b -> ~ on_cycle K i b ->
  parse_walk K i dname s init fin evs n ->
  exists evs' n', parse_walk K i' dname s init fin evs' n' /\ happenings evs' = happenings evs.
Proof.
  intros (ES & (before & item & rest & more & h & k & v & SA & MI & SB & SA') & OT) NC W.
  pose proof (fun s e m (X : walk K i [] s e m) =>
    proj1 (proj1 (paste_walk i i' a b before rest more item h k v SA MI SB SA' OT NC) [] s e m X []
             (fun p (F : In p []) => match F with end) (fun w _ => iff_refl _))) as PW.
  assert (D : forall e m, (if init then default_walk K i dname e m else e = [] /\ m = 0) ->
     exists e' m', (if init then default_walk K i' dname e' m' else e' = [] /\ m' = 0) /\ happenings e' = happenings e).
  { intros e m H. destruct init; [|exists e, m; auto]. unfold default_walk in *. rewrite <- (has_section_same i i' dname ES).
    destruct (ini_has_section i dname); [|exists e, m; auto]. destruct (PW _ _ _ H) as (e' & m' & X & Y). eauto. }
  inversion W as [e0 n0 H N|e0 n0 items e m H SS O]; subst; destruct (D _ _ H) as (e0' & n0' & H' & HH).
  - destruct (PW _ _ _ (walk_missing K i [] s N)) as (e' & m' & X & Y). inversion X as [p u N'|p u its e1 m1 S1 O1]; subst.
    + eexists _, _. split; [eapply pw_missing; eauto|]. rewrite !happenings_app. f_equal. destruct init; [|reflexivity].
      change (happenings (?x :: ?l)) with (happening x ++ happenings l). now rewrite HH.
    + exfalso. change (happenings [Missing s]) with [@Missing Sh Us s] in Y.
      destruct (str_eqb_spec s a) as [->|NE]; [apply N; apply present_shows; eauto|].
      apply N. apply present_shows. exists its. now apply OT.
  - destruct (PW _ _ _ (walk_section K i [] s items e m SS O)) as (e' & m' & X & Y). inversion X as [p u N'|p u its e1 m1 S1 O1]; subst.
    + exfalso. apply N'. apply present_shows. destruct (str_eqb_spec s a) as [->|NE]; [eauto|]. exists items. now apply OT.
    + eexists _, _. split; [eapply pw_section; eauto|]. rewrite !happenings_app. f_equal.
      { destruct init; [|reflexivity]. change (happenings (?x :: ?l)) with (happening x ++ happenings l). now rewrite HH. }
      change (happenings (?x :: ?l)) with (happening x ++ happenings l) in *. cbn [happening app] in *. rewrite !happenings_app in *.
      change (happenings [Leave s]) with (@nil ev) in *. rewrite !app_nil_r in Y. now rewrite Y.
Qed.

(** ** What is run *)
Definition harmless (e : ev) : Prop := match e with Call _ _ _ f _ _ => blind f | UseIn _ _ h _ _ => h_amb h = false | _ => True end.
Lemma run_happenings root lvl ps evs : Forall harmless evs -> forall sh us,
  let '(r, sh1, us1, done) := run K root lvl ps evs sh us in
  run K root lvl ps (happenings evs) sh us = (r, sh1, us1, happenings done).
Proof.
  induction 1 as [|e evs HE _ IH]; intros sh us; [reflexivity|]. cbn [run].
  change (happenings (e :: evs)) with (happening e ++ happenings evs).
  assert (ST : happening e = [] /\ step K root lvl ps e sh us = (Ok tt, sh, us) \/
     exists e', happening e = [e'] /\ step K root lvl ps e' sh us = step K root lvl ps e sh us).
  { destruct e; try (left; split; reflexivity); try (right; eexists; split; reflexivity).
    - right. eexists. split; [reflexivity|]. cbn [step]. unfold run_handler. cbn [harmless] in HE. now rewrite (HE [] s).
    - left. split; [reflexivity|]. cbn [step]. unfold ambiguity. cbn [harmless] in HE. now rewrite HE. }
  destruct ST as [[E S]|(e' & E & S)]; rewrite E, <- ?S; [rewrite S|].
  - cbn [app]. specialize (IH sh us). destruct (run K root lvl ps evs sh us) as [[[r sh2] us2] done].
    rewrite IH. change (happenings (e :: done)) with (happening e ++ happenings done). now rewrite E.
  - cbn [app run]. destruct (step K root lvl ps e' sh us) as [[[u|x] sh1] us1]; [|reflexivity].
    specialize (IH sh1 us1). destruct (run K root lvl ps evs sh1 us1) as [[[r sh2] us2] done].
    rewrite IH. change (happenings (e :: done)) with (happening e ++ happenings done). now rewrite E.
Qed.

Lemma walk_harmless i dname s init fin evs n : unambiguous K -> calls_blind K i dname s init ->
  parse_walk K i dname s init fin evs n -> Forall harmless evs.
Proof.
  intros UN CB W. apply Forall_forall. intros e IN. destruct (parse_walk_origin K i _ _ _ _ _ _ _ W IN) as [(nm & ->)|O]; [exact I|].
  destruct e; try exact I.
  - assert (X : contributes K i dname s init s0 /\ item_of K i s0 (MStep (Call s0 h kind f k v))).
    { destruct O as [[R X]|(E1 & E2 & [R X])]; (split; [|exact X]); [now left|right; auto]. }
    destruct X as [C (items & item & S & I0 & M)]. cbn [harmless]. eapply CB; eauto.
  - assert (X : exists u, item_of K i u (MUse t h k v)).
    { destruct O as [[R X]|(E1 & E2 & [R X])]; eauto. }
    destruct X as (u & items & item & S & I0 & M). cbn [harmless]. inversion M; subst.
    match goal with H : handler_of _ _ _ |- _ => inversion H as [? A B|? A B|x y A B|A B]; subst end; cbn; try reflexivity.
    exfalso. destruct (UN (undash w)); congruence.
Qed.
Lemma run_same root lvl ps evs evs' : Forall harmless evs -> Forall harmless evs' -> happenings evs' = happenings evs ->
  forall sh us r sh1 us1 done, run K root lvl ps evs sh us = (r, sh1, us1, done) ->
  exists done', run K root lvl ps evs' sh us = (r, sh1, us1, done') /\ plains done' = plains done.
Proof.
  intros F F' E sh us r sh1 us1 done R. pose proof (run_happenings root lvl ps evs F sh us) as X. rewrite R in X.
  pose proof (run_happenings root lvl ps evs' F' sh us) as Y. destruct (run K root lvl ps evs' sh us) as [[[r' sh'] us'] done'].
  rewrite E, X in Y. inversion Y; subst. exists done'. split; auto. rewrite <- (happenings_plains done'), <- (happenings_plains done). congruence.
Qed.

Lemma harmless_other i' dname s init fin evs evs' n' : unambiguous K -> Forall harmless evs -> happenings evs' = happenings evs ->
  parse_walk K i' dname s init fin evs' n' -> Forall harmless evs'.
Proof.
  intros UN F E W. apply Forall_forall. intros e IN. destruct e; try exact I.
  - cbn [harmless]. assert (IH : In (Call [] h kind f k v) (happenings evs)).
    { rewrite <- E. apply in_flat_map. eexists. split; [exact IN|now left]. }
    apply in_flat_map in IH as (e & I1 & I2). rewrite Forall_forall in F. specialize (F e I1).
    destruct e; cbn [happening In] in I2; try contradiction; destruct I2 as [I2|[]]; try discriminate. inversion I2; subst. exact F.
  - destruct (parse_walk_origin K i' _ _ _ _ _ _ _ W IN) as [(nm & Q)|O]; [discriminate|].
    assert (X : exists u, item_of K i' u (MUse t h k v)).
    { destruct O as [[R X]|(E1 & E2 & [R X])]; eauto. }
    destruct X as (u & items & item & S & I0 & M). cbn [harmless]. inversion M; subst.
    match goal with H : handler_of _ _ _ |- _ => inversion H as [? A B|? A B|x y A B|A B]; subst end; cbn; try reflexivity.
    exfalso. destruct (UN (undash w)); congruence.
Qed.

Lemma paste_reaches i i' a b s u : pasted K i i' a b -> reaches K i' s u -> reaches K i s u.
Proof.
  intros (ES & (before & item & rest & more & h & k & v & SA & MI & SB & SA') & OT).
  induction 1 as [s|s t u (items & it & h1 & k1 & v1 & S & IN & M) R IH]; [constructor|].
  destruct (str_eqb_spec s a) as [->|NE].
  - assert (items = before ++ more ++ rest) by (apply shows_iff in S, SA'; congruence). subst items.
    assert (C : In it (before ++ item :: rest) \/ In it more).
    { apply in_app_or in IN as [IN|IN]; [left; apply in_or_app; auto|]. apply in_app_or in IN as [IN|IN]; auto.
      left. apply in_or_app. right. now right. }
    destruct C as [C|C].
    + econstructor; [|exact IH]. exists (before ++ item :: rest), it, h1, k1, v1. auto.
    + apply reach_step with b; [exists (before ++ item :: rest), item, h, k, v; split; auto; split; auto; apply in_or_app; right; now left|].
      apply reach_step with t; [|exact IH]. exists more, it, h1, k1, v1. split; auto. split; auto. eapply relabel_use; eauto.
  - econstructor; [|exact IH]. exists items, it, h1, k1, v1. split; [now apply OT|auto].
Qed.

Theorem use_is_pasting i i' a b dname s d : pasted K i i' a b -> ~ on_cycle K i b ->
  expansion K i dname s d <-> expansion K i' dname s d.
Proof.
  intros P N.
  assert (F : forall d, expansion K i dname s d -> expansion K i' dname s d).
  { intros d0 (evs & n & W & ->). destruct (paste_parse i i' a b dname s true true evs n P N W) as (evs' & n' & W' & E).
    exists evs', n'. split; auto. now rewrite <- (happenings_plains evs), <- E, happenings_plains. }
  split; [apply F|]. intros X. destruct (parse_walk_exists K i dname s true true) as (evs & n & W & _).
  assert (Y : expansion K i dname s (write_all (plains evs) [])) by (exists evs, n; auto).
  rewrite (expansion_unique K i' dname s d _ X (F _ Y)). exact Y.
Qed.
Theorem parse_pasted fs fs' i i' a b fuel fuel' s init fin (o o' : obj) :
  pasted K i i' a b -> ~ on_cycle K i b -> unambiguous K -> calls_blind K i (o_defname o) s init ->
  s <> [] -> has_file fs o i -> has_file fs' o' i' -> level_ok o ->
  length (ini_sections i) + 3 <= fuel -> length (ini_sections i) + 3 <= fuel' ->
  default_ok K i (o_defname o) s init ->
  o_defname o' = o_defname o -> level_of o' = level_of o -> path_set_of o' = path_set_of o ->
  o_user o' = o_user o -> options_of o' s = options_of o s ->
  let '(r1, o1) := parse_section_str K fs fuel s init fin o in
  let '(r2, o2) := parse_section_str K fs' fuel' s init fin o' in
  r1 = r2 /\ o_user o1 = o_user o2 /\ options_of o1 s = options_of o2 s.
Proof.
  intros PA NC UN CB NE H H' L F F' DO ED EL EP EU EO.
  destruct (parse_outcome K fs i fuel s init fin o NE H L DO F) as (evs & n & r & sh & us & done & o1 & W & R & E & P & Q).
  assert (L' : level_ok o') by (unfold level_ok in *; now rewrite EL).
  assert (DO' : default_ok K i' (o_defname o') s init).
  { rewrite ED. intros A B C D. rewrite <- (has_section_same i i' _ (proj1 PA)) in B. apply (DO A B C). eapply paste_reaches; eauto. }
  rewrite (proj1 PA) in F'.
  destruct (parse_outcome K fs' i' fuel' s init fin o' NE H' L' DO' F') as (evs' & n' & r' & sh' & us' & done' & o2 & W' & R' & E' & P' & Q').
  rewrite ED in W'. destruct (paste_parse i i' a b _ _ _ _ _ _ PA NC W) as (e3 & n3 & W3 & HH).
  destruct (parse_walk_unique K i' _ _ _ _ _ _ _ _ W3 W') as [-> ->].
  pose proof (walk_harmless _ _ _ _ _ _ _ UN CB W) as FA. pose proof (harmless_other _ _ _ _ _ _ _ _ UN FA HH W3) as FA'.
  destruct (run_same _ _ _ _ _ FA FA' HH _ _ _ _ _ _ R) as (d3 & R3 & PL).
  rewrite EL, EP, EU, R3 in R'. inversion R'; subst r' sh' us' done'. rewrite E, E'.
  split; [reflexivity|]. split; [now rewrite (pa_user _ _ _ _ _ _ _ _ _ _ P), (pa_user _ _ _ _ _ _ _ _ _ _ P')|].
  rewrite !options_of_opts, (pa_data _ _ _ _ _ _ _ _ _ _ P), (pa_data _ _ _ _ _ _ _ _ _ _ P'), !opts_data_after, str_eqb_refl.
  rewrite !options_of_opts in EO. now rewrite EO, PL.
Qed.
End P.

(** ** Classes whose handlers do not look at the section *)
Section C.
Context {Sh Us : Type} (K : pyclass Sh Us).
Definition attr_names : list str := dkeys (k_over K) ++ dkeys (@base_attrs Sh Us).
Lemma find_attr_name n a : find_attr K n = Some a -> In n attr_names.
Proof.
  unfold find_attr, attr_names. intros H. apply in_app_iff. destruct (dget n (k_over K)) eqn:E.
  - left. apply dget_Some_In in E. now apply (in_map fst) in E.
  - right. apply dget_Some_In in H. now apply (in_map fst) in H.
Qed.
Definition clear_name (n : str) : bool :=
  if starts_with $"handler_" n then match has_attr K (private_name (skipn 8 n)) with None => true | Some _ => false end else true.
Lemma unambiguous_check : forallb clear_name attr_names = true -> unambiguous K.
Proof.
  rewrite forallb_forall. intros H op. destruct (has_attr K (public_name op)) as [a|] eqn:E; [|now left]. right.
  unfold has_attr in E. destruct (find_attr K (public_name op)) as [b|] eqn:F; [|discriminate].
  apply find_attr_name, H in F. unfold clear_name in F.
  replace (starts_with $"handler_" (public_name op)) with true in F by reflexivity.
  change (skipn 8 (public_name op)) with op in F. now destruct (has_attr K (private_name op)).
Qed.
Lemma calls_blind_all i dname s init :
  Forall (fun na => match snd na with AUser _ f => blind f | _ => True end) (k_over K) -> calls_blind K i dname s init.
Proof.
  intros H u items item h kind f k v _ _ _ M.
  enough (X : exists n, find_attr K n = Some (AUser kind f)).
  { destruct X as (n & X). unfold find_attr in X. destruct (dget n (k_over K)) as [a|] eqn:E.
    - inversion X; subst a. apply dget_Some_In in E. rewrite Forall_forall in H. exact (H _ E).
    - apply dget_Some_In in X. destruct X as [X|[X|[X|[]]]]; inversion X; subst f; intros ? ? ? ? ?; reflexivity. }
  meaning_cases M. match goal with HO : handler_of _ _ _ |- _ => inversion HO; subst end;
  match goal with E : has_attr K ?n = Some (AUser kind f) |- _ => exists n; unfold has_attr in E; destruct (find_attr K n) as [[]|]; congruence end.
Qed.
End C.
