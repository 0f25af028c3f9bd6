(** * The order of the words of a build name. *)
From Coq Require Import String NArith List Bool Arith Lia.
Import ListNotations.
From Verif Require Import PyBase PyFacts EnvVar EnvProofs Regex Keyword DetSys EnvKeyword LoadEnv SpecKeyword KeywordText RegexProofs
  KeywordProofs FlagsProofs SpecFlags SpecSystem SpecLoadEnv SearchProofs SystemProofs EnvNameProofs FixedProofs LoadEnvProofs SpecNames.

(** ** The same answer, and related objects afterwards *)
Definition agrees {S A} (R : S -> S -> Prop) (m m' : SM S A) (p p' : S) : Prop :=
  fst (m p) = fst (m' p') /\ R (snd (m p)) (snd (m' p')).
Lemma agrees_ret {S A} (R : S -> S -> Prop) (a : A) (p p' : S) : R p p' -> agrees R (ret a) (ret a) p p'.
Proof. split; auto. Qed.
Lemma agrees_raise {S A} (R : S -> S -> Prop) e (p p' : S) : R p p' -> agrees R (raise e : SM S A) (raise e) p p'.
Proof. split; auto. Qed.
Lemma agrees_res {S A} (R : S -> S -> Prop) (r r' : res A) (p p' : S) : r = r' -> R p p' -> agrees R (of_res r) (of_res r') p p'.
Proof. split; auto. Qed.
Lemma agrees_modify {S} (R : S -> S -> Prop) f f' (p p' : S) : R (f p) (f' p') -> agrees R (modify f) (modify f') p p'.
Proof. split; auto. Qed.
Lemma agrees_bind {S A B} (R : S -> S -> Prop) (m m' : SM S A) (k k' : A -> SM S B) p p' :
  agrees R m m' p p' -> (forall a q q', R q q' -> agrees R (k a) (k' a) q q') ->
  agrees R (bind m k) (bind m' k') p p'.
Proof.
  intros (H & I) K. unfold agrees, bind. destruct (m p) as ([a|e], q), (m' p') as ([a'|e'], q'); cbn [fst snd] in *;
    try discriminate; auto.
  - injection H as <-. now apply K.
  - injection H as <-. auto.
Qed.
Lemma agrees_get {S B} (R : S -> S -> Prop) (k k' : S -> SM S B) (p p' : S) :
  agrees R (k p) (k' p') p p' -> agrees R (bind get k) (bind get k') p p'.
Proof. auto. Qed.

Section Names.
Variable other_re : str -> str -> res bool.
Variable systems : list (str * list str).
Variable hostname : str.
Variable envs : str -> res (dict (option str)).
Variables b0 b0' : str.
Hypothesis Systems : same_systems systems b0 b0'.

Definition B (b b' : str) : Prop := b = b' \/ (b = b0 /\ b' = b0').

Lemma sys_same b b' : B b b' -> sys_from_build systems b = sys_from_build systems b'.
Proof.
  intros [<-|(-> & ->)]; auto. unfold sys_from_build. cbv zeta.
  rewrite (filter_ext_in (fun s => str_mem s (split_on 95%N (lower b0))) (fun s => str_mem s (split_on 95%N (lower b0')))); auto.
  intros s I. unfold sys_names in I. apply filter_In in I as (I & D).
  assert (D' : s <> $"DEFAULT").
  { intros ->. rewrite (proj2 (str_eqb_eq _ _) eq_refl) in D. discriminate. }
  change (str_mem s (words (lower b0)) = str_mem s (words (lower b0'))).
  pose proof (Systems s) as H. unfold names_system in H. rewrite !named_iff in H.
  destruct (str_mem s (words (lower b0))) eqn:E, (str_mem s (words (lower b0'))) eqn:E'; auto.
  - apply str_mem_In in E. assert (X : In s (words (lower b0'))) by tauto. apply str_mem_In in X. congruence.
  - apply str_mem_In in E'. assert (X : In s (words (lower b0))) by tauto. apply str_mem_In in X. congruence.
Qed.

(** *** [DetermineSystem] *)
Definition RD (p p' : detsys) : Prop := B (d_build p) (d_build p') /\ d_force p = d_force p' /\ d_name p = d_name p'.
Lemma system_agrees p p' : RD p p' -> agrees RD (system_name other_re systems hostname) (system_name other_re systems hostname) p p'.
Proof.
  intros H. apply agrees_bind.
  - unfold determine_system. apply agrees_get. pose proof H as (HB & HF & HN). rewrite HN.
    destruct (d_name p'); [now apply agrees_ret|].
    apply agrees_bind; [now apply agrees_res|]. intros h q q' Q.
    apply agrees_bind; [apply agrees_modify; destruct Q as (Q1 & Q2 & Q3); now split|]. intros _ r r' Q'.
    apply agrees_bind; [apply agrees_res; auto; now apply sys_same|]. intros n t t' T.
    destruct n as [n|].
    + destruct h as [h|].
      all: apply agrees_bind; [apply agrees_modify; destruct T as (Q1 & Q2 & Q3); now split|]; intros _ u u' U.
      all: rewrite HF; match goal with |- context[if ?c then _ else _] => destruct c end; [now apply agrees_raise|now apply agrees_ret].
    + destruct h as [h|]; [now apply agrees_ret|now apply agrees_raise].
  - intros _ q q' Q. apply agrees_get. pose proof Q as (Q1 & Q2 & Q3). rewrite Q3.
    destruct (d_name q'); [now apply agrees_ret|now apply agrees_raise].
Qed.

(** *** [EnvKeywordParser] *)
Hypothesis Envs : same_envs other_re envs b0 b0'.
Lemma all_values_table system : forall keys l, all_values envs system keys = Ok l ->
  exists E, map fst E = keys /\ flat_map snd E = l /\ forall n v, In (n, v) E -> get_values envs system n = Ok v.
Proof.
  induction keys as [|k keys IH]; intros l H; cbn [all_values] in H.
  - injection H as <-. exists []. repeat split; auto. intros ? ? [].
  - destruct (get_values envs system k) as [v|] eqn:G; cbn [rbind] in H; [|discriminate].
    destruct (all_values envs system keys) as [l'|]; cbn [rbind] in H; [|discriminate]. injection H as <-.
    destruct (IH l' eq_refl) as (E & H1 & H2 & H3). exists ((k, v) :: E). cbn. rewrite H1, H2. split; auto. split; auto.
    intros n w [[= <- <-]|I]; auto.
Qed.
Definition good (n : str) : Prop := forall b b', B b b' -> name_in other_re n b = name_in other_re n b'.
Lemma word_good n : env_word envs n -> good n.
Proof.
  intros H b b' [<-|(-> & ->)]; auto. destruct (Envs n H) as (R & R' & A).
  destruct (name_in_ok other_re b0 n (R n (or_introl eq_refl))) as (x & E & X).
  destruct (name_in_ok other_re b0' n (R' n (or_introl eq_refl))) as (y & E' & Y).
  rewrite E, E'. f_equal. destruct x, y; auto; exfalso.
  - assert (true = true) as T by auto. apply X, A, Y in T. discriminate.
  - assert (true = true) as T by auto. apply Y, A, X in T. discriminate.
Qed.
Definition RE (p p' : ekp) : Prop :=
  B (e_build p) (e_build p') /\ e_system p = e_system p' /\ e_names p = e_names p' /\ e_aliases p = e_aliases p' /\
  e_qualified p = e_qualified p' /\ Forall good (e_names p) /\ Forall good (e_aliases p).
Definition RO {A} (R : A -> A -> Prop) (x y : option A) : Prop :=
  match x, y with Some a, Some b => R a b | None, None => True | _, _ => False end.

Lemma new_ekp_same b b' s : B b b' ->
  match new_ekp envs b s, new_ekp envs b' s with
  | Ok k, Ok k' => RE k k'
  | Err e, Err e' => e = e'
  | _, _ => False
  end.
Proof.
  intros H. unfold new_ekp. destruct (envs s) as [d|e] eqn:D; cbn [rbind]; auto.
  destruct (get_aliases envs s) as [l|e] eqn:L; cbn [rbind]; auto.
  unfold get_aliases in L. rewrite D in L. cbn [rbind] in L.
  destruct (all_values envs s (dkeys d)) as [l'|] eqn:V; cbn [rbind] in L; [|discriminate].
  destruct (has_duplicates l'); [discriminate|]. injection L as <-.
  destruct (all_values_table s _ _ V) as (E & H1 & H2 & H3).
  assert (De : env_describes envs s E) by (split; [exists d; split; auto|auto]).
  repeat split; cbn [e_build e_system e_names e_aliases e_qualified]; auto.
  - apply Forall_forall. intros n I. apply (proj1 (by_length_in _ _)) in I. apply word_good. exists s, E. split; auto. left. now rewrite H1.
  - apply Forall_forall. intros n I. apply (proj1 (by_length_in _ _)) in I. apply word_good. exists s, E. split; auto. right. now rewrite H2.
Qed.
Lemma first_same l b b' : B b b' -> Forall good l -> first_in other_re l b = first_in other_re l b'.
Proof.
  intros H. induction 1 as [|n l G F IH]; auto. cbn [first_in]. rewrite (G b b' H), IH. reflexivity.
Qed.
Lemma qualified_agrees p p' : RE p p' ->
  agrees RE (qualified_env_name other_re envs) (qualified_env_name other_re envs) p p'.
Proof.
  intros H. unfold qualified_env_name. apply agrees_get.
  pose proof H as (HB & HS & HN & HA & HQ & G1 & G2). rewrite HQ. destruct (e_qualified p'); [now apply agrees_ret|].
  apply agrees_bind.
  - apply agrees_res; auto. unfold matched_env. rewrite <- HN, <- HA, <- HS, (first_same _ _ _ HB G1), (first_same _ _ _ HB G2). auto.
  - intros n q q' Q. cbv zeta. rewrite HS. apply agrees_bind.
    + apply agrees_modify. destruct Q as (Q1 & Q2 & Q3 & Q4 & Q5 & Q6 & Q7). repeat split; auto.
    + intros _ r r' Q'. now apply agrees_ret.
Qed.

(** *** [LoadEnv] *)
Definition RL (p p' : loadenv) : Prop :=
  B (l_build p) (l_build p') /\ l_force p = l_force p' /\ l_system p = l_system p' /\ l_parsed p = l_parsed p' /\
  RO RE (l_ekp p) (l_ekp p').
Ltac rel := repeat match goal with H : RL _ _ |- _ => destruct H as (? & ? & ? & ? & ?) end;
  refine (conj _ (conj _ (conj _ (conj _ _)))); cbn [l_build l_force l_system l_parsed l_ekp]; auto.

Lemma le_system_agrees p p' : RL p p' ->
  agrees RL (le_system_name other_re systems hostname) (le_system_name other_re systems hostname) p p'.
Proof.
  intros H. apply agrees_get. pose proof H as (HB & HF & HS & HP & HE). rewrite HS.
  destruct (l_system p'); [now apply agrees_ret|]. apply agrees_bind.
  - apply agrees_res; auto. rewrite HF.
    assert (D : RD (new_detsys (l_build p) (l_force p')) (new_detsys (l_build p') (l_force p'))) by (split; auto).
    apply system_agrees in D. apply D.
  - intros [s|] q q' Q; [|now apply agrees_raise]. apply agrees_bind; [apply agrees_modify; rel|].
    intros _ r r' T. now apply agrees_ret.
Qed.

(** The parser is another object on either side. *)
Definition agrees_ekp (m : SM loadenv ekp) (p p' : loadenv) : Prop :=
  match fst (m p), fst (m p') with
  | Ok k, Ok k' => RE k k'
  | Err e, Err e' => e = e'
  | _, _ => False
  end /\ RL (snd (m p)) (snd (m p')).
Lemma le_ekp_agrees p p' : RL p p' -> agrees_ekp (le_ekp other_re systems hostname envs) p p'.
Proof.
  intros H. unfold agrees_ekp, le_ekp.
  repeat match goal with |- context[bind get ?k ?e] => change (bind get k e) with (k e e) end. cbv beta.
  pose proof H as (HB & HF & HS & HP & HE). unfold RO in HE.
  destruct (l_ekp p) as [k|], (l_ekp p') as [k'|]; try contradiction; [now split|].
  unfold le_load_ekp, bind, get. pose proof (le_system_agrees _ _ H) as (A & Q).
  destruct (le_system_name other_re systems hostname p) as ([s|e], q), (le_system_name other_re systems hostname p') as ([s'|e'], q');
    cbn [fst snd] in *; try discriminate; [|split; [congruence|auto]].
  injection A as <-. unfold of_res. pose proof (new_ekp_same _ _ s HB) as N.
  destruct (new_ekp envs (l_build p) s), (new_ekp envs (l_build p') s); try contradiction; cbn; [split; auto; rel|split; auto].
Qed.
Lemma le_parsed_agrees p p' : RL p p' ->
  agrees RL (le_parsed_env_name other_re systems hostname envs) (le_parsed_env_name other_re systems hostname envs) p p'.
Proof.
  intros H. apply agrees_get. pose proof H as (HB & HF & HS & HP & HE). rewrite HP.
  destruct (l_parsed p'); [now apply agrees_ret|].
  destruct (le_ekp_agrees _ _ H) as (A & Q). unfold agrees.
  repeat match goal with |- context[bind (le_ekp ?a ?b ?c ?d) ?k ?e] =>
    change (bind (le_ekp a b c d) k e) with (match le_ekp a b c d e with (Ok x, s') => k x s' | (Err y, s') => (Err y, s') end) end.
  destruct (le_ekp other_re systems hostname envs p) as ([k|e], q), (le_ekp other_re systems hostname envs p') as ([k'|e'], q');
    cbn [fst snd] in *; try contradiction; [|split; [congruence|auto]].
  destruct (qualified_agrees _ _ A) as (A1 & Q1).
  destruct (qualified_env_name other_re envs k) as (r, t), (qualified_env_name other_re envs k') as (r', t').
  cbn [fst snd] in *. subst r'.
  match goal with |- fst (?m q) = fst (?m' q') /\ _ => change (agrees RL m m' q q') end.
  apply agrees_bind; [apply agrees_modify; rel|]. intros _ u u' U.
  apply agrees_bind; [now apply agrees_res|]. intros n v v' V.
  apply agrees_bind; [apply agrees_modify; rel|]. intros _ w w' W. now apply agrees_ret.
Qed.

Lemma new_related force : RL (new_loadenv b0 force) (new_loadenv b0' force).
Proof. unfold RL. cbn. split; [now right|]. repeat split; auto. Qed.
Lemma last_build_same h : forall b b', last_build h b = last_build h b' \/ (last_build h b = b /\ last_build h b' = b').
Proof. induction h as [|o h IH]; intros b b'; cbn [last_build]; auto. destruct o; auto. Qed.
Lemma load_words force h o : o = LSystem \/ o = LParsed ->
  fst (lexec other_re systems hostname envs o (lafter other_re systems hostname envs h (new_loadenv b0 force)))
  = fst (lexec other_re systems hostname envs o (lafter other_re systems hostname envs h (new_loadenv b0' force))).
Proof.
  intros O. rewrite !load_history. destruct (last_build_same h b0 b0') as [-> | (-> & ->)]; auto.
  pose proof (new_related force) as N. destruct O as [-> | ->].
  - now apply le_system_agrees.
  - now apply le_parsed_agrees.
Qed.

Lemma stripped_words force h : same_words b0 b0' ->
  same_answer (fst (lexec other_re systems hostname envs LStripped (lafter other_re systems hostname envs h (new_loadenv b0 force))))
    (fst (lexec other_re systems hostname envs LStripped (lafter other_re systems hostname envs h (new_loadenv b0' force)))).
Proof.
  intros Same. rewrite !load_history. destruct (last_build_same h b0 b0') as [-> | (-> & ->)].
  { unfold same_answer. destruct (fst _); auto. intros w. tauto. }
  pose proof (new_related force) as N. destruct (le_ekp_agrees _ _ N) as (A & _). cbn [lexec]. unfold le_stripped.
  repeat match goal with |- context[bind get ?k ?e] => change (bind get k e) with (k e e) end. cbn [l_stripped new_loadenv l_build].
  repeat match goal with |- context[bind (le_ekp ?a ?b ?c ?d) ?k ?e] =>
    change (bind (le_ekp a b c d) k e) with (match le_ekp a b c d e with (Ok x, s') => k x s' | (Err y, s') => (Err y, s') end) end.
  destruct (le_ekp other_re systems hostname envs (new_loadenv b0 force)) as ([k|e], q),
    (le_ekp other_re systems hostname envs (new_loadenv b0' force)) as ([k'|e'], q'); cbn [fst snd] in *; try contradiction; auto.
  destruct A as (_ & _ & An & Aa & _). cbv zeta. unfold bind, modify, ret. cbn [fst same_answer]. rewrite An, Aa.
  set (f := fun l => filter (fun w => negb (str_mem w (sys_names systems)))
    (filter (fun w => negb (str_mem w (e_aliases k'))) (filter (fun w => negb (str_mem w (e_names k'))) l))).
  change (same_words (join [95%N] (f (words b0))) (join [95%N] (f (words b0')))).
  assert (I : forall w, In w (f (words b0)) <-> In w (f (words b0'))).
  { intros w. unfold f. rewrite !filter_In. specialize (Same w). rewrite !named_iff in Same. tauto. }
  assert (F : forall b, Forall (fun x => ~ In 95%N x) (f (words b))).
  { intros b. apply Forall_forall. intros x X. unfold f in X. rewrite !filter_In in X. destruct X as (((X & _) & _) & _).
    pose proof (split_no_sep 95%N b) as P. rewrite Forall_forall in P. now apply P. }
  pose proof (F b0) as F0. pose proof (F b0') as F1. clear F. intros w. rewrite !named_iff. unfold words at 1 3.
  destruct (f (words b0)) as [|x l] eqn:E, (f (words b0')) as [|x' l'] eqn:E'.
  - tauto.
  - destruct (proj2 (I x') (or_introl eq_refl)).
  - destruct (proj1 (I x) (or_introl eq_refl)).
  - rewrite !join_split by (auto; discriminate). apply I.
Qed.

(** *** [ConfigKeywordParser] *)
Variable flags : str -> res (dict (option str)).
Variable specs : list str.
Variable gen : str -> res (list str).
Hypothesis Options : same_options flags b0 b0'.

Definition RC (p p' : ckp) : Prop :=
  B (c_build p) (c_build p') /\ c_flags p = c_flags p' /\ c_selected p = c_selected p' /\ c_string p = c_string p' /\
  c_options p = c_options p' /\ c_defaults p = c_defaults p'.
Ltac rec := repeat match goal with H : RC _ _ |- _ => destruct H as (? & ? & ? & ? & ? & ?) end;
  refine (conj _ (conj _ (conj _ (conj _ (conj _ _))))); cbn [c_build c_flags c_selected c_string c_options c_defaults]; auto.
Lemma select_same b b' : B b b' -> forall l acc, select_all flags (words b) l acc = select_all flags (words b') l acc.
Proof.
  intros H. induction l as [|f l IH]; intros acc; auto. cbn [select_all].
  assert (X : select flags (words b) f = select flags (words b') f).
  { unfold select. destruct (flag_options flags f) as [(o, t)|] eqn:F; cbn [rbind]; auto.
    rewrite (filter_ext_in (fun o => str_mem o (words b)) (fun o => str_mem o (words b'))); auto.
    intros x I. destruct H as [<-|(-> & ->)]; auto.
    assert (W : option_word flags x).
    { unfold flag_options in F. destruct (get_values flags flags_section f) as [v|] eqn:G; cbn [rbind] in F; [|discriminate].
      destruct v as [|y v]; [discriminate|]. destruct (str_mem y _) in F; [|discriminate]. injection F as <- <-.
      exists f, (y :: v). split; [exact G|now right]. }
    apply Options in W. rewrite !named_iff in W.
    destruct (str_mem x (words b0)) eqn:E, (str_mem x (words b0')) eqn:E'; auto.
    - apply str_mem_In, W, str_mem_In in E. congruence.
    - apply str_mem_In, W, str_mem_In in E'. congruence. }
  rewrite X. destruct (select flags (words b') f); cbn [rbind]; auto.
Qed.
Lemma options_agrees p p' : RC p p' -> agrees RC (selected_options_str flags) (selected_options_str flags) p p'.
Proof.
  intros H. apply agrees_get. pose proof H as (HB & HF & HS & HT & HO & HD). rewrite HT.
  destruct (c_string p'); [now apply agrees_ret|]. apply agrees_bind.
  - unfold selected_options. apply agrees_bind.
    + unfold parse_selected_options. apply agrees_get. rewrite HS. destruct (c_selected p'); [now apply agrees_ret|].
      apply agrees_bind.
      * unfold options_list. apply agrees_get. rewrite HO. destruct (c_options p'); [now apply agrees_ret|].
        rewrite HF. apply agrees_bind; [now apply agrees_res|]. intros l q q' Q.
        apply agrees_bind; [apply agrees_modify; rec|]. intros _ r r' T. now apply agrees_ret.
      * intros l q q' Q. destruct (has_duplicates l); [now apply agrees_raise|]. rewrite HF. apply agrees_bind.
        -- apply agrees_res; auto. exact (select_same _ _ HB _ _).
        -- intros d r r' T. apply agrees_modify. rec.
    + intros _ q q' Q. apply agrees_get. pose proof Q as (_ & _ & QS & _). rewrite QS.
      destruct (c_selected q'); [now apply agrees_ret|now apply agrees_raise].
  - intros d q q' Q. cbv zeta. apply agrees_bind; [apply agrees_modify; rec|]. intros _ r r' T. now apply agrees_ret.
Qed.

(** *** [GenConfig] *)
Definition RG (p p' : genconfig) : Prop :=
  B (g_build p) (g_build p') /\ g_force p = g_force p' /\ RO RC (g_ckp p) (g_ckp p') /\ RO RL (g_le p) (g_le p') /\
  g_config p = g_config p' /\ g_valid p = g_valid p'.
Ltac reg := repeat match goal with H : RG _ _ |- _ => destruct H as (? & ? & ? & ? & ? & ?) end;
  refine (conj _ (conj _ (conj _ (conj _ (conj _ _))))); cbn [g_build g_force g_ckp g_le g_config g_valid RO]; auto.
Lemma load_ckp_agrees p p' : RG p p' -> agrees RG (load_ckp flags) (load_ckp flags) p p'.
Proof.
  intros H. apply agrees_get. pose proof H as (HB & HF & HC & HL & HG & HV). unfold RO in HC.
  destruct (g_ckp p) as [k|] eqn:K, (g_ckp p') as [k'|] eqn:K'; try contradiction; [now apply agrees_ret|].
  unfold new_ckp. destruct (flags flags_section) as [d|e]; cbn [rbind].
  - unfold agrees, bind, of_res, modify. cbn [fst snd]. split; auto. reg. rec.
  - split; auto.
Qed.
Lemma load_le_agrees p p' : RG p p' -> agrees RG load_le load_le p p'.
Proof.
  intros H. apply agrees_modify. pose proof H as (HB & HF & HC & HL & HG & HV). unfold RO in HL.
  destruct (g_le p) as [k|] eqn:K, (g_le p') as [k'|] eqn:K'; try contradiction; auto.
  rewrite HF. reg. rel; exact Logic.I.
Qed.
Lemma on_le_agrees {A} (m m' : SM loadenv A) p p' :
  (forall q q', RL q q' -> agrees RL m m' q q') -> RG p p' -> agrees RG (on_le m) (on_le m') p p'.
Proof.
  intros M H. unfold agrees, on_le. pose proof H as (HB & HF & HC & HL & HG & HV). unfold RO in HL.
  destruct (g_le p) as [k|] eqn:K, (g_le p') as [k'|] eqn:K'; try contradiction; [|now split].
  destruct (M _ _ HL) as (A1 & Q1). destruct (m k), (m' k'). cbn [fst snd] in *. split; auto. reg.
Qed.
Lemma on_ckp_agrees {A} (m m' : SM ckp A) p p' :
  (forall q q', RC q q' -> agrees RC m m' q q') -> RG p p' -> agrees RG (on_ckp m) (on_ckp m') p p'.
Proof.
  intros M H. unfold agrees, on_ckp. pose proof H as (HB & HF & HC & HL & HG & HV). unfold RO in HC.
  destruct (g_ckp p) as [k|] eqn:K, (g_ckp p') as [k'|] eqn:K'; try contradiction; [|now split].
  destruct (M _ _ HC) as (A1 & Q1). destruct (m k), (m' k'). cbn [fst snd] in *. split; auto. reg.
Qed.
Lemma complete_agrees p p' : RG p p' ->
  agrees RG (complete_config other_re systems hostname envs flags) (complete_config other_re systems hostname envs flags) p p'.
Proof.
  intros H. apply agrees_get. pose proof H as (_ & _ & _ & _ & HG & _). rewrite HG. destruct (g_config p'); [now apply agrees_ret|].
  apply agrees_bind; [now apply load_ckp_agrees|]. intros _ q q' Q.
  apply agrees_bind; [now apply load_le_agrees|]. intros _ r r' T.
  apply agrees_bind; [apply on_le_agrees; auto; apply le_parsed_agrees|]. intros n u u' U.
  apply agrees_bind; [apply on_ckp_agrees; auto; apply options_agrees|]. intros s v v' V. cbv zeta.
  apply agrees_bind; [apply agrees_modify; reg|]. intros _ w w' W. now apply agrees_ret.
Qed.
Lemma set_build_agrees b b' p p' : B b b' -> RG p p' -> agrees RG (on_le (le_set_build b)) (on_le (le_set_build b')) p p'.
Proof. intros HB. apply on_le_agrees. intros q q' Q. apply agrees_modify. rel. exact Logic.I. Qed.
Lemma set_force_agrees f p p' : RG p p' -> agrees RG (on_le (le_set_force f)) (on_le (le_set_force f)) p p'.
Proof. apply on_le_agrees. intros q q' Q. apply agrees_modify. rel. Qed.
Lemma set_name_agrees b b' p p' : B b b' -> RG p p' -> agrees RG (on_ckp (set_build_name b)) (on_ckp (set_build_name b')) p p'.
Proof. intros HB. apply on_ckp_agrees. intros q q' Q. apply agrees_modify. rec. Qed.
Lemma check_agrees l : forall p p', RG p p' ->
  agrees RG (check_sections other_re systems hostname envs flags l) (check_sections other_re systems hostname envs flags l) p p'.
Proof.
  induction l as [|s l IH]; intros p p' H; cbn [check_sections]; [now apply agrees_ret|].
  destruct (str_eqb (upper s) s); auto.
  apply agrees_bind; [apply set_build_agrees; auto; now left|]. intros _ q q' Q.
  apply agrees_bind; [apply set_name_agrees; auto; now left|]. intros _ r r' T.
  apply agrees_bind; [apply on_ckp_agrees; auto; apply options_agrees|]. intros o u u' U.
  apply agrees_bind; [apply on_le_agrees; auto; apply le_parsed_agrees|]. intros n v v' V.
  apply agrees_bind; [now apply IH|]. intros rest w w' W. now apply agrees_ret.
Qed.
Lemma validate_agrees p p' : RG p p' ->
  agrees RG (validate other_re systems hostname envs flags specs) (validate other_re systems hostname envs flags specs) p p'.
Proof.
  intros H. apply agrees_bind; [now apply load_ckp_agrees|]. intros _ q q' Q.
  apply agrees_bind; [now apply load_le_agrees|]. intros _ r r' T.
  apply agrees_bind; [now apply set_force_agrees|]. intros _ u u' U.
  apply agrees_bind; [now apply check_agrees|]. intros [|x bad] v v' V; [|now apply agrees_raise].
  apply agrees_get. pose proof V as (VB & VF & _). rewrite VF.
  apply agrees_bind; [now apply set_build_agrees|]. intros _ q1 q1' Q1.
  apply agrees_bind; [now apply set_force_agrees|]. intros _ q2 q2' Q2.
  apply agrees_bind; [now apply set_name_agrees|]. intros _ q3 q3' Q3.
  apply agrees_modify. reg.
Qed.
Lemma gexec_agrees o p p' : RG p p' ->
  agrees RG (gexec other_re systems hostname envs flags specs gen o) (gexec other_re systems hostname envs flags specs gen o) p p'.
Proof.
  intros H. destruct o; cbn [gexec].
  - apply agrees_bind; [now apply complete_agrees|]. intros; now apply agrees_ret.
  - apply agrees_bind; [now apply validate_agrees|]. intros; now apply agrees_ret.
  - apply agrees_bind; [|intros; now apply agrees_ret]. apply agrees_get.
    pose proof H as (_ & _ & _ & _ & _ & HV). rewrite HV. apply agrees_bind.
    + destruct (g_valid p'); [now apply agrees_ret|now apply validate_agrees].
    + intros _ q q' Q. apply agrees_bind; [now apply complete_agrees|]. intros; now apply agrees_res.
  - apply agrees_bind; [|intros; now apply agrees_ret]. apply agrees_bind; [now apply load_le_agrees|]. intros _ q q' Q.
    apply agrees_bind; [apply on_le_agrees; auto; apply le_system_agrees|]. intros; now apply agrees_ret.
Qed.
Lemma gafter_agrees h : forall p p', RG p p' ->
  RG (gafter other_re systems hostname envs flags specs gen h p) (gafter other_re systems hostname envs flags specs gen h p').
Proof. induction h as [|o h IH]; intros p p' H; auto. cbn [gafter]. apply IH. now apply gexec_agrees. Qed.

Lemma gen_words force h o :
  fst (gexec other_re systems hostname envs flags specs gen o
         (gafter other_re systems hostname envs flags specs gen h (new_genconfig b0 force)))
  = fst (gexec other_re systems hostname envs flags specs gen o
           (gafter other_re systems hostname envs flags specs gen h (new_genconfig b0' force))).
Proof.
  apply gexec_agrees, gafter_agrees. unfold RG. cbn. split; [now right|]. repeat split; auto.
Qed.
End Names.

Lemma literal_same other_re envs b b' :
  literal_envs envs -> ~ In 10%N b -> ~ In 10%N b' -> (forall n, env_word envs n -> (named b n <-> named b' n)) ->
  same_envs other_re envs b b'.
Proof.
  intros L N N' S n W. destruct (L n W) as (Ln & U).
  assert (P : plain n) by now apply literal_plain.
  split; [|split].
  - intros m [<-|[]]. now left.
  - intros m [<-|[]]. now left.
  - rewrite !appears_word by auto. now apply S.
Qed.
Lemma words_systems systems b b' : same_words b b' -> same_systems systems b b'.
Proof.
  intros H n. unfold names_system. rewrite !named_iff, !words_lower, !in_map_iff.
  assert (W : forall w, In w (words b) <-> In w (words b')) by (intros w; rewrite <- !named_iff; apply H).
  split; intros (I & D & x & X & Y); (split; [auto|split; [auto|exists x; split; [auto|now apply W]]]).
Qed.
Lemma words_options flags b b' : same_words b b' -> same_options flags b b'.
Proof. intros H o _. apply H. Qed.

Theorem gen_same_words :
  forall other_re systems hostname envs flags specs gen b b',
    literal_envs envs -> ~ In 10%N b -> ~ In 10%N b' -> same_words b b' ->
    forall force h o,
      fst (gexec other_re systems hostname envs flags specs gen o
             (gafter other_re systems hostname envs flags specs gen h (new_genconfig b force)))
      = fst (gexec other_re systems hostname envs flags specs gen o
               (gafter other_re systems hostname envs flags specs gen h (new_genconfig b' force))).
Proof.
  intros other_re systems hostname envs flags specs gen b b' L N N' S force h o. apply gen_words.
  - now apply words_systems.
  - apply literal_same; auto.
  - now apply words_options.
Qed.
Theorem load_same_words :
  forall other_re systems hostname envs b b',
    literal_envs envs -> ~ In 10%N b -> ~ In 10%N b' -> same_words b b' ->
    forall force h o, o = LSystem \/ o = LParsed ->
      fst (lexec other_re systems hostname envs o (lafter other_re systems hostname envs h (new_loadenv b force)))
      = fst (lexec other_re systems hostname envs o (lafter other_re systems hostname envs h (new_loadenv b' force))).
Proof.
  intros other_re systems hostname envs b b' L N N' S force h o O. apply load_words; auto.
  - now apply words_systems.
  - apply literal_same; auto.
Qed.
Theorem stripped_same_words :
  forall other_re systems hostname envs b b',
    literal_envs envs -> ~ In 10%N b -> ~ In 10%N b' -> same_words b b' ->
    forall force h,
      same_answer
        (fst (lexec other_re systems hostname envs LStripped (lafter other_re systems hostname envs h (new_loadenv b force))))
        (fst (lexec other_re systems hostname envs LStripped (lafter other_re systems hostname envs h (new_loadenv b' force)))).
Proof.
  intros other_re systems hostname envs b b' L N N' S force h. apply stripped_words; auto.
  - now apply words_systems.
  - apply literal_same; auto.
Qed.
