(** * The same for [LoadEnv] and [GenConfig], which have several files. *)
From Coq Require Import String NArith ZArith List Bool Lia Arith.
Import ListNotations.
From Verif Require Import PyBase PyFacts IniView IniRead ExcControl Cpe SpecWalk SpecRun SpecParse SpecApi BaseProofs Trace Samples
  ApiProofs EnvVar Regex Keyword KeywordFile DetSys EnvKeyword LoadEnv TopLevel FileObjects SpecFlags SpecLoadEnv SpecObjects ObjectProofs.
Local Open Scope sm_scope.

Section Load.
Variable uniword : pychar -> bool.
Variable fs : str -> option str.
Variable fuel : nat.
Variable other_re : str -> str -> res bool.
Variable hostname : str.
Notation K := (base_class uniword).
Notation cpe := (obj unit unit).
Variables (systems_file envs_file : str) (is ie : ini).
Hypothesis RS : readable uniword fs fuel systems_file is.
Hypothesis RE : readable uniword fs fuel envs_file ie.
Variable systems : list (str * list str).
Variable envs : str -> res (dict (option str)).
Hypothesis SY : keys_of uniword is systems.
Hypothesis TE : table_of uniword ie envs.

(** The [env_keyword_parser], if there is one, is for a section of its file. *)
Definition step_le (p : cpe * loadenv) (x : loadenv) : Prop :=
  snd p = x /\ gf uniword fs ie (fst p) /\
  forall k, l_ekp x = Some k -> ini_has_section ie (e_system k) = true.

Lemma sim_le_object {A} (m : SM loadenv A) :
  (forall x k, l_ekp (snd (m x)) = Some k -> l_ekp x = Some k) -> sim step_le (on_object m) m.
Proof.
  intros H [o y] x (E & g & P). cbn [fst snd] in *. subst y. unfold on_object. cbn [fst snd].
  specialize (H x). destruct (m x) as [r x']. cbn [fst snd] in *. split; [reflexivity|]. repeat split; auto.
Qed.
Ltac step := first [apply sim_ret | apply sim_raise | apply sim_of_res
  | apply sim_le_object; cbn; intros; (assumption || discriminate) | apply sim_bind; [|intros ?]].

Lemma sim_le_system : sim step_le (f_le_system_name uniword fs fuel other_re hostname systems_file)
  (le_system_name other_re systems hostname).
Proof.
  unfold f_le_system_name, le_system_name. step; [step|]. destruct (l_system a); [step|].
  rewrite (proj1 (sim_system uniword fs fuel other_re hostname systems_file is RS systems SY _ _
    (new_detsys_same uniword fs fuel systems_file is RS (l_build a) (l_force a)))).
  step; [step|]. destruct a0; repeat step.
Qed.
Lemma le_system_ekp x k : l_ekp (snd (le_system_name other_re systems hostname x)) = Some k -> l_ekp x = Some k.
Proof.
  unfold le_system_name, bind, get, of_res, modify. destruct (l_system x); [auto|].
  destruct (fst (system_name _ _ _ _)) as [[n|]|]; auto.
Qed.
Lemma sim_le_load : sim step_le (f_le_load_ekp uniword fs fuel other_re hostname systems_file envs_file)
  (le_load_ekp other_re systems hostname envs).
Proof.
  unfold f_le_load_ekp, le_load_ekp. step; [step|]. step; [apply sim_le_system|].
  pose proof (new_ekp_same uniword fs fuel envs_file ie RE envs TE (l_build a) a0) as N.
  destruct (f_new_ekp uniword fs fuel envs_file (l_build a) a0) as [[o k]|e],
           (new_ekp envs (l_build a) a0) as [k'|e']; try contradiction.
  - destruct N as (E & g & P). cbn [fst snd] in *. subst k'.
    intros [o1 y] x (E1 & g1 & P1). cbn [fst snd] in *. subst y.
    unfold bind, of_res, modify, ret. cbn [fst snd]. split; [reflexivity|].
    split; [reflexivity|]. split; [exact g|]. cbn. intros k0 [= <-]. exact P.
  - subst e'. intros p x H. unfold bind, of_res. now split.
Qed.
Lemma sim_le_ekp : sim step_le (f_le_ekp uniword fs fuel other_re hostname systems_file envs_file)
  (le_ekp other_re systems hostname envs).
Proof.
  unfold f_le_ekp, le_ekp. step; [step|]. destruct (l_ekp a); [step|apply sim_le_load].
Qed.

(** The [env_keyword_parser] that was asked for is for a section of its file. *)
Lemma le_ekp_present p x k : step_le p x -> fst (le_ekp other_re systems hostname envs x) = Ok k ->
  ini_has_section ie (e_system k) = true.
Proof.
  intros H E. pose proof (sim_le_ekp p x H) as [_ (_ & _ & P)]. apply P.
  destruct H as (_ & _ & Q).
  unfold le_ekp, bind, get in E |- *. destruct (l_ekp x) as [k0|] eqn:L.
  - cbn in E |- *. injection E as <-. exact L.
  - unfold le_load_ekp, bind, get in E |- *. destruct (le_system_name other_re systems hostname x) as [[s|] x1]; [|discriminate].
    unfold of_res in *. destruct (new_ekp envs (l_build x) s); [|discriminate]. cbn in E |- *. now injection E as <-.
Qed.

Lemma sim_le_parsed : sim step_le (f_le_parsed_env_name uniword fs fuel other_re hostname systems_file envs_file)
  (le_parsed_env_name other_re systems hostname envs).
Proof.
  intros [o y] x H. pose proof H as (E & _ & _). cbn [snd] in E. subst y.
  unfold f_le_parsed_env_name, le_parsed_env_name. rewrite (bind_eq (on_object get)), (bind_eq get).
  unfold on_object at 1 3. unfold get at 1 2 3 4. cbn [fst snd]. cbv beta iota.
  destruct (l_parsed x) as [n|]; [split; [reflexivity|exact H]|].
  pose proof (sim_le_ekp _ _ H) as [E1 H1]. pose proof (fun k => le_ekp_present _ _ k H) as P.
  rewrite (bind_eq (f_le_ekp _ _ _ _ _ _ _)), (bind_eq (le_ekp _ _ _ _)).
  destruct (f_le_ekp uniword fs fuel other_re hostname systems_file envs_file (o, x)) as [r p1].
  destruct (le_ekp other_re systems hostname envs x) as [r' x1]. cbn [fst snd] in *. subst r'.
  destruct r as [k|e]; [|now split]. specialize (P k eq_refl).
  destruct H1 as (E2 & g2 & P2). destruct p1 as [o1 y]. cbn [fst snd] in *. subst y.
  assert (S : step_ekp uniword fs ie (o1, k) k) by (repeat split; auto).
  destruct (sim_qualified uniword fs fuel other_re envs_file ie RE envs TE _ _ S) as [E3 (E4 & g4 & P4)].
  unfold bind, on_ekp, on_object, modify, of_res, ret. cbn [fst snd].
  destruct (f_qualified_env_name uniword fs fuel other_re (o1, k)) as [r2 [o2 k2]].
  destruct (qualified_env_name other_re envs k) as [r3 k3]. cbn [fst snd] in *. subst r3 k3.
  destruct r2 as [n|e]; cbn [fst snd]; (split; [reflexivity|]); (split; [reflexivity|]); (split; [exact g4|]); cbn;
    intros k0 [= <-]; exact P4.
Qed.

Lemma not_systems_same l : fst (f_not_systems uniword fs fuel l (open_ini systems_file))
  = Ok (filter (fun w => negb (str_mem w (sys_names systems))) l).
Proof.
  destruct (gives_not_systems uniword fs fuel is systems SY l _ (gf_open uniword fs fuel systems_file is RS))
    as (o & -> & _). reflexivity.
Qed.
Lemma sim_le_stripped : sim step_le (f_le_stripped uniword fs fuel other_re hostname systems_file envs_file)
  (le_stripped other_re systems hostname envs).
Proof.
  unfold f_le_stripped, le_stripped. step; [step|]. destruct (l_stripped a); [step|].
  step; [apply sim_le_ekp|]. cbv zeta. rewrite not_systems_same.
  match goal with |- sim ?R (bind (of_res (Ok ?l)) ?k) ?m => change (sim R (k l) m) end. cbv beta. repeat step.
Qed.

Lemma sim_lexec o : sim step_le (flexec uniword fs fuel other_re hostname systems_file envs_file o)
  (lexec other_re systems hostname envs o).
Proof.
  destruct o; cbn [flexec lexec].
  - apply sim_le_system.
  - apply sim_le_parsed.
  - apply sim_le_stripped.
  - step; [|step]. apply sim_le_object. cbn. discriminate.
Qed.
Lemma new_loadenv_same build force : step_le (f_new_loadenv envs_file build force) (new_loadenv build force).
Proof. split; [reflexivity|]. split; [eapply gf_open; eauto|]. cbn. discriminate. Qed.

(** ** [GenConfig] *)
Variables (flags_file : str) (jf : ini).
Hypothesis RF : readable uniword fs fuel flags_file jf.
Variable flags : str -> res (dict (option str)).
Hypothesis TF : table_of uniword jf flags.
Variable specs : list str.
Variable gen : str -> res (list str).

Definition step_gen (p : fgen) (x : genconfig) : Prop :=
  fg p = x /\
  (forall k, g_ckp x = Some k -> gf uniword fs jf (fg_flags p) /\ ini_has_section jf flags_section = true) /\
  gf uniword fs ie (fg_envs p) /\
  (forall l, g_le x = Some l -> step_le (fg_envs p, l) l).

Lemma sim_gen {A} (m : SM genconfig A) :
  (forall x, g_ckp (snd (m x)) = g_ckp x) ->
  (forall x l, g_le (snd (m x)) = Some l -> g_le x = Some l \/ l_ekp l = None) ->
  sim step_gen (on_gen m) m.
Proof.
  intros H1 H2 p x (E & P & g & Q). unfold on_gen. rewrite E. specialize (H1 x). specialize (H2 x).
  destruct (m x) as [r x']. cbn [fst snd] in *. split; [reflexivity|]. split; [reflexivity|].
  cbn [fg_flags fg_envs fg]. split; [rewrite H1; exact P|]. split; [exact g|].
  intros l L. destruct (H2 l L) as [L'|L']; [auto|]. split; [reflexivity|]. split; [exact g|].
  rewrite L'. discriminate.
Qed.
Ltac gstep := first [apply sim_ret | apply sim_raise | apply sim_of_res
  | apply sim_gen; cbn; intros; (reflexivity || (left; assumption)) | apply sim_bind; [|intros ?]].

Lemma sim_load_ckp : sim step_gen (f_load_ckp uniword fs fuel flags_file) (load_ckp flags).
Proof.
  unfold f_load_ckp, load_ckp. gstep; [gstep|]. destruct (g_ckp a); [gstep|].
  pose proof (new_ckp_same uniword fs fuel flags_file jf RF flags TF (g_build a)) as N.
  destruct (f_new_ckp uniword fs fuel flags_file (g_build a)) as [[o k]|e], (new_ckp flags (g_build a)) as [k'|e'];
    try contradiction.
  - destruct N as ((E & g) & P). cbn [fst snd] in *. subst k'.
    intros p x (E1 & P1 & g1 & Q1). unfold bind, of_res, modify. cbn [fst snd]. split; [reflexivity|].
    rewrite E1. split; [reflexivity|]. cbn. split; [intros k0 _; now split|]. split; [exact g1|exact Q1].
  - subst e'. intros p x H. unfold bind, of_res. now split.
Qed.
Lemma sim_load_le : sim step_gen f_load_le load_le.
Proof.
  apply sim_gen; intros x; unfold load_le, modify; cbn [snd]; destruct (g_le x) eqn:E; cbn; auto.
  - intros l0 L. left. congruence.
  - intros l [= <-]. now right.
Qed.
Lemma sim_on_ckp {A} (m : SM (cpe * ckp) A) m' :
  (ini_has_section jf flags_section = true -> sim (step_file uniword fs jf) m m') -> sim step_gen (f_on_ckp m) (on_ckp m').
Proof.
  intros H p x SG. pose proof SG as (E & P & g & Q). unfold f_on_ckp, on_ckp. rewrite E.
  destruct (g_ckp x) as [k|] eqn:L; [|split; [reflexivity|exact SG]].
  destruct (P k eq_refl) as [gk Pk]. specialize (H Pk (fg_flags p, k) k (conj eq_refl gk)) as [E1 [E2 g2]].
  destruct (m (fg_flags p, k)) as [r [o k']], (m' k) as [r' k'']. cbn [fst snd] in *. subst r' k''.
  split; [reflexivity|]. split; [reflexivity|]. cbn. split; [intros; now split|]. split; auto.
Qed.
Lemma sim_on_le {A} (m : SM (cpe * loadenv) A) m' : sim step_le m m' -> sim step_gen (f_on_le m) (on_le m').
Proof.
  intros H p x SG. pose proof SG as (E & P & g & Q). unfold f_on_le, on_le. rewrite E.
  destruct (g_le x) as [k|] eqn:L; [|split; [reflexivity|exact SG]].
  specialize (H (fg_envs p, k) k (Q k eq_refl)) as [E1 S]. pose proof S as (E2 & g2 & P2).
  destruct (m (fg_envs p, k)) as [r [o k']], (m' k) as [r' k'']. cbn [fst snd] in *. subst r' k''.
  split; [reflexivity|]. split; [reflexivity|]. cbn. split; [exact P|]. split; [exact g2|]. intros l [= <-]. exact S.
Qed.
Lemma sim_set_build b : sim step_gen (f_on_le (f_le_set_build b)) (on_le (le_set_build b)).
Proof. apply sim_on_le, sim_le_object. cbn. discriminate. Qed.
Lemma sim_set_force b : sim step_gen (f_on_le (f_le_set_force b)) (on_le (le_set_force b)).
Proof. apply sim_on_le, sim_le_object. cbn. auto. Qed.
Lemma sim_set_name b : sim step_gen (f_on_ckp (f_set_build_name b)) (on_ckp (set_build_name b)).
Proof. apply sim_on_ckp. intros _. apply sim_object. Qed.
Lemma sim_gen_str : sim step_gen (f_on_ckp (f_selected_options_str uniword fs fuel)) (on_ckp (selected_options_str flags)).
Proof. apply sim_on_ckp. intros P. eapply sim_selected_str; eauto. Qed.
Lemma sim_gen_parsed : sim step_gen
  (f_on_le (f_le_parsed_env_name uniword fs fuel other_re hostname systems_file envs_file))
  (on_le (le_parsed_env_name other_re systems hostname envs)).
Proof. apply sim_on_le, sim_le_parsed. Qed.

Lemma sim_complete : sim step_gen (f_complete_config uniword fs fuel other_re hostname systems_file envs_file flags_file)
  (complete_config other_re systems hostname envs flags).
Proof.
  unfold f_complete_config, complete_config. gstep; [gstep|]. destruct (g_config a); [gstep|].
  apply sim_bind; [apply sim_load_ckp|intros _]. apply sim_bind; [apply sim_load_le|intros _].
  apply sim_bind; [apply sim_gen_parsed|intros n]. apply sim_bind; [apply sim_gen_str|intros s]. cbv zeta.
  apply sim_bind; [gstep|intros; gstep].
Qed.
Lemma sim_check l : sim step_gen (f_check_sections uniword fs fuel other_re hostname systems_file envs_file l)
  (check_sections other_re systems hostname envs flags l).
Proof.
  induction l as [|s l IH]; cbn [f_check_sections check_sections]; [gstep|]. apply sim_if; [exact IH|].
  apply sim_bind; [apply sim_set_build|intros _]. apply sim_bind; [apply sim_set_name|intros _].
  apply sim_bind; [apply sim_gen_str|intros o]. apply sim_bind; [apply sim_gen_parsed|intros n].
  apply sim_bind; [exact IH|intros; gstep].
Qed.
Lemma sim_validate : sim step_gen (f_validate uniword fs fuel other_re hostname systems_file envs_file flags_file specs)
  (validate other_re systems hostname envs flags specs).
Proof.
  unfold f_validate, validate. apply sim_bind; [apply sim_load_ckp|intros _]. apply sim_bind; [apply sim_load_le|intros _].
  apply sim_bind; [apply sim_set_force|intros _]. apply sim_bind; [apply sim_check|intros bad].
  destruct bad; [|gstep]. gstep; [gstep|]. apply sim_bind; [apply sim_set_build|intros _].
  apply sim_bind; [apply sim_set_force|intros _]. apply sim_bind; [apply sim_set_name|intros _]. gstep.
Qed.
Lemma sim_gexec o : sim step_gen (fgexec uniword fs fuel other_re hostname systems_file envs_file flags_file specs gen o)
  (gexec other_re systems hostname envs flags specs gen o).
Proof.
  destruct o; cbn [fgexec gexec]; (apply sim_bind; [|intros; gstep]).
  - apply sim_complete.
  - apply sim_validate.
  - unfold f_generated_flags, generated_flags. gstep; [gstep|]. apply sim_bind; [apply sim_if; [gstep|apply sim_validate]|intros _].
    apply sim_bind; [apply sim_complete|intros; gstep].
  - unfold f_list_configs, list_configs. apply sim_bind; [apply sim_load_le|intros _].
    apply sim_bind; [apply sim_on_le, sim_le_system|intros; gstep].
Qed.
Lemma new_genconfig_same build force : step_gen (f_new_genconfig envs_file flags_file build force) (new_genconfig build force).
Proof.
  split; [reflexivity|]. cbn. split; [discriminate|]. split; [eapply gf_open; eauto|discriminate].
Qed.
End Load.
