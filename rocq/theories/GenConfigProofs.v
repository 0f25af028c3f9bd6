(** * Validation of the sections, and the name of a configuration. *)
From Coq Require Import String NArith List Bool Arith Lia.
Import ListNotations.
From Verif Require Import PyBase PyFacts EnvVar EnvProofs Regex Keyword DetSys EnvKeyword LoadEnv SpecKeyword KeywordText RegexProofs
  KeywordProofs FlagsProofs FlagsProofs2 SpecFlags SpecSystem SpecLoadEnv SearchProofs SystemProofs EnvNameProofs LoadEnvProofs.

Section Gen.
Variable other_re : str -> str -> res bool.
Variable systems : list (str * list str).
Variable hostname : str.
Variable envs : str -> res (dict (option str)).
Variable flags : str -> res (dict (option str)).
Variable specs : list str.
Variable gen : str -> res (list str).
Variable fd : dict (option str).
Hypothesis FD : flags flags_section = Ok fd.

Notation parsed := (q_parsed other_re systems hostname envs).
Definition q_opts (b : str) : res str := rbind (p_sel flags (dkeys fd) b) (fun d => Ok (sel_text d)).
Definition q_config (b : str) (f : bool) : res str :=
  rbind (parsed b f) (fun n => rbind (q_opts b) (fun o => Ok (n ++ o))).
Fixpoint q_check (l : list str) : res (list (str * str)) :=
  match l with
  | [] => Ok []
  | s :: l' =>
      if str_eqb (upper s) s then q_check l'
      else rbind (q_opts s) (fun o => rbind (parsed s true) (fun n => rbind (q_check l') (fun rest =>
             Ok (if str_eqb (n ++ o) s then rest else (s, n ++ o) :: rest))))
  end.
Definition q_valid : res unit := rbind (q_check specs) (fun l => match l with [] => Ok tt | _ => Err ValueError end).

Lemma new_ckp_ok b : new_ckp flags b = Ok (Ckp b (dkeys fd) None None None None).
Proof. unfold new_ckp. now rewrite FD. Qed.
Lemma new_kinv b : kinv flags (dkeys fd) b (Ckp b (dkeys fd) None None None None).
Proof. constructor; cbn; auto; discriminate. Qed.
Lemma set_kinv b b' k : kinv flags (dkeys fd) b k -> 
  fst (set_build_name b' k) = Ok tt /\ kinv flags (dkeys fd) b' (snd (set_build_name b' k)).
Proof.
  intros [K1 K2 K3 K4 K5 K6]. split; [reflexivity|]. constructor; cbn; auto; discriminate.
Qed.

Definition some_ckp (p : genconfig) : Prop := exists k n, g_ckp p = Some k /\ kinv flags (dkeys fd) n k.
Definition same_outer (p q : genconfig) : Prop :=
  g_build q = g_build p /\ g_force q = g_force p /\ g_config q = g_config p /\ g_valid q = g_valid p.

Lemma check_ok l : forall p q, g_le p = Some q -> l_force q = true -> some_ckp p ->
  exists p', check_sections other_re systems hostname envs flags l p = (q_check l, p') /\
    same_outer p p' /\ some_ckp p' /\ exists q', g_le p' = Some q'.
Proof.
  induction l as [|s l IH]; intros p q Q F C.
  - exists p. unfold same_outer. repeat split; eauto.
  - cbn [check_sections q_check]. destruct (str_eqb (upper s) s); [eapply IH; eauto|].
    destruct C as (k & nm & C & K). destruct p as [pb pf pc pl pcf pv]. cbn in Q, C. subst pc pl.
    rewrite bind_eq. unfold on_le at 1. cbn [g_le le_set_build modify]. cbv zeta. rewrite F.
    rewrite bind_eq. unfold on_ckp at 1. cbn [g_ckp g_build g_force g_le g_config g_valid].
    destruct (set_kinv nm s k K) as (S1 & S2). destruct (set_build_name s k) as [r k1]. cbn [fst snd] in S1, S2. subst r.
    rewrite bind_eq. unfold on_ckp at 1. cbn [g_ckp g_build g_force g_le g_config g_valid].
    destruct (k_string _ _ _ _ S2) as (T1 & T2). destruct (selected_options_str flags k1) as [r k2]. cbn [fst snd] in T1, T2.
    fold (q_opts s) in T1. subst r. destruct (q_opts s) as [o|e]; cbn [rbind].
    2:{ eexists. split; [reflexivity|]. unfold same_outer, some_ckp. cbn. repeat split; eauto. }
    rewrite bind_eq. unfold on_le at 1. cbn [g_ckp g_build g_force g_le g_config g_valid].
    destruct (i_parsed_ok _ _ _ _ _ _ _ (linv_new other_re systems hostname envs s true)) as (U1 & U2).
    unfold new_loadenv in U1, U2.
    destruct (le_parsed_env_name other_re systems hostname envs {| l_build := s; l_force := true; l_system := None;
      l_parsed := None; l_stripped := None; l_ekp := None |}) as [r q2]. cbn [fst snd] in U1, U2. subst r.
    destruct (parsed s true) as [n|e]; cbn [rbind].
    2:{ eexists. split; [reflexivity|]. unfold same_outer, some_ckp. cbn. repeat split; eauto. }
    rewrite bind_eq.
    destruct (IH (GenConfig pb pf (Some k2) (Some q2) pcf pv) q2 eq_refl (i_force _ _ _ _ _ _ _ U2)) as (p' & E & O & C' & L').
    { exists k2, s. auto. }
    rewrite E. destruct (q_check l) as [rest|e]; cbn [rbind ret].
    + exists p'. split; [reflexivity|]. split; [exact O|auto].
    + exists p'. split; [reflexivity|]. split; [exact O|auto].
Qed.

(** Weak invariant: what remains after a failed validation. *)
Record winv (b : str) (f : bool) (p : genconfig) : Prop := WInv {
  w_build : g_build p = b;
  w_force : g_force p = f;
  w_ckp : forall k, g_ckp p = Some k -> exists n, kinv flags (dkeys fd) n k;
  w_valid : g_valid p = true -> q_check specs = Ok []
}.
Record ginv (b : str) (f : bool) (p : genconfig) : Prop := GInv {
  gi_w : winv b f p;
  gi_ckp : forall k, g_ckp p = Some k -> kinv flags (dkeys fd) b k;
  gi_le : forall q, g_le p = Some q -> linv other_re systems hostname envs b f q;
  gi_config : forall c, g_config p = Some c -> q_config b f = Ok c
}.
Lemma ginv_new b f : ginv b f (new_genconfig b f).
Proof. constructor; [constructor|..]; cbn; auto; discriminate. Qed.

Definition with_ckp (p : genconfig) : genconfig :=
  match g_ckp p with
  | Some _ => p
  | None => GenConfig (g_build p) (g_force p) (Some (Ckp (g_build p) (dkeys fd) None None None None)) (g_le p) (g_config p) (g_valid p)
  end.
Definition with_le (p : genconfig) : genconfig :=
  match g_le p with
  | Some _ => p
  | None => GenConfig (g_build p) (g_force p) (g_ckp p) (Some (new_loadenv (g_build p) (g_force p))) (g_config p) (g_valid p)
  end.
Lemma load_ckp_eq p : load_ckp flags p = (Ok tt, with_ckp p).
Proof.
  cbv [load_ckp bind get of_res modify ret with_ckp]. destruct (g_ckp p); auto. all: rewrite new_ckp_ok; reflexivity.
Qed.
Lemma load_le_eq p : load_le p = (Ok tt, with_le p).
Proof. reflexivity. Qed.
Lemma with_winv b f p : winv b f p ->
  winv b f (with_le (with_ckp p)) /\ some_ckp (with_le (with_ckp p)) /\ exists q, g_le (with_le (with_ckp p)) = Some q.
Proof.
  intros [W1 W2 W3 W4]. destruct p as [pb pf pc pl pcf pv]. cbn in *. subst.
  destruct pc as [k|], pl as [q|]; cbn; (split; [constructor; cbn; auto|split; [unfold some_ckp; cbn|eauto]]).
  - destruct (W3 k eq_refl) as (n & K). eauto.
  - destruct (W3 k eq_refl) as (n & K). eauto.
  - intros k [= <-]. exists b. apply new_kinv.
  - eexists _, b. split; [reflexivity|apply new_kinv].
  - intros k [= <-]. exists b. apply new_kinv.
  - eexists _, b. split; [reflexivity|apply new_kinv].
Qed.
Lemma with_ginv b f p : ginv b f p -> ginv b f (with_le (with_ckp p)).
Proof.
  intros [W G1 G2 G3]. pose proof (proj1 (with_winv _ _ _ W)) as W'. destruct W as [W1 W2 W3 W4].
  destruct p as [pb pf pc pl pcf pv]. cbn in *. subst.
  destruct pc as [k|], pl as [q|]; (constructor; [exact W'|..]); cbn; auto.
  - intros q [= <-]. apply linv_new.
  - intros k [= <-]. apply new_kinv.
  - intros k [= <-]. apply new_kinv.
  - intros q [= <-]. apply linv_new.
Qed.

Lemma validate_ok b f p : winv b f p ->
  exists p', validate other_re systems hostname envs flags specs p = (q_valid, p') /\ winv b f p' /\
    (q_valid = Ok tt -> g_valid p' = true /\ g_config p' = g_config p /\
       (forall k, g_ckp p' = Some k -> kinv flags (dkeys fd) b k) /\
       (forall q, g_le p' = Some q -> linv other_re systems hostname envs b f q)).
Proof.
  intros W. unfold validate. rewrite bind_eq, load_ckp_eq. rewrite bind_eq, load_le_eq.
  destruct (with_winv _ _ _ W) as (W' & C & q & Q).
  assert (CF : g_config (with_le (with_ckp p)) = g_config p)
    by (destruct p as [? ? [?|] [?|] ? ?]; reflexivity).
  set (p1 := with_le (with_ckp p)) in *. clearbody p1. rewrite bind_eq. unfold on_le at 1. rewrite Q. cbn [le_set_force modify]. cbv zeta.
  set (p2 := GenConfig _ _ _ _ _ _).
  destruct (check_ok specs p2 _ eq_refl eq_refl) as (p' & E & (O1 & O2 & O3 & O4) & (k & n & K & KI) & q' & Q').
  { destruct C as (k & n & C). exists k, n. exact C. }
  rewrite bind_eq, E. unfold q_valid.
  assert (WP : winv b f p').
  { destruct W' as [W1 W2 W3 W4]. constructor.
    - rewrite O1. exact W1.
    - rewrite O2. exact W2.
    - intros k' K'. exists n. congruence.
    - rewrite O4. exact W4. }
  destruct (q_check specs) as [[|x bad]|e] eqn:CK; cbn [rbind].
  2:{ exists p'. split; [reflexivity|]. split; auto. discriminate. }
  2:{ exists p'. split; [reflexivity|]. split; auto. discriminate. }
  rewrite bind_eq. unfold get at 1. rewrite bind_eq. unfold on_le at 1. rewrite Q'. cbn [le_set_build modify]. cbv zeta.
  rewrite bind_eq. unfold on_le at 1. cbn [g_le le_set_force modify]. cbv zeta.
  rewrite bind_eq. unfold on_ckp at 1. cbn [g_ckp g_build g_force g_le g_config g_valid]. rewrite K.
  destruct (set_kinv n (g_build p') k KI) as (S1 & S2). destruct (set_build_name (g_build p') k) as [r k1]. cbn [fst snd] in S1, S2. subst r.
  cbv [modify]. cbn [g_ckp g_build g_force g_le g_config g_valid l_build l_force l_system l_parsed l_stripped l_ekp].
  destruct WP as [W1 W2 W3 W4]. rewrite W1, W2 in *.
  eexists. split; [reflexivity|]. split.
  - constructor; cbn; auto. intros k' [= <-]. eauto.
  - intros _. cbn. split; auto. split; [exact (eq_trans O3 CF)|]. split.
    + intros k' [= <-]. exact S2.
    + intros q2 [= <-]. apply linv_new.
Qed.

Lemma complete_ok b f p : ginv b f p ->
  exists p', complete_config other_re systems hostname envs flags p = (q_config b f, p') /\ ginv b f p' /\ g_valid p' = g_valid p.
Proof.
  intros G. unfold complete_config. rewrite bind_eq. unfold get at 1.
  destruct (g_config p) as [c|] eqn:E.
  - exists p. rewrite (gi_config _ _ _ G _ E). auto.
  - rewrite bind_eq, load_ckp_eq, bind_eq, load_le_eq. pose proof (with_ginv _ _ _ G) as G1.
    assert (CF : g_valid (with_le (with_ckp p)) = g_valid p) by (destruct p as [? ? [?|] [?|] ? ?]; reflexivity).
    destruct (with_winv _ _ _ (gi_w _ _ _ G)) as (_ & (k & n & C & _) & q & Q).
    set (p1 := with_le (with_ckp p)) in *. clearbody p1. rewrite <- CF. clear CF E G p n.
    destruct G1 as [W G1 G2 G3]. specialize (G1 _ C). specialize (G2 _ Q).
    rewrite bind_eq. unfold on_le at 1. rewrite Q.
    destruct (i_parsed_ok _ _ _ _ _ _ _ G2) as (A & B). destruct (le_parsed_env_name other_re systems hostname envs q) as [r q1].
    cbn [fst snd] in A, B. subst r. unfold q_config. destruct W as [W1 W2 W3 W4].
    destruct (parsed b f) as [nm|e] eqn:PN; cbn [rbind].
    2:{ eexists. split; [reflexivity|]. cbn. split; auto. constructor; [constructor|..]; cbn; auto; congruence. }
    rewrite bind_eq. unfold on_ckp at 1. cbn [g_ckp g_build g_force g_le g_config g_valid]. rewrite C.
    destruct (k_string _ _ _ _ G1) as (T1 & T2). destruct (selected_options_str flags k) as [r k2]. cbn [fst snd] in T1, T2.
    fold (q_opts b) in T1. subst r. destruct (q_opts b) as [o|e] eqn:QO; cbn [rbind].
    2:{ eexists. split; [reflexivity|]. cbn. split; auto.
        constructor; [constructor|..]; cbn; auto; try congruence. intros ? [= <-]. eauto. }
    cbv [bind modify ret]. cbn [g_ckp g_build g_force g_le g_config g_valid].
    eexists. split; [reflexivity|]. cbn. split; auto. constructor; [constructor|..]; cbn; auto; try congruence.
    + intros ? [= <-]. eauto.
    + intros c [= <-]. unfold q_config. rewrite PN, QO. reflexivity.
Qed.
Lemma list_ok b f p : ginv b f p ->
  exists p', list_configs other_re systems hostname specs p
    = (rbind (q_system other_re systems hostname b f) (fun n => Ok (filter (starts_with n) specs)), p') /\ ginv b f p'.
Proof.
  intros G. unfold list_configs. rewrite bind_eq, load_le_eq.
  assert (G1 : ginv b f (with_le p) /\ exists q, g_le (with_le p) = Some q).
  { destruct G as [[W1 W2 W3 W4] G1 G2 G3]. destruct p as [pb pf pc pl pcf pv]. cbn in *. subst.
    destruct pl as [q|]; (split; [constructor; [constructor|..]|]); cbn; eauto. intros q [= <-]. apply linv_new. }
  destruct G1 as (G1 & q & Q). set (p1 := with_le p) in *. clearbody p1. clear G p.
  destruct G1 as [[W1 W2 W3 W4] G1 G2 G3].
  rewrite bind_eq. unfold on_le at 1. rewrite Q.
  destruct (i_system_ok _ _ _ envs _ _ _ (G2 _ Q)) as (A & B). destruct (le_system_name other_re systems hostname q) as [r q1].
  cbn [fst snd] in A, B. subst r.
  destruct (q_system other_re systems hostname b f) as [n|e]; cbn [rbind ret]; eexists; (split; [reflexivity|]);
    (constructor; [constructor|..]); cbn; auto; congruence.
Qed.

Definition q_flags (b : str) (f : bool) : res (list str) := rbind q_valid (fun _ => rbind (q_config b f) gen).
Definition q_gans (b : str) (f : bool) (o : gop) : res gans :=
  match o with
  | GConfig => rbind (q_config b f) (fun s => Ok (GStr s))
  | GValidate => rbind q_valid (fun _ => Ok GDone)
  | GFlags => rbind (q_flags b f) (fun l => Ok (GOpts l))
  | GList => rbind (q_system other_re systems hostname b f) (fun n => Ok (GOpts (filter (starts_with n) specs)))
  end.
Notation exec := (gexec other_re systems hostname envs flags specs gen).

(** With canonical sections the answers are always those of a new object. *)
Lemma gexec_ok b f p o : q_valid = Ok tt -> ginv b f p -> 
  fst (exec o p) = q_gans b f o /\ ginv b f (snd (exec o p)).
Proof.
  intros V G. assert (VG : exists p', validate other_re systems hostname envs flags specs p = (q_valid, p') /\ ginv b f p' /\ g_valid p' = true).
  { destruct (validate_ok _ _ _ (gi_w _ _ _ G)) as (p' & E & W & H). exists p'. destruct (H V) as (H1 & H2 & H3 & H4).
    split; auto. split; auto. constructor; auto. intros c C. rewrite H2 in C. now apply (gi_config _ _ _ G). }
  destruct o; cbn [gexec q_gans]; rewrite bind_eq.
  - destruct (complete_ok _ _ _ G) as (p' & E & G' & _). rewrite E. destruct (q_config b f); cbn; auto.
  - destruct VG as (p' & E & G' & _). rewrite E, V. cbn. auto.
  - unfold generated_flags. rewrite bind_eq. unfold get. rewrite bind_eq. unfold q_flags. rewrite V. cbn [rbind].
    assert (X : exists p', (if g_valid p then ret tt else validate other_re systems hostname envs flags specs) p = (Ok tt, p') /\ ginv b f p').
    { destruct (g_valid p); [exists p; auto|]. destruct VG as (p' & E & G' & _). exists p'. rewrite E, V. auto. }
    destruct X as (p' & X & G'). rewrite X. rewrite bind_eq.
    destruct (complete_ok _ _ _ G') as (p2 & E & G2 & _). rewrite E. destruct (q_config b f) as [c|e]; cbn; auto.
    unfold of_res. destruct (gen c); cbn; auto.
  - destruct (list_ok _ _ _ G) as (p' & E & G'). rewrite E. destruct (q_system other_re systems hostname b f); cbn; auto.
Qed.
Lemma gafter_ok b f h : q_valid = Ok tt -> forall p, ginv b f p ->
  ginv b f (gafter other_re systems hostname envs flags specs gen h p).
Proof.
  intros V. induction h as [|o h IH]; intros p G; cbn; auto. apply IH. now apply gexec_ok.
Qed.

(** In any case no flags without canonical sections. *)
Lemma complete_weak b f p : winv b f p ->
  winv b f (snd (complete_config other_re systems hostname envs flags p)) /\
  g_valid (snd (complete_config other_re systems hostname envs flags p)) = g_valid p.
Proof.
  intros W. unfold complete_config. rewrite bind_eq. unfold get. destruct (g_config p); [auto|].
  rewrite bind_eq, load_ckp_eq, bind_eq, load_le_eq. destruct (with_winv _ _ _ W) as (W' & (k & n & C & K) & q & Q).
  assert (CF : g_valid (with_le (with_ckp p)) = g_valid p) by (destruct p as [? ? [?|] [?|] ? ?]; reflexivity).
  set (p1 := with_le (with_ckp p)) in *. clearbody p1. rewrite <- CF. destruct W' as [W1 W2 W3 W4].
  rewrite bind_eq. unfold on_le. rewrite Q. destruct (le_parsed_env_name other_re systems hostname envs q) as [[nm|e] q1].
  2:{ cbn. split; auto. constructor; cbn; auto. }
  rewrite bind_eq. unfold on_ckp. cbn [g_ckp g_build g_force g_le g_config g_valid]. rewrite C.
  destruct (k_string _ _ _ _ K) as (T1 & T2). destruct (selected_options_str flags k) as [[o|e] k2]; cbn [fst snd] in T2; cbn;
    (split; auto; constructor; cbn; auto; intros ? [= <-]; eauto).
Qed.
Lemma gexec_weak b f p o : winv b f p -> winv b f (snd (exec o p)).
Proof.
  intros W. assert (VW : winv b f (snd (validate other_re systems hostname envs flags specs p))).
  { destruct (validate_ok _ _ _ W) as (p' & E & W' & _). rewrite E. exact W'. }
  destruct o; cbn [gexec]; rewrite bind_eq.
  - pose proof (proj1 (complete_weak _ _ _ W)) as H. destruct (complete_config other_re systems hostname envs flags p) as [[c|e] p']; exact H.
  - destruct (validate other_re systems hostname envs flags specs p) as [[c|e] p']; exact VW.
  - unfold generated_flags. rewrite bind_eq. unfold get at 1. rewrite bind_eq.
    assert (X : winv b f (snd ((if g_valid p then ret tt else validate other_re systems hostname envs flags specs) p))) by (destruct (g_valid p); auto).
    destruct ((if g_valid p then ret tt else validate other_re systems hostname envs flags specs) p) as [[u|e] p1]; [|exact X].
    cbn [snd] in X. pose proof (proj1 (complete_weak _ _ _ X)) as H. rewrite bind_eq.
    destruct (complete_config other_re systems hostname envs flags p1) as [[c|e] p']; [|exact H].
    unfold of_res. destruct (gen c); exact H.
  - unfold list_configs. rewrite bind_eq, load_le_eq, bind_eq.
    assert (W' : winv b f (with_le p)).
    { destruct W as [W1 W2 W3 W4]. destruct p as [pb pf pc pl pcf pv]. cbn in *. subst. destruct pl; constructor; cbn; auto. }
    set (p1 := with_le p) in *. clearbody p1. unfold on_le. destruct (g_le p1) as [q|]; [|exact W'].
    destruct (le_system_name other_re systems hostname q) as [[n|e] q1]; destruct W' as [W1 W2 W3 W4]; constructor; cbn; auto.
Qed.
Lemma gafter_weak b f h : forall p, winv b f p -> winv b f (gafter other_re systems hostname envs flags specs gen h p).
Proof. induction h as [|o h IH]; intros p G; cbn; auto. apply IH. now apply gexec_weak. Qed.

Lemma q_valid_check : q_valid = Ok tt <-> q_check specs = Ok [].
Proof. unfold q_valid. destruct (q_check specs) as [[|x l]|e]; cbn; split; congruence. Qed.
Lemma config_name_iff b f c : config_name other_re systems hostname envs flags b f c <-> q_config b f = Ok c.
Proof.
  assert (A : fst (lexec other_re systems hostname envs LParsed (new_loadenv b f)) = parsed b f)
    by (apply (lexec_ok _ _ _ _ _ _ _ LParsed), linv_new).
  assert (B : fst (selected_options_str flags (Ckp b (dkeys fd) None None None None)) = q_opts b)
    by (apply (k_string _ _ _ _ (new_kinv b))).
  unfold config_name, q_config. rewrite A. split.
  - intros (k & n & o & K & N & O & ->). rewrite new_ckp_ok in K. injection K as <-. rewrite B in O. rewrite N, O. reflexivity.
  - destruct (parsed b f) as [n|e]; [|discriminate]. destruct (q_opts b) as [o|e] eqn:E; [|discriminate]. intros [= <-].
    exists (Ckp b (dkeys fd) None None None None), n, o. rewrite new_ckp_ok, B. auto.
Qed.
Lemma check_canonical l : q_check l = Ok [] <->
  forall s, In s l -> upper s <> s -> q_config s true = Ok s.
Proof.
  induction l as [|s l IH]; cbn [q_check]; [split; [intros _ ? []|auto]|].
  destruct (str_eqb_spec (upper s) s) as [U|U].
  - rewrite IH. split; intros H x; [intros [<-|I] N; [congruence|auto]|intros I; apply H; now right].
  - split.
    + intros H. destruct (q_opts s) as [o|e] eqn:Q; [|discriminate]. cbn [rbind] in H.
      destruct (parsed s true) as [n|e] eqn:P; [|discriminate]. cbn [rbind] in H.
      destruct (q_check l) as [rest|e]; [|discriminate]. cbn [rbind] in H.
      destruct (str_eqb_spec (n ++ o) s) as [E|E]; [|discriminate]. injection H as ->.
      intros x [<-|I] N; [|now apply IH]. unfold q_config. rewrite P. cbn [rbind]. rewrite Q. cbn [rbind]. now f_equal.
    + intros H. pose proof (H s (or_introl eq_refl) U) as E. unfold q_config in E. destruct (parsed s true) as [n|e]; [|discriminate]. cbn [rbind] in E.
      destruct (q_opts s) as [o|e]; [|discriminate]. cbn [rbind] in *. injection E as E. rewrite E.
      rewrite (proj2 IH); [|intros; apply H; auto; now right]. cbn [rbind]. 
      now destruct (str_eqb_spec s s).
Qed.
Lemma canonical_iff : canonical_sections other_re systems hostname envs flags specs <-> q_valid = Ok tt.
Proof.
  rewrite q_valid_check, check_canonical. unfold canonical_sections. setoid_rewrite config_name_iff. reflexivity.
Qed.

Lemma validate_iff b f h :
  fst (exec GValidate (gafter other_re systems hostname envs flags specs gen h (new_genconfig b f))) = Ok GDone <->
  canonical_sections other_re systems hostname envs flags specs.
Proof.
  rewrite canonical_iff.
  destruct (validate_ok b f _ (gafter_weak b f h _ (gi_w _ _ _ (ginv_new b f)))) as (p' & E & _).
  cbn [gexec]. rewrite bind_eq, E. destruct q_valid as [[]|e]; cbn; split; congruence.
Qed.
Lemma gen_history b f h o :
  canonical_sections other_re systems hostname envs flags specs ->
  fst (exec o (gafter other_re systems hostname envs flags specs gen h (new_genconfig b f))) = fst (exec o (new_genconfig b f)).
Proof.
  intros V. apply canonical_iff in V. rewrite (proj1 (gexec_ok _ _ _ o V (gafter_ok b f h V _ (ginv_new b f)))).
  now rewrite (proj1 (gexec_ok _ _ _ o V (ginv_new b f))).
Qed.
Lemma no_flags b f h l :
  fst (exec GFlags (gafter other_re systems hostname envs flags specs gen h (new_genconfig b f))) = Ok (GOpts l) ->
  canonical_sections other_re systems hostname envs flags specs.
Proof.
  rewrite canonical_iff, q_valid_check. pose proof (gafter_weak b f h _ (gi_w _ _ _ (ginv_new b f))) as W.
  set (p := gafter _ _ _ _ _ _ _ h _) in *. clearbody p. cbn [gexec]. rewrite bind_eq.
  unfold generated_flags. rewrite bind_eq. unfold get at 1. rewrite bind_eq.
  destruct (g_valid p) eqn:V; [intros _; now apply (w_valid _ _ _ W)|].
  destruct (validate_ok _ _ _ W) as (p' & E & _). rewrite E, <- q_valid_check. destruct q_valid as [[]|e]; [auto|discriminate].
Qed.
(** The configuration, and the flags made of it. *)
Lemma config_answer b f c :
  fst (exec GConfig (new_genconfig b f)) = Ok (GStr c) <-> config_name other_re systems hostname envs flags b f c.
Proof.
  rewrite config_name_iff. cbn [gexec]. rewrite bind_eq.
  destruct (complete_ok _ _ _ (ginv_new b f)) as (p' & E & _). rewrite E. destruct (q_config b f); cbn; split; congruence.
Qed.
Lemma flags_answer b f c :
  canonical_sections other_re systems hostname envs flags specs ->
  config_name other_re systems hostname envs flags b f c ->
  fst (exec GFlags (new_genconfig b f)) = rbind (gen c) (fun l => Ok (GOpts l)).
Proof.
  rewrite config_name_iff, canonical_iff. intros V C. rewrite (proj1 (gexec_ok _ _ _ GFlags V (ginv_new b f))).
  cbn [q_gans]. unfold q_flags. rewrite V, C. reflexivity.
Qed.
Lemma list_answer b f s :
  NoDup (map fst systems) -> readable_keys other_re systems hostname ->
  system_of other_re systems hostname b f (Ok (Some s)) ->
  exists l, fst (exec GList (new_genconfig b f)) = Ok (GOpts l) /\
    kept (fun x => exists y, x = s ++ y) specs l.
Proof.
  intros D R S. cbn [gexec]. rewrite bind_eq. destruct (list_ok _ _ _ (ginv_new b f)) as (p' & E & _). rewrite E.
  rewrite (proj2 (q_system_of other_re systems hostname b f D R s) S). cbn. eexists. split; [reflexivity|].
  apply kept_filter. intros w. clear. revert w. induction s as [|x s IH]; intros w; cbn; [split; eauto|].
  destruct w as [|y w]; cbn; [split; [discriminate|intros (z & [=])]|]. rewrite andb_true_iff, IH, N.eqb_eq. split.
  - intros (-> & z & ->). eauto.
  - intros (z & [= -> ->]). eauto.
Qed.
End Gen.
