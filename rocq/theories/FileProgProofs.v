(** * Proofs about the programs with their files: they do what the programs with
    tables do. *)
From Coq Require Import String NArith ZArith List Bool.
Import ListNotations.
From Verif Require Import PyBase IniView IniRead ExcControl Cpe EnvVar SetEnv Regex Keyword DetSys EnvKeyword LoadEnv LoadRun GenRun
  TopLevel ArgParse Programs FileObjects FilePrograms SpecWalk SpecRun SpecParse SpecApi SpecFlags SpecLoadEnv SpecObjects
  ObjectProofs ObjectProofs2 ObjectProofs3.
Local Open Scope sm_scope.

Section FileProg.
Variable uni_digit : pychar -> bool.
Variable uniword : pychar -> bool.
Variable fs : str -> option str.
Variable fuel : nat.
Variable other_re : str -> str -> res bool.
Variable hostname : str.
Notation cpe := (obj unit unit).

Section Load.
Variable which : environ -> str -> option str.
Variable mods : list str -> environ -> res Z * environ.
Variable other : str -> environ -> res Z * environ.
Variable header : str -> str.
Variable tmp_file : str.
Variable writable : str -> bool.
Variable s : load_settings.
Variables is ie : ini.
Hypothesis RS : readable uniword fs fuel (ls_systems s) is.
Hypothesis RE : readable uniword fs fuel (ls_envs s) ie.
Variable systems : list (str * list str).
Variable envs : str -> res (dict (option str)).
Hypothesis SY : keys_of uniword is systems.
Hypothesis TE : table_of uniword ie envs.

Definition step_lw (p : flworld) (x : lworld) : Prop :=
  step_le uniword fs ie (fr_le p) (r_le x) /\ fr_set p = r_set x /\ fr_env p = r_env x /\ fr_out p = r_out x.
Notation simw := (sim step_lw).

Lemma sim_names {A} (m : SM (cpe * loadenv) A) m' : sim (step_le uniword fs ie) m m' -> simw (f_on_names m) (on_names m').
Proof.
  intros H p x (L & S & E & O). unfold f_on_names, on_names. destruct (H _ _ L) as [R L'].
  destruct (m (fr_le p)) as [r q], (m' (r_le x)) as [r' q']. cbn [fst snd] in *. split; [exact R|]. refine (conj _ (conj _ (conj _ _))); assumption.
Qed.
Lemma sim_set {A} (m : SM world A) : simw (f_on_set m) (on_set m).
Proof.
  intros p x (L & S & E & O). unfold f_on_set, on_set. rewrite S, E. destruct (r_set x) as [o|] eqn:X.
  - destruct (m (World o (r_env x))) as [r w']. cbn [fst snd]. split; [reflexivity|].
    refine (conj _ (conj _ (conj _ _))); cbn [fr_le fr_set fr_env fr_out r_le r_set r_env r_out]; auto.
  - split; [reflexivity|]. cbn [snd]. refine (conj _ (conj _ (conj _ _))); first [assumption | congruence].
Qed.
Lemma sim_modify_w f g : (forall p x, step_lw p x -> step_lw (f p) (g x)) -> simw (modify f) (modify g).
Proof. intros H p x R. cbn. split; [reflexivity|]. now apply H. Qed.
Lemma sim_out f p : simw (f_set_out f p) (set_out f p).
Proof.
  apply sim_modify_w. intros q x (L & S & E & O).
  refine (conj _ (conj _ (conj _ _))); cbn [fr_le fr_set fr_env fr_out r_le r_set r_env r_out]; auto. now rewrite O.
Qed.
Lemma sim_load_set : simw (f_load_set uniword fs fuel s) (load_set uniword fs fuel (ls_specs s)).
Proof.
  unfold f_load_set, load_set. apply sim_bind.
  - apply sim_modify_w. intros q x (L & S & E & O). rewrite S. destruct (r_set x) eqn:X.
    + refine (conj _ (conj _ (conj _ _))); auto. congruence.
    + refine (conj _ (conj _ (conj _ _))); cbn [fr_le fr_set fr_env fr_out r_le r_set r_env r_out]; auto.
  - intros _. apply sim_bind; [apply sim_set|]. intros _. apply sim_bind; [apply sim_set|]. intros _. apply sim_ret.
Qed.
Lemma sim_need_set : simw (f_need_set uniword fs fuel s) (need_set uniword fs fuel (ls_specs s)).
Proof.
  intros p x H. pose proof H as (_ & S & _). unfold f_need_set, need_set, bind, get. rewrite S.
  destruct (r_set x); [now apply (sim_ret step_lw)|now apply sim_load_set].
Qed.
Lemma sim_env_name : simw (f_env_name uniword fs fuel other_re hostname s) (env_name other_re systems hostname envs).
Proof. apply sim_names. eapply sim_le_parsed; eauto. Qed.
Lemma sim_apply : simw (f_apply_env uniword fs fuel other_re hostname which mods other s)
  (apply_env other_re systems hostname envs which mods other uniword fs fuel (ls_specs s)).
Proof.
  unfold f_apply_env, apply_env. apply sim_bind; [apply sim_need_set|]. intros _. apply sim_bind; [apply sim_env_name|]. intros n.
  apply sim_bind; [apply sim_set|]. intros z. destruct (z =? 0)%Z; [apply sim_ret|].
  apply sim_bind; [apply sim_env_name|]. intros _. apply sim_raise.
Qed.
Lemma sim_write_one p : simw (f_write_one uniword fs fuel other_re hostname header writable s p)
  (write_one other_re systems hostname envs uniword fs fuel header writable p).
Proof.
  unfold f_write_one, write_one. apply sim_bind; [apply sim_out|]. intros _.
  apply sim_bind; [destruct (writable p); [apply sim_ret|apply sim_raise]|]. intros _.
  apply sim_bind; [apply sim_env_name|]. intros n. apply sim_bind; [apply sim_set|]. intros t.
  apply sim_bind; [destruct (fst t); [apply sim_out|apply sim_ret]|]. intros _.
  apply sim_bind; [apply sim_env_name|]. intros n'. apply sim_out.
Qed.
Lemma sim_write_each l : simw (f_write_each uniword fs fuel other_re hostname header writable s l)
  (write_each other_re systems hostname envs uniword fs fuel header writable l).
Proof.
  induction l as [|p l IH]; cbn [f_write_each write_each]; [apply sim_ret|]. apply sim_bind; [apply sim_write_one|]. intros _. exact IH.
Qed.
Lemma sim_main : simw (f_load_main uniword fs fuel other_re hostname which mods other header tmp_file writable s)
  (load_main other_re systems hostname envs which mods other uniword fs fuel header (ls_specs s) tmp_file (ls_output s) (ls_location s) false writable).
Proof.
  intros p x R. unfold f_load_main, load_main.
  change (bind (ret tt) ?k x) with (k tt x). cbv beta. revert p x R.
  apply (sim_bind step_lw); [apply sim_apply|]. intros _. apply sim_bind; [apply sim_env_name|]. intros _.
  apply sim_bind; [unfold f_write_env, write_env; apply sim_bind; [apply sim_need_set|]; intros _; apply sim_write_each|]. intros _.
  destruct (ls_location s); [|apply sim_ret]. destruct (writable s0); [apply sim_out|apply sim_raise].
Qed.
Lemma new_same e files : step_lw (f_new_lworld s e files) (new_lworld (ls_build s) (ls_force s) e files).
Proof. refine (conj _ (conj eq_refl (conj eq_refl eq_refl))). eapply new_loadenv_same; eauto. Qed.

Lemma file_main e files : ls_list s = false ->
  let main := load_main other_re systems hostname envs which mods other uniword fs fuel header (ls_specs s) tmp_file (ls_output s) (ls_location s)
    false writable (new_lworld (ls_build s) (ls_force s) e files) in
  f_load_run uniword fs fuel other_re hostname which mods other header tmp_file writable s e files
  = (match fst main with Ok _ => 0%N | Err _ => 1%N end, r_out (snd main)).
Proof.
  intros L. cbv zeta. unfold f_load_run. rewrite L. destruct (sim_main _ _ (new_same e files)) as (E & _ & _ & _ & O). cbv zeta. now rewrite E, O.
Qed.
Lemma file_list e files : ls_list s = true ->
  f_load_run uniword fs fuel other_re hostname which mods other header tmp_file writable s e files
  = (match fst (lexec other_re systems hostname envs LStripped (new_loadenv (ls_build s) (ls_force s))) with Ok _ => 0%N | Err _ => 1%N end, files).
Proof.
  intros L. unfold f_load_run. rewrite L. cbv zeta. unfold f_list_envs.
  assert (SE : sim (step_le uniword fs ie) (f_le_ekp uniword fs fuel other_re hostname (ls_systems s) (ls_envs s)) (le_ekp other_re systems hostname envs)) by (eapply sim_le_ekp; eauto).
  destruct (SE _ _ (new_loadenv_same uniword fs fuel (ls_envs s) ie RE (ls_build s) (ls_force s))) as (E & _).
  unfold bind, f_on_names, f_new_lworld. cbn [fr_le fr_set fr_env fr_out].
  cbn [lexec]. unfold le_stripped, bind, get. cbn [new_loadenv l_stripped].
  destruct (f_le_ekp _ _ _ _ _ _ _ _) as [[k|x] p], (le_ekp _ _ _ _ _) as [[k'|x'] p']; cbn [fst snd] in *; try discriminate; reflexivity.
Qed.
End Load.

Section Gen.
Variable gen_in : str -> str -> str -> res (list str).
Variable args_file loc_file : str.
Variable writable : str -> bool.
Variable answers : list str.
Variable s : gen_settings.
Variables is ie jf ic : ini.
Hypothesis RS : readable uniword fs fuel (gs_systems s) is.
Hypothesis RE : readable uniword fs fuel (gs_envs s) ie.
Hypothesis RF : readable uniword fs fuel (gs_flags s) jf.
(** The sections of [config-specs.ini] need not be parsable here. *)
Hypothesis RC : has_file fs (open_ini (gs_specs s)) ic.
Variable systems : list (str * list str).
Variable envs flags : str -> res (dict (option str)).
Hypothesis SY : keys_of uniword is systems.
Hypothesis TE : table_of uniword ie envs.
Hypothesis TF : table_of uniword jf flags.
Notation specs := (ini_sections ic).
Notation gen := (gen_in (gs_specs s)).

Lemma spec_names : f_spec_names fs s = Ok specs /\ f_spec_sections uniword fs fuel s = Ok specs.
Proof.
  assert (E : f_spec_names fs s = Ok specs).
  { unfold f_spec_names, data_keys, bind. unfold has_file in RC.
    destruct (get_cpd fs (open_ini (gs_specs s))) as [r o]. cbn [fst] in RC. now rewrite RC. }
  split; [exact E|]. exact E.
Qed.
Notation simg := (sim (step_gen uniword fs ie jf)).
Lemma sim_validate_file : simg (f_validate_file uniword fs fuel other_re hostname s)
  (validate other_re systems hostname envs flags specs).
Proof.
  intros p x R. pose proof (sim_validate uniword fs fuel other_re hostname (gs_systems s) (gs_envs s) is ie RS RE systems envs SY TE (gs_flags s) jf RF flags TF specs p x R) as V.
  assert (E : f_validate_file uniword fs fuel other_re hostname s p
            = f_validate uniword fs fuel other_re hostname (gs_systems s) (gs_envs s) (gs_flags s) specs p).
  { unfold f_validate_file, f_validate, bind. rewrite (proj1 spec_names). unfold of_res. reflexivity. }
  rewrite E. exact V.
Qed.
Lemma sim_generated kind : simg (f_generated uniword fs fuel other_re hostname gen_in s kind)
  (generated_flags other_re systems hostname envs flags specs (gen kind)).
Proof.
  unfold f_generated, generated_flags. apply sim_bind.
  - apply sim_gen; cbn; intros; [reflexivity|now left].
  - intros p. apply sim_bind; [destruct (g_valid p); [apply sim_ret|apply sim_validate_file]|]. intros _.
    apply sim_bind; [eapply sim_complete; eauto|]. intros c. apply sim_of_res.
Qed.
Lemma sim_list_file : simg (f_list_file uniword fs fuel other_re hostname s) (list_configs other_re systems hostname specs).
Proof.
  unfold f_list_file, list_configs. apply sim_bind; [apply sim_load_le|]. intros _.
  apply sim_bind; [eapply sim_on_le, sim_le_system; eauto|]. intros n.
  rewrite (proj2 spec_names). unfold bind, of_res. apply sim_ret.
Qed.

Definition step_gw (p : fgworld) (x : gworld) : Prop :=
  step_gen uniword fs ie jf (fv_gc p) (v_gc x) /\ fv_fragment p = v_fragment x /\ fv_out p = v_out x /\ fv_in p = v_in x.
Notation simw := (sim step_gw).
Lemma sim_gc {A} (m : SM fgen A) m' : simg m m' -> simw (f_on_gc m) (on_gc m').
Proof.
  intros H p x (L & S & E & O). unfold f_on_gc, on_gc. destruct (H _ _ L) as [R L'].
  destruct (m (fv_gc p)) as [r q], (m' (v_gc x)) as [r' q']. cbn [fst snd] in *. split; [exact R|]. refine (conj _ (conj _ (conj _ _))); assumption.
Qed.
Lemma sim_modify_g f g : (forall p x, step_gw p x -> step_gw (f p) (g x)) -> simw (modify f) (modify g).
Proof. intros H p x R. cbn. split; [reflexivity|]. now apply H. Qed.
Lemma sim_put f : simw (f_put_out f) (put_out f).
Proof.
  apply sim_modify_g. intros q x (L & S & E & O).
  refine (conj _ (conj _ (conj _ _))); cbn [fv_gc fv_fragment fv_out fv_in v_gc v_fragment v_out v_in]; auto. now rewrite E.
Qed.
Lemma sim_open p : simw (f_open_file writable p) (open_file writable p).
Proof. unfold f_open_file, open_file. destruct (writable p); [apply sim_put|apply sim_raise]. Qed.
Lemma sim_ask : simw f_ask ask.
Proof.
  intros p x (L & S & E & O). unfold f_ask, ask. rewrite O. destruct (confirm (v_in x)) as [r l]. split; [reflexivity|].
  refine (conj _ (conj _ (conj _ _))); cbn [snd fv_gc fv_fragment fv_out fv_in v_gc v_fragment v_out v_in]; auto.
Qed.
Lemma sim_get {A} (k : fgworld -> SM fgworld A) k' :
  (forall p x, step_gw p x -> simw (k p) (k' x)) -> simw (bind get k) (bind get k').
Proof. intros H p x R. change (bind get k p) with (k p p). change (bind get k' x) with (k' x x). exact (H p x R p x R). Qed.
Lemma sim_fragment p : simw (f_write_fragment uniword fs fuel other_re hostname gen_in writable s p)
  (write_fragment other_re systems hostname envs flags specs gen (gs_yes s) writable p).
Proof.
  unfold f_write_fragment, write_fragment. apply sim_get. intros q x (_ & S & _). rewrite S.
  destruct (v_fragment x) as [y|]; [apply sim_ret|].
  apply sim_bind; [apply sim_gc, sim_generated|]. intros l. apply sim_get. intros q' x' (_ & _ & O & _). rewrite O.
  apply sim_bind.
  - destruct (dmem p (v_out x')); [|apply sim_ret]. apply sim_bind; [|intros _; apply sim_put].
    destruct (gs_yes s); [apply sim_ret|].
    apply sim_bind; [apply sim_ask|]. intros [|]; [apply sim_ret|apply sim_raise].
  - intros _. apply sim_bind; [apply sim_open|]. intros _. apply sim_bind; [apply sim_put|]. intros _.
    apply sim_bind; [|intros _; apply sim_ret]. apply sim_modify_g. intros r z (L' & S' & E' & O').
    refine (conj _ (conj _ (conj _ _))); cbn [fv_gc fv_fragment fv_out fv_in v_gc v_fragment v_out v_in]; auto.
Qed.
Lemma sim_gen_main : simw (f_gen_main uniword fs fuel other_re hostname gen_in args_file loc_file writable s)
  (gen_main other_re systems hostname envs flags specs gen false false (gs_save s) (gs_fragment s) (gs_yes s) (gs_ci s)
     (gs_systems s) (gs_envs s) (gs_envspecs s) args_file loc_file writable).
Proof.
  unfold f_gen_main, gen_main. destruct (gs_save s) as [p|].
  - apply sim_bind; [apply sim_open|]. intros _ q x R. pose proof R as ((G & _) & _). unfold bind, get. rewrite G. now apply sim_put.
  - destruct (gs_fragment s) as [p|]; [apply sim_bind; [apply sim_fragment|intros _; apply sim_ret]|].
    apply sim_bind; [apply sim_open|]. intros _. apply sim_bind.
    + unfold f_flags_str, flags_str. apply sim_bind; [apply sim_gc, sim_generated|]. intros l. apply sim_ret.
    + intros t. apply sim_bind; [apply sim_put|]. intros _. apply sim_bind; [apply sim_open|]. intros _. apply sim_put.
Qed.
Lemma new_gen_same files : step_gw (f_new_gworld answers s files) (new_gworld (gs_build s) (gs_force s) files answers).
Proof. refine (conj _ (conj eq_refl (conj eq_refl eq_refl))). eapply new_genconfig_same; eauto. Qed.

Notation f_run := (f_gen_run uniword fs fuel other_re hostname gen_in args_file loc_file writable answers s).
Lemma file_gen_main files : gs_list_flags s = false -> gs_list s = false ->
  let main := gen_main other_re systems hostname envs flags specs gen false false (gs_save s) (gs_fragment s) (gs_yes s) (gs_ci s)
     (gs_systems s) (gs_envs s) (gs_envspecs s) args_file loc_file writable (new_gworld (gs_build s) (gs_force s) files answers) in
  f_run files = (match fst main with Ok _ => 0%N | Err _ => 1%N end, v_out (snd main)).
Proof.
  intros L1 L2. cbv zeta. unfold f_gen_run. rewrite L1, L2. destruct (sim_gen_main _ _ (new_gen_same files)) as (E & _ & _ & O & _). cbv zeta. now rewrite E, O.
Qed.
Lemma file_gen_list files : gs_list_flags s = false -> gs_list s = true ->
  f_run files = (match fst (gexec other_re systems hostname envs flags specs (gen $"bash") GList (new_genconfig (gs_build s) (gs_force s))) with
                 | Ok _ => 0%N | Err _ => 1%N end, files).
Proof.
  intros L1 L2. unfold f_gen_run. rewrite L1, L2. cbv zeta.
  destruct (sim_list_file _ _ (new_genconfig_same uniword fs fuel (gs_envs s) ie RE (gs_flags s) jf (gs_build s) (gs_force s))) as (E & _).
  unfold bind, f_on_gc, f_new_gworld. cbn [fv_gc fv_fragment fv_out fv_in gexec]. unfold bind.
  destruct (f_list_file _ _ _ _ _ _ _) as [[k|x] p], (list_configs _ _ _ _ _) as [[k'|x'] p']; cbn [fst snd] in *; try discriminate; reflexivity.
Qed.
End Gen.
Lemma file_gen_flags gen_in args_file loc_file writable answers s files : gs_list_flags s = true ->
  f_gen_run uniword fs fuel other_re hostname gen_in args_file loc_file writable answers s files = (1%N, files).
Proof.
  intros L. unfold f_gen_run. rewrite L. cbv zeta. unfold bind, f_on_gc, f_new_gworld. cbn [fv_gc fv_fragment fv_out fv_in].
  destruct (f_load_ckp _ _ _ _ _) as [[k|x] p]; reflexivity.
Qed.
End FileProg.
