(** * The theorems about objects on files. *)
From Coq Require Import String NArith ZArith List Bool Lia Arith.
Import ListNotations.
From Verif Require Import PyBase PyFacts IniView IniRead ExcControl Cpe SpecWalk SpecRun SpecParse SpecApi BaseProofs Trace Samples
  ApiProofs EnvVar Regex Keyword KeywordFile KeywordFileProofs DetSys EnvKeyword LoadEnv TopLevel FileObjects SpecFlags SpecLoadEnv
  SpecObjects ObjectProofs ObjectProofs2.
Local Open Scope sm_scope.

Section T.
Variable uniword : pychar -> bool.
Variable fs : str -> option str.
Variable fuel : nat.
Notation K := (base_class uniword).

Theorem tables_exist file i : readable uniword fs fuel file i ->
  (exists conf, table_of uniword i conf) /\ (exists systems, keys_of uniword i systems).
Proof.
  intros RD. set (conf := fun s => fst (getitem K fs fuel s (open_ini file))).
  assert (T : table_of uniword i conf).
  { split.
    - intros s HS. destruct (expansion_exists K i $"DEFAULT" s) as (d & X). exists d. split; [exact X|].
      destruct (gf_open uniword fs fuel file i RD) as (files & V).
      destruct (item_inv K fs i $"DEFAULT" fuel (base_well_behaved uniword) (proj1 (proj2 RD)) (proj2 (proj2 RD))
        s d HS X files _ V) as (o' & E & _). unfold conf. now rewrite E.
    - intros s N. now apply (item_absent uniword fs fuel file i RD). }
  split; [now exists conf|].
  exists (map (fun s => (s, match conf s with Ok d => map fst d | Err _ => [] end)) (ini_sections i)). split.
  - rewrite map_map. apply map_id.
  - intros s l I. apply in_map_iff in I as (s' & [= -> <-] & I). apply in_sections in I.
    destruct (proj1 T s I) as (d & X & E). exists d. rewrite E. now split.
Qed.

Theorem tables_unique file i conf conf' systems systems' : readable uniword fs fuel file i ->
  (table_of uniword i conf -> table_of uniword i conf' -> forall s, conf s = conf' s) /\
  (keys_of uniword i systems -> keys_of uniword i systems' -> systems = systems').
Proof.
  intros RD. split.
  - intros T T' s. destruct (ini_has_section i s) eqn:P.
    + destruct (proj1 T s P) as (d & X & ->), (proj1 T' s P) as (d' & X' & ->).
      f_equal. eapply expansion_unique; eauto.
    + now rewrite (proj2 T s P), (proj2 T' s P).
  - intros [E H] [E' H']. rewrite <- E in E'. clear E. revert systems' E' H'.
    induction systems as [|[s l] L IH]; intros [|[s' l'] L'] E' H'; try discriminate; [reflexivity|].
    cbn in E'. injection E' as E1 E2. subst s'. f_equal.
    + destruct (H s l (or_introl eq_refl)) as (d & X & ->), (H' s l' (or_introl eq_refl)) as (d' & X' & ->).
      do 2 f_equal. eapply expansion_unique; eauto.
    + apply IH; auto.
      * intros a b I. apply H. now right.
      * intros a b I. apply H'. now right.
Qed.

Theorem flags_object file i conf build : readable uniword fs fuel file i -> table_of uniword i conf ->
  match f_new_ckp uniword fs fuel file build, new_ckp conf build with
  | Ok p, Ok k => forall h, replies (fkexec uniword fs fuel) h p = replies (kexec conf) h k
  | Err e, Err e' => e = e'
  | _, _ => False
  end.
Proof.
  intros RD TB. pose proof (new_ckp_same uniword fs fuel file i RD conf TB build) as N.
  destruct (f_new_ckp uniword fs fuel file build) as [p|e], (new_ckp conf build) as [k|e']; auto.
  destruct N as [N P]. intros h. apply (sim_replies (step_file uniword fs i)); auto.
  intros o. eapply sim_kexec; eauto.
Qed.

Theorem env_object other_re file i conf build system : readable uniword fs fuel file i -> table_of uniword i conf ->
  match f_new_ekp uniword fs fuel file build system, new_ekp conf build system with
  | Ok p, Ok k => snd p = k /\
      forall n, replies (fun _ => f_qualified_env_name uniword fs fuel other_re) (repeat tt n) p
              = replies (fun _ => qualified_env_name other_re conf) (repeat tt n) k
  | Err e, Err e' => e = e'
  | _, _ => False
  end.
Proof.
  intros RD TB. pose proof (new_ekp_same uniword fs fuel file i RD conf TB build system) as N.
  destruct (f_new_ekp uniword fs fuel file build system) as [p|e], (new_ekp conf build system) as [k|e']; auto.
  split; [apply N|]. intros n. apply (sim_replies (step_ekp uniword fs i)); auto.
  intros o. eapply sim_qualified; eauto.
Qed.

Theorem system_object other_re hostname file i systems build force :
  readable uniword fs fuel file i -> keys_of uniword i systems ->
  forall n, replies (fun _ => f_system_name uniword fs fuel other_re hostname) (repeat tt n) (f_new_detsys file build force)
          = replies (fun _ => system_name other_re systems hostname) (repeat tt n) (new_detsys build force).
Proof.
  intros RD SY n. apply (sim_replies (step_file uniword fs i)).
  - intros o. eapply sim_system; eauto.
  - eapply new_detsys_same; eauto.
Qed.

Theorem load_object other_re hostname sfile efile is ie systems envs build force :
  readable uniword fs fuel sfile is -> readable uniword fs fuel efile ie ->
  keys_of uniword is systems -> table_of uniword ie envs ->
  forall h, replies (flexec uniword fs fuel other_re hostname sfile efile) h (f_new_loadenv efile build force)
          = replies (lexec other_re systems hostname envs) h (new_loadenv build force).
Proof.
  intros RS RE SY TE h. apply (sim_replies (step_le uniword fs ie)).
  - intros o. eapply sim_lexec; eauto.
  - eapply new_loadenv_same; eauto.
Qed.

Theorem gen_object other_re hostname sfile efile ffile is ie jf systems envs flags specs gen build force :
  readable uniword fs fuel sfile is -> readable uniword fs fuel efile ie -> readable uniword fs fuel ffile jf ->
  keys_of uniword is systems -> table_of uniword ie envs -> table_of uniword jf flags ->
  forall h, replies (fgexec uniword fs fuel other_re hostname sfile efile ffile specs gen) h
              (f_new_genconfig efile ffile build force)
          = replies (gexec other_re systems hostname envs flags specs gen) h (new_genconfig build force).
Proof.
  intros RS RE RF SY TE TF h. apply (sim_replies (step_gen uniword fs ie jf)).
  - intros o. eapply sim_gexec; eauto.
  - eapply new_genconfig_same; eauto.
Qed.
End T.
