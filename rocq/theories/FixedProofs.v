(** * The canonical name of a configuration is its own canonical name. *)
From Coq Require Import String NArith List Bool Arith Lia.
Import ListNotations.
From Verif Require Import PyBase PyFacts EnvVar EnvProofs Regex Keyword DetSys EnvKeyword LoadEnv SpecKeyword KeywordText RegexProofs
  KeywordProofs FlagsProofs FlagsProofs2 SpecFlags SpecSystem SpecLoadEnv SearchProofs SystemProofs EnvNameProofs LoadEnvProofs GenConfigProofs.

Lemma words_lower b : words (lower b) = map lower (words b).
Proof.
  unfold words. induction b as [|c b IH]; auto. change (lower (c :: b)) with (lower_char c :: lower b). cbn [split_on].
  rewrite IH.
  assert (X : N.eqb (lower_char c) 95 = N.eqb c 95).
  { unfold lower_char. destruct ((65 <=? c)%N && (c <=? 90)%N) eqn:E; auto.
    apply andb_prop in E as (E1 & E2). apply N.leb_le in E1, E2.
    destruct (N.eqb_spec (c + 32) 95), (N.eqb_spec c 95); auto; lia. }
  rewrite X. destruct (N.eqb c 95); auto. destruct (split_on 95%N b); reflexivity.
Qed.

Section Fixed.
Variable other_re : str -> str -> res bool.
Variable systems : list (str * list str).
Variable hostname : str.
Variable envs : str -> res (dict (option str)).
Variable flags : str -> res (dict (option str)).
Hypothesis D : NoDup (map fst systems).
Hypothesis R : readable_keys other_re systems hostname.

Variable s : str.
Variable E : env_table.
Variable T : list row.
Hypothesis HE : env_describes envs s E.
Hypothesis VE : valid_envs E.
Hypothesis HT : describes flags T.
Hypothesis VT : valid_table T.
Hypothesis A : apart systems s E T.
Hypothesis RA : forall b, readable_names other_re (flat_map snd E) b.

Lemma env_readable b : readable_names other_re (map fst E) b.
Proof. intros n I. left. apply literal_plain. apply (a_env _ _ _ _ A n I). Qed.

Section Name.
Variable n : str.
Variable chosen : list str.
Hypothesis In_n : In n (map fst E).
Hypothesis In_c : forall o, In o chosen -> In o (flat_map options_of T).
Let text := flat_map (fun o => 95%N :: o) chosen.
Let c := (s ++ [95%N] ++ n) ++ text.

Lemma c_words : words c = s :: n :: chosen.
Proof.
  unfold c, text. rewrite words_text.
  - unfold words. change (s ++ [95%N] ++ n) with (s ++ 95%N :: n). rewrite split_on_cons by apply (a_system _ _ _ _ A).
    rewrite split_on_word by apply (a_env _ _ _ _ A n In_n). reflexivity.
  - apply Forall_forall. intros o I. apply (a_option _ _ _ _ A o (In_c o I)).
Qed.
Lemma c_line : ~ In 10%N c.
Proof.
  unfold c, text. rewrite !in_app_iff. intros [[I|[[I|[]]|I]]|I].
  - destruct (a_system _ _ _ _ A) as ((_ & H) & _). exact (H I).
  - discriminate.
  - destruct (a_env _ _ _ _ A n In_n) as ((_ & H) & _). exact (H I).
  - apply in_flat_map in I as (o & J & [I|I]); [discriminate|].
    destruct (a_option _ _ _ _ A o (In_c o J)) as (_ & (_ & H) & _). exact (H I).
Qed.
Lemma c_system m : In s (map fst systems) -> s <> $"DEFAULT" -> (names_system systems c m <-> m = s).
Proof.
  intros Is Ns. unfold names_system. rewrite named_iff, words_lower, c_words. cbn [map In].
  rewrite (proj2 (a_system _ _ _ _ A)). split.
  - intros (I & _ & [H|[H|H]]); auto.
    + subst. now destruct (a_env _ _ _ _ A n In_n) as (_ & _ & _ & _ & X).
    + apply in_map_iff in H as (o & <- & J). now destruct (a_option _ _ _ _ A o (In_c o J)) as (_ & _ & _ & X).
  - intros ->. auto.
Qed.
Lemma c_env : env_of other_re E c (Ok n).
Proof.
  apply env_name.
  assert (X : forall m, In m (map fst E) -> (appears other_re m c <-> m = n)).
  { intros m I. destruct (a_env _ _ _ _ A m I) as (W & L & Ns & No & _). rewrite appears_word; [|auto|apply W|apply c_line].
    rewrite named_iff, c_words. cbn [In]. split; [|auto]. intros [H|[H|H]]; auto; [congruence|]. now apply In_c in H. }
  destruct (List.in_split _ _ In_n) as (a & b & Q). exists a, b. split; auto. split; [now apply X|].
  destruct VE as (N & _). rewrite Q in N. apply NoDup_remove_2 in N. rewrite in_app_iff in N.
  split; intros m I Ap; exfalso; apply X in Ap; subst; auto; rewrite Q; apply in_or_app; cbn; auto.
Qed.
End Name.

Lemma fixed_point b f c :
  system_of other_re systems hostname b f (Ok (Some s)) ->
  config_name other_re systems hostname envs flags b f c ->
  config_name other_re systems hostname envs flags c f c.
Proof.
  intros S (k & n0 & o & K & N & O & ->).
  destruct (table_sel flags T HT b k K) as (_ & O'). rewrite O' in O. clear O'.
  destruct (p_sel_spec flags T HT VT b) as [(d & Sd & Sel & _)|(Sd & _)]; rewrite Sd in O; [|discriminate].
  cbn in O. injection O as <-.
  pose proof (parsed_spec other_re systems hostname envs b f D R s E S HE VE (env_readable b) (RA b)) as PS.
  assert (NE : exists n, env_of other_re E b (Ok n) /\ n0 = s ++ [95%N] ++ n).
  { rewrite N in PS. pose proof (matched_env_of other_re b envs s E HE VE (env_readable b) (RA b)) as M.
    apply PS in M as H. destruct (matched_env other_re envs _) as [n|e]; [|discriminate]. injection H as H. eauto. }
  destruct NE as (n & En & ->).
  assert (In_n : In n (map fst E)).
  { inversion En as [? L|a ? l _ _ I _|]; subst.
    - destruct L as (x & y & -> & _). apply in_or_app. right. now left.
    - apply in_map_iff. exists (n, l). auto. }
  rewrite sel_text_list in *. set (chosen := chosen_all d) in *.
  assert (In_c : forall o, In o chosen -> In o (flat_map options_of T)) by (intros o; apply (selects_all_in b); auto).
  set (c := (s ++ [95%N] ++ n) ++ flat_map (fun o => 95%N :: o) chosen).
  assert (SS : In s (map fst systems) /\ s <> $"DEFAULT").
  { inversion S as [| |h H U Q|h m H Q Nm U Q']; subst.
    - destruct H as (x & ks & y & -> & Nd & _). split; auto. rewrite map_app. apply in_or_app. right. now left.
    - destruct f; [|discriminate]. injection Q' as ->. destruct Nm as (I & Nd & _). auto. }
  destruct SS as (Is & Ns).
  assert (Sc : system_of other_re systems hostname c f (Ok (Some s))).
  { inversion S as [| |h H U Q|h m H Q Nm U Q']; subst.
    - apply sys_host; auto. intros m M. now apply (c_system n chosen In_n In_c m Is Ns) in M.
    - destruct f; [|discriminate]. injection Q' as ->.
      eapply (sys_other _ _ _ _ true h s); eauto.
      + now apply (c_system n chosen In_n In_c s Is Ns).
      + intros m M. now apply (c_system n chosen In_n In_c m Is Ns) in M. }
  destruct (table_new flags T HT c) as (k' & K').
  exists k', (s ++ [95%N] ++ n), (flat_map (fun o => 95%N :: o) chosen). split; auto. split; [|split].
  - pose proof (parsed_spec other_re systems hostname envs c f D R s E Sc HE VE (env_readable c) (RA c) (Ok n)) as PC.
    cbn [qualified] in PC. apply PC. now apply c_env.
  - assert (TX : fst (selected_options_str flags k) = Ok (flat_map (fun o => 95%N :: o) chosen)).
    { rewrite (proj2 (table_sel flags T HT b k K)), Sd. cbn. now rewrite sel_text_list. }
    apply (flags_canonical flags T HT VT b k _ (s ++ [95%N] ++ n) k'); auto.
    + intros o I. split; [apply (a_option _ _ _ _ A o I)|apply (a_option _ _ _ _ A o I)].
    + intros o I. rewrite named_iff. unfold words. change (s ++ [95%N] ++ n) with (s ++ 95%N :: n). rewrite split_on_cons by apply (a_system _ _ _ _ A).
      rewrite split_on_word by apply (a_env _ _ _ _ A n In_n). intros [H|[H|[]]]; subst.
      * now destruct (a_option _ _ _ _ A o I) as (_ & _ & X & _).
      * now destruct (a_env _ _ _ _ A o In_n) as (_ & _ & _ & X & _).
  - reflexivity.
Qed.
End Fixed.
