(** * Checks for the samples of [PropertiesNames.v]. *)
From Coq Require Import String NArith List Bool.
Import ListNotations.
From Verif Require Import PyBase PyFacts EnvVar EnvProofs Regex Keyword DetSys EnvKeyword LoadEnv SpecKeyword KeywordText SpecFlags SpecSystem
  SpecLoadEnv KeywordProofs SearchProofs SystemProofs EnvNameProofs SetEnvProofs BashProofs PropertiesKeyword SpecNames.

Definition litb (w : str) : bool := forallb (fun c => negb (N.eqb c 46) && negb (N.eqb c 95) && ordinary c) w.
Definition literalb (l : list (str * dict (option str))) : bool :=
  forallb (fun sd => forallb (fun k => litb k && match get_values (conf_of l) (fst sd) k with
                                                 | Ok v => forallb litb v
                                                 | Err _ => true
                                                 end) (dkeys (snd sd))) l.
Lemma litb_ok w : litb w = true -> literal_name w /\ ~ In 95%N w.
Proof.
  unfold litb. rewrite forallb_forall. intros H. split; [split|].
  - intros I. apply H in I. discriminate.
  - intros c I. apply H in I. apply andb_prop in I as (_ & I). now apply ordinary_spec.
  - intros I. apply H in I. discriminate.
Qed.
Lemma literal_envs_check l : literalb l = true -> literal_envs (conf_of l).
Proof.
  intros C n (s & E & ((d & D & K) & G) & I). apply litb_ok. unfold conf_of in D.
  destruct (dget s l) as [d'|] eqn:S; [|discriminate]. injection D as <-. apply SetEnvProofs.dget_In in S.
  unfold literalb in C. rewrite forallb_forall in C. specialize (C _ S). cbn [fst snd] in C.
  rewrite K, forallb_forall in C. destruct I as [I|I].
  - specialize (C _ I). now apply andb_prop in C as (C & _).
  - apply in_flat_map in I as ((k, v) & J & I). cbn [snd] in I.
    specialize (C k (in_map fst _ _ J)). rewrite (G _ _ J) in C. apply andb_prop in C as (_ & C).
    rewrite forallb_forall in C. now apply C.
Qed.
Definition subset (l l' : list str) : bool := forallb (fun w => str_mem w l') l.
Lemma same_words_check b b' : subset (words b) (words b') && subset (words b') (words b) = true -> same_words b b'.
Proof.
  intros C w. apply andb_prop in C as (C & C'). unfold subset in *. rewrite forallb_forall in C, C'. rewrite !named_iff.
  split; intros I; [apply C in I|apply C' in I]; now apply str_mem_In.
Qed.
