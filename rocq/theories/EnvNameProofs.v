(** * The environment a build name means. *)
From Coq Require Import String NArith List Bool Arith Lia Sorted.
Import ListNotations.
From Verif Require Import PyBase PyFacts EnvVar EnvProofs Regex Keyword DetSys EnvKeyword SpecKeyword KeywordText RegexProofs
  KeywordProofs FlagsProofs SpecFlags SpecSystem SearchProofs SystemProofs.

(** ** Sorting by length *)
Definition longer (a b : str) : Prop := length b <= length a.
Lemma insert_len_in x l y : In y (insert_len x l) <-> y = x \/ In y l.
Proof.
  induction l as [|z l IH]; cbn; [intuition|]. destruct (length z <=? length x); cbn; intuition.
Qed.
Lemma by_length_in l y : In y (by_length l) <-> In y l.
Proof. induction l as [|x l IH]; [tauto|]. cbn [by_length fold_right]. rewrite insert_len_in. fold (by_length l). cbn. intuition. Qed.
Lemma insert_len_sorted x l : StronglySorted longer l -> StronglySorted longer (insert_len x l).
Proof.
  induction 1 as [|y l S IH F]; cbn; [repeat constructor|]. destruct (Nat.leb_spec (length y) (length x)).
  - constructor; [constructor; auto|]. constructor; auto. eapply Forall_impl; [|exact F]. unfold longer. intros; lia.
  - constructor; auto. apply Forall_forall. intros z I. apply insert_len_in in I as [->|I]; [unfold longer; lia|].
    rewrite Forall_forall in F. auto.
Qed.
Lemma by_length_sorted l : StronglySorted longer (by_length l).
Proof. induction l; [constructor|]. cbn. now apply insert_len_sorted. Qed.

Lemma find_longest (p : str -> bool) x l : StronglySorted longer l ->
  find p (insert_len x l) =
  if p x then match find p l with
              | Some m => if Nat.leb (length m) (length x) then Some x else Some m
              | None => Some x
              end
  else find p l.
Proof.
  induction 1 as [|y l S IH F]; cbn [insert_len find].
  - destruct (p x); reflexivity.
  - destruct (Nat.leb_spec (length y) (length x)) as [L|L]; cbn [find].
    + destruct (p x); auto. destruct (p y).
      * rewrite (proj2 (Nat.leb_le _ _) L). reflexivity.
      * destruct (find p l) as [m|] eqn:E; auto. apply find_some in E as (I & _).
        rewrite Forall_forall in F. specialize (F m I). unfold longer in F. rewrite (proj2 (Nat.leb_le _ _)) by lia.
        reflexivity.
    + destruct (p y); auto. destruct (p x); auto. rewrite (proj2 (Nat.leb_gt _ _) L). reflexivity.
Qed.

Section Env.
Variable other_re : str -> str -> res bool.
Variable build : str.

Lemma name_in_ok name :
  (plain name \/ exists b, other_re (delimited name) build = Ok b) ->
  exists b, name_in other_re name build = Ok b /\ (b = true <-> appears other_re name build).
Proof.
  intros R. unfold name_in, appears. destruct (simple name) eqn:S.
  - pose proof (proj1 (simple_plain name) S) as P. eexists. split; [reflexivity|]. rewrite search_stands by auto. tauto.
  - assert (P : ~ plain name) by (rewrite <- simple_plain; congruence). destruct R as [|(b & E)]; [tauto|].
    exists b. split; auto. rewrite E. split; [intros ->; auto|]. intros [(? & _)|(_ & [= ->])]; tauto.
Qed.
Definition nameb (n : str) : bool := match name_in other_re n build with Ok b => b | Err _ => false end.
Lemma first_in_find l : readable_names other_re l build -> first_in other_re l build = Ok (find nameb l).
Proof.
  induction l as [|n l IH]; intros R; auto. cbn [first_in find].
  destruct (name_in_ok n) as (b & E & B); [apply R; now left|]. unfold nameb at 1. rewrite E. cbn [rbind].
  destruct b; auto. apply IH. intros m I. apply R. now right.
Qed.
Lemma nameb_spec l n : readable_names other_re l build -> In n l -> (nameb n = true <-> appears other_re n build).
Proof.
  intros R I. destruct (name_in_ok n (R n I)) as (b & E & B). unfold nameb. now rewrite E.
Qed.
Lemma longest_find l : readable_names other_re l build -> longest other_re l build (find nameb (by_length l)).
Proof.
  induction l as [|x l IH]; intros R; [intros ? []|].
  assert (R' : readable_names other_re l build) by (intros m I; apply R; now right). specialize (IH R').
  cbn [by_length fold_right]. fold (by_length l). rewrite find_longest by apply by_length_sorted.
  pose proof (nameb_spec _ x R (or_introl eq_refl)) as X. destruct (nameb x).
  - destruct (find nameb (by_length l)) as [m|]; cbn in IH.
    + destruct IH as (a & b & -> & A & La & Lb). destruct (Nat.leb_spec (length m) (length x)) as [L|L].
      * exists [], (a ++ m :: b). split; auto. split; [now apply X|]. split; [intros ? []|].
        intros y I Y. apply in_app_iff in I as [I|[<-|I]]; auto.
        -- specialize (La y I Y). lia.
        -- specialize (Lb y I Y). lia.
      * exists (x :: a), b. split; auto. split; auto. split; auto. intros y [<-|I] Y; auto.
    + exists [], l. split; auto. split; [now apply X|]. split; [intros ? []|]. intros y I Y. now apply IH in Y.
  - assert (N : ~ appears other_re x build) by (rewrite <- X; discriminate).
    destruct (find nameb (by_length l)) as [m|]; cbn in IH |- *.
    + destruct IH as (a & b & -> & A & La & Lb). exists (x :: a), b. split; auto. split; auto. split; auto.
      intros y [<-|I] Y; auto. tauto.
    + intros y [<-|I]; auto.
Qed.
Lemma longest_fun l r r' : longest other_re l build r -> longest other_re l build r' -> r = r'.
Proof.
  assert (C : forall n m, longest other_re l build (Some n) -> longest other_re l build (Some m) -> n = m).
  { intros n m (a & b & E & A & La & Lb) (a' & b' & E' & A' & La' & Lb'). subst l.
    destruct (app_eq_app _ _ _ _ E') as (c & [(-> & H)|(-> & H)]).
    - destruct c as [|y c]; cbn in H; injection H; auto. intros -> <-.
      specialize (La m). specialize (Lb' n). 
      assert (length n <= length m) by (apply Lb'; auto; apply in_or_app; right; now left).
      assert (length m < length n); [|lia]. apply La; auto. apply in_or_app. right. now left.
    - destruct c as [|y c]; cbn in H; injection H; auto. intros -> <-.
      assert (length m <= length n) by (apply Lb; auto; apply in_or_app; right; now left).
      assert (length n < length m); [|lia]. apply La'; auto. apply in_or_app. right. now left. }
  destruct r as [n|], r' as [m|]; auto.
  - intros. f_equal. now apply C.
  - intros (a & b & -> & A & _) N. exfalso. apply (N n); auto. apply in_or_app. right. now left.
  - intros N (a & b & -> & A & _). exfalso. apply (N m); auto. apply in_or_app. right. now left.
Qed.

Variable conf : str -> res (dict (option str)).
Variable system : str.
Variable E : env_table.
Hypothesis Desc : env_describes conf system E.

Lemma all_values_rows : forall l, (forall n v, In (n, v) l -> get_values conf system n = Ok v) ->
  all_values conf system (map fst l) = Ok (flat_map snd l).
Proof.
  induction l as [|(n, v) l IH]; intros G; auto. cbn [map fst all_values flat_map snd].
  rewrite (G n v) by now left. cbn [rbind]. rewrite IH; auto. intros; apply G. now right.
Qed.
Lemma get_aliases_eq : get_aliases conf system = if has_duplicates (flat_map snd E) then Err SystemExit else Ok (flat_map snd E).
Proof.
  destruct Desc as ((d & C & K) & G). unfold get_aliases. rewrite C. cbn [rbind]. rewrite K, all_values_rows by auto. reflexivity.
Qed.
Lemma new_ekp_eq : new_ekp conf build system =
  if has_duplicates (flat_map snd E) then Err SystemExit
  else Ok (Ekp build system (by_length (map fst E)) (by_length (flat_map snd E)) None).
Proof.
  unfold new_ekp. rewrite get_aliases_eq. destruct Desc as ((d & C & K) & G). rewrite C. cbn [rbind].
  destruct (has_duplicates _); auto. cbn [rbind]. now rewrite K.
Qed.

Hypothesis V : valid_envs E.

Lemma row_unique : forall l, NoDup (flat_map snd l) -> forall a (n m : str) (u v : list str),
  In (n, u) l -> In (m, v) l -> In a u -> In a v -> NoDup (map fst l) -> n = m.
Proof.
  induction l as [|(k, w) l IH]; [intros _ ? ? ? ? ? []|]. cbn [flat_map snd map fst]. intros N a n m u v I J A B M.
  inversion M; subst. destruct (NoDup_app_inv _ _ N) as (Nw & Nl & X).
  assert (F : forall n u, In (n, u) l -> In a u -> In a (flat_map snd l)).
  { intros n' u' I' A'. apply in_flat_map. exists (n', u'). auto. }
  destruct I as [[= -> ->]|I], J as [[= -> ->]|J]; auto.
  - exfalso. eapply X; eauto.
  - exfalso. eapply X; eauto.
  - eapply IH; eauto.
Qed.
Lemma get_key_alias a n l : In (n, l) E -> In a l -> get_key conf system a = Ok n.
Proof.
  destruct Desc as ((d & C & K) & G), V as (V1 & V2). intros I A.
  destruct (get_key_spec conf system a d C) as [(x & k & y & u & H & L & M & _ & ->)|(N & _)].
  - rewrite K. intros k J. apply in_map_iff in J as ((k', u) & <- & J). exists u. now apply G.
  - f_equal. assert (J : In k (map fst E)) by (rewrite <- K, H; apply in_or_app; right; now left).
    apply in_map_iff in J as ((k', u') & <- & J). cbn in L. rewrite (G _ _ J) in L. injection L as ->.
    cbn. eapply row_unique; eauto.
  - exfalso. eapply N; eauto. rewrite K. apply in_map_iff. exists (n, l). auto.
Qed.

Hypothesis RN : readable_names other_re (map fst E) build.
Hypothesis RA : readable_names other_re (flat_map snd E) build.
Lemma readable_sorted l : readable_names other_re l build -> readable_names other_re (by_length l) build.
Proof. intros H n I. apply H. now apply by_length_in. Qed.

Lemma matched_env_of : env_of other_re E build
  (matched_env other_re conf (Ekp build system (by_length (map fst E)) (by_length (flat_map snd E)) None)).
Proof.
  unfold matched_env. cbn [e_names e_aliases e_build e_system].
  rewrite first_in_find by now apply readable_sorted. cbn [rbind].
  pose proof (longest_find _ RN) as L1. destruct (find nameb (by_length (map fst E))) as [n|].
  - now apply env_name.
  - rewrite first_in_find by now apply readable_sorted. cbn [rbind].
    pose proof (longest_find _ RA) as L2. destruct (find nameb (by_length (flat_map snd E))) as [a|].
    + assert (I : In a (flat_map snd E)). { destruct L2 as (x & y & -> & _). apply in_or_app. right. now left. }
      apply in_flat_map in I as ((n, l) & I & A). cbn in A. rewrite (get_key_alias a n l) by auto.
      eapply env_alias; eauto.
    + now apply env_none.
Qed.
Lemma env_of_fun r r' : env_of other_re E build r -> env_of other_re E build r' -> r = r'.
Proof.
  destruct V as (V1 & V2).
  intros S S'. destruct S as [n L|a n l L L2 I A|L L2], S' as [n' L'|a' n' l' L' L2' I' A'|L' L2'];
    pose proof (longest_fun _ _ _ L L') as Q; try discriminate; auto.
  - congruence.
  - pose proof (longest_fun _ _ _ L2 L2') as Q2. injection Q2 as ->. f_equal. eapply row_unique; eauto.
  - pose proof (longest_fun _ _ _ L2 L2') as Q2. discriminate.
  - pose proof (longest_fun _ _ _ L2 L2') as Q2. discriminate.
Qed.
End Env.

Lemma qualified_eq other_re conf p : e_qualified p = None ->
  qualified_env_name other_re conf p =
  match matched_env other_re conf p with
  | Ok n => (Ok (e_system p ++ [95%N] ++ n), Ekp (e_build p) (e_system p) (e_names p) (e_aliases p) (Some (e_system p ++ [95%N] ++ n)))
  | Err e => (Err e, p)
  end.
Proof.
  intros H. cbv [qualified_env_name bind get of_res modify ret]. rewrite H. destruct (matched_env other_re conf p); reflexivity.
Qed.
Lemma qualified_fst other_re conf p : e_qualified p = None ->
  fst (qualified_env_name other_re conf p) = qualified (e_system p) (matched_env other_re conf p).
Proof. intros H. rewrite qualified_eq by auto. destruct (matched_env other_re conf p); reflexivity. Qed.
Lemma qualified_inj system r r' : qualified system r = qualified system r' -> r = r'.
Proof.
  destruct r, r'; cbn; intros H; try discriminate; [|congruence].
  injection H as H. apply app_inv_head in H. injection H as ->. reflexivity.
Qed.
Lemma env_name_spec other_re conf system E build p r :
  env_describes conf system E -> valid_envs E ->
  readable_names other_re (map fst E) build -> readable_names other_re (flat_map snd E) build ->
  new_ekp conf build system = Ok p ->
  (fst (qualified_env_name other_re conf p) = qualified system r <-> env_of other_re E build r).
Proof.
  intros D V RN RA N. rewrite (new_ekp_eq build conf system E D) in N.
  destruct (has_duplicates (flat_map snd E)); [discriminate|]. injection N as <-.
  rewrite qualified_fst by reflexivity. cbn [e_system].
  pose proof (matched_env_of other_re build conf system E D V RN RA) as M. split.
  - intros H. apply qualified_inj in H. now subst.
  - intros S. f_equal. eapply env_of_fun; eauto.
Qed.
Lemma env_made conf system E build : env_describes conf system E ->
  (NoDup (flat_map snd E) /\ exists p, new_ekp conf build system = Ok p) \/
  (~ NoDup (flat_map snd E) /\ new_ekp conf build system = Err SystemExit).
Proof.
  intros D. rewrite (new_ekp_eq build conf system E D), <- has_duplicates_NoDup.
  destruct (has_duplicates (flat_map snd E)); [right; split; [discriminate|auto]|left; split; eauto].
Qed.
(** The name stays. *)
Lemma env_again other_re conf p n q :
  qualified_env_name other_re conf p = (Ok n, q) -> qualified_env_name other_re conf q = (Ok n, q).
Proof.
  destruct p as [b s ns al [m|]].
  - intros [= <- <-]. reflexivity.
  - rewrite qualified_eq by reflexivity. destruct (matched_env _ _ _); intros [= <- <-]. reflexivity.
Qed.
(** Names without special characters. *)
Lemma appears_word other_re w b : literal_text w -> ~ In 95%N w -> ~ In 10%N b -> (appears other_re w b <-> named b w).
Proof.
  intros L U N. unfold appears. rewrite stands_word by auto. pose proof (literal_plain w L). tauto.
Qed.
