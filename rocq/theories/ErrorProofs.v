(** * The transcription with the texts of errors does the same as the one without. *)
From Coq Require Import String NArith List Bool Arith Lia.
Import ListNotations.
From Verif Require Import PyBase PyFacts EnvVar Regex Keyword DetSys EnvKeyword LoadEnv Messages Errors KeywordProofs SpecLoadEnv.

Definition plain {A} (r : eres A) : res A := match r with EOk a => Ok a | EErr e _ => Err e end.
Lemma plain_silent {A} (r : res A) : plain (silent r) = r.
Proof. destruct r; reflexivity. Qed.
Lemma plain_bind {A B} (r : eres A) (k : A -> eres B) r' k' :
  plain r = r' -> (forall a, plain (k a) = k' a) -> plain (ebind r k) = rbind r' k'.
Proof. intros <- H. destruct r; cbn; auto. Qed.

Definition erases {S A} (m : EM S A) (m' : SM S A) : Prop := forall s, (plain (fst (m s)), snd (m s)) = m' s.
Lemma erases_bind {S A B} (m : EM S A) (k : A -> EM S B) m' k' :
  erases m m' -> (forall a, erases (k a) (k' a)) -> erases (mbind m k) (bind m' k').
Proof.
  intros M K s. unfold mbind, bind. specialize (M s). destruct (m s) as [[a|e t] s1]; cbn in M; rewrite <- M; [apply K|reflexivity].
Qed.
Lemma erases_ret {S A} (a : A) : erases (S := S) (mret a) (ret a).
Proof. intros s. reflexivity. Qed.
Lemma erases_get {S} : erases (S := S) mget get.
Proof. intros s. reflexivity. Qed.
Lemma erases_of {S A} (r : eres A) r' : plain r = r' -> erases (S := S) (mof r) (of_res r').
Proof. intros <- s. reflexivity. Qed.
Lemma erases_quiet {S A} (m : SM S A) : erases (quiet m) m.
Proof. intros s. unfold quiet. destruct (m s) as [r s']. cbn. now rewrite plain_silent. Qed.
Lemma erases_raise {S A} e t : erases (S := S) (A := A) (mof (EErr e t)) (raise e).
Proof. intros s. reflexivity. Qed.
Lemma erases_fst {S A} (m : EM S A) m' s : erases m m' -> plain (fst (m s)) = fst (m' s).
Proof. intros H. now rewrite <- H. Qed.
Lemma erases_snd {S A} (m : EM S A) m' s : erases m m' -> snd (m s) = snd (m' s).
Proof. intros H. now rewrite <- H. Qed.

Lemma filter_none {A} (f : A -> bool) l : filter f l = [] <-> existsb f l = false.
Proof.
  rewrite existsb_false. split.
  - intros E x I. destruct (f x) eqn:F; auto. assert (X : In x (filter f l)) by (apply filter_In; auto). rewrite E in X. destruct X.
  - induction l as [|a l IH]; cbn; auto. intros H. rewrite (H a (or_introl eq_refl)). apply IH. intros x I. apply H. now right.
Qed.
Lemma filter_some {A} (f : A -> bool) l x l' : filter f l = x :: l' -> existsb f l = true.
Proof. intros E. destruct (existsb f l) eqn:B; auto. apply filter_none in B. congruence. Qed.

Section Erase.
Variable set_list : list str -> list str.
Hypothesis set_same : forall l x, In x (set_list l) <-> In x l.
Notation dups := (duplicates set_list).

Lemma duplicates_none l : dups l = [] <-> has_duplicates l = false.
Proof.
  unfold duplicates, has_duplicates. rewrite filter_none, !existsb_false. setoid_rewrite set_same. reflexivity.
Qed.
Lemma duplicates_some l x l' : dups l = x :: l' -> has_duplicates l = true.
Proof. intros E. destruct (has_duplicates l) eqn:B; auto. apply duplicates_none in B. congruence. Qed.

Section Keyword.
Variable file : str.
Variable conf : str -> res (dict (option str)).
Lemma erase_values section key : plain (e_get_values set_list file conf section key) = get_values conf section key.
Proof.
  unfold e_get_values, get_values. apply plain_bind; [apply plain_silent|]. intros d. destruct (dget key d) as [v|]; [|reflexivity].
  set (l := values_list _). clearbody l. cbv zeta.
  destruct (dups l) as [|x l'] eqn:D; [apply duplicates_none in D|apply duplicates_some in D]; rewrite D; [|reflexivity].
  destruct (filter bad_value l) as [|x l'] eqn:B; [apply filter_none in B|apply filter_some in B]; rewrite B; [|reflexivity].
  destruct (filter (fun x => str_mem x (dkeys d)) l) as [|x l'] eqn:K; [apply filter_none in K|apply filter_some in K]; rewrite K; reflexivity.
Qed.
Lemma erase_find section value keys : forall found,
  plain (e_find_key set_list file conf section value keys found) = find_key conf section value keys found.
Proof.
  induction keys as [|k keys IH]; intros found; [reflexivity|]. cbn [e_find_key find_key].
  apply plain_bind; [apply erase_values|auto].
Qed.
Lemma erase_key section value : plain (e_get_key set_list file conf section value) = get_key conf section value.
Proof.
  unfold e_get_key, get_key. apply plain_bind; [apply plain_silent|]. intros d. apply plain_bind; [apply erase_find|].
  intros [k|]; reflexivity.
Qed.
Lemma erase_flag flag : plain (e_flag_options set_list file conf flag) = flag_options conf flag.
Proof.
  unfold e_flag_options, flag_options. apply plain_bind; [apply erase_values|]. intros [|t o]; [reflexivity|].
  destruct (str_mem t _); reflexivity.
Qed.
Lemma erase_select words flag : plain (e_select set_list file conf words flag) = select conf words flag.
Proof.
  unfold e_select, select. apply plain_bind; [apply erase_flag|]. intros [options ty]. cbv zeta.
  destruct (str_eqb ty _ && _); [reflexivity|]. destruct (str_eqb ty _ && _); [reflexivity|].
  destruct (filter _ options); [destruct options; reflexivity|reflexivity].
Qed.
Lemma erase_select_all words fl : forall acc, plain (e_select_all set_list file conf words fl acc) = select_all conf words fl acc.
Proof.
  induction fl as [|f fl IH]; intros acc; [reflexivity|]. cbn [e_select_all select_all]. apply plain_bind; [apply erase_select|auto].
Qed.
Lemma erase_all_options fl : plain (e_all_options set_list file conf fl) = all_options conf fl.
Proof.
  induction fl as [|f fl IH]; [reflexivity|]. cbn [e_all_options all_options]. apply plain_bind; [apply erase_flag|]. intros ot.
  apply plain_bind; [exact IH|reflexivity].
Qed.
Lemma erase_options_list : erases (e_options_list set_list file conf) (options_list conf).
Proof.
  unfold e_options_list, options_list. apply erases_bind; [apply erases_get|]. intros p. destruct (c_options p); [apply erases_ret|].
  apply erases_bind; [apply erases_of, erase_all_options|]. intros l.
  apply erases_bind; [apply erases_quiet|]. intros _. apply erases_ret.
Qed.
Lemma erase_unique l : plain (e_assert_unique set_list file l) = if has_duplicates l then Err SystemExit else Ok tt.
Proof.
  unfold e_assert_unique. destruct (dups l) as [|x l'] eqn:D; [apply duplicates_none in D|apply duplicates_some in D]; rewrite D; reflexivity.
Qed.
Lemma erase_parse : erases (e_parse_selected_options set_list file conf) (parse_selected_options conf).
Proof.
  unfold e_parse_selected_options, parse_selected_options. apply erases_bind; [apply erases_get|]. intros p.
  destruct (c_selected p); [apply erases_ret|]. apply erases_bind; [apply erase_options_list|]. intros l s.
  unfold mbind at 1, mof at 1. pose proof (erase_unique l) as U. destruct (e_assert_unique set_list file l) as [[]|e t]; cbn [plain] in U.
  - destruct (has_duplicates l); [discriminate|].
    apply (erases_bind (mof (e_select_all set_list file conf (split_on 95%N (c_build p)) (c_flags p) []))).
    + apply erases_of, erase_select_all.
    + intros d. apply erases_quiet.
  - destruct (has_duplicates l); [|discriminate]. injection U as ->. reflexivity.
Qed.
Lemma erase_selected : erases (e_selected_options set_list file conf) (selected_options conf).
Proof.
  unfold e_selected_options, selected_options. apply erases_bind; [apply erase_parse|]. intros _.
  apply erases_bind; [apply erases_get|]. intros p. destruct (c_selected p); [apply erases_ret|apply erases_raise].
Qed.
Lemma erase_selected_str : erases (e_selected_options_str set_list file conf) (selected_options_str conf).
Proof.
  unfold e_selected_options_str, selected_options_str. apply erases_bind; [apply erases_get|]. intros p.
  destruct (c_string p); [apply erases_ret|]. apply erases_bind; [apply erase_selected|]. intros d. cbv zeta.
  apply erases_bind; [apply erases_quiet|]. intros _. apply erases_ret.
Qed.
End Keyword.

Variable other_re : str -> str -> res bool.
Variable systems : list (str * list str).
Variable hostname : str.
Variable envs_file envs_rel : str.
Variable envs : str -> res (dict (option str)).
Variable fill : bool -> str -> str.
Variable systems_file flags_file flags_name specs_name : str.
Variable flags : str -> res (dict (option str)).
Variable specs : list str.

Lemma erase_all_values system keys : plain (e_all_values set_list envs_file envs system keys) = all_values envs system keys.
Proof.
  induction keys as [|k keys IH]; [reflexivity|]. cbn [e_all_values all_values]. apply plain_bind; [apply erase_values|]. intros l.
  apply plain_bind; [exact IH|reflexivity].
Qed.
Lemma erase_aliases system : plain (e_get_aliases set_list envs_file envs system) = get_aliases envs system.
Proof.
  unfold e_get_aliases, get_aliases. apply plain_bind; [apply plain_silent|]. intros d. apply plain_bind; [apply erase_all_values|].
  intros l. destruct (dups l) as [|x l'] eqn:D; [apply duplicates_none in D|apply duplicates_some in D]; rewrite D; reflexivity.
Qed.
Lemma erase_new_ekp build system : plain (e_new_ekp set_list envs_file envs build system) = new_ekp envs build system.
Proof.
  unfold e_new_ekp, new_ekp. apply plain_bind; [apply plain_silent|]. intros d. apply plain_bind; [apply erase_aliases|reflexivity].
Qed.

(** The names of a parser object are readable: its message can be made. *)
Definition listable (p : ekp) : Prop := forall rel msg kind, exists t, supported_envs_msg envs rel msg kind p = Ok t.
Lemma erase_matched p : listable p -> plain (e_matched_env set_list other_re envs_file envs_rel envs p) = matched_env other_re envs p.
Proof.
  intros L. unfold e_matched_env, matched_env. apply plain_bind; [apply plain_silent|]. intros [n|]; [reflexivity|].
  apply plain_bind; [apply plain_silent|]. intros [a|]; [apply erase_key|].
  destruct (L envs_rel ($"Unable to find alias or environment name for system '" ++ e_system p ++ $"' in" ++ newline ++
                   $"build name '" ++ e_build p ++ $"'.") ERROR) as (t & ->). reflexivity.
Qed.
Lemma envs_loop_total system names : (forall n, In n names -> exists l, get_values envs system n = Ok l) ->
  forall acc, exists t, envs_loop envs system names acc = Ok t.
Proof.
  induction names as [|n names IH]; intros H acc; cbn [envs_loop]; [eauto|].
  destruct (H n (or_introl eq_refl)) as (l & ->). cbn [rbind]. cbv zeta. apply IH. intros m I. apply H. now right.
Qed.
Lemma all_values_each system keys l : all_values envs system keys = Ok l -> forall n, In n keys -> exists l', get_values envs system n = Ok l'.
Proof.
  revert l. induction keys as [|k keys IH]; intros l E n []; cbn [all_values] in E.
  - subst n. destruct (get_values envs system k); [eauto|discriminate].
  - destruct (get_values envs system k); [|discriminate]. cbn [rbind] in E. destruct (all_values envs system keys); [|discriminate]. eauto.
Qed.
Lemma sorted_in x l : In x (sorted l) <-> In x l.
Proof.
  induction l as [|y l IH]; [reflexivity|]. cbn [sorted fold_right]. fold (sorted l).
  assert (J : forall l, In x (insert_str y l) <-> y = x \/ In x l).
  { intros m. induction m as [|z m IHm]; cbn; [tauto|]. destruct (str_leb y z); cbn; [tauto|]. rewrite IHm. tauto. }
  rewrite J, IH. reflexivity.
Qed.
Lemma by_length_in x l : In x (by_length l) <-> In x l.
Proof.
  induction l as [|y l IH]; [reflexivity|]. cbn [by_length fold_right]. fold (by_length l).
  assert (J : forall l, In x (insert_len y l) <-> y = x \/ In x l).
  { intros m. induction m as [|z m IHm]; cbn; [tauto|]. destruct (Nat.leb _ _); cbn; [tauto|]. rewrite IHm. tauto. }
  rewrite J, IH. reflexivity.
Qed.
Lemma new_ekp_listable build system p q : new_ekp envs build system = Ok p -> e_system q = e_system p -> e_names q = e_names p -> listable q.
Proof.
  intros E S N rel msg kind. unfold new_ekp in E. destruct (envs system) as [d|] eqn:C; [|discriminate]. cbn [rbind] in E.
  destruct (get_aliases envs system) as [l|] eqn:A; [|discriminate]. cbn [rbind] in E. injection E as <-. cbn in S, N.
  unfold get_aliases in A. rewrite C in A. cbn [rbind] in A.
  destruct (all_values envs system (dkeys d)) as [l0|] eqn:V; [|discriminate].
  unfold supported_envs_msg. rewrite S, N.
  assert (T : forall n, In n (sorted (by_length (dkeys d))) -> exists l', get_values envs system n = Ok l').
  { intros n I. apply (proj1 (sorted_in _ _)) in I. apply (proj1 (by_length_in _ _)) in I. eapply all_values_each; eauto. }
  destruct (envs_loop_total system _ T (newline ++ $"- Supported Environments for '" ++ system ++ $"':" ++ newline)) as (t & X).
  rewrite X. cbn [rbind]. eauto.
Qed.

(** ** With an invariant *)
Definition keeps {S A} (I : S -> Prop) (m : EM S A) (m' : SM S A) : Prop :=
  forall s, I s -> (plain (fst (m s)), snd (m s)) = m' s /\ I (snd (m' s)).
Lemma keeps_bind {S A B} (I : S -> Prop) (m : EM S A) (k : A -> EM S B) m' k' :
  keeps I m m' -> (forall a, keeps I (k a) (k' a)) -> keeps I (mbind m k) (bind m' k').
Proof.
  intros M K s H. unfold mbind, bind. destruct (M s H) as [E H1]. destruct (m s) as [[a|e t] s1]; cbn in E; rewrite <- E in *; [apply K; exact H1|].
  split; [reflexivity|exact H1].
Qed.
Lemma keeps_bind_val {S A B} (I : S -> Prop) (P : A -> Prop) (m : EM S A) (k : A -> EM S B) m' k' :
  keeps I m m' -> (forall s a, I s -> fst (m' s) = Ok a -> P a) -> (forall a, P a -> keeps I (k a) (k' a)) ->
  keeps I (mbind m k) (bind m' k').
Proof.
  intros M V K s H. unfold mbind, bind. destruct (M s H) as [E H1]. pose proof (V s) as V'.
  destruct (m s) as [[a|e t] s1]; cbn in E; rewrite <- E in *; [apply K; [apply V'; [exact H|reflexivity]|exact H1]|].
  split; [reflexivity|exact H1].
Qed.
Lemma keeps_erases {S A} (I : S -> Prop) (m : EM S A) m' : erases m m' -> (forall s, I s -> I (snd (m' s))) -> keeps I m m'.
Proof. intros E K s H. split; [apply E|auto]. Qed.
Lemma keeps_ret {S A} (I : S -> Prop) (a : A) : keeps I (mret a) (ret a).
Proof. intros s H. split; [reflexivity|exact H]. Qed.
Lemma keeps_get {S} (I : S -> Prop) : keeps I mget get.
Proof. intros s H. split; [reflexivity|exact H]. Qed.
Lemma keeps_of {S A} (I : S -> Prop) (r : eres A) r' : plain r = r' -> keeps I (mof r) (of_res r').
Proof. intros <- s H. split; [reflexivity|exact H]. Qed.
Lemma keeps_raise {S A} (I : S -> Prop) e t : keeps (A := A) I (mof (EErr e t)) (raise e).
Proof. intros s H. split; [reflexivity|exact H]. Qed.
Lemma keeps_modify {S} (I : S -> Prop) f : (forall s, I s -> I (f s)) -> keeps I (quiet (modify f)) (modify f).
Proof. intros K. apply keeps_erases; [apply erases_quiet|]. exact K. Qed.

(** ** [DetermineSystem] *)
Lemma erase_sys_from_build build : plain (e_sys_from_build systems build) = sys_from_build systems build.
Proof. unfold e_sys_from_build, sys_from_build. cbv zeta. destruct (filter _ _) as [|a [|b l]]; reflexivity. Qed.
Lemma erase_determine : erases (e_determine_system other_re systems hostname fill systems_file) (determine_system other_re systems hostname).
Proof.
  unfold e_determine_system, determine_system. apply erases_bind; [apply erases_get|]. intros p. destruct (d_name p); [apply erases_ret|].
  apply erases_bind; [apply erases_of, plain_silent|]. intros h. apply erases_bind; [apply erases_quiet|]. intros _.
  apply erases_bind; [apply erases_of, erase_sys_from_build|]. intros b.
  destruct h as [h|], b as [b|]; [| | |intros s; reflexivity].
  - apply erases_bind; [apply erases_quiet|]. intros _. destruct (negb _ && negb _); [intros s; reflexivity|apply erases_ret].
  - apply erases_ret.
  - apply erases_bind; [apply erases_quiet|]. intros _. destruct (negb _ && negb _); [intros s; reflexivity|apply erases_ret].
Qed.
Lemma erase_system_name : erases (e_system_name other_re systems hostname fill systems_file) (system_name other_re systems hostname).
Proof.
  unfold e_system_name, system_name. apply erases_bind; [apply erase_determine|]. intros _. apply erases_bind; [apply erases_get|].
  intros p. destruct (d_name p); [apply erases_ret|apply erases_raise].
Qed.

(** ** [LoadEnv] *)
Definition fine (p : loadenv) : Prop := forall k, l_ekp p = Some k -> listable k.
Lemma keep_system : keeps fine (e_le_system_name other_re systems hostname fill systems_file) (le_system_name other_re systems hostname).
Proof.
  unfold e_le_system_name, le_system_name. apply keeps_bind; [apply keeps_get|]. intros p. destruct (l_system p); [apply keeps_ret|].
  apply keeps_bind; [apply keeps_of, (erases_fst _ _ _ erase_system_name)|]. intros [s|]; [|apply keeps_raise].
  apply keeps_bind; [apply keeps_modify; intros q H; exact H|]. intros _. apply keeps_ret.
Qed.
Lemma keep_load_ekp : keeps fine (e_le_load_ekp set_list other_re systems hostname envs_file envs fill systems_file) (le_load_ekp other_re systems hostname envs).
Proof.
  unfold e_le_load_ekp, le_load_ekp. apply keeps_bind; [apply keeps_get|]. intros p. apply keeps_bind; [apply keep_system|]. intros s q H.
  unfold mbind at 1, bind at 1, mof at 1, of_res at 1. pose proof (erase_new_ekp (l_build p) s) as E.
  destruct (e_new_ekp set_list envs_file envs (l_build p) s) as [k|e t]; cbn [plain] in E; rewrite <- E; [|split; [reflexivity|exact H]].
  cbn. split; [reflexivity|]. intros k' [= <-]. eapply new_ekp_listable; [symmetry; exact E|reflexivity|reflexivity].
Qed.
(** The object that is found is fine as well. *)
Lemma le_ekp_listable p : fine p -> forall k, fst (le_ekp other_re systems hostname envs p) = Ok k -> listable k.
Proof.
  intros H k. unfold le_ekp, bind at 1, get at 1. destruct (l_ekp p) as [k0|] eqn:L.
  - intros [= <-]. apply H. exact L.
  - unfold le_load_ekp, bind at 1, get at 1. unfold bind at 1. destruct (le_system_name other_re systems hostname p) as [[s|e] q]; [|discriminate].
    unfold bind at 1, of_res. destruct (new_ekp envs (l_build p) s) as [k1|e] eqn:N; [|discriminate].
    cbn. intros [= <-]. eapply new_ekp_listable; [exact N|reflexivity|reflexivity].
Qed.
Lemma keep_ekp : keeps fine (e_le_ekp set_list other_re systems hostname envs_file envs fill systems_file) (le_ekp other_re systems hostname envs).
Proof.
  unfold e_le_ekp, le_ekp. apply keeps_bind; [apply keeps_get|]. intros p. destruct (l_ekp p); [apply keeps_ret|apply keep_load_ekp].
Qed.
Lemma erase_qualified k : listable k ->
  (plain (fst (e_qualified_env_name set_list other_re envs_file envs_rel envs k)), snd (e_qualified_env_name set_list other_re envs_file envs_rel envs k))
  = qualified_env_name other_re envs k /\ listable (snd (qualified_env_name other_re envs k)).
Proof.
  intros L. unfold e_qualified_env_name, qualified_env_name. unfold mbind at 1 4, bind at 1 4, mget, get.
  destruct (e_qualified k); [split; [reflexivity|exact L]|].
  unfold mbind at 1 3, bind at 1 3, mof, of_res. rewrite <- (erase_matched k L).
  destruct (e_matched_env set_list other_re envs_file envs_rel envs k) as [n|e t]; cbn; (split; [reflexivity|]); [|exact L].
  intros rel msg kind. destruct (L rel msg kind) as (t & T). exists t. exact T.
Qed.
Lemma keep_parsed : keeps fine (e_le_parsed_env_name set_list other_re systems hostname envs_file envs_rel envs fill systems_file)
  (le_parsed_env_name other_re systems hostname envs).
Proof.
  unfold e_le_parsed_env_name, le_parsed_env_name. apply keeps_bind; [apply keeps_get|]. intros p. destruct (l_parsed p); [apply keeps_ret|].
  apply (keeps_bind_val fine listable); [apply keep_ekp|intros s a H; apply le_ekp_listable; exact H|]. intros k L.
  destruct (erase_qualified k L) as [Q QL].
  destruct (e_qualified_env_name set_list other_re envs_file envs_rel envs k) as [r k']. cbn [fst snd] in Q. rewrite <- Q in *. cbn [snd] in QL.
  apply keeps_bind; [apply keeps_modify; intros q HQ k0 [= <-]; exact QL|]. intros _. apply keeps_bind; [apply keeps_of; reflexivity|]. intros n.
    apply keeps_bind; [apply keeps_modify; intros q HQ; exact HQ|]. intros _. apply keeps_ret.
Qed.

(** ** [GenConfig] *)
Definition gfine (p : genconfig) : Prop := forall q, g_le p = Some q -> fine q.
Lemma keep_on_ckp {A} (m : EM ckp A) m' : erases m m' -> keeps gfine (e_on_ckp m) (on_ckp m').
Proof.
  intros E p H. unfold e_on_ckp, on_ckp. destruct (g_ckp p) as [k|]; [|split; [reflexivity|exact H]].
  rewrite <- (E k). destruct (m k) as [r k']. split; [reflexivity|exact H].
Qed.
Lemma keep_on_le {A} (m : EM loadenv A) m' : keeps fine m m' -> keeps gfine (e_on_le m) (on_le m').
Proof.
  intros E p H. unfold e_on_le, on_le. destruct (g_le p) as [k|] eqn:L; [|split; [reflexivity|exact H]].
  destruct (E k (H k L)) as [X F]. rewrite <- X in *. destruct (m k) as [r k']. split; [reflexivity|]. intros q [= <-]. exact F.
Qed.
Lemma keep_quiet_le {A} (m : SM loadenv A) : (forall q, fine q -> fine (snd (m q))) -> keeps gfine (quiet (on_le m)) (on_le m).
Proof.
  intros K. apply keeps_erases; [apply erases_quiet|]. intros p H. unfold on_le. destruct (g_le p) as [k|] eqn:L; [|exact H].
  specialize (K k (H k L)). destruct (m k) as [r k']. intros q [= <-]. exact K.
Qed.
Lemma keep_quiet_ckp {A} (m : SM ckp A) : keeps gfine (quiet (on_ckp m)) (on_ckp m).
Proof.
  apply keeps_erases; [apply erases_quiet|]. intros p H. unfold on_ckp. destruct (g_ckp p); [|exact H]. destruct (m c). exact H.
Qed.
Lemma keep_load_ckp : keeps gfine (quiet (load_ckp flags)) (load_ckp flags).
Proof.
  apply keeps_erases; [apply erases_quiet|]. intros p H. unfold load_ckp, bind at 1, get. destruct (g_ckp p); [exact H|].
  unfold bind, of_res. destruct (new_ckp flags (g_build p)); exact H.
Qed.
Lemma new_fine b f : fine (new_loadenv b f).
Proof. intros k. discriminate. Qed.
Lemma keep_load_le : keeps gfine (quiet load_le) load_le.
Proof.
  apply keeps_erases; [apply erases_quiet|]. intros p H. unfold load_le, modify. cbn. destruct (g_le p) eqn:L; [exact H|].
  intros q [= <-]. apply new_fine.
Qed.
Notation E_parsed := (e_le_parsed_env_name set_list other_re systems hostname envs_file envs_rel envs fill systems_file).
Notation E_str := (e_selected_options_str set_list flags_file flags).
Lemma keep_wrap {A} (m : EM genconfig A) m' : keeps gfine m m' -> keeps gfine (e_wrap specs_name m) m'.
Proof.
  intros K p H. destruct (K p H) as [E F]. unfold e_wrap. destruct (m p) as [[a|e t] s]; [split; [exact E|exact F]|].
  destruct e; (split; [exact E|exact F]).
Qed.
Notation E_check := (e_check_sections set_list other_re systems hostname envs_file envs_rel envs fill systems_file flags_file specs_name flags).
Lemma keep_check l : keeps gfine (E_check l) (check_sections other_re systems hostname envs flags l).
Proof.
  induction l as [|s l IH]; cbn [e_check_sections check_sections]; [apply keeps_ret|]. destruct (str_eqb (upper s) s); [exact IH|].
  apply keeps_bind; [apply keep_quiet_le; intros q H k; discriminate|]. intros _.
  apply keeps_bind; [apply keep_quiet_ckp|]. intros _.
  apply keeps_bind; [apply keep_wrap, keep_on_ckp, erase_selected_str|]. intros o.
  apply keeps_bind; [apply keep_on_le, keep_parsed|]. intros n.
  apply keeps_bind; [exact IH|]. intros rest. apply keeps_ret.
Qed.
Lemma keep_complete : keeps gfine (e_complete_config set_list other_re systems hostname envs_file envs_rel envs fill systems_file flags_file flags)
  (complete_config other_re systems hostname envs flags).
Proof.
  unfold e_complete_config, complete_config. apply keeps_bind; [apply keeps_get|]. intros p. destruct (g_config p); [apply keeps_ret|].
  apply keeps_bind; [apply keep_load_ckp|]. intros _. apply keeps_bind; [apply keep_load_le|]. intros _.
  apply keeps_bind; [apply keep_on_le, keep_parsed|]. intros n. apply keeps_bind; [apply keep_on_ckp, erase_selected_str|]. intros s. cbv zeta.
  apply keeps_bind; [apply keeps_modify; intros q H; exact H|]. intros _. apply keeps_ret.
Qed.
Lemma keep_validate : keeps gfine
  (e_validate set_list other_re systems hostname envs_file envs_rel envs fill systems_file flags_file flags_name specs_name flags specs)
  (validate other_re systems hostname envs flags specs).
Proof.
  unfold e_validate, validate. apply keeps_bind; [apply keep_load_ckp|]. intros _. apply keeps_bind; [apply keep_load_le|]. intros _.
  apply keeps_bind; [apply keep_quiet_le; intros q H k; apply H|]. intros _. apply keeps_bind; [apply keep_check|].
  intros [|x l]; [|intros s H; split; [reflexivity|exact H]].
  apply keeps_bind; [apply keeps_get|]. intros p.
  apply keeps_bind; [apply keep_quiet_le; intros q H k; discriminate|]. intros _.
  apply keeps_bind; [apply keep_quiet_le; intros q H k; apply H|]. intros _.
  apply keeps_bind; [apply keep_quiet_ckp|]. intros _. apply keeps_modify. intros q H. exact H.
Qed.
End Erase.
