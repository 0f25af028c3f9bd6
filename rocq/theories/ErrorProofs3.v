(** * What the messages of the errors say: systems and environments. *)
From Coq Require Import String NArith List Bool Arith Lia.
Import ListNotations.
From Verif Require Import PyBase PyFacts EnvVar EnvProofs Regex Keyword DetSys EnvKeyword LoadEnv Messages Errors SpecText SpecKeyword KeywordText RegexProofs
  KeywordProofs FlagsProofs FlagsProofs2 SpecFlags SpecSystem SpecMessages SpecLoadEnv SpecErrors MsgProofs MsgProofs2 MsgProofs3
  SearchProofs SystemProofs EnvNameProofs LoadEnvProofs ErrorProofs ErrorProofs2.
Local Open Scope string_scope.
Local Open Scope list_scope.

Section Env.
Variable set_list : list str -> list str.
Hypothesis SO : set_order set_list.
Variable other_re : str -> str -> res bool.
Variable systems : list (str * list str).
Variable hostname envs_file envs_rel : str.
Variable envs : str -> res (dict (option str)).
Variable fill : bool -> str -> str.
Variable systems_file : str.
Notation same := (set_same' set_list SO).
Notation sysname := (e_system_name other_re systems hostname fill systems_file).
Notation le_sys := (e_le_system_name other_re systems hostname fill systems_file).
Notation le_par := (e_le_parsed_env_name set_list other_re systems hostname envs_file envs_rel envs fill systems_file).
Notation le_keyw := (e_le_ekp set_list other_re systems hostname envs_file envs fill systems_file).
Notation new_keyw := (e_new_ekp set_list envs_file envs).
Notation match_env := (e_matched_env set_list other_re envs_file envs_rel envs).

Definition x_sys (b : str) (f : bool) : eres str :=
  ebind (fst (sysname (new_detsys b f))) (fun n => match n with Some s => EOk s | None => EErr TypeError None end).
Lemma x_sys_plain b f : plain (x_sys b f) = q_system other_re systems hostname b f.
Proof.
  unfold x_sys, q_system. rewrite <- (erases_fst _ _ (new_detsys b f) (erase_system_name other_re systems hostname fill systems_file)).
  destruct (fst (sysname (new_detsys b f))) as [[s|]|e t]; reflexivity.
Qed.
Lemma le_sys_x b f p : linv other_re systems hostname envs b f p -> fst (le_sys p) = x_sys b f.
Proof.
  intros I. unfold e_le_system_name, mbind at 1, mget. destruct (l_system p) as [s|] eqn:L.
  - apply (i_system _ _ _ _ _ _ _ I) in L. rewrite <- x_sys_plain in L. apply plain_ok in L. now rewrite L.
  - rewrite (i_build _ _ _ _ _ _ _ I), (i_force _ _ _ _ _ _ _ I). unfold mbind at 1, mof, x_sys.
    destruct (fst (sysname (new_detsys b f))) as [[s|]|e t]; reflexivity.
Qed.
Definition x_ekp (b : str) (f : bool) : eres ekp := ebind (x_sys b f) (new_keyw b).
Lemma x_ekp_plain b f : plain (x_ekp b f) = q_ekp other_re systems hostname envs b f.
Proof.
  unfold x_ekp, q_ekp. apply plain_bind; [apply x_sys_plain|]. intros s. apply erase_new_ekp. apply same.
Qed.
Definition x_parsed (b : str) (f : bool) : eres str :=
  ebind (x_ekp b f) (fun k => ebind (match_env k) (fun n => EOk (e_system k ++ [95%N] ++ n))).
Lemma new_ekp_fields b s k : new_ekp envs b s = Ok k -> e_qualified k = None /\ e_system k = s /\ e_build k = b.
Proof.
  unfold new_ekp. destruct (envs s) as [d|e]; cbn [rbind]; [|discriminate]. destruct (get_aliases envs s) as [l|e]; cbn [rbind]; [|discriminate].
  intros [= <-]. auto.
Qed.
Lemma q_ekp_new b f k : q_ekp other_re systems hostname envs b f = Ok k -> exists s, new_ekp envs b s = Ok k.
Proof. unfold q_ekp. destruct (q_system _ _ _ b f) as [s|e]; cbn [rbind]; [eauto|discriminate]. Qed.
Lemma x_parsed_plain b f : plain (x_parsed b f) = q_parsed other_re systems hostname envs b f.
Proof.
  unfold x_parsed, q_parsed. pose proof (x_ekp_plain b f) as X. destruct (x_ekp b f) as [k|e t]; cbn [plain ebind] in X |- *; rewrite <- X; [|reflexivity].
  cbn [rbind]. symmetry in X. destruct (q_ekp_new _ _ _ X) as (s & N). destruct (new_ekp_fields _ _ _ N) as (Q & _).
  rewrite (qualified_fst _ _ _ Q).
  rewrite <- (erase_matched set_list same other_re envs_file envs_rel envs k) by (eapply (new_ekp_listable other_re hostname envs envs); [exact N|reflexivity|reflexivity]).
  destruct (match_env k); reflexivity.
Qed.
Lemma linv_fine b f p : linv other_re systems hostname envs b f p -> fine envs p.
Proof.
  intros I k K. apply (i_ekp _ _ _ _ _ _ _ I) in K as (k0 & Q & C). apply q_ekp_new in Q as (s & N).
  destruct C as [->|(n & C)]; [eapply (new_ekp_listable other_re hostname envs envs); [exact N|reflexivity|reflexivity]|].
  destruct (new_ekp_fields _ _ _ N) as (Q & _). rewrite (qualified_eq _ _ _ Q) in C. destruct (matched_env other_re envs k0); [|discriminate].
  injection C as _ <-. eapply (new_ekp_listable other_re hostname envs envs); [exact N|reflexivity|reflexivity].
Qed.
Lemma le_ekp_x b f p : linv other_re systems hostname envs b f p -> l_ekp p = None -> fst (le_keyw p) = x_ekp b f.
Proof.
  intros I L. unfold e_le_ekp, mbind at 1, mget. rewrite L. unfold e_le_load_ekp, mbind at 1, mget. unfold mbind at 1.
  pose proof (le_sys_x _ _ _ I) as S. unfold x_ekp. rewrite <- S. rewrite (i_build _ _ _ _ _ _ _ I).
  destruct (le_sys p) as [[s|e t] q]; cbn [fst ebind]; [|reflexivity].
  unfold mbind at 1, mof. destruct (new_keyw b s) as [k|e t]; reflexivity.
Qed.
Lemma parsed_says b f p e lines : linv other_re systems hostname envs b f p -> says (x_parsed b f) e lines -> says (fst (le_par p)) e lines.
Proof.
  intros I (t & E & B). exists t. split; [|exact B].
  assert (P : q_parsed other_re systems hostname envs b f = Err e) by (rewrite <- x_parsed_plain, E; reflexivity).
  unfold e_le_parsed_env_name, mbind at 1, mget. destruct (l_parsed p) as [n|] eqn:L.
  { apply (i_parsed _ _ _ _ _ _ _ I) in L. congruence. }
  assert (X : exists r, fst (le_keyw p) = r /\ match r with
    | EOk k => fst (e_qualified_env_name set_list other_re envs_file envs_rel envs k) = EErr e (Some t)
    | EErr e' t' => EErr e' t' = EErr (A := str) e (Some t) end).
  { destruct (l_ekp p) as [k|] eqn:K.
    - exists (EOk k). split; [unfold e_le_ekp, mbind, mget; rewrite K; reflexivity|].
      destruct (i_ekp _ _ _ _ _ _ _ I _ K) as (k0 & Q & C).
      assert (C' : k = k0). { destruct C as [C|(n & C)]; [exact C|]. unfold q_parsed in P. rewrite Q in P. cbn [rbind] in P. rewrite C in P. discriminate. }
      subst k0. destruct (q_ekp_new _ _ _ Q) as (s & N). destruct (new_ekp_fields _ _ _ N) as (QN & _).
      unfold e_qualified_env_name, mbind at 1, mget. rewrite QN. unfold mbind at 1, mof.
      unfold x_parsed in E. rewrite <- x_ekp_plain in Q. apply plain_ok in Q. rewrite Q in E. cbn [ebind] in E.
      destruct (match_env k); cbn [ebind] in E; [discriminate|exact E].
    - exists (x_ekp b f). split; [apply le_ekp_x; auto|]. unfold x_parsed in E. pose proof (x_ekp_plain b f) as XP.
      destruct (x_ekp b f) as [k|e' t']; cbn [ebind] in E; [|exact E]. symmetry in XP. cbn [plain] in XP.
      destruct (q_ekp_new _ _ _ XP) as (s & N). destruct (new_ekp_fields _ _ _ N) as (QN & _).
      unfold e_qualified_env_name, mbind at 1, mget. rewrite QN. unfold mbind at 1, mof.
      destruct (match_env k); cbn [ebind] in E; [discriminate|exact E]. }
  destruct X as (r & R & X). unfold mbind at 1. destruct (le_keyw p) as [r' q]. cbn [fst] in R. subst r'.
  destruct r as [k|e' t']; [|exact X].
  destruct (e_qualified_env_name set_list other_re envs_file envs_rel envs k) as [r k']. cbn [fst] in X. subst r. reflexivity.
Qed.

(** ** Systems *)
Lemma x_sys_says b f e lines : says (x_sys b f) e lines -> says (x_parsed b f) e lines.
Proof. intros (t & E & B). exists t. split; [|exact B]. unfold x_parsed, x_ekp. rewrite E. reflexivity. Qed.
Hypothesis RD : readable_keys other_re systems hostname.
Lemma host_found : exists h, sys_from_hostname other_re systems hostname = Ok h /\ host_system other_re systems hostname h.
Proof. destruct (first_system_ok other_re hostname systems RD) as (h & E & H). eauto. Qed.
Lemma filter_and {A} (f g : A -> bool) l : filter f (filter g l) = filter (fun x => g x && f x) l.
Proof. induction l as [|x l IH]; cbn; [reflexivity|]. destruct (g x); cbn; [destruct (f x); now rewrite IH|exact IH]. Qed.
Lemma two_systems_says b f names :
  kept (fun n => n <> $"DEFAULT" /\ named (lower b) n) (map fst systems) names -> 2 <= length names ->
  Forall unbroken (map fst systems) ->
  says (x_sys b f) SystemExit (two_systems_report names).
Proof.
  intros K L U. destruct host_found as (h & E & _).
  assert (F : filter (fun s => str_mem s (split_on 95%N (lower b))) (sys_names systems) = names).
  { unfold sys_names. rewrite filter_and. eapply kept_fun; [|exact K]. apply kept_of. intros w _.
    rewrite andb_true_iff, str_mem_In, named_iff, negb_true_iff. destruct (str_eqb_spec w $"DEFAULT"); unfold words; intuition congruence. }
  assert (UN : Forall unbroken names).
  { apply Forall_forall. intros x I. apply (kept_in _ _ _ _ K) in I as (I & _). exact (proj1 (Forall_forall _ _) U x I). }
  assert (S : says (e_sys_from_build systems b) SystemExit (two_systems_report names)).
  { unfold e_sys_from_build. rewrite F. destruct names as [|x [|y l]]; cbn in L; try lia. apply says_list; [|constructor|exact UN].
    apply lines_cons; [lone|]. apply lo_last; [discriminate|lone]. }
  destruct S as (t & S & B). exists t. split; [|exact B].
  unfold x_sys, e_system_name, e_determine_system. unfold mbind, mget, mof, quiet. cbn [new_detsys d_name d_build fst]. rewrite E. cbn [silent].
  cbn [set_name modify silent]. cbv beta iota delta [set_name modify]. rewrite S. reflexivity.
Qed.
Lemma build_none b : (forall n, ~ names_system systems b n) -> e_sys_from_build systems b = EOk None.
Proof.
  intros N. unfold e_sys_from_build. destruct (filter _ (sys_names systems)) as [|x l] eqn:F; [reflexivity|]. exfalso.
  assert (I : In x (filter (fun s => str_mem s (split_on 95%N (lower b))) (sys_names systems))) by (rewrite F; now left).
  apply filter_In in I as (I & M). apply (proj1 (sys_names_in other_re systems hostname x)) in I as (I & D). apply str_mem_In in M. apply (N x). split; [exact I|]. split; [exact D|]. now apply named_iff.
Qed.
Lemma unknown_says b f ls : host_system other_re systems hostname None -> (forall n, ~ names_system systems b n) ->
  lines_of (fill false (unknown_system_text hostname systems_file)) ls ->
  says (x_sys b f) SystemExit (error_text ls []).
Proof.
  intros H N L. destruct host_found as (h & E & H'). assert (h = None) by exact (host_system_fun _ _ _ _ _ H' H). subst h.
  pose proof (build_none b N) as S.
  destruct (says_text (A := str) SystemExit _ [] ls [] L lo_none) as (t & T & B). exists t. split; [|exact B].
  unfold x_sys, e_system_name, e_determine_system. unfold mbind, mget, mof, quiet. cbn [new_detsys d_name d_build fst]. rewrite E. cbn [silent].
  cbv beta iota delta [set_name modify]. cbn [silent]. rewrite S. cbn [fst fails ebind]. exact T.
Qed.
Hypothesis ND : NoDup (map fst systems).
Lemma other_says b h n ls : host_system other_re systems hostname h -> h <> Some n ->
  names_system systems b n -> (forall m, names_system systems b m -> m = n) ->
  lines_of (fill true (other_system_text hostname (match h with Some m => m | None => $"None" end) systems_file n)) ls ->
  says (x_sys b false) SystemExit (error_text ls []).
Proof.
  intros H D N U L. destruct host_found as (h' & E & H'). assert (h' = h) by exact (host_system_fun _ _ _ _ _ H' H). subst h'.
  assert (S : e_sys_from_build systems b = EOk (Some n)).
  { apply plain_ok. rewrite erase_sys_from_build. destruct (sys_from_build_cases other_re systems hostname b ND) as [(_ & X)|[(m & X & Y & Z)|(_ & x & y & X & Y & Z)]].
    - exfalso. now apply (X n).
    - rewrite X. f_equal. f_equal. now apply U.
    - exfalso. apply Z. rewrite (U x X), (U y Y). reflexivity. }
  destruct (says_text (A := str) SystemExit _ [] ls [] L lo_none) as (t & T & B). exists t. split; [|exact B].
  unfold x_sys, e_system_name, e_determine_system. unfold mbind, mget, mof, quiet. cbn [new_detsys d_name d_build d_force fst]. rewrite E. cbn [silent].
  cbv beta iota delta [set_name modify]. cbn [silent]. rewrite S.
  destruct h as [m|]; cbn [silent].
  - destruct (str_eqb_spec m n) as [->|]; [now elim D|]. cbn [negb andb fst fails ebind]. exact T.
  - cbn [negb andb fst fails ebind]. exact T.
Qed.

(** ** Environments *)
Lemma aliases_says b s E : env_describes envs s E -> ~ NoDup (flat_map snd E) -> unbroken s -> Forall unbroken (flat_map snd E) ->
  exists items, repeated (flat_map snd E) items /\ says (new_keyw b s) SystemExit (aliases_twice_report s items).
Proof.
  intros De N US U. exists (duplicates set_list (flat_map snd E)). split; [apply dups_repeated; exact SO|].
  assert (A : e_all_values set_list envs_file envs s (map fst E) = EOk (flat_map snd E)).
  { apply plain_ok. rewrite (erase_all_values set_list same). apply all_values_rows. apply De. }
  destruct De as ((d & C & K) & _).
  assert (S : says (e_get_aliases set_list envs_file envs s) SystemExit (aliases_twice_report s (duplicates set_list (flat_map snd E)))).
  { unfold e_get_aliases. rewrite C. cbn [silent ebind]. rewrite K, A. cbn [ebind].
    pose proof (dups_nil set_list SO (flat_map snd E)) as DN. pose proof (dups_unbroken set_list SO _ U) as DU.
    destruct (duplicates set_list (flat_map snd E)) as [|x xs]; [exfalso; tauto|]. apply says_list; [|constructor|exact DU].
    apply lo_last; [discriminate|]. lits. apply Forall_app. split; [exact US|lone]. }
  destruct S as (t & S & B). exists t. split; [|exact B]. unfold e_new_ekp. rewrite C. cbn [silent ebind]. rewrite S. reflexivity.
Qed.
Lemma no_env_says b s E : env_describes envs s E -> valid_envs E ->
  readable_names other_re (map fst E) b -> readable_names other_re (flat_map snd E) b ->
  longest other_re (map fst E) b None -> longest other_re (flat_map snd E) b None ->
  unbroken s -> unbroken b -> unbroken envs_rel -> (forall n l, In (n, l) E -> unbroken n /\ Forall unbroken l) ->
  exists names blocks, in_order (map fst E) names /\
    Forall2 (fun n bl => exists l l', In (n, l) E /\ in_order l l' /\ bl = env_block n l') names blocks /\
    says (ebind (new_keyw b s) (fun k => ebind (match_env k) (fun n => EOk (e_system k ++ [95%N] ++ n)))) SystemExit
      (no_environment_report s b envs_rel blocks).
Proof.
  intros De (V1 & V2) RN RA L1 L2 US UB UR UE.
  set (k := Ekp b s (by_length (map fst E)) (by_length (flat_map snd E)) None).
  assert (K : new_keyw b s = EOk k).
  { apply plain_ok. rewrite (erase_new_ekp set_list same). rewrite (new_ekp_eq b envs s E De), (proj2 (has_duplicates_NoDup _) V2). reflexivity. }
  set (msg := $"Unable to find alias or environment name for system '" ++ s ++ $"' in" ++ newline ++ $"build name '" ++ b ++ $"'.").
  assert (LM : lines_of msg [$"Unable to find alias or environment name for system '" ++ s ++ $"' in"; $"build name '" ++ b ++ $"'."]).
  { unfold msg. replace ($"Unable to find alias or environment name for system '" ++ s ++ $"' in" ++ newline ++ $"build name '" ++ b ++ $"'.")
      with (($"Unable to find alias or environment name for system '" ++ s ++ $"' in") ++ newline ++ $"build name '" ++ b ++ $"'.") by now rewrite <- !app_assoc.
    apply lines_cons; [lits; apply Forall_app; split; [exact US|lone]|]. apply lo_last; [discriminate|]. lits. apply Forall_app. split; [exact UB|lone]. }
  destruct (envs_msg_any envs msg ERROR _ k E s envs_rel LM error_kind De V1 V2 UE US UR eq_refl eq_refl) as (names & blocks & t & O & F & S & B).
  exists names, blocks. split; [exact O|]. split; [exact F|]. rewrite K. cbn [ebind]. exists t. split.
  - unfold e_matched_env. cbn [e_names e_aliases e_build e_system k].
    rewrite first_in_find by (apply readable_sorted; exact RN).
    rewrite (longest_fun _ _ _ _ _ (longest_find other_re b _ RN) L1). cbn [silent ebind].
    rewrite first_in_find by (apply readable_sorted; exact RA).
    rewrite (longest_fun _ _ _ _ _ (longest_find other_re b _ RA) L2). cbn [silent ebind].
    fold msg. fold k. rewrite S. reflexivity.
  - unfold no_environment_report, error_text. rewrite <- !app_assoc. exact B.
Qed.
End Env.
