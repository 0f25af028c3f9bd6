(** * The statements about the texts of errors. *)
From Coq Require Import String NArith List Bool Arith Lia.
Import ListNotations.
From Verif Require Import PyBase PyFacts EnvVar EnvProofs Regex Keyword DetSys EnvKeyword LoadEnv Messages Errors SpecText SpecKeyword KeywordText RegexProofs
  KeywordProofs FlagsProofs FlagsProofs2 SpecFlags SpecSystem SpecMessages SpecLoadEnv SpecErrors MsgProofs MsgProofs2 MsgProofs3
  SearchProofs SystemProofs EnvNameProofs LoadEnvProofs FixedProofs GenConfigProofs ErrorProofs ErrorProofs2 ErrorProofs3 ErrorProofs4.
Local Open Scope string_scope.
Local Open Scope list_scope.

Section Statements.
Variable set_list : list str -> list str.
Hypothesis SO : set_order set_list.
Notation same := (set_same' set_list SO).

Lemma outcomes_options file conf (p : ckp) :
  (forall section key, without_text (e_get_values set_list file conf section key) = get_values conf section key) /\
  (forall section value, without_text (e_get_key set_list file conf section value) = get_key conf section value) /\
  (without_text (fst (e_selected_options set_list file conf p)), snd (e_selected_options set_list file conf p)) = selected_options conf p /\
  (without_text (fst (e_selected_options_str set_list file conf p)), snd (e_selected_options_str set_list file conf p)) = selected_options_str conf p.
Proof.
  split; [intros; apply (erase_values set_list same)|]. split; [intros; apply (erase_key set_list same)|].
  split; [apply (erase_selected set_list same)|apply (erase_selected_str set_list same)].
Qed.
Lemma outcomes_load other_re systems hostname envs_file envs_rel envs fill systems_file b f h :
  let p := lafter other_re systems hostname envs h (new_loadenv b f) in
  let sys := e_le_system_name other_re systems hostname fill systems_file in
  let par := e_le_parsed_env_name set_list other_re systems hostname envs_file envs_rel envs fill systems_file in
  (without_text (fst (sys p)), snd (sys p)) = le_system_name other_re systems hostname p /\
  (without_text (fst (par p)), snd (par p)) = le_parsed_env_name other_re systems hostname envs p.
Proof.
  intros p sys par. assert (F : fine envs p) by (eapply linv_fine, lafter_ok, linv_new). split.
  - apply (keep_system other_re systems hostname envs fill systems_file p F).
  - apply (keep_parsed set_list same other_re systems hostname envs_file envs_rel envs fill systems_file envs p F).
Qed.
Lemma outcomes_gen other_re systems hostname envs_file envs_rel envs fill systems_file flags_file flags_name specs_name flags specs gen b f h :
  let p := gafter other_re systems hostname envs flags specs gen h (new_genconfig b f) in
  let con := e_complete_config set_list other_re systems hostname envs_file envs_rel envs fill systems_file flags_file flags in
  let val := e_validate set_list other_re systems hostname envs_file envs_rel envs fill systems_file flags_file flags_name specs_name flags specs in
  (without_text (fst (con p)), snd (con p)) = complete_config other_re systems hostname envs flags p /\
  (without_text (fst (val p)), snd (val p)) = validate other_re systems hostname envs flags specs p.
Proof.
  intros p con val. assert (F : gfine envs p) by (eapply (gafter_fine set_list SO); [exact fill|apply new_gfine]). split.
  - apply (keep_complete set_list same other_re systems hostname envs_file envs_rel envs fill systems_file flags_file flags p F).
  - apply (keep_validate set_list same other_re systems hostname envs_file envs_rel envs fill systems_file flags_file flags_name specs_name flags specs p F).
Qed.

(** ** Options *)
Lemma history_kinv conf b p h T : describes conf T -> new_ckp conf b = Ok p -> kinv conf (map fst T) (last_name h b) (kafter conf h p).
Proof.
  intros HD N. apply new_inv in N as (d & D & K). destruct HD as ((d' & D' & E) & _). unfold flags_section in D. assert (d' = d) by congruence. subst.
  rewrite <- E. now apply kafter_ok.
Qed.
Lemma twice_history file conf T b p h : describes conf T -> ~ NoDup (flat_map options_of T) ->
  unbroken file -> (forall f m o, In (f, (m, o)) T -> unbroken f /\ Forall unbroken o) -> new_ckp conf b = Ok p ->
  exists items, repeated (flat_map options_of T) items /\
    says (fst (e_selected_options set_list file conf (kafter conf h p))) SystemExit (options_twice_report file items) /\
    says (fst (e_selected_options_str set_list file conf (kafter conf h p))) SystemExit (options_twice_report file items).
Proof.
  intros HD N UF UT NP. destruct (twice_says set_list SO file conf T HD UF UT (last_name h b) N) as (items & R & S). exists items. split; [exact R|].
  exact (string_says set_list SO file conf _ _ _ _ _ (history_kinv conf b p h T HD NP) S).
Qed.
Lemma conflict_history file conf T b p h : describes conf T -> valid_table T ->
  unbroken file -> (forall f m o, In (f, (m, o)) T -> unbroken f /\ Forall unbroken o) -> new_ckp conf b = Ok p ->
  conflict (last_name h b) T ->
  exists flag chosen, first_conflict (last_name h b) T flag chosen /\
    says (fst (e_selected_options set_list file conf (kafter conf h p))) ValueError (conflict_report flag chosen) /\
    says (fst (e_selected_options_str set_list file conf (kafter conf h p))) ValueError (conflict_report flag chosen).
Proof.
  intros HD HV UF UT NP C. destruct (conflict_first (last_name h b) T C) as (f & ch & FC).
  { intros r I. exact (NoDup_row T HV r I). }
  exists f, ch. split; [exact FC|].
  exact (string_says set_list SO file conf _ _ _ _ _ (history_kinv conf b p h T HD NP) (conflict_says set_list SO file conf T HD UT HV _ _ _ FC)).
Qed.
Lemma type_history file conf d fs1 f fs2 t o b p h :
  conf $"configure-flags" = Ok d -> dkeys d = fs1 ++ f :: fs2 ->
  (forall g, In g fs1 -> exists (many : bool) l, get_values conf $"configure-flags" g = Ok ((if many then select_many else select_one) :: l)) ->
  get_values conf $"configure-flags" f = Ok (t :: o) -> t <> select_one -> t <> select_many ->
  unbroken file -> unbroken f -> new_ckp conf b = Ok p ->
  says (fst (e_selected_options set_list file conf (kafter conf h p))) ValueError (flag_type_report file f) /\
  says (fst (e_selected_options_str set_list file conf (kafter conf h p))) ValueError (flag_type_report file f).
Proof.
  intros D K G V N1 N2 UF U NP. apply new_inv in NP as (d' & D' & KI). unfold flags_section in D'. assert (d' = d) by congruence. subst d'.
  apply (kafter_ok _ _ h) in KI. apply (string_says set_list SO file conf _ _ _ _ _ KI). rewrite K. apply (flag_first_wrong set_list SO).
  - intros g I. destruct (G g I) as (many & l & X). unfold flag_options, flags_section. rewrite X. cbn [rbind]. destruct many; eexists; reflexivity.
  - apply (flag_type_says set_list SO file conf f t o V N1 N2 UF U).
Qed.

(** ** Systems and environments *)
Section Load.
Variable other_re : str -> str -> res bool.
Variable systems : list (str * list str).
Variable hostname envs_file envs_rel : str.
Variable envs : str -> res (dict (option str)).
Variable fill : bool -> str -> str.
Variable systems_file : str.
Notation after := (lafter other_re systems hostname envs).
Notation sys := (e_le_system_name other_re systems hostname fill systems_file).
Notation par := (e_le_parsed_env_name set_list other_re systems hostname envs_file envs_rel envs fill systems_file).
Lemma sys_history b f h e lines : says (x_sys other_re systems hostname fill systems_file (last_build h b) f) e lines ->
  says (fst (sys (after h (new_loadenv b f)))) e lines /\ says (fst (par (after h (new_loadenv b f)))) e lines.
Proof.
  intros S. pose proof (lafter_ok other_re systems hostname envs f h b _ (linv_new other_re systems hostname envs b f)) as I. split.
  - rewrite (le_sys_x other_re systems hostname envs fill systems_file _ _ _ I). exact S.
  - apply (parsed_says set_list SO other_re systems hostname envs_file envs_rel envs fill systems_file _ _ _ _ _ I). now apply x_sys_says.
Qed.
Hypothesis RD : readable_keys other_re systems hostname.
Lemma two_history b f h names :
  kept (fun n => n <> $"DEFAULT" /\ named (lower (last_build h b)) n) (map fst systems) names -> 2 <= length names ->
  Forall unbroken (map fst systems) ->
  says (fst (sys (after h (new_loadenv b f)))) SystemExit (two_systems_report names) /\
  says (fst (par (after h (new_loadenv b f)))) SystemExit (two_systems_report names).
Proof. intros K L U. apply sys_history. exact (two_systems_says other_re systems hostname envs fill systems_file RD _ f names K L U). Qed.
Lemma unknown_history b f h ls : host_system other_re systems hostname None -> (forall n, ~ names_system systems (last_build h b) n) ->
  lines_of (fill false (unknown_system_text hostname systems_file)) ls ->
  says (fst (sys (after h (new_loadenv b f)))) SystemExit (error_text ls []) /\
  says (fst (par (after h (new_loadenv b f)))) SystemExit (error_text ls []).
Proof. intros H N L. apply sys_history. exact (unknown_says other_re systems hostname fill systems_file RD _ f ls H N L). Qed.
Hypothesis ND : NoDup (map fst systems).
Lemma other_history b h found n ls : host_system other_re systems hostname found -> found <> Some n ->
  names_system systems (last_build h b) n -> (forall m, names_system systems (last_build h b) m -> m = n) ->
  lines_of (fill true (other_system_text hostname (match found with Some m => m | None => $"None" end) systems_file n)) ls ->
  says (fst (sys (after h (new_loadenv b false)))) SystemExit (error_text ls []) /\
  says (fst (par (after h (new_loadenv b false)))) SystemExit (error_text ls []).
Proof. intros H D N U L. apply sys_history. exact (other_says other_re systems hostname fill systems_file RD ND _ found n ls H D N U L). Qed.
Lemma x_sys_ok b f s : system_of other_re systems hostname b f (Ok (Some s)) -> x_sys other_re systems hostname fill systems_file b f = EOk s.
Proof. intros S. apply plain_ok. rewrite x_sys_plain. now apply q_system_of. Qed.
Lemma aliases_history b f h s E : system_of other_re systems hostname (last_build h b) f (Ok (Some s)) ->
  env_describes envs s E -> ~ NoDup (flat_map snd E) -> unbroken s -> Forall unbroken (flat_map snd E) ->
  exists items, repeated (flat_map snd E) items /\
    says (fst (par (after h (new_loadenv b f)))) SystemExit (aliases_twice_report s items).
Proof.
  intros S De N US U. destruct (aliases_says set_list SO envs_file envs (last_build h b) s E De N US U) as (items & R & t & X & B). exists items. split; [exact R|].
  pose proof (lafter_ok other_re systems hostname envs f h b _ (linv_new other_re systems hostname envs b f)) as I.
  apply (parsed_says set_list SO other_re systems hostname envs_file envs_rel envs fill systems_file _ _ _ _ _ I). exists t. split; [|exact B].
  unfold x_parsed, x_ekp. rewrite (x_sys_ok _ _ _ S). cbn [ebind]. rewrite X. reflexivity.
Qed.
Lemma no_env_history b f h s E : system_of other_re systems hostname (last_build h b) f (Ok (Some s)) ->
  env_describes envs s E -> valid_envs E ->
  readable_names other_re (map fst E) (last_build h b) -> readable_names other_re (flat_map snd E) (last_build h b) ->
  env_of other_re E (last_build h b) (Err SystemExit) ->
  unbroken s -> unbroken (last_build h b) -> unbroken envs_rel -> (forall n l, In (n, l) E -> unbroken n /\ Forall unbroken l) ->
  exists names blocks, in_order (map fst E) names /\
    Forall2 (fun n bl => exists l l', In (n, l) E /\ in_order l l' /\ bl = env_block n l') names blocks /\
    says (fst (par (after h (new_loadenv b f)))) SystemExit (no_environment_report s (last_build h b) envs_rel blocks).
Proof.
  intros S De V RN RA EO US UB UR UE. inversion EO as [| |L1 L2]; subst.
  destruct (no_env_says set_list SO other_re envs_file envs_rel envs _ s E De V RN RA L1 L2 US UB UR UE) as (names & blocks & O & F & t & X & B).
  exists names, blocks. split; [exact O|]. split; [exact F|].
  pose proof (lafter_ok other_re systems hostname envs f h b _ (linv_new other_re systems hostname envs b f)) as I.
  apply (parsed_says set_list SO other_re systems hostname envs_file envs_rel envs fill systems_file _ _ _ _ _ I). exists t. split; [|exact B].
  unfold x_parsed, x_ekp. rewrite (x_sys_ok _ _ _ S). cbn [ebind]. exact X.
Qed.
(** [complete_config] shows the same errors. *)
Lemma config_says flags_file flags b f e lines k : new_ckp flags b = Ok k ->
  let con := e_complete_config set_list other_re systems hostname envs_file envs_rel envs fill systems_file flags_file flags in
  (says (fst (par (new_loadenv b f))) e lines -> says (fst (con (new_genconfig b f))) e lines) /\
  (forall n, fst (par (new_loadenv b f)) = EOk n -> says (fst (e_selected_options_str set_list flags_file flags k)) e lines ->
     says (fst (con (new_genconfig b f))) e lines).
Proof.
  intros K con. unfold con, e_complete_config. unfold mbind at 1 7, mget. cbn [new_genconfig g_config].
  assert (FD : exists fd, flags flags_section = Ok fd /\ k = Ckp b (dkeys fd) None None None None).
  { unfold new_ckp in K. destruct (flags flags_section) as [fd|]; [|discriminate]. injection K as <-. eauto. }
  destruct FD as (fd & FD & ->).
  unfold mbind at 1 6, quiet at 1 4. rewrite (load_ckp_eq flags fd FD). cbn [silent with_ckp g_ckp new_genconfig g_build g_force g_le g_config g_valid].
  unfold mbind at 1 5, quiet at 1 3. rewrite load_le_eq. cbn [silent with_le g_ckp g_build g_force g_le g_config g_valid].
  unfold mbind at 1 4, e_on_le. cbn [g_ckp g_build g_force g_le g_config g_valid].
  destruct (par (new_loadenv b f)) as [r q]. cbn [fst]. split.
  - intros (t & -> & B). exists t. split; [reflexivity|exact B].
  - intros n ->. unfold mbind at 1, e_on_ckp. cbn [g_ckp g_build g_force g_le g_config g_valid].
    destruct (e_selected_options_str set_list flags_file flags _) as [r k']. cbn [fst]. intros (t & -> & B). exists t. split; [reflexivity|exact B].
Qed.
End Load.
End Statements.
