(** * What the messages of the errors say: the sections of a file of configurations. *)
From Coq Require Import String NArith List Bool Arith Lia.
Import ListNotations.
From Verif Require Import PyBase PyFacts EnvVar EnvProofs Regex Keyword DetSys EnvKeyword LoadEnv Messages Errors SpecText SpecKeyword KeywordText RegexProofs
  KeywordProofs FlagsProofs FlagsProofs2 SpecFlags SpecSystem SpecMessages SpecLoadEnv SpecErrors MsgProofs MsgProofs2 MsgProofs3
  SearchProofs SystemProofs EnvNameProofs LoadEnvProofs FixedProofs GenConfigProofs ErrorProofs ErrorProofs2 ErrorProofs3.
Local Open Scope string_scope.
Local Open Scope list_scope.

Section Gen.
Variable set_list : list str -> list str.
Hypothesis SO : set_order set_list.
Variable other_re : str -> str -> res bool.
Variable systems : list (str * list str).
Variable hostname envs_file envs_rel : str.
Variable envs : str -> res (dict (option str)).
Variable fill : bool -> str -> str.
Variable systems_file flags_file flags_name specs_name : str.
Variable flags : str -> res (dict (option str)).
Variable specs : list str.
Variable gen : str -> res (list str).
Variable fd : dict (option str).
Hypothesis FD : flags flags_section = Ok fd.
Notation same := (set_same' set_list SO).
Notation after := (gafter other_re systems hostname envs flags specs gen).
Notation E_check := (e_check_sections set_list other_re systems hostname envs_file envs_rel envs fill systems_file flags_file specs_name flags).
Notation E_valid := (e_validate set_list other_re systems hostname envs_file envs_rel envs fill systems_file flags_file flags_name specs_name flags specs).
Notation qcheck := (q_check other_re systems hostname envs flags fd).
Notation gfine := (gfine envs).
Notation cname := (config_name other_re systems hostname envs flags).

Lemma keeps_state {S A} (I : S -> Prop) (m : EM S A) m' s : keeps I m m' -> I s -> I (snd (m' s)).
Proof. intros K H. apply (K s H). Qed.
Lemma keeps_ok {S A} (I : S -> Prop) (m : EM S A) m' s a s' : keeps I m m' -> I s -> m' s = (Ok a, s') -> m s = (EOk a, s').
Proof.
  intros K H E. destruct (K s H) as (X & _). rewrite E in X. destruct (m s) as [r q]. cbn [fst snd] in X. injection X as X ->. apply plain_ok in X. now rewrite X.
Qed.
Lemma bind_state {S A B} (I : S -> Prop) (m : SM S A) (k : A -> SM S B) s :
  I (snd (m s)) -> (forall a q, m s = (Ok a, q) -> I q -> I (snd (k a q))) -> I (snd (bind m k s)).
Proof. unfold bind. destruct (m s) as [[a|e] q] eqn:E; cbn; intros H K; [apply K; auto|exact H]. Qed.
Lemma gexec_fine o p : gfine p -> gfine (snd (gexec other_re systems hostname envs flags specs gen o p)).
Proof.
  assert (V : forall p, gfine p -> gfine (snd (validate other_re systems hostname envs flags specs p))).
  { intros q H. eapply keeps_state; [apply (keep_validate set_list same other_re systems hostname [] [] envs fill [] [] [] [] flags specs)|exact H]. }
  assert (C : forall p, gfine p -> gfine (snd (complete_config other_re systems hostname envs flags p))).
  { intros q H. eapply keeps_state; [apply (keep_complete set_list same other_re systems hostname [] [] envs fill [] [] flags)|exact H]. }
  intros H. destruct o; cbn [gexec]; apply bind_state; auto.
  - unfold generated_flags. apply (bind_state gfine get); [exact H|]. intros a q [= <- <-] _. apply (bind_state gfine); [destruct (g_valid p); [exact H|now apply V]|].
    intros [] q _ HQ. apply (bind_state gfine); [now apply C|]. intros c q' _ HQ'. exact HQ'.
  - unfold list_configs. apply (bind_state gfine).
    { eapply keeps_state; [apply (keep_load_le envs)|exact H]. }
    intros [] q _ HQ. apply (bind_state gfine); [|intros n q' _ HQ'; exact HQ'].
    eapply keeps_state; [apply (keep_on_le envs), (keep_system other_re systems hostname envs fill [])|exact HQ].
Qed.
Lemma gafter_fine h : forall p, gfine p -> gfine (after h p).
Proof. induction h as [|o h IH]; intros p H; cbn; [exact H|]. apply IH, gexec_fine, H. Qed.
Lemma new_gfine b f : gfine (new_genconfig b f).
Proof. intros q [=]. Qed.

(** The state in which the sections are checked. *)
Lemma start b f p : winv other_re systems hostname envs flags specs fd b f p -> gfine p ->
  exists p2 q, gfine p2 /\ g_le p2 = Some q /\ l_force q = true /\ some_ckp flags fd p2 /\
    E_valid p = mbind (E_check specs) (fun bad => match bad with
      | _ :: _ => mof (fails ValueError (invalid_sections_msg flags_name specs_name bad))
      | [] => mbind mget (fun p => mbind (quiet (on_le (le_set_build (g_build p)))) (fun _ =>
          mbind (quiet (on_le (le_set_force (g_force p)))) (fun _ =>
          mbind (quiet (on_ckp (set_build_name (g_build p)))) (fun _ =>
            quiet (modify (fun p => GenConfig (g_build p) (g_force p) (g_ckp p) (g_le p) (g_config p) true))))))
      end) p2.
Proof.
  intros W F. destruct (with_winv other_re systems hostname envs flags specs fd b f p W) as (W' & C & q & Q).
  unfold e_validate. unfold mbind at 1, quiet at 1. rewrite (load_ckp_eq flags fd FD). cbn [silent].
  unfold mbind at 1, quiet at 1. rewrite load_le_eq. cbn [silent]. unfold mbind at 1, quiet at 1, on_le at 1. rewrite Q. cbn [le_set_force modify]. cbv zeta.
  cbn [silent]. match goal with |- exists p2 q, _ /\ _ /\ _ /\ _ /\ ?m = _ => match m with mbind _ _ ?s => exists s end end. eexists.
  split; [|split; [reflexivity|split; [reflexivity|split; [|reflexivity]]]].
  - assert (F' : gfine (with_le (with_ckp fd p))).
    { intros q0 Q0. destruct p as [? ? [?|] [?|] ? ?]; cbn in Q0; try (apply F; exact Q0); injection Q0 as <-; apply new_fine. }
    intros q0 [= <-] k K. apply (F' _ Q). exact K.
  - destruct C as (k & n & C). exists k, n. exact C.
Qed.
Lemma check_gives l bad : wrong_names other_re systems hostname envs flags l bad -> qcheck l = Ok bad.
Proof.
  induction 1 as [|s l bad U W IH|s l bad U N W IH|s c l bad U N D W IH]; cbn [q_check].
  - reflexivity.
  - destruct (str_eqb_spec (upper s) s); [exact IH|contradiction].
  - destruct (str_eqb_spec (upper s) s); [contradiction|]. apply (config_name_iff other_re systems hostname envs flags fd FD) in N.
    unfold q_config in N. destruct (q_parsed other_re systems hostname envs s true) as [n0|e]; cbn [rbind] in N; [|discriminate].
    destruct (q_opts flags fd s) as [o|e]; cbn [rbind] in N |- *; [|discriminate]. injection N as N. rewrite IH. cbn [rbind]. rewrite N.
    now destruct (str_eqb_spec s s).
  - destruct (str_eqb_spec (upper s) s); [contradiction|]. apply (config_name_iff other_re systems hostname envs flags fd FD) in N.
    unfold q_config in N. destruct (q_parsed other_re systems hostname envs s true) as [n0|e]; cbn [rbind] in N; [|discriminate].
    destruct (q_opts flags fd s) as [o|e]; cbn [rbind] in N |- *; [|discriminate]. injection N as N. rewrite IH. cbn [rbind]. rewrite N.
    now destruct (str_eqb_spec c s).
Qed.
Lemma pairs_loop_lines bad : forall acc, pairs_loop bad acc = acc ++ ended (flat_map pair_lines bad).
Proof.
  induction bad as [|(s, c) bad IH]; intros acc; cbn [pairs_loop flat_map]; [unfold ended; cbn; now rewrite app_nil_r|].
  rewrite IH, ended_app. unfold pair_lines, ended at 2. cbn [fst snd map concat]. rewrite <- !app_assoc. reflexivity.
Qed.
Lemma sections_says bad : unbroken flags_name -> unbroken specs_name -> Forall (fun sc => unbroken (fst sc) /\ unbroken (snd sc)) bad ->
  boxed (sections_report flags_name specs_name bad) (invalid_sections_msg flags_name specs_name bad).
Proof.
  intros UF US UB. unfold invalid_sections_msg, sections_report, error_text. apply formatted_boxed; [| |apply error_kind].
  - rewrite pairs_loop_lines.
    set (head := [$"The following section(s) in your config-specs.ini file";
      $"should be formatted in the following manner to include only valid";
      $"options and to match the order of supported flags/options in";
      $"'" ++ flags_name ++ $"':"; [];
      $"-  {current_section_name}"; $"-> {formatted_section_name}"; []]).
    match goal with |- lines_of (?a ++ ended ?b) (?h ++ ?b) => replace a with (ended h) end.
    2: { unfold head, ended. cbn [map concat]. rewrite app_nil_r, <- !app_assoc. reflexivity. }
    apply lines_ended.
    + unfold head. repeat (constructor; [first [solve [lone]|solve [lits; apply Forall_app; split; [exact UF|lone]]|solve [constructor]]|]). constructor.
    + assert (EN : forall l, Forall unbroken l -> lines_of (ended l) l).
      { intros l U. pose proof (lines_ended l [] [] U lo_none) as X. now rewrite !app_nil_r in X. }
      apply EN. apply Forall_forall. intros x I. apply in_flat_map in I as ((s, c) & I & J).
      destruct (proj1 (Forall_forall _ _) UB _ I) as (Us & Uc). cbn in Us, Uc.
      destruct J as [<-|[<-|[<-|[]]]]; [lits|lits|constructor].
  - apply lo_last; [discriminate|]. lits. apply Forall_app. split; [exact US|lone].
Qed.
Lemma wrong_says b f h bad : wrong_names other_re systems hostname envs flags specs bad -> bad <> [] ->
  unbroken flags_name -> unbroken specs_name -> Forall (fun sc => unbroken (fst sc) /\ unbroken (snd sc)) bad ->
  says (fst (E_valid (after h (new_genconfig b f)))) ValueError (sections_report flags_name specs_name bad).
Proof.
  intros W NE UF US UB. pose proof (check_gives _ _ W) as Q.
  destruct (start b f (after h (new_genconfig b f))) as (p2 & q & G & L & F & C & E).
  { apply gafter_weak; [exact FD|]. apply ginv_new. }
  { apply gafter_fine, new_gfine. }
  rewrite E. destruct (check_ok other_re systems hostname envs flags fd specs p2 q L F C) as (p' & CK & _).
  rewrite Q in CK.
  pose proof (keeps_ok _ _ _ _ _ _ (keep_check set_list same other_re systems hostname envs_file envs_rel envs fill systems_file flags_file specs_name flags specs) G CK) as X.
  unfold mbind at 1. rewrite X. destruct bad as [|x bad]; [congruence|]. eexists. split; [reflexivity|]. now apply sections_says.
Qed.

(** ** A message in a message *)
Lemma trim_unbroken l x : end_trimmed l x -> unbroken l -> unbroken x.
Proof. intros (w & -> & _) U. apply Forall_app in U as (U & _). exact U. Qed.
Lemma trim_prefix p l s x : end_trimmed l s -> end_trimmed (p ++ s) x -> end_trimmed (p ++ l) x.
Proof.
  intros (w & -> & W & _) (w' & E & W' & N). exists (w' ++ w). split; [rewrite app_assoc, E; now rewrite <- app_assoc|]. split; [apply Forall_app; auto|exact N].
Qed.
Lemma rule_unbroken : unbroken rule.
Proof. apply Forall_forall. intros c I. apply line_end_false. vm_compute in I. repeat (destruct I as [<-|I]; [reflexivity|]). destruct I. Qed.
Lemma nested_boxed inner t : Forall unbroken inner -> boxed inner t -> unbroken specs_name ->
  boxed (nested_report specs_name inner)
    (get_formatted_msg ($"When validating sections in" ++ newline ++ $"`" ++ specs_name ++ $"`," ++ newline ++
       $"the following error was encountered:" ++ newline ++ t) ERROR []).
Proof.
  intros U (shown & F & ->) US.
  assert (UW : Forall unbroken shown).
  { clear -U F. induction F as [|l s ls ss T F IH]; [constructor|]. inversion U; subst. constructor; [eapply trim_unbroken; eauto|auto]. }
  set (heads := [$"When validating sections in"; $"`" ++ specs_name ++ $"`,"; $"the following error was encountered:"; []; rule]).
  assert (L : lines_of ($"When validating sections in" ++ newline ++ $"`" ++ specs_name ++ $"`," ++ newline ++
       $"the following error was encountered:" ++ newline ++ ended ([] :: rule :: shown ++ [rule])) (heads ++ shown ++ [rule])).
  { match goal with |- lines_of ?a ?b => replace a with (ended b ++ []); [replace b with (b ++ []) at 2 by apply app_nil_r|] end.
    - apply lines_ended; [|constructor]. apply Forall_app. split; [|apply Forall_app; split; [exact UW|constructor; [exact rule_unbroken|constructor]]].
      unfold heads. constructor; [lone|]. constructor; [lits; apply Forall_app; split; [exact US|lone]|]. constructor; [lone|].
      constructor; [constructor|]. constructor; [exact rule_unbroken|constructor].
    - rewrite app_nil_r. unfold heads, ended. cbn [map app concat]. rewrite <- !app_assoc. reflexivity. }
  pose proof (formatted_boxed _ ERROR [] _ [] L lo_none error_kind) as (sh & F2 & E). exists sh. split; [|exact E].
  unfold nested_report, error_text. fold heads. change $"ERROR" with ERROR. clear E L. cbn [map] in F2 |- *. rewrite app_nil_r in F2 |- *.
  assert (HL : forall l, heading_lines ERROR (heads ++ l) = heading_lines ERROR heads ++ map (fun x => $"|           " ++ x) l).
  { intros l. unfold heads. cbn [app heading_lines map]. reflexivity. }
  rewrite HL in F2 |- *. apply Forall2_app_inv_l in F2 as (a & c & A & C & ->). apply Forall2_app; [exact A|].
  rewrite map_app in C |- *. apply Forall2_app_inv_l in C as (c1 & c2 & C1 & C2 & ->). apply Forall2_app; [|exact C2].
  clear -F C1. revert c1 C1. induction F as [|l s ls ss T F IH]; cbn [map]; intros c1 C1; inversion C1; subst; constructor; auto.
  eapply trim_prefix; eauto.
Qed.
Lemma check_nested inner s l2 l1 : (forall x, In x l1 -> upper x <> x -> exists c, q_config other_re systems hostname envs flags fd x true = Ok c) ->
  upper s <> s -> says (x_sel set_list flags_file flags (dkeys fd) s) ValueError inner ->
  forall p q, g_le p = Some q -> l_force q = true -> some_ckp flags fd p -> gfine p ->
  exists t, boxed inner t /\ fst (E_check (l1 ++ s :: l2) p) = EErr ValueError (Some
    (get_formatted_msg ($"When validating sections in" ++ newline ++ $"`" ++ specs_name ++ $"`," ++ newline ++
       $"the following error was encountered:" ++ newline ++ t) ERROR [])).
Proof.
  intros H U X. induction l1 as [|x l1 IH]; intros p q Q F C G.
  - cbn [app e_check_sections]. destruct (str_eqb_spec (upper s) s); [contradiction|].
    destruct C as (k & nm & C & K). destruct p as [pb pf pc pl pcf pv]. cbn in Q, C. subst pc pl.
    unfold mbind at 1, quiet at 1, on_le at 1. cbn [g_le le_set_build modify]. cbv zeta. cbn [silent].
    unfold mbind at 1, quiet at 1, on_ckp at 1. cbn [g_ckp g_build g_force g_le g_config g_valid].
    destruct (set_kinv flags fd nm s k K) as (S1 & S2). destruct (set_build_name s k) as [r k1]. cbn [fst snd] in S1, S2. subst r. cbn [silent].
    destruct (proj2 (string_says set_list SO flags_file flags _ _ _ _ _ S2 X)) as (t & T & B). exists t. split; [exact B|].
    unfold mbind at 1, e_wrap at 1, e_on_ckp at 1. cbn [g_ckp g_build g_force g_le g_config g_valid].
    destruct (e_selected_options_str set_list flags_file flags k1) as [r k2]. cbn [fst] in T. subst r. reflexivity.
  - cbn [app e_check_sections]. destruct (str_eqb_spec (upper x) x) as [UX|UX].
    { apply (IH (fun y I => H y (or_intror I)) p q Q F C G). }
    destruct (H x (or_introl eq_refl) UX) as (c & QC). unfold q_config in QC.
    destruct C as (k & nm & C & K). destruct p as [pb pf pc pl pcf pv]. cbn in Q, C. subst pc pl.
    unfold mbind at 1, quiet at 1, on_le at 1. cbn [g_le le_set_build modify]. cbv zeta. cbn [silent]. rewrite F.
    unfold mbind at 1, quiet at 1, on_ckp at 1. cbn [g_ckp g_build g_force g_le g_config g_valid].
    destruct (set_kinv flags fd nm x k K) as (S1 & S2). destruct (set_build_name x k) as [r k1]. cbn [fst snd] in S1, S2. subst r. cbn [silent].
    destruct (k_string _ _ _ _ S2) as (T1 & T2). fold (q_opts flags fd x) in T1.
    destruct (q_parsed other_re systems hostname envs x true) as [n|e] eqn:QP; cbn [rbind] in QC; [|discriminate].
    destruct (q_opts flags fd x) as [o|e] eqn:QO; cbn [rbind] in QC; [|discriminate].
    destruct (selected_options_str flags k1) as [r k2] eqn:SS. cbn [fst snd] in T1, T2. subst r.
    set (le0 := LoadEnv x true None None None None).
    assert (G1 : gfine (GenConfig pb pf (Some k1) (Some le0) pcf pv)) by (intros q0 [= <-] k0 [=]).
    assert (E1 : on_ckp (selected_options_str flags) (GenConfig pb pf (Some k1) (Some le0) pcf pv) = (Ok o, GenConfig pb pf (Some k2) (Some le0) pcf pv)).
    { unfold on_ckp. cbn [g_ckp g_build g_force g_le g_config g_valid]. rewrite SS. reflexivity. }
    unfold mbind at 1. rewrite (keeps_ok _ _ _ _ _ _ (keep_wrap envs specs_name _ _ (keep_on_ckp envs _ _ (erase_selected_str set_list same flags_file flags))) G1 E1).
    destruct (i_parsed_ok _ _ _ _ _ _ _ (linv_new other_re systems hostname envs x true)) as (U1 & U2). unfold new_loadenv in U1, U2. fold le0 in U1, U2.
    destruct (le_parsed_env_name other_re systems hostname envs le0) as [r q2] eqn:LP. cbn [fst snd] in U1, U2. rewrite QP in U1. subst r.
    assert (G2 : gfine (GenConfig pb pf (Some k2) (Some le0) pcf pv)) by (intros q0 [= <-] k0 [=]).
    assert (E2 : on_le (le_parsed_env_name other_re systems hostname envs) (GenConfig pb pf (Some k2) (Some le0) pcf pv) = (Ok n, GenConfig pb pf (Some k2) (Some q2) pcf pv)).
    { unfold on_le. cbn [g_ckp g_build g_force g_le g_config g_valid]. rewrite LP. reflexivity. }
    unfold mbind at 1. rewrite (keeps_ok _ _ _ _ _ _ (keep_on_le envs _ _ (keep_parsed set_list same other_re systems hostname envs_file envs_rel envs fill systems_file flags)) G2 E2).
    destruct (IH (fun y I => H y (or_intror I)) (GenConfig pb pf (Some k2) (Some q2) pcf pv) q2 eq_refl (i_force _ _ _ _ _ _ _ U2)) as (t & B & E).
    { exists k2, x. auto. }
    { intros q0 [= <-]. eapply (linv_fine other_re systems hostname envs). exact U2. }
    exists t. split; [exact B|]. unfold mbind at 1. destruct (E_check (l1 ++ s :: l2) (GenConfig pb pf (Some k2) (Some q2) pcf pv)) as [r p3]. cbn [fst] in E. subst r. reflexivity.
Qed.
Lemma nested_says b f h l1 s l2 T flag chosen : specs = l1 ++ s :: l2 ->
  (forall x, In x l1 -> upper x <> x -> exists c, cname x true c) -> upper s <> s ->
  describes flags T -> valid_table T -> first_conflict s T flag chosen ->
  unbroken flags_file -> unbroken specs_name -> (forall f m o, In (f, (m, o)) T -> unbroken f /\ Forall unbroken o) ->
  says (fst (E_valid (after h (new_genconfig b f)))) ValueError (nested_report specs_name (conflict_report flag chosen)).
Proof.
  intros SP H U HD HV FC UF US UT.
  assert (KF : dkeys fd = map fst T). { destruct HD as ((d & D & K) & _). unfold flags_section in FD. congruence. }
  pose proof (conflict_says set_list SO flags_file flags T HD UT HV s flag chosen FC) as X. rewrite <- KF in X.
  destruct (start b f (after h (new_genconfig b f))) as (p2 & q & G & L & F & C & E).
  { apply gafter_weak; [exact FD|]. apply ginv_new. }
  { apply gafter_fine, new_gfine. }
  assert (H' : forall x, In x l1 -> upper x <> x -> exists c, q_config other_re systems hostname envs flags fd x true = Ok c).
  { intros x I N. destruct (H x I N) as (c & Y). exists c. now apply (config_name_iff other_re systems hostname envs flags fd FD). }
  destruct (check_nested _ s l2 l1 H' U X p2 q L F C G) as (t & B & R). rewrite <- SP in R.
  rewrite E. unfold mbind at 1. destruct (E_check specs p2) as [r p3]. cbn [fst] in R. subst r. eexists. split; [reflexivity|].
  apply nested_boxed; [|exact B|exact US].
  destruct FC as (T1 & o & T2 & -> & _ & K & _). destruct (UT flag false o) as (U1 & U2); [apply in_or_app; right; now left|].
  unfold conflict_report, error_list. cbn [heading_lines map]. rewrite app_nil_r. constructor.
  - lits. apply Forall_app. split; [exact U1|lone].
  - apply Forall_forall. intros x I. apply in_map_iff in I as (i & <- & I). apply (kept_in _ _ _ _ K) in I as (I & _).
    pose proof (proj1 (Forall_forall _ _) U2 i I). unfold item_line. lits.
Qed.

(** ** The names that are asked for *)
Lemma wrong_cases l bad : wrong_names other_re systems hostname envs flags l bad ->
  (forall s c, In (s, c) bad -> cname s true c) /\
  (forall s, In s l -> upper s <> s -> ~ In s (map fst bad) -> cname s true s).
Proof.
  induction 1 as [|s l bad U W (IH1 & IH2)|s l bad U N W (IH1 & IH2)|s c l bad U N D W (IH1 & IH2)].
  - split; [intros ? ? []|intros ? []].
  - split; [exact IH1|]. intros x [<-|I]; [congruence|auto].
  - split; [exact IH1|]. intros x [<-|I]; auto.
  - split.
    + intros x y [[= <- <-]|I]; auto.
    + intros x [<-|I] UX NI; [exfalso; apply NI; now left|]. apply IH2; auto. intros J. apply NI. now right.
Qed.
Lemma system_of_some s c : NoDup (map fst systems) -> readable_keys other_re systems hostname -> cname s true c ->
  exists sy, system_of other_re systems hostname s true (Ok (Some sy)).
Proof.
  intros ND RD H. apply (config_name_iff other_re systems hostname envs flags fd FD) in H. unfold q_config, q_parsed, q_ekp in H.
  destruct (q_system other_re systems hostname s true) as [sy|e] eqn:Q; cbn [rbind] in H; [|discriminate].
  exists sy. now apply q_system_of.
Qed.
Lemma corrected_canonical bad specs' T : wrong_names other_re systems hostname envs flags specs bad -> corrected bad specs specs' ->
  NoDup (map fst systems) -> readable_keys other_re systems hostname -> describes flags T -> valid_table T ->
  (forall b s, In b specs -> system_of other_re systems hostname b true (Ok (Some s)) ->
     exists E, env_describes envs s E /\ valid_envs E /\ apart systems s E T /\ forall b, readable_names other_re (flat_map snd E) b) ->
  canonical_sections other_re systems hostname envs flags specs'.
Proof.
  intros W C ND RD HD HV HE. destruct (wrong_cases _ _ W) as (W1 & W2).
  assert (SUB : forall l l', corrected bad l l' -> incl l specs -> forall s, In s l' -> upper s <> s -> cname s true s).
  { clear C. induction 1 as [|s l l' N C IH|s c l l' N C IH]; intros I; [intros ? []|intros x [<-|J] U|intros x [<-|J] U].
    - apply W2; auto. apply I. now left.
    - apply IH; auto. intros y Y. apply I. now right.
    - pose proof (W1 _ _ N) as CN. destruct (system_of_some s c ND RD CN) as (sy & SY).
      destruct (HE s sy) as (E & D & V & A & R); [apply I; now left|exact SY|].
      exact (fixed_point other_re systems hostname envs flags ND RD sy E T D V HD HV A R s true c SY CN).
    - apply IH; auto. intros y Y. apply I. now right. }
  intros s I U. apply (SUB _ _ C (incl_refl specs) s I U).
Qed.
End Gen.
