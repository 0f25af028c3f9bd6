(** * The lists the programs print: environments, flags, configurations. *)
From Coq Require Import String NArith List Bool Arith Lia Sorted Permutation.
Import ListNotations.
From Verif Require Import PyBase PyFacts EnvVar EnvProofs Trace Regex RegexProofs Keyword KeywordText KeywordProofs FlagsProofs FlagsProofs2
  EnvNameProofs SpecText SpecKeyword SpecFlags FileProofs DetSys EnvKeyword LoadEnv SpecSystem SpecLoadEnv SearchProofs SystemProofs LoadEnvProofs
  GenConfigProofs Messages SpecMessages MsgProofs MsgProofs2.

Lemma sorted_in_order l : NoDup l -> in_order l (sorted l).
Proof. intros N. split; [apply Permutation_sym, sorted_perm|now apply sorted_sorted]. Qed.
Lemma insert_len_perm x l : Permutation (insert_len x l) (x :: l).
Proof.
  induction l as [|y l IH]; cbn [insert_len]; [constructor; constructor|]. destruct (length y <=? length x); [reflexivity|].
  rewrite IH. apply perm_swap.
Qed.
Lemma by_length_perm l : Permutation (by_length l) l.
Proof. induction l as [|x l IH]; cbn [by_length fold_right]; [constructor|]. rewrite insert_len_perm. now constructor. Qed.
Lemma sorted_by_length l : NoDup l -> in_order l (sorted (by_length l)).
Proof.
  intros N. split.
  - apply Permutation_sym. rewrite sorted_perm. apply by_length_perm.
  - apply sorted_sorted. apply (Permutation_NoDup (Permutation_sym (by_length_perm l)) N).
Qed.

Lemma more_map_prefix (l : list str) : map more_line l = map (fun x => $"|   " ++ x) l.
Proof. reflexivity. Qed.
Lemma rows_row E n : In n (map fst E) -> exists l : list str, In ((n : str), l) E.
Proof. intros I. apply in_map_iff in I as ((m, l) & <- & I). eauto. Qed.
Lemma nodup_row (E : env_table) n l : NoDup (flat_map snd E) -> In (n, l) E -> NoDup l.
Proof.
  induction E as [|(m, k) E IH]; intros N I; [destruct I|]. cbn [flat_map snd] in N. destruct (NoDup_app_inv _ _ N) as (A & B & _).
  destruct I as [[= -> ->]|I]; auto.
Qed.

(** ** Environments *)
Section Envs.
Variable other_re : str -> str -> res bool.
Variable systems : list (str * list str).
Variable hostname : str.
Variable envs : str -> res (dict (option str)).

Definition plain_envs (E : env_table) : Prop := forall n l, In (n, l) E -> unbroken n /\ Forall unbroken l.

Lemma env_text_unbroken n l : unbroken n -> Forall unbroken l -> Forall unbroken (env_text n l).
Proof.
  intros N L. unfold env_text. constructor; [lits|]. destruct l as [|a l]; [constructor|]. constructor; [lone|].
  apply Forall_forall. intros x I. apply in_map_iff in I as (y & <- & I). pose proof (proj1 (Forall_forall _ _) L y I). lits.
Qed.
Lemma envs_msg_any msg kind ls k E system rel : lines_of msg ls -> ~ In 10%N kind -> env_describes envs system E -> NoDup (map fst E) -> NoDup (flat_map snd E) -> plain_envs E ->
  unbroken system -> unbroken rel -> e_system k = system -> e_names k = by_length (map fst E) ->
  exists names blocks t, in_order (map fst E) names /\
    Forall2 (fun n b => exists l l', In (n, l) E /\ in_order l l' /\ b = env_block n l') names blocks /\
    supported_envs_msg envs rel msg kind k = Ok t /\
    boxed (heading_lines kind ls ++ [$"|   "; $"|   - Supported Environments for '" ++ system ++ $"':"] ++ concat blocks ++
      [$"|   "; $"|   See `" ++ rel ++ $"` for details on the available environments."; $"|   ";
       $"|   To force-load an environment see the guidance in the `--help` output."; $"|   "]) t.
Proof.
  intros LM LK (D & G) N1 N2 PE US UR KS KN. pose proof (sorted_by_length _ N1) as O.
  set (names := sorted (by_length (map fst E))) in *.
  assert (HN : forall n, In n names -> In n (map fst E)).
  { intros n I. apply (Permutation_in _ (Permutation_sym (proj1 O)) I). }
  assert (H : forall n, In n names -> exists l, get_values envs system n = Ok l).
  { intros n I. apply HN, rows_row in I as (l & I). exists l. now apply G. }
  set (intro := newline ++ $"- Supported Environments for '" ++ system ++ $"':" ++ newline).
  destruct (envs_loop_lines envs system names intro H) as (blocks & F & X).
  exists names, (map (map more_line) blocks).
  assert (F' : Forall2 (fun n b => exists l l', In (n, l) E /\ in_order l l' /\ b = env_text n l') names blocks).
  { clear X. revert HN F. generalize names blocks. clear names blocks O H. intros names blocks HN F.
    induction F as [|n b names blocks (l & A & ->) F IH]; [constructor|]. constructor; [|apply IH; intros; apply HN; now right].
    destruct (rows_row E n (HN n (or_introl eq_refl))) as (l0 & I). rewrite (G _ _ I) in A. injection A as ->.
    exists l, (sorted l). split; [exact I|]. split; [apply sorted_in_order; exact (nodup_row E n l N2 I)|reflexivity]. }
  unfold supported_envs_msg. rewrite KS, KN. fold names. fold intro. rewrite X. cbn [rbind]. eexists.
  split; [exact O|]. split.
  { clear -F'. induction F' as [|n b names blocks (l & l' & A & B & ->) F IH]; cbn [map]; [constructor|]. constructor; [|exact IH].
    exists l, l'. split; [exact A|]. split; [exact B|]. apply env_text_block. }
  split; [reflexivity|].
  match goal with |- boxed ?a (get_formatted_msg ?m ?k ?e) =>
    replace a with (heading_lines k ls ++ map more_line ([[]; $"- Supported Environments for '" ++ system ++ $"':"] ++ concat blocks ++
      [[]; $"See `" ++ rel ++ $"` for details on the available environments."; [];
       $"To force-load an environment see the guidance in the `--help` output."; []])) end.
  2: { rewrite !map_app, concat_map. reflexivity. }
  apply formatted_boxed.
  - exact LM.
  - assert (UB : Forall unbroken (concat blocks)).
    { clear -F' PE. induction F' as [|n b names blocks (l & l' & A & B & ->) F IH]; [constructor|]. cbn [concat]. apply Forall_app. split; [|exact IH].
      destruct (PE _ _ A) as (U & V). apply env_text_unbroken; [exact U|]. apply Forall_forall. intros x I.
      apply (proj1 (Forall_forall _ _) V). apply (Permutation_in _ (Permutation_sym (proj1 B)) I). }
    match goal with |- lines_of ?s ?l => replace s with (ended l ++ []); [replace l with (l ++ []) at 2 by apply app_nil_r|] end.
    + apply lines_ended; [|constructor]. apply Forall_app. split; [|apply Forall_app; split; [exact UB|]].
      * constructor; [constructor|]. constructor; [|constructor]. lits. apply Forall_app. split; [exact US|lone].
      * constructor; [constructor|]. constructor; [|constructor; [constructor|]].
        -- lits. apply Forall_app. split; [exact UR|lone].
        -- constructor; [lone|]. constructor; constructor.
    + unfold intro. rewrite app_nil_r, !ended_app. unfold ended at 1 3. cbn [map concat]. rewrite <- !app_assoc. cbn [app]. reflexivity.
  - exact LK.
Qed.
Lemma envs_msg k E system rel : env_describes envs system E -> NoDup (map fst E) -> NoDup (flat_map snd E) -> plain_envs E ->
  unbroken system -> unbroken rel -> e_system k = system -> e_names k = by_length (map fst E) ->
  exists names blocks t, in_order (map fst E) names /\
    Forall2 (fun n b => exists l l', In (n, l) E /\ in_order l l' /\ b = env_block n l') names blocks /\
    supported_envs_msg envs rel $"Please select one of the following." $"INFO" k = Ok t /\ boxed (envs_listing system rel blocks) t.
Proof.
  apply (envs_msg_any $"Please select one of the following." $"INFO" [$"Please select one of the following."]).
  - apply lo_last; [discriminate|lone].
  - vm_compute. intros HH. repeat (destruct HH as [HH|HH]; [discriminate|]). exact HH.
Qed.

Theorem envs_list_ok b f h s E rel :
  NoDup (map fst systems) -> readable_keys other_re systems hostname ->
  system_of other_re systems hostname (last_build h b) f (Ok (Some s)) ->
  env_describes envs s E -> NoDup (map fst E) -> NoDup (flat_map snd E) ->
  unbroken s -> unbroken rel -> (forall n l, In (n, l) E -> unbroken n /\ Forall unbroken l) ->
  exists names blocks t, in_order (map fst E) names /\
    Forall2 (fun n b => exists l l', In (n, l) E /\ in_order l l' /\ b = env_block n l') names blocks /\
    fst (list_envs_text other_re systems hostname envs rel (lafter other_re systems hostname envs h (new_loadenv b f))) = Ok t /\
    boxed (envs_listing s rel blocks) t.
Proof.
  intros D R S ED N1 N2 US UR PE.
  pose proof (lafter_ok other_re systems hostname envs f h b _ (linv_new other_re systems hostname envs b f)) as I.
  set (p := lafter other_re systems hostname envs h (new_loadenv b f)) in *. clearbody p.
  apply (q_system_of other_re systems hostname (last_build h b) f D R) in S.
  unfold list_envs_text. rewrite bind_eq.
  assert (Q : q_ekp other_re systems hostname envs (last_build h b) f =
    Ok (Ekp (last_build h b) s (by_length (map fst E)) (by_length (flat_map snd E)) None)).
  { unfold q_ekp. rewrite S. cbn [rbind]. rewrite (new_ekp_eq _ envs s E ED). apply has_duplicates_NoDup in N2. now rewrite N2. }
  destruct (i_ekp_ok _ _ _ _ _ _ _ I) as [(k & k0 & A & B & C & _)|(e & _ & B & _)]; [|rewrite Q in B; discriminate B].
  rewrite Q in B. injection B as <-.
  assert (K : e_system k = s /\ e_names k = by_length (map fst E)).
  { destruct C as [->|(n & C)]; [split; reflexivity|]. rewrite qualified_eq in C by reflexivity.
    destruct (matched_env other_re envs _) in C; [|discriminate C]. injection C as _ <-. split; reflexivity. }
  destruct K as (KS & KN).
  destruct (envs_msg k E s rel ED N1 N2 PE US UR KS KN) as (names & blocks & t & X1 & X2 & X3 & X4).
  exists names, blocks, t. split; [exact X1|]. split; [exact X2|]. split; [|exact X4].
  destruct (le_ekp other_re systems hostname envs p) as [r p']. cbn [fst] in A. subst r. cbn [of_res]. unfold of_res. rewrite X3. reflexivity.
Qed.

(** No list without a system, or with an alias listed twice. *)
Theorem envs_list_fails b f h rel e :
  NoDup (map fst systems) -> readable_keys other_re systems hostname ->
  system_of other_re systems hostname (last_build h b) f (Err e) ->
  fst (list_envs_text other_re systems hostname envs rel (lafter other_re systems hostname envs h (new_loadenv b f))) = Err e.
Proof.
  intros D R S.
  pose proof (lafter_ok other_re systems hostname envs f h b _ (linv_new other_re systems hostname envs b f)) as I.
  set (p := lafter other_re systems hostname envs h (new_loadenv b f)) in *. clearbody p.
  apply (q_system_err other_re systems hostname (last_build h b) f D R) in S.
  unfold list_envs_text. rewrite bind_eq.
  assert (Q : q_ekp other_re systems hostname envs (last_build h b) f = Err e) by (unfold q_ekp; now rewrite S).
  destruct (i_ekp_ok _ _ _ _ _ _ _ I) as [(k & k0 & _ & B & _)|(e' & A & B & _)]; rewrite Q in B; [discriminate B|].
  injection B as <-. destruct (le_ekp other_re systems hostname envs p) as [r p']. cbn [fst] in A. now subst r.
Qed.
Theorem envs_list_duplicate b f h s E rel :
  NoDup (map fst systems) -> readable_keys other_re systems hostname ->
  system_of other_re systems hostname (last_build h b) f (Ok (Some s)) ->
  env_describes envs s E -> ~ NoDup (flat_map snd E) ->
  fst (list_envs_text other_re systems hostname envs rel (lafter other_re systems hostname envs h (new_loadenv b f))) = Err SystemExit.
Proof.
  intros D R S ED N2.
  pose proof (lafter_ok other_re systems hostname envs f h b _ (linv_new other_re systems hostname envs b f)) as I.
  set (p := lafter other_re systems hostname envs h (new_loadenv b f)) in *. clearbody p.
  apply (q_system_of other_re systems hostname (last_build h b) f D R) in S.
  unfold list_envs_text. rewrite bind_eq.
  assert (Q : q_ekp other_re systems hostname envs (last_build h b) f = Err SystemExit).
  { unfold q_ekp. rewrite S. cbn [rbind]. rewrite (new_ekp_eq _ envs s E ED).
    destruct (has_duplicates (flat_map snd E)) eqn:H; [reflexivity|]. elim N2. now apply has_duplicates_NoDup. }
  destruct (i_ekp_ok _ _ _ _ _ _ _ I) as [(k & k0 & _ & B & _)|(e' & A & B & _)]; rewrite Q in B; [discriminate B|].
  injection B as <-. destruct (le_ekp other_re systems hostname envs p) as [r p']. cbn [fst] in A. now subst r.
Qed.
End Envs.

(** ** Flags *)
Definition flag_text (name : str) (many : bool) (options : list str) : list str :=
  [$"  - " ++ name;
   $"    * Option" ++ (match options with [] => [] | _ => $"s" end) ++ $" (" ++ (if many then select_many else select_one) ++ $"):"] ++
  match options with [] => [] | o :: os => ($"      - " ++ o ++ $" (default)") :: map (fun o => $"      - " ++ o) os end.
Lemma flag_text_block n m l : map more_line (flag_text n m l) = flag_block n m l.
Proof. unfold flag_text, flag_block. rewrite map_app. destruct l as [|o l]; [reflexivity|]. cbn [map]. rewrite map_map. reflexivity. Qed.
Lemma options_loop_later l : forall idx acc, options_loop (Datatypes.S idx) l acc = acc ++ ended (map (fun o => $"      - " ++ o) l).
Proof.
  induction l as [|o l IH]; intros idx acc; cbn [options_loop]; [now rewrite app_nil_r|].
  rewrite IH. unfold ended. cbn [map concat app]. now rewrite <- !app_assoc.
Qed.
Lemma flags_loop_lines flags T : describes flags T -> forall T' acc, incl T' T ->
  flags_loop flags (map fst T') acc = Ok (acc ++ ended (flat_map (fun r : row => flag_text (fst r) (fst (snd r)) (snd (snd r))) T')).
Proof.
  intros D. induction T' as [|(n, (m, l)) T' IH]; intros acc I.
  - cbn. now rewrite app_nil_r.
  - cbn [map fst flags_loop]. rewrite (flag_options_row flags T D n m l) by (apply I; now left). cbn [rbind].
    rewrite IH by (intros r J; apply I; now right). f_equal. cbn [flat_map fst snd]. rewrite ended_app.
    rewrite (app_assoc acc (ended (flag_text n m l))). apply (f_equal (fun z => z ++ ended (flat_map (fun r : row => flag_text (fst r) (fst (snd r)) (snd (snd r))) T'))).
    unfold flag_text. rewrite ended_app. unfold ended at 1. cbn [map concat].
    destruct l as [|o l]; cbn [options_loop length].
    + change (0 <? 0) with false. cbv iota. unfold ended. cbn [map concat]. rewrite <- !app_assoc. now rewrite !app_nil_r.
    + change (0 <? Datatypes.S (length l)) with true. cbv iota. rewrite options_loop_later.
      unfold ended. cbn [map concat]. rewrite <- !app_assoc. cbn [app]. now rewrite <- ?app_assoc.
Qed.
Theorem flags_list_ok other_re systems hostname envs flags specs gen b f h T file :
  describes flags T -> unbroken file -> (forall n m l, In (n, (m, l)) T -> unbroken n /\ Forall unbroken l) ->
  exists t, fst (list_flags_text flags file (gafter other_re systems hostname envs flags specs gen h (new_genconfig b f))) = Ok t /\
    boxed (flags_listing file T) t.
Proof.
  intros D UF PT. destruct D as ((fd & Fd & Kd) & G).
  pose proof (gafter_weak other_re systems hostname envs flags specs gen fd Fd b f h _ (gi_w _ _ _ _ _ _ _ _ _ _ (ginv_new other_re systems hostname envs flags specs fd b f))) as W.
  set (p := gafter other_re systems hostname envs flags specs gen h (new_genconfig b f)) in *. clearbody p.
  unfold list_flags_text. rewrite bind_eq, (load_ckp_eq flags fd Fd).
  assert (K : exists k, g_ckp (with_ckp fd p) = Some k /\ c_flags k = dkeys fd).
  { unfold with_ckp. destruct (g_ckp p) as [k|] eqn:E.
    - exists k. split; [exact E|]. destruct (w_ckp _ _ _ _ _ _ _ _ _ _ W k E) as (n & X). exact (k_flags _ _ _ _ X).
    - eexists. split; reflexivity. }
  destruct K as (k & E & C). cbv [bind get of_res]. rewrite E. cbv beta iota. unfold supported_flags_msg. rewrite C, Kd.
  rewrite (flags_loop_lines flags T (conj (ex_intro _ fd (conj Fd Kd)) G) T) by apply incl_refl. cbn [rbind]. eexists. split; [reflexivity|].
  unfold flags_listing.
  match goal with |- boxed ?a (get_formatted_msg ?m ?k ?e) =>
    replace a with (heading_lines k [m] ++ map more_line ([[]; $"- Supported Flags Are:"] ++
      flat_map (fun r : row => flag_text (fst r) (fst (snd r)) (snd (snd r))) T ++ [[]; $"See " ++ file ++ $" for details."])) end.
  2: { rewrite !map_app. rewrite !flat_map_concat_map, concat_map, map_map.
       rewrite (map_ext (fun x : row => map more_line (flag_text (fst x) (fst (snd x)) (snd (snd x)))) _ (fun r => flag_text_block _ _ _)). reflexivity. }
  apply formatted_boxed.
  - apply lo_last; [discriminate|lone].
  - set (B := flat_map (fun r : row => flag_text (fst r) (fst (snd r)) (snd (snd r))) T).
    assert (UB : Forall unbroken B).
    { apply Forall_forall. intros x I. apply in_flat_map in I as ((n, (m, l)) & I & J). cbn [fst snd] in J.
      destruct (PT _ _ _ I) as (U & V). unfold flag_text in J. apply in_app_iff in J as [J|J].
      - destruct J as [<-|[<-|[]]]; [lits|]. lits. destruct l; [|lits]; destruct m; lone.
      - destruct l as [|o l]; [destruct J|]. inversion V; subst. destruct J as [<-|J].
        + lits. apply Forall_app. split; [assumption|lone].
        + apply in_map_iff in J as (y & <- & J). pose proof (proj1 (Forall_forall _ _) H2 y J). lits. }
    match goal with |- lines_of ?s _ =>
      replace s with (ended ([[]; $"- Supported Flags Are:"] ++ B ++ [[]]) ++ ($"See " ++ file ++ $" for details.")) end.
    2: { rewrite !ended_app. unfold ended at 1 3. cbn [map concat]. rewrite <- !app_assoc. cbn [app]. reflexivity. }
    replace ([[]; $"- Supported Flags Are:"] ++ B ++ [[]; $"See " ++ file ++ $" for details."]) with
      (([[]; $"- Supported Flags Are:"] ++ B ++ [[]]) ++ [$"See " ++ file ++ $" for details."]) by (rewrite <- !app_assoc; reflexivity).
    apply lines_ended.
    + apply Forall_app. split; [|apply Forall_app; split; [exact UB|]].
      * constructor; [constructor|]. constructor; [lone|constructor].
      * constructor; constructor.
    + apply lo_last; [discriminate|]. lits. apply Forall_app. split; [exact UF|lone].
  - vm_compute. intros HH. repeat (destruct HH as [HH|HH]; [discriminate|]). exact HH.
Qed.

(** ** Configurations *)
Theorem configs_list_ok other_re systems hostname specs b f s file :
  NoDup (map fst systems) -> readable_keys other_re systems hostname ->
  system_of other_re systems hostname b f (Ok (Some s)) -> unbroken file -> Forall unbroken specs ->
  exists l t, fst (list_configs_text other_re systems hostname specs file (new_genconfig b f)) = Ok t /\
    kept (fun x => exists y, x = s ++ y) specs l /\ boxed (configs_listing file l) t.
Proof.
  intros D R S UF US.
  destruct (list_answer other_re systems hostname (fun _ => Err KeyError) (fun _ => Err KeyError) specs (fun _ => Err KeyError) [] b f s D R S) as (l & A & K).
  exists l. cbn [gexec] in A. unfold list_configs_text. rewrite bind_eq in A. rewrite bind_eq.
  destruct (list_configs other_re systems hostname specs (new_genconfig b f)) as [[l'|e] p']; cbv beta iota zeta delta [fst ret] in A; [|discriminate A].
  injection A as <-. eexists. split; [reflexivity|]. split; [exact K|].
  set (m := $"Please select one of the following complete configurations from").
  assert (UL : Forall unbroken l').
  { clear -US K. revert US. induction K; intros US; [constructor| |]; inversion US; subst; auto. }
  assert (L : lines_of (m ++ newline ++ file ++ newline ++ newline) [m; file; []]).
  { apply lines_cons; [unfold m; lone|]. apply lines_cons; [exact UF|]. change newline with ([] ++ newline ++ []) at 1.
    apply lines_cons; [constructor|constructor]. }
  assert (E : lines_of newline [[]]).
  { change newline with ([] ++ newline ++ []) at 1. apply lines_cons; constructor. }
  pose proof (list_boxed _ l' $"INFO" newline _ _ L E UL) as B.
  apply B. vm_compute. intros HH. repeat (destruct HH as [HH|HH]; [discriminate|]). exact HH.
Qed.
Theorem configs_list_fails other_re systems hostname specs b f e file :
  NoDup (map fst systems) -> readable_keys other_re systems hostname ->
  system_of other_re systems hostname b f (Err e) ->
  fst (list_configs_text other_re systems hostname specs file (new_genconfig b f)) = Err e.
Proof.
  intros D R S. apply (q_system_err other_re systems hostname b f D R) in S. unfold list_configs_text. rewrite bind_eq.
  destruct (list_ok other_re systems hostname (fun _ => Err KeyError) (fun _ => Err KeyError) specs [] b f _
    (ginv_new other_re systems hostname (fun _ => Err KeyError) (fun _ => Err KeyError) specs [] b f)) as (p' & E & _).
  rewrite E, S. reflexivity.
Qed.
