(** * What the messages of the errors say: values, flags, options. *)
From Coq Require Import String NArith List Bool Arith Lia.
Import ListNotations.
From Verif Require Import PyBase PyFacts EnvVar EnvProofs Regex Keyword DetSys EnvKeyword LoadEnv Messages Errors SpecText SpecKeyword KeywordText RegexProofs
  KeywordProofs FlagsProofs FlagsProofs2 SpecFlags SpecSystem SpecMessages SpecLoadEnv SpecErrors MsgProofs MsgProofs2
  SearchProofs SystemProofs EnvNameProofs LoadEnvProofs ErrorProofs.
Local Open Scope string_scope.
Local Open Scope list_scope.

Lemma error_kind : ~ In 10%N ERROR.
Proof. vm_compute. intros H. repeat (destruct H as [H|H]; [discriminate|]). exact H. Qed.
Lemma says_list {A} e msg items extras ls es : lines_of msg ls -> lines_of extras es -> Forall unbroken items ->
  says (A := A) (fails e (get_msg_for_list msg items ERROR extras)) e (error_list ls items es).
Proof. intros L X U. eexists. split; [reflexivity|]. apply list_boxed; auto. apply error_kind. Qed.
Lemma says_text {A} e msg extras ls es : lines_of msg ls -> lines_of extras es ->
  says (A := A) (fails e (get_formatted_msg msg ERROR extras)) e (error_text ls es).
Proof. intros L X. eexists. split; [reflexivity|]. apply formatted_boxed; auto. apply error_kind. Qed.

Lemma count_app x l l' : count x (l ++ l') = count x l + count x l'.
Proof. unfold count. now rewrite filter_app, app_length. Qed.
Lemma count_same x l : count x (x :: l) = S (count x l).
Proof. unfold count. cbn [filter]. now rewrite str_eqb_refl. Qed.
Lemma count_two x l : 1 < count x l <-> exists a b c, l = a ++ x :: b ++ x :: c.
Proof.
  split.
  - intros H. assert (I : In x l) by (apply count_in; lia). apply List.in_split in I as (a & b & ->).
    destruct (in_dec (list_eq_dec N.eq_dec) x a) as [J|J].
    + apply List.in_split in J as (a1 & a2 & ->). exists a1, a2, b. now rewrite <- app_assoc.
    + assert (J' : In x b).
      { apply count_in. rewrite count_app, count_same in H. assert (count x a = 0); [|lia].
        destruct (count x a) eqn:E; [reflexivity|]. exfalso. apply J. apply count_in. lia. }
      apply List.in_split in J' as (b1 & b2 & ->). exists a, b1, b2. reflexivity.
  - intros (a & b & c & ->). rewrite count_app, count_same, count_app, count_same. lia.
Qed.
Lemma kept_of {f : str -> bool} {P : str -> Prop} {l} : (forall w, In w l -> f w = true <-> P w) -> kept P l (filter f l).
Proof.
  induction l as [|x l IH]; cbn; intros H; [constructor|]. pose proof (H x (or_introl eq_refl)) as Hx.
  destruct (f x) eqn:E; [apply kept_yes; [now apply Hx|]|apply kept_no; [rewrite <- Hx; congruence|]]; apply IH; auto.
Qed.
Lemma kept_fun (P : str -> Prop) l l1 l2 : kept P l l1 -> kept P l l2 -> l1 = l2.
Proof.
  intros K. revert l2. induction K as [|x l l1 H K IH|x l l1 H K IH]; intros l2 K2; inversion K2; subst; try tauto; auto.
  f_equal. auto.
Qed.
Lemma kept_in (P : str -> Prop) l l' x : kept P l l' -> (In x l' <-> In x l /\ P x).
Proof.
  induction 1 as [|y l l' H K IH|y l l' H K IH]; cbn; [tauto|rewrite IH|rewrite IH]; (split; [intros J|]).
  - destruct J as [J|J]; [subst; auto|tauto].
  - tauto.
  - tauto.
  - intros ([J|J] & Q); [subst; tauto|auto].
Qed.

Section Dups.
Variable set_list : list str -> list str.
Hypothesis SO : set_order set_list.
Notation dups := (duplicates set_list).
Lemma set_same' l x : In x (set_list l) <-> In x l.
Proof. apply SO. Qed.
Lemma dups_repeated l : repeated l (dups l).
Proof.
  split; [apply NoDup_filter, SO|]. intros x. unfold duplicates. rewrite filter_In, (proj2 (SO l)), Nat.ltb_lt, count_two.
  split; [tauto|]. intros H. split; [|exact H]. destruct H as (a & b & c & ->). apply in_or_app. right. now left.
Qed.
Lemma dups_nil l : dups l = [] <-> NoDup l.
Proof. rewrite (duplicates_none set_list set_same'). apply has_duplicates_NoDup. Qed.
Lemma dups_unbroken l : Forall unbroken l -> Forall unbroken (dups l).
Proof.
  intros U. apply Forall_forall. intros x I. apply filter_In in I as (I & _). apply (proj1 (set_same' _ _)) in I. exact (proj1 (Forall_forall _ _) U x I).
Qed.
Lemma filter_unbroken (f : str -> bool) l : Forall unbroken l -> Forall unbroken (filter f l).
Proof. intros U. apply Forall_forall. intros x I. apply filter_In in I as (I & _). exact (proj1 (Forall_forall _ _) U x I). Qed.

Lemma bad_value_true v : bad_value v = true <-> two_words v.
Proof.
  unfold bad_value, two_words. rewrite andb_true_iff, orb_true_iff, negb_true_iff, !char_mem_In, <- not_true_iff_false, str_mem_In.
  unfold select_one, select_many. cbn [In]. split; [intros (A & B)|intros (A & B & C)]; (split; [exact A|]).
  - split; intros H; apply B; rewrite H; auto.
  - intros [H|[H|[]]]; auto.
Qed.

Section Keyword.
Variable file : str.
Variable conf : str -> res (dict (option str)).

Lemma values_report section key d v l :
  conf section = Ok d -> dget key d = Some v -> tidy_text (text_of v) -> lists (text_of v) l ->
  unbroken file -> unbroken section -> unbroken key -> Forall unbroken l ->
  (acceptable d l /\ e_get_values set_list file conf section key = EOk l) \/
  (~ acceptable d l /\ exists lines, value_report file section key d l lines /\
     says (e_get_values set_list file conf section key) SystemExit lines).
Proof.
  intros C G T L UF US UK U. unfold e_get_values. rewrite C. cbn [silent ebind]. rewrite G. fold (text_of v).
  apply tidy_iff in T. rewrite (tidy_values _ T). apply lists_iff in L. subst l. set (l := listed (text_of v)) in *.
  pose proof (dups_repeated l) as RP. pose proof (dups_nil l) as DN. pose proof (dups_unbroken l U) as DU.
  destruct (dups l) as [|x xs] eqn:E1.
  - assert (ND : NoDup l) by now apply DN. clear RP DN DU.
    assert (K1 : kept two_words l (filter bad_value l)) by (apply kept_of; intros w _; apply bad_value_true).
    pose proof (filter_unbroken bad_value l U) as U1.
    destruct (filter bad_value l) as [|y ys] eqn:E2.
    + assert (K2 : kept (fun x => In x (dkeys d)) l (filter (fun x => str_mem x (dkeys d)) l)) by (apply kept_of; intros w _; apply str_mem_In).
      pose proof (filter_unbroken (fun x => str_mem x (dkeys d)) l U) as U2.
      destruct (filter (fun x => str_mem x (dkeys d)) l) as [|z zs] eqn:E3.
      * left. split; [|reflexivity]. split; [exact ND|]. split; intros w I.
        -- apply bad_value_false. destruct (bad_value w) eqn:B; [|reflexivity]. assert (J : In w (filter bad_value l)) by (apply filter_In; auto).
           rewrite E2 in J. destruct J.
        -- intros J. assert (J' : In w (filter (fun x => str_mem x (dkeys d)) l)) by (apply filter_In; split; [auto|now apply str_mem_In]).
           rewrite E3 in J'. destruct J'.
      * right. split.
        { intros (_ & _ & A). assert (J : In z (filter (fun x => str_mem x (dkeys d)) l)) by (rewrite E3; now left).
          apply filter_In in J as (J & M). apply str_mem_In in M. exact (A z J M). }
        eexists. split; [apply vr_key; [exact ND|exact K1|exact K2|discriminate]|]. apply says_list; [|constructor|exact U2].
        apply lo_last; [discriminate|]. lits. apply Forall_app. split; [exact US|lone].
    + right. split.
      { intros (_ & A & _). assert (J : In y (filter bad_value l)) by (rewrite E2; now left).
        apply filter_In in J as (J & M). apply A, bad_value_false in J. congruence. }
      eexists. split; [apply vr_delimiter; [exact ND|exact K1|discriminate]|]. cbv zeta.
      destruct ys as [|y' ys]; apply says_list; auto; try constructor; try discriminate; lone.
  - right. split; [intros (A & _); apply DN in A; discriminate|].
    eexists. split; [apply vr_twice; [exact RP|discriminate]|]. apply says_list; [|constructor|exact DU].
    apply lo_last; [discriminate|]. lits. apply Forall_app. split; [exact UF|]. lits. apply Forall_app. split; [exact US|]. lits.
    apply Forall_app. split; [exact UK|lone].
Qed.

Lemma plain_ok {A} (r : eres A) a : plain r = Ok a -> r = EOk a.
Proof. destruct r; cbn; congruence. Qed.
Lemma e_values_ok section key l : get_values conf section key = Ok l -> e_get_values set_list file conf section key = EOk l.
Proof. intros H. apply plain_ok. now rewrite (erase_values set_list set_same'). Qed.
Lemma flag_type_says flag t o : get_values conf $"configure-flags" flag = Ok (t :: o) -> t <> select_one -> t <> select_many ->
  unbroken file -> unbroken flag ->
  says (e_flag_options set_list file conf flag) ValueError (flag_type_report file flag).
Proof.
  intros G N1 N2 UF UG. unfold e_flag_options. change flags_section with $"configure-flags". rewrite (e_values_ok _ _ _ G). cbn [ebind].
  destruct (str_mem t [$"SELECT_ONE"; $"SELECT_MANY"]) eqn:M.
  { apply str_mem_In in M as [M|[M|[]]]; exfalso; [now apply N1|now apply N2]. }
  apply says_text.
  - replace ($"The options for the '" ++ flag ++ $"' flag must begin with either" ++ newline ++ $"'SELECT_ONE' or 'SELECT_MANY'.  For example:")
      with (($"The options for the '" ++ flag ++ $"' flag must begin with either") ++ newline ++ $"'SELECT_ONE' or 'SELECT_MANY'.  For example:") by now rewrite <- !app_assoc.
    apply lines_cons; [lits; apply Forall_app; split; [exact UG|lone]|]. apply lo_last; [discriminate|lone].
  - change (newline ++ $"    " ++ flag ++ $":  SELECT_ONE" ++ newline ++ $"      option_1" ++ newline ++ $"      option_2" ++ newline ++
      newline ++ $"Please modify your config file accordingly:" ++ newline ++ $"  '" ++ file ++ $"'.")
     with ([] ++ newline ++ $"    " ++ flag ++ $":  SELECT_ONE" ++ newline ++ $"      option_1" ++ newline ++ $"      option_2" ++ newline ++
      [] ++ newline ++ $"Please modify your config file accordingly:" ++ newline ++ $"  '" ++ file ++ $"'.").
    apply lines_cons; [constructor|].
    replace ($"    " ++ flag ++ $":  SELECT_ONE" ++ newline ++ $"      option_1" ++ newline ++ $"      option_2" ++ newline ++
      [] ++ newline ++ $"Please modify your config file accordingly:" ++ newline ++ $"  '" ++ file ++ $"'.")
     with (($"    " ++ flag ++ $":  SELECT_ONE") ++ newline ++ $"      option_1" ++ newline ++ $"      option_2" ++ newline ++
      [] ++ newline ++ $"Please modify your config file accordingly:" ++ newline ++ $"  '" ++ file ++ $"'.") by now rewrite <- !app_assoc.
    apply lines_cons; [lits; apply Forall_app; split; [exact UG|lone]|].
    apply lines_cons; [lone|]. apply lines_cons; [lone|]. apply lines_cons; [constructor|]. apply lines_cons; [lone|].
    apply lo_last; [discriminate|]. lits. apply Forall_app. split; [exact UF|lone].
Qed.

(** What [selected_options] computes. *)
Definition x_sel (fl : list str) (b : str) : eres (dict selection) :=
  ebind (e_all_options set_list file conf fl) (fun l => ebind (e_assert_unique set_list file l) (fun _ =>
    e_select_all set_list file conf (words b) fl [])).
Lemma x_sel_plain fl b : plain (x_sel fl b) = p_sel conf fl b.
Proof.
  unfold x_sel, p_sel. rewrite <- (erase_all_options set_list set_same' file conf fl).
  destruct (e_all_options set_list file conf fl) as [l|e t]; cbn [ebind plain rbind]; [|reflexivity].
  pose proof (erase_unique set_list set_same' file l) as U. destruct (e_assert_unique set_list file l) as [[]|e t]; cbn [plain ebind] in U |- *.
  - destruct (has_duplicates l); [discriminate|]. apply (erase_select_all set_list set_same').
  - destruct (has_duplicates l); [injection U as ->; reflexivity|discriminate].
Qed.
Lemma string_says fl b p e lines : kinv conf fl b p -> says (x_sel fl b) e lines ->
  says (fst (e_selected_options set_list file conf p)) e lines /\ says (fst (e_selected_options_str set_list file conf p)) e lines.
Proof.
  intros K (t & E & B).
  assert (P : p_sel conf fl b = Err e) by (rewrite <- x_sel_plain, E; reflexivity).
  assert (C1 : c_selected p = None). { destruct (c_selected p) as [d|] eqn:S; [|reflexivity]. apply (k_sel _ _ _ _ K) in S. congruence. }
  assert (C2 : c_string p = None). { destruct (c_string p) as [d|] eqn:S; [|reflexivity]. apply (k_str _ _ _ _ K) in S as (d' & S & _). congruence. }
  assert (X : fst (e_selected_options set_list file conf p) = EErr e (Some t)).
  { unfold e_selected_options, e_parse_selected_options, mbind, mget. cbn [fst]. rewrite C1.
    assert (L : exists p', e_options_list set_list file conf p = (e_all_options set_list file conf fl, p')).
    { unfold e_options_list, mbind, mget, mret, mof. destruct (c_options p) as [l|] eqn:S.
      - exists p. apply (k_opt _ _ _ _ K) in S. f_equal. symmetry. apply plain_ok. now rewrite (erase_all_options set_list set_same').
      - rewrite (k_flags _ _ _ _ K). destruct (e_all_options set_list file conf fl); eexists; reflexivity. }
    destruct L as (p' & L). rewrite L. unfold x_sel in E. destruct (e_all_options set_list file conf fl) as [l|e' t']; cbn [ebind] in E; [|exact E].
    unfold mof. destruct (e_assert_unique set_list file l) as [u|e' t']; cbn [ebind] in E; [|exact E].
    rewrite (k_build _ _ _ _ K), (k_flags _ _ _ _ K). change (split_on 95%N b) with (words b). rewrite E. reflexivity. }
  split; [exists t; split; [exact X|exact B]|]. exists t. split; [|exact B].
  unfold e_selected_options_str, mbind, mget. rewrite C2. destruct (e_selected_options set_list file conf p) as [r q]. cbn [fst] in X. rewrite X. reflexivity.
Qed.
Lemma flag_first_wrong fs1 f fs2 b e lines :
  (forall g, In g fs1 -> exists r, flag_options conf g = Ok r) -> says (e_flag_options set_list file conf f) e lines ->
  says (x_sel (fs1 ++ f :: fs2) b) e lines.
Proof.
  intros H (t & E & B). exists t. split; [|exact B]. unfold x_sel.
  assert (X : e_all_options set_list file conf (fs1 ++ f :: fs2) = EErr e (Some t)).
  { clear B. induction fs1 as [|g fs1 IH]; cbn [app e_all_options]; [rewrite E; reflexivity|].
    destruct (H g (or_introl eq_refl)) as (r & R).
    assert (R' : e_flag_options set_list file conf g = EOk r) by (apply plain_ok; now rewrite (erase_flag set_list set_same')).
    rewrite R'. cbn [ebind]. rewrite IH; [reflexivity|]. intros; apply H; now right. }
  rewrite X. reflexivity.
Qed.
Lemma unique_says l : ~ NoDup l -> unbroken file -> Forall unbroken l ->
  exists items, repeated l items /\ says (e_assert_unique set_list file l) SystemExit (options_twice_report file items).
Proof.
  intros N UF U. exists (duplicates set_list l). split; [apply dups_repeated|]. unfold e_assert_unique.
  pose proof (dups_nil l) as DN. pose proof (dups_unbroken l U) as DU. destruct (duplicates set_list l) as [|x xs]; [exfalso; tauto|]. cbv zeta.
  assert (H : lines_of ($"The following options appear for multiple flags in" ++ newline ++ $"'" ++ file ++ $"':")
                [$"The following options appear for multiple flags in"; $"'" ++ file ++ $"':"]).
  { apply lines_cons; [lone|]. apply lo_last; [discriminate|]. lits. apply Forall_app. split; [exact UF|lone]. }
  destruct xs as [|y xs]; apply says_list; auto.
  - apply (lines_cons ($"Please change this to be unique for each flag") $"in which they appear."); [lone|]. apply lo_last; [discriminate|lone].
  - apply (lines_cons ($"Please change these to be unique for each flag") $"in which it appears."); [lone|]. apply lo_last; [discriminate|lone].
Qed.

Section Table.
Variable T : list row.
Hypothesis HD : describes conf T.
Hypothesis UF : unbroken file.
Hypothesis UT : forall f m o, In (f, (m, o)) T -> unbroken f /\ Forall unbroken o.
Lemma options_unbroken : Forall unbroken (flat_map options_of T).
Proof.
  apply Forall_forall. intros x I. apply in_flat_map in I as ((f, (m, o)) & I & J). destruct (UT _ _ _ I) as (_ & U). exact (proj1 (Forall_forall _ _) U x J).
Qed.
Lemma all_options_ok : e_all_options set_list file conf (map fst T) = EOk (flat_map options_of T).
Proof. apply plain_ok. rewrite (erase_all_options set_list set_same'). apply (all_options_spec conf T HD T (incl_refl T)). Qed.
Lemma twice_says b : ~ NoDup (flat_map options_of T) ->
  exists items, repeated (flat_map options_of T) items /\ says (x_sel (map fst T) b) SystemExit (options_twice_report file items).
Proof.
  intros N. destruct (unique_says _ N UF options_unbroken) as (items & R & t & E & B). exists items. split; [exact R|]. exists t. split; [|exact B].
  unfold x_sel. rewrite all_options_ok. cbn [ebind]. rewrite E. reflexivity.
Qed.
Hypothesis HV : valid_table T.
Lemma select_conflict b f opts chosen : In (f, (false, opts)) T -> kept (named b) opts chosen -> 2 <= length chosen ->
  says (e_select set_list file conf (words b) f) ValueError (conflict_report f chosen).
Proof.
  intros I K L. destruct (UT _ _ _ I) as (Uf & Uo). unfold e_select.
  assert (F : e_flag_options set_list file conf f = EOk (opts, select_one)).
  { apply plain_ok. rewrite (erase_flag set_list set_same'). apply (flag_options_row conf T HD f false opts I). }
  rewrite F. cbn [ebind].
  assert (C : filter (fun o => str_mem o (words b)) opts = chosen).
  { apply (kept_fun (named b) opts); [|exact K]. apply kept_of. intros w _. rewrite str_mem_In, named_iff. reflexivity. }
  pose proof (filter_unbroken (fun o => str_mem o (words b)) opts Uo) as UC. rewrite C in *. clear C K.
  destruct (Nat.ltb_spec 1 (length chosen)); [|lia]. change (str_eqb select_one $"SELECT_ONE" && true) with true. cbv iota.
  apply says_list; [|constructor|exact UC]. apply lo_last; [discriminate|]. lits. apply Forall_app. split; [exact Uf|lone].
Qed.
Lemma conflict_first b (T' : list row) : conflict b T' -> (forall r, In r T' -> NoDup (options_of r)) ->
  exists f chosen, first_conflict b T' f chosen.
Proof.
  induction T' as [|(f, (m, o)) T' IH]; intros C ND.
  { destruct C as (f & opts & x & y & [] & _). }
  assert (K : kept (named b) o (filter (fun w => str_mem w (words b)) o)) by (apply kept_of; intros w _; rewrite str_mem_In, named_iff; reflexivity).
  assert (KI := fun x => kept_in _ _ _ x K).
  destruct m eqn:M; [|destruct (le_lt_dec 2 (length (filter (fun w => str_mem w (words b)) o))) as [L|L]].
  - destruct IH as (g & ch & T1 & opts & T2 & -> & N & X).
    + destruct C as (g & opts & x & y & [E|I] & R); [discriminate E|]. exists g, opts, x, y. auto.
    + intros; apply ND; now right.
    + exists g, ch, ((f, (true, o)) :: T1), opts, T2. split; [reflexivity|]. split; [|exact X]. intros (h & os & x & y & [E|I] & R); [discriminate E|].
      apply N. exists h, os, x, y. auto.
  - exists f, (filter (fun w => str_mem w (words b)) o), [], o, T'. split; [reflexivity|]. split; [|split; [exact K|exact L]].
    intros (h & os & x & y & [] & R).
  - assert (NO : forall x y, In x o -> In y o -> named b x -> named b y -> x = y).
    { intros x y Ix Iy Nx Ny. assert (Jx := proj2 (KI x) (conj Ix Nx)). assert (Jy := proj2 (KI y) (conj Iy Ny)). clear -L Jx Jy.
      destruct (filter _ o) as [|z [|z' l]]; cbn in *; [tauto| |lia]. destruct Jx as [<-|[]], Jy as [<-|[]]. reflexivity. }
    destruct IH as (g & ch & T1 & opts & T2 & -> & N & X).
    + destruct C as (g & opts & x & y & [E|I] & D & I1 & I2 & N1 & N2); [injection E as <- <-; exfalso; apply D; now apply NO|]. exists g, opts, x, y. auto 8.
    + intros; apply ND; now right.
    + exists g, ch, ((f, (false, o)) :: T1), opts, T2. split; [reflexivity|]. split; [|exact X].
      intros (h & os & x & y & [E|I] & D & I1 & I2 & N1 & N2); [injection E as <- <-; apply D; now apply NO|].
      apply N. exists h, os, x, y. auto 8.
Qed.
Lemma first_conflict_conflict b (T' : list row) f chosen : (forall r, In r T' -> NoDup (options_of r)) -> first_conflict b T' f chosen -> conflict b T'.
Proof.
  intros ND (T1 & o & T2 & -> & _ & K & L). assert (KI := fun x => kept_in _ _ _ x K).
  assert (NO : NoDup o) by (apply (ND (f, (false, o))); apply in_or_app; right; now left).
  assert (NC : NoDup chosen). { clear -K NO. induction K as [|x l l' P K IH|x l l' P K IH]; auto; inversion NO; subst; auto. constructor; auto.
    intros I. apply (kept_in _ _ _ _ K) in I. tauto. }
  destruct chosen as [|x [|y ch]]; cbn in L; try lia. exists f, o, x, y. split; [apply in_or_app; right; now left|].
  split; [intros ->; inversion NC as [|? ? Q _]; apply Q; now left|].
  destruct (proj1 (KI x)) as (A & B); [now left|]. destruct (proj1 (KI y)) as (A' & B'); [right; now left|]. auto.
Qed.
Lemma conflict_says b f chosen : first_conflict b T f chosen ->
  says (x_sel (map fst T) b) ValueError (conflict_report f chosen).
Proof.
  intros (T1 & o & T2 & E & N & K & L). assert (I : In (f, (false, o)) T) by (rewrite E; apply in_or_app; right; now left).
  destruct (select_conflict b f o chosen I K L) as (t & X & B). exists t. split; [|exact B].
  unfold x_sel. rewrite all_options_ok. cbn [ebind]. unfold e_assert_unique. rewrite (proj2 (dups_nil _) (proj2 (proj2 HV))). cbn [ebind].
  rewrite E, map_app. cbn [map fst].
  assert (S : forall acc, exists acc', forall fl, e_select_all set_list file conf (words b) (map fst T1 ++ fl) acc = e_select_all set_list file conf (words b) fl acc').
  { assert (IN : incl T1 T) by (rewrite E; intros r J; apply in_or_app; now left). clear E. induction T1 as [|(g, (m, os)) T1 IH]; intros acc; [exists acc; reflexivity|].
    cbn [map fst app e_select_all]. assert (J : In (g, (m, os)) T) by (apply IN; now left).
    destruct (select_spec conf T HD b g m os J (proj1 (proj2 HV) _ J) (NoDup_row T HV _ J)) as [(s & S1 & _)|(_ & -> & x & y & D)].
    - assert (S2 : e_select set_list file conf (words b) g = EOk s) by (apply plain_ok; now rewrite (erase_select set_list set_same')).
      rewrite S2. cbn [ebind]. apply IH; [|intros r R; apply IN; now right]. intros (h & opts & x & y & R & Z). apply N. exists h, opts, x, y. split; [now right|exact Z].
    - exfalso. apply N. exists g, os, x, y. split; [now left|exact D]. }
  destruct (S []) as (acc' & S'). rewrite S'. cbn [e_select_all]. rewrite X. reflexivity.
Qed.
End Table.
End Keyword.
End Dups.
