(** * The lists the programs print. *)
From Coq Require Import String NArith List Bool Arith Lia Sorted Permutation.
Import ListNotations.
From Verif Require Import PyBase PyFacts EnvVar EnvProofs Trace Regex RegexProofs Keyword KeywordText KeywordProofs FlagsProofs EnvNameProofs SpecText SpecKeyword
  SpecFlags FileProofs DetSys EnvKeyword LoadEnv SpecLoadEnv Messages SpecMessages MsgProofs.

Lemma Forall2_len {A B} (R : A -> B -> Prop) l l' : Forall2 R l l' -> length l = length l'.
Proof. induction 1; cbn; congruence. Qed.

(** ** A message determines its lines *)
Lemma feed_inj (a b r r' : str) : ~ In 10%N a -> ~ In 10%N b -> a ++ 10%N :: r = b ++ 10%N :: r' -> a = b /\ r = r'.
Proof.
  revert b. induction a as [|x a IH]; intros [|y b] A B E; cbn [app] in E.
  - now injection E as ->.
  - injection E as <- _. elim B. now left.
  - injection E as -> _. elim A. now left.
  - injection E as -> E. destruct (IH b) as (-> & ->); auto.
    + intros I. apply A. now right.
    + intros I. apply B. now right.
Qed.
Lemma ended_inj l : Forall (fun x => ~ In 10%N x) l -> forall l', Forall (fun x => ~ In 10%N x) l' -> ended l = ended l' -> l = l'.
Proof.
  unfold ended. induction 1 as [|x l X F IH]; intros [|y l'] F' E; cbn [map concat] in E.
  - reflexivity.
  - exfalso. rewrite <- app_assoc in E. now destruct y.
  - exfalso. rewrite <- app_assoc in E. now destruct x.
  - rewrite <- !app_assoc in E. change (newline ++ ?z) with (10%N :: z) in E. inversion F' as [|y' l'' Y F'']; subst.
    apply feed_inj in E as (-> & E); auto. f_equal. now apply IH.
Qed.
Lemma end_trimmed_det s t t' : end_trimmed s t -> end_trimmed s t' -> t = t'.
Proof.
  intros (w & E & W & N) (w' & E' & W' & N'). subst s.
  assert (K : forall (a b : str) (x y : str), Forall space x -> Forall space y -> not_first space (rev a) -> not_first space (rev b) ->
    length a <= length b -> a ++ x = b ++ y -> a = b).
  { clear. induction a as [|c a IH]; intros [|d b] x y X Y A B L E; cbn [app length] in *; auto; try lia.
    - exfalso. subst x. apply Forall_rev in X. change (d :: b ++ y) with ((d :: b) ++ y) in X. rewrite rev_app_distr in X.
      apply Forall_app in X as [_ X]. destruct (rev (d :: b)) as [|e r] eqn:R.
      { apply (f_equal (@length _)) in R. rewrite rev_length in R. discriminate. }
      cbn [not_first] in B. now apply Forall_inv in X.
    - injection E as -> E. f_equal. apply (IH b x y X Y); auto; [| |lia].
      + cbn [rev] in A. destruct (rev a); [exact I|exact A].
      + cbn [rev] in B. destruct (rev b); [exact I|exact B]. }
  destruct (Nat.le_ge_cases (length t) (length t')) as [L|L].
  - exact (K t t' w w' W W' N N' L E').
  - symmetry. exact (K t' t w' w W' W N' N L (eq_sym E')).
Qed.
Lemma trimmed_in s t c : end_trimmed s t -> In c t -> In c s.
Proof. intros (w & -> & _) I. apply in_or_app. now left. Qed.
Lemma boxed_shown ls ls' t : Forall (fun x => ~ In 10%N x) ls -> Forall (fun x => ~ In 10%N x) ls' -> boxed ls t -> boxed ls' t ->
  exists shown, Forall2 end_trimmed ls shown /\ Forall2 end_trimmed ls' shown.
Proof.
  assert (K : forall l s, Forall (fun x => ~ In 10%N x) l -> Forall2 end_trimmed l s -> Forall (fun x => ~ In 10%N x) s).
  { intros l s F H. revert F. induction H as [|x y l s X H IH]; intros F; [constructor|]. inversion F; subst. constructor; [|now apply IH].
    intros I. apply (trimmed_in _ _ _ X) in I. contradiction. }
  assert (R : ~ In 10%N rule).
  { vm_compute. intros H. repeat (destruct H as [H|H]; [discriminate|]). exact H. }
  intros F F' (s & S & ->) (s' & S' & E). exists s. split; [exact S|]. apply ended_inj in E.
  - injection E as E. apply app_inj_tail in E as [-> _]. exact S'.
  - constructor; [intros []|]. constructor; [exact R|]. apply Forall_app. split; [exact (K _ _ F S)|now constructor].
  - constructor; [intros []|]. constructor; [exact R|]. apply Forall_app. split; [exact (K _ _ F' S')|now constructor].
Qed.

(** ** Lists of items *)
Lemma items_loop_lines items : forall acc, items_loop items acc = acc ++ ended (map (fun i => $"  - " ++ i) items).
Proof.
  induction items as [|i items IH]; intros acc; cbn [items_loop]; [now rewrite app_nil_r|].
  rewrite IH. unfold ended. cbn [map concat]. now rewrite <- !app_assoc.
Qed.
Lemma lit_unbroken s t : Forall (fun c => line_end c = false) s -> unbroken t -> unbroken (s ++ t).
Proof.
  intros S T. apply Forall_app. split; [|exact T]. apply Forall_forall. intros c I. apply line_end_false.
  exact (proj1 (Forall_forall _ _) S c I).
Qed.
Ltac lits := repeat (first [apply lit_unbroken; [repeat (constructor; [reflexivity|]); constructor|] | assumption]).
Lemma lit_alone s : Forall (fun c => line_end c = false) s -> unbroken s.
Proof. intros S. rewrite <- (app_nil_r s). apply lit_unbroken; [exact S|constructor]. Qed.
Ltac lone := apply lit_alone; repeat (constructor; [reflexivity|]); constructor.

Theorem list_boxed msg items kind extras ls es : lines_of msg ls -> lines_of extras es -> Forall unbroken items -> ~ In 10%N kind ->
  boxed (heading_lines kind ls ++ map item_line items ++ map more_line es) (get_msg_for_list msg items kind extras).
Proof.
  intros L E U K. unfold get_msg_for_list. rewrite items_loop_lines. cbn [app].
  replace (map item_line items ++ map more_line es) with (map more_line (map (fun i => $"  - " ++ i) items ++ es)).
  2: { rewrite map_app, map_map. reflexivity. }
  apply formatted_boxed; [exact L| |exact K]. apply lines_ended; [|exact E].
  apply Forall_forall. intros x I. apply in_map_iff in I as (i & <- & I). apply lit_unbroken; [repeat (constructor; [reflexivity|]); constructor|].
  exact (proj1 (Forall_forall _ _) U i I).
Qed.

Lemma heading_no_feed kind ls : ~ In 10%N kind -> Forall unbroken ls -> Forall (fun x => ~ In 10%N x) (heading_lines kind ls).
Proof.
  intros K F. assert (A : forall (a b : str), ~ In 10%N a -> ~ In 10%N b -> ~ In 10%N (a ++ b)) by (intros a b A B I; apply in_app_iff in I as [I|I]; auto).
  assert (N1 : ~ In 10%N $"|   ") by (vm_compute; intros H; repeat (destruct H as [H|H]; [discriminate|]); exact H).
  assert (N2 : ~ In 10%N $":  ") by (vm_compute; intros H; repeat (destruct H as [H|H]; [discriminate|]); exact H).
  assert (N3 : ~ In 10%N $"|           ") by (vm_compute; intros H; repeat (destruct H as [H|H]; [discriminate|]); exact H).
  destruct F as [|l ls U F]; [constructor|]. cbn [heading_lines]. constructor.
  - repeat (apply A; auto). now apply unbroken_no_feed.
  - apply Forall_forall. intros x I. apply in_map_iff in I as (y & <- & I). apply A; [exact N3|]. apply unbroken_no_feed.
    exact (proj1 (Forall_forall _ _) F y I).
Qed.
Lemma prefix_no_feed (p : str) ls : ~ In 10%N p -> Forall unbroken ls -> Forall (fun x => ~ In 10%N x) (map (fun l => p ++ l) ls).
Proof.
  intros P F. apply Forall_forall. intros x I. apply in_map_iff in I as (y & <- & I). intros J. apply in_app_iff in J as [J|J]; [now apply P|].
  apply (unbroken_no_feed y); [|exact J]. exact (proj1 (Forall_forall _ _) F y I).
Qed.

Lemma item_shown i i' t : not_first space (rev i) -> not_first space (rev i') -> end_trimmed (item_line i) t -> end_trimmed (item_line i') t -> i = i'.
Proof.
  assert (K : forall i, not_first space (rev i) -> end_trimmed (item_line i) (match i with [] => $"|     -" | _ => item_line i end)).
  { clear. intros [|c i] N.
    - exists [32%N]. split; [reflexivity|]. split; [constructor; [apply space_iff; reflexivity|constructor]|]. cbn [rev app not_first]. vm_compute. intros H. repeat (destruct H as [H|H]; [discriminate|]). exact H.
    - exists []. split; [now rewrite app_nil_r|]. split; [constructor|]. unfold item_line. rewrite rev_app_distr.
      destruct (rev (c :: i)) as [|d r] eqn:R; [|exact N]. apply (f_equal (@length _)) in R. rewrite rev_length in R. discriminate. }
  intros N N' T T'. assert (E := end_trimmed_det _ _ _ T (K i N)). assert (E' := end_trimmed_det _ _ _ T' (K i' N')). subst t.
  destruct i as [|c i], i' as [|c' i']; auto; try discriminate E'. unfold item_line in E'. now apply app_inv_head in E'.
Qed.
Theorem list_determines msg items items' kind extras : ~ In 10%N kind ->
  Forall (fun i => unbroken i /\ not_first space (rev i)) items -> Forall (fun i => unbroken i /\ not_first space (rev i)) items' ->
  get_msg_for_list msg items kind extras = get_msg_for_list msg items' kind extras -> items = items'.
Proof.
  intros K F F' E. pose proof (splitlines_of msg) as L. pose proof (splitlines_of extras) as X.
  set (ls := splitlines msg) in *. set (es := splitlines extras) in *.
  assert (U : Forall unbroken items) by (eapply Forall_impl; [|exact F]; intros i (A & _); exact A).
  assert (U' : Forall unbroken items') by (eapply Forall_impl; [|exact F']; intros i (A & _); exact A).
  assert (B := list_boxed msg items kind extras ls es L X U K). assert (B' := list_boxed msg items' kind extras ls es L X U' K). rewrite <- E in B'.
  assert (NF : forall l, Forall unbroken l -> Forall (fun x => ~ In 10%N x) (heading_lines kind ls ++ map item_line l ++ map more_line es)).
  { intros l W. apply Forall_app. split; [apply heading_no_feed; [exact K|now apply (lines_unbroken msg)]|]. apply Forall_app. split.
    - apply prefix_no_feed; [|exact W]. vm_compute; intros H; repeat (destruct H as [H|H]; [discriminate|]); exact H.
    - apply prefix_no_feed; [|now apply (lines_unbroken extras)]. vm_compute; intros H; repeat (destruct H as [H|H]; [discriminate|]); exact H. }
  destruct (boxed_shown _ _ _ (NF _ U) (NF _ U') B B') as (shown & S & S').
  apply Forall2_app_inv_l in S as (s1 & s2 & S1 & S2 & ->). apply Forall2_app_inv_l in S' as (s1' & s2' & S1' & S2' & E').
  assert (L1 : length s1 = length s1') by (rewrite <- (Forall2_len _ _ _ S1), <- (Forall2_len _ _ _ S1'); reflexivity).
  assert (Q : s2 = s2').
  { revert E'. clear -L1. revert s1' L1. induction s1 as [|x s1 IH]; intros [|y s1'] L E; cbn in *; try lia; auto. injection E as _ E. apply (IH s1'); auto. }
  subst s2'. clear S1 S1' E' L1. apply Forall2_app_inv_l in S2 as (a & b & A & C & ->). apply Forall2_app_inv_l in S2' as (a' & b' & A' & C' & E').
  assert (L2 : length b = length b') by (rewrite <- (Forall2_len _ _ _ C), <- (Forall2_len _ _ _ C'); reflexivity).
  assert (Q : a = a').
  { assert (LL : length a = length a') by (apply (f_equal (@length _)) in E'; rewrite !app_length in E'; lia).
    revert E' LL. clear. revert a'. induction a as [|x a IH]; intros [|y a'] E L; cbn in *; try lia; auto. injection E as -> E. f_equal. apply IH; auto. }
  subst a'. clear -A A' F F'. revert a items' A A' F'. induction F as [|i items (U & N) F IH]; intros a items' A A' F'.
  - inversion A; subst. destruct items'; [reflexivity|]. inversion A'.
  - cbn [map] in A. inversion A as [|x t l a0 X A0]; subst. destruct items' as [|i' items']; [inversion A'|]. cbn [map] in A'.
    inversion A' as [|x' t' l' a0' X' A0']; subst. inversion F' as [|y l'' (U' & N') F'']; subst.
    rewrite (item_shown i i' t N N' X X'). f_equal. now apply (IH a0).
Qed.

(** ** The environments *)
Definition env_text (n : str) (aliases : list str) : list str :=
  ($"  - " ++ n) :: match aliases with [] => [] | _ => $"    * Aliases:" :: map (fun a => $"      - " ++ a) aliases end.
Lemma env_text_block n l : map more_line (env_text n l) = env_block n l.
Proof. unfold env_text, env_block. destruct l as [|a l]; [reflexivity|]. cbn [map]. rewrite map_map. reflexivity. Qed.
Lemma aliases_loop_lines l : forall acc, aliases_loop l acc = acc ++ ended (map (fun a => $"      - " ++ a) l).
Proof.
  induction l as [|i l IH]; intros acc; cbn [aliases_loop]; [now rewrite app_nil_r|].
  rewrite IH. unfold ended. cbn [map concat]. now rewrite <- !app_assoc.
Qed.
Lemma envs_loop_lines envs system names : forall acc,
  (forall n, In n names -> exists l, get_values envs system n = Ok l) ->
  exists blocks, Forall2 (fun n b => exists l, get_values envs system n = Ok l /\ b = env_text n (sorted l)) names blocks /\
    envs_loop envs system names acc = Ok (acc ++ ended (concat blocks)).
Proof.
  induction names as [|n names IH]; intros acc H.
  - exists []. split; [constructor|]. cbn. now rewrite app_nil_r.
  - destruct (H n (or_introl eq_refl)) as (l & E).
    destruct (IH ((acc ++ ended (env_text n (sorted l)))) (fun m I => H m (or_intror I))) as (blocks & F & X).
    exists (env_text n (sorted l) :: blocks). split; [constructor; eauto|]. cbn [envs_loop]. rewrite E. cbn [rbind].
    rewrite aliases_loop_lines.
    replace (((acc ++ $"  - " ++ n ++ newline) ++ (if 0 <? length (sorted l) then $"    * Aliases:" ++ newline else [])) ++
      ended (map (fun a => $"      - " ++ a) (sorted l))) with (acc ++ ended (env_text n (sorted l))).
    + rewrite X. cbn [concat]. now rewrite ended_app, <- app_assoc.
    + unfold env_text. destruct (sorted l) as [|a l0]; cbn [length].
      * change (0 <? 0) with false. cbv iota. unfold ended. cbn [map concat]. now rewrite !app_nil_r, <- !app_assoc.
      * change (0 <? Datatypes.S (length l0)) with true. cbv iota. unfold ended. cbn [map concat]. now rewrite <- !app_assoc.
Qed.

(** Listed values have no line end, if the text has none but line feeds. *)
Lemma strip_in p s c : In c (strip p s) -> In c s.
Proof. destruct (strip_decomp p s) as (a & b & E & _). intros I. rewrite E. apply in_or_app. right. apply in_or_app. now left. Qed.
Lemma split_in sep s p c : In p (split_on sep s) -> In c p -> In c s /\ c <> sep.
Proof.
  intros I J. assert (X := split_no_sep sep s). split.
  - rewrite <- (split_join sep s). clear X. revert I. induction (split_on sep s) as [|q l IH]; intros I; [destruct I|]. destruct l as [|q' l].
    + destruct I as [->|[]]. exact J.
    + cbn [join]. destruct I as [->|I]; apply in_or_app; [now left|]. right. right. now apply IH.
  - intros ->. exact (proj1 (Forall_forall _ _) X p I J).
Qed.
Lemma lists_unbroken t l : Forall (fun c => breaks c -> c = 10%N) t -> lists t l -> Forall unbroken l.
Proof.
  intros F L. apply lists_iff in L. subst l. apply Forall_forall. intros v I. unfold listed in I. apply in_map_iff in I as (p & <- & I).
  apply filter_In in I as [I _]. unfold pieces in I. apply in_flat_map in I as (line & I & J).
  apply Forall_forall. intros c C B. apply strip_in in C. destruct (split_in _ _ _ _ J C) as [C' _]. apply before_hash_sub in C'.
  destruct (split_in _ _ _ _ I C') as [C2 N]. apply N. exact (proj1 (Forall_forall _ _) F c C2 B).
Qed.
