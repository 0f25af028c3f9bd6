(** * Messages: lines, trailing white space, the box. *)
From Coq Require Import String NArith List Bool Arith Lia Sorted Permutation.
Import ListNotations.
From Verif Require Import PyBase PyFacts EnvVar Regex RegexProofs Keyword SpecText SpecKeyword SpecFlags FileProofs Messages SpecMessages.

(** ** [splitlines] *)
Lemma line_end_iff c : line_end c = true <-> breaks c.
Proof.
  unfold line_end, breaks. rewrite existsb_exists. split.
  - intros (x & I & E). apply N.eqb_eq in E. now subst.
  - intros I. exists c. split; [exact I|apply N.eqb_refl].
Qed.
Lemma line_end_false c : line_end c = false <-> ~ breaks c.
Proof. rewrite <- line_end_iff. destruct (line_end c); split; congruence. Qed.

Lemma splitlines_from_of n : forall s cur, length s < n -> unbroken (rev cur) -> lines_of (rev cur ++ s) (splitlines_from cur s).
Proof.
  induction n as [|n IH]; intros s cur L U; [lia|]. destruct s as [|c s]; cbn [splitlines_from].
  - rewrite app_nil_r. destruct cur as [|x cur]; cbn [empty_str]; [constructor|]. constructor; [|exact U].
    cbn [rev]. now destruct (rev cur).
  - destruct (line_end c) eqn:E.
    + apply line_end_iff in E. cbn [length] in L. destruct s as [|d s].
      * change (c :: []) with ([c] ++ []). apply lo_line; [exact U|constructor; [exact E|discriminate]|constructor].
      * destruct (N.eqb c 13 && N.eqb d 10) eqn:T.
        -- apply andb_true_iff in T as [T1 T2]. apply N.eqb_eq in T1, T2. subst c d.
           change (13%N :: 10%N :: s) with ([13; 10]%N ++ s). apply lo_line; [exact U|constructor|].
           apply (IH s []); [cbn [length] in L; lia|constructor].
        -- change (c :: d :: s) with ([c] ++ d :: s). apply lo_line; [exact U| |apply (IH (d :: s) []); [lia|constructor]].
           constructor; [exact E|]. intros s' -> X. injection X as -> _. discriminate.
    + change (c :: s) with ([c] ++ s). rewrite app_assoc. change (rev cur ++ [c]) with (rev (c :: cur)).
      apply IH; [cbn [length] in L; lia|]. cbn [rev]. apply Forall_app. split; [exact U|]. constructor; [|constructor].
      now apply line_end_false.
Qed.
Lemma splitlines_of s : lines_of s (splitlines s).
Proof. apply (splitlines_from_of (S (length s)) s []); [lia|constructor]. Qed.

Lemma cut_unique (l l' : str) b b' s s' : unbroken l -> unbroken l' -> line_break b s -> line_break b' s' ->
  l ++ b ++ s = l' ++ b' ++ s' -> l = l' /\ b = b' /\ s = s'.
Proof.
  intros U U' B B'. revert l' U'. induction l as [|x l IH]; intros [|y l'] U'; cbn [app].
  - intros E. split; [reflexivity|]. destruct B as [c s B N|s], B' as [c' s' B' N'|s']; cbn [app] in E.
    + now injection E as -> ->.
    + injection E as -> ->. now elim (N s').
    + injection E as <- <-. now elim (N' s).
    + now injection E as ->.
  - intros E. exfalso. assert (Y : ~ breaks y) by now inversion U'. apply Y.
    destruct B as [c s B N|s]; cbn [app] in E; injection E as <- _; [exact B|]. vm_compute. auto.
  - intros E. exfalso. assert (X : ~ breaks x) by now inversion U. apply X.
    destruct B' as [c s' B' N|s']; cbn [app] in E; injection E as -> _; [exact B'|]. vm_compute. auto.
  - intros E. injection E as -> E. apply Forall_inv_tail in U. apply Forall_inv_tail in U'.
    destruct (IH U l' U' E) as (-> & -> & ->). auto.
Qed.
Lemma break_in b s : line_break b s -> exists c b', b = c :: b' /\ breaks c.
Proof. intros [c s' B N|s']; [now exists c, []|]. exists 13%N, [10%N]. split; [reflexivity|]. vm_compute. auto. Qed.
Lemma unbroken_no_break l b s r : unbroken l -> line_break b s -> l <> r ++ b ++ s.
Proof.
  intros U B E. destruct (break_in b s B) as (c & b' & -> & C). subst l. apply Forall_app in U as [_ U]. cbn [app] in U.
  now apply Forall_inv in U.
Qed.
Lemma lines_unique s ls : lines_of s ls -> forall ls', lines_of s ls' -> ls = ls'.
Proof.
  induction 1 as [|l NE U|l b s ls U B H IH]; intros ls' H'.
  - inversion H' as [|l' NE U EQ|l' b s' ls'' U B H0 EQ]; [reflexivity|now elim NE|]. exfalso.
    destruct (break_in _ _ B) as (c & b' & -> & _). destruct l'; discriminate.
  - inversion H' as [EQ|l' NE' U' EQ|l' b s' ls'' U' B H0 EQ]; [now elim NE|reflexivity|].
    exfalso. now apply (unbroken_no_break l b s' l' U B).
  - inversion H' as [EQ|l' NE' U' EQ|l' b' s' ls'' U' B' H0 EQ].
    + exfalso. destruct (break_in _ _ B) as (c & x & -> & _). destruct l; discriminate.
    + exfalso. now apply (unbroken_no_break (l ++ b ++ s) b s l U' B).
    + destruct (cut_unique _ _ _ _ _ _ U' U B' B EQ) as (-> & -> & ->). f_equal. now apply IH.
Qed.
Lemma splitlines_eq s ls : lines_of s ls -> splitlines s = ls.
Proof. intros H. exact (lines_unique s _ (splitlines_of s) ls H). Qed.
Lemma lines_unbroken s ls : lines_of s ls -> Forall unbroken ls.
Proof. induction 1; auto. Qed.

(** A line with a line feed in front. *)
Lemma newline_break s : line_break newline s.
Proof. constructor; [vm_compute; auto|]. intros s' X. discriminate. Qed.
Lemma lines_cons l s ls : unbroken l -> lines_of s ls -> lines_of (l ++ newline ++ s) (l :: ls).
Proof. intros U H. apply lo_line; [exact U|apply newline_break|exact H]. Qed.
Lemma lines_ended l s ls : Forall unbroken l -> lines_of s ls -> lines_of (ended l ++ s) (l ++ ls).
Proof.
  intros F H. induction F as [|x l U F IH]; [exact H|]. unfold ended in *. cbn [map concat app]. rewrite <- !app_assoc. now apply lines_cons.
Qed.

(** ** Removing trailing white space *)
Section Trailing.
Variable total : nat.

Definition feed (s : str) (c : option str) : option (str * option str) :=
  match s with x :: s' => if N.eqb 10 x then Some (s', c) else None | [] => None end.
(** The rest does not begin with white space. *)
Definition solid (s : str) : Prop := match s with [] => True | c :: _ => is_space c = false end.

Lemma match_trailing s : match_at total false trailing_re s =
  match s with
  | x :: s' => if is_space x then starloop total true (RSet is_space) feed (S (length s')) s' None else None
  | [] => None
  end.
Proof. destruct s as [|x s]; reflexivity. Qed.

Lemma feed_solid s c : solid s -> feed s c = None.
Proof.
  destruct s as [|x s]; [reflexivity|]. cbn [solid feed]. intros E. destruct (N.eqb 10 x) eqn:X; [|reflexivity].
  apply N.eqb_eq in X. subst x. discriminate.
Qed.
Lemma loop_solid n s c : solid s -> starloop total true (RSet is_space) feed n s c = None.
Proof.
  intros H. destruct n as [|n]; [now apply feed_solid|]. rewrite starloop_S. cbn [mt].
  destruct s as [|x s]; [reflexivity|]. cbn [solid] in H. rewrite H. now apply feed_solid.
Qed.
Lemma loop_some n : forall w rest c, forallb is_space w = true -> solid rest -> length w < n ->
  starloop total true (RSet is_space) feed n (w ++ 10%N :: rest) c = Some (rest, c).
Proof.
  induction n as [|n IH]; intros w rest c W H L; [lia|]. rewrite starloop_S. cbn [mt].
  destruct w as [|a w]; cbn [app].
  - change (is_space 10%N) with true. cbv iota. rewrite (proj2 (Nat.ltb_lt _ _)) by (cbn [length]; lia).
    rewrite loop_solid by exact H. reflexivity.
  - cbn [forallb] in W. apply andb_true_iff in W as [A W]. rewrite A. cbv iota.
    rewrite (proj2 (Nat.ltb_lt _ _)) by (cbn [length]; lia).
    rewrite IH; [reflexivity|exact W|exact H|cbn [length] in L; lia].
Qed.
Lemma loop_none n : forall w rest c, forallb (fun x => is_space x && negb (N.eqb 10 x)) w = true -> solid rest ->
  starloop total true (RSet is_space) feed n (w ++ rest) c = None.
Proof.
  induction n as [|n IH]; intros w rest c W H.
  - destruct w as [|a w]; [now apply feed_solid|]. cbn [forallb] in W. apply andb_true_iff in W as [A W].
    apply andb_true_iff in A as [_ A]. apply negb_true_iff in A. cbn [app starloop feed]. now rewrite A.
  - rewrite starloop_S. cbn [mt]. destruct w as [|a w]; cbn [app].
    + destruct rest as [|x rest]; [reflexivity|]. cbn [solid] in H. rewrite H. now apply feed_solid.
    + cbn [forallb] in W. apply andb_true_iff in W as [A W].
      apply andb_true_iff in A as [A1 A2]. rewrite A1. cbv iota.
      rewrite (proj2 (Nat.ltb_lt _ _)) by (cbn [length]; lia). rewrite IH by auto.
      apply negb_true_iff in A2. cbn [feed]. now rewrite A2.
Qed.

Lemma blank_or (l : str) : forallb is_space l = true \/ exists w c l', l = w ++ c :: l' /\ forallb is_space w = true /\ is_space c = false.
Proof.
  induction l as [|c l IH]; [now left|]. destruct (is_space c) eqn:E.
  - destruct IH as [IH|(w & d & l' & -> & W & D)].
    + left. cbn [forallb]. now rewrite E.
    + right. exists (c :: w), d, l'. split; [reflexivity|]. split; [|exact D]. cbn [forallb]. now rewrite E.
  - right. exists [], c, l. auto.
Qed.
Lemma rstrip_blank l : forallb is_space l = true -> rstrip_ws l = [].
Proof.
  intros H. unfold rstrip_ws, rstrip. assert (X : lstrip is_space (rev l) = []); [|now rewrite X].
  assert (R : forallb is_space (rev l) = true).
  { apply forallb_forall. intros x I. apply in_rev in I. exact (proj1 (forallb_forall _ _) H x I). }
  induction (rev l) as [|c r IH]; [reflexivity|]. cbn [forallb] in R. apply andb_true_iff in R as [A R]. cbn [lstrip]. rewrite A. now apply IH.
Qed.
Lemma rstrip_cons c l : is_space c = false \/ forallb is_space l = false -> rstrip_ws (c :: l) = c :: rstrip_ws l.
Proof.
  intros H. unfold rstrip_ws, rstrip. cbn [rev].
  assert (X : forall r, (is_space c = false \/ forallb is_space r = false) -> lstrip is_space (r ++ [c]) = lstrip is_space r ++ [c]).
  { induction r as [|x r IH]; intros K; cbn [app lstrip].
    - destruct K as [K|K]; [now rewrite K|discriminate].
    - destruct (is_space x) eqn:E; [|reflexivity]. apply IH. destruct K as [K|K]; [now left|right]. cbn [forallb] in K. now rewrite E in K. }
  rewrite X; [now rewrite rev_app_distr|]. destruct H as [H|H]; [now left|]. right.
  destruct (forallb is_space (rev l)) eqn:E; [|reflexivity]. exfalso.
  assert (Y : forallb is_space l = true); [|rewrite Y in H; discriminate].
  apply forallb_forall. intros x I. apply in_rev in I. exact (proj1 (forallb_forall _ _) E x I).
Qed.

Lemma sub_line rest : solid rest -> forall (l : str) n, ~ In 10%N l -> length l < n ->
  exists m, n <= m + length l + 1 /\ m < n /\
    sub_from total n false trailing_re newline (l ++ 10%N :: rest) = rstrip_ws l ++ 10%N :: sub_from total m false trailing_re newline rest.
Proof.
  intros H l. induction l as [|c l IH]; intros n NI L; (destruct n as [|n]; [cbn [length] in L; lia|]); cbn [app sub_from].
  - rewrite match_trailing. change (is_space 10%N) with true. cbv iota. rewrite loop_solid by exact H.
    exists n. cbn [length]. split; [lia|]. split; [lia|]. reflexivity.
  - rewrite match_trailing. cbn [length] in L.
    assert (NL : ~ In 10%N l) by (intros I; apply NI; now right).
    assert (STEP : (is_space c = false \/ forallb is_space l = false) ->
      exists m, n <= m + S (length l) /\ m < n /\
        c :: sub_from total n false trailing_re newline (l ++ 10%N :: rest) =
          rstrip_ws (c :: l) ++ 10%N :: sub_from total m false trailing_re newline rest).
    { intros K. destruct (IH n NL ltac:(lia)) as (m & M1 & M2 & E). exists m. split; [lia|]. split; [lia|].
      rewrite E, (rstrip_cons c l K). reflexivity. }
    destruct (is_space c) eqn:E.
    + destruct (blank_or l) as [B|(w & d & l' & -> & W & D)].
      * rewrite loop_some; [|exact B|exact H|rewrite app_length; cbn [length]; lia].
        exists n. split; [cbn [length]; lia|]. split; [lia|]. rewrite rstrip_blank by (cbn [forallb]; now rewrite E).
        cbn [app newline]. rewrite (proj2 (Nat.eqb_neq _ _)); [reflexivity|]. cbn [length]. rewrite app_length. cbn [length]. lia.
      * rewrite <- app_assoc. cbn [app]. rewrite loop_none.
        -- destruct STEP as (m & M1 & M2 & X).
           { right. rewrite forallb_app. cbn [forallb]. rewrite D. now rewrite andb_false_r. }
           exists m. split; [cbn [length]; lia|]. split; [lia|]. rewrite <- app_assoc in X. exact X.
        -- apply forallb_forall. intros x I. rewrite (proj1 (forallb_forall _ _) W x I). apply negb_true_iff. apply N.eqb_neq.
           intros <-. apply NL. apply in_or_app. now left.
        -- exact D.
    + destruct STEP as (m & M1 & M2 & X); [now left|]. exists m. split; [cbn [length]; lia|]. split; [lia|exact X].
Qed.

Lemma sub_lines (ls : list str) : Forall (fun l => l <> [] /\ solid l /\ ~ In 10%N l) ls -> forall n, length (ended ls) < n ->
  sub_from total n false trailing_re newline (ended ls) = ended (map rstrip_ws ls).
Proof.
  induction 1 as [|l ls (NE & S & NI) F IH]; intros n L.
  - destruct n as [|n]; [cbn in L; lia|]. reflexivity.
  - unfold ended in *. cbn [map concat] in *. rewrite !app_length in L. cbn [length newline] in L. rewrite <- !app_assoc.
    change (newline ++ ?x) with (10%N :: x).
    assert (R : solid (concat (map (fun s => s ++ newline) ls))).
    { destruct F as [|l' ls' (NE' & S' & _) F]; [exact I|]. cbn [map concat]. destruct l' as [|x l']; [now elim NE'|]. exact S'. }
    destruct (sub_line _ R l n NI ltac:(lia)) as (m & M1 & M2 & ->). rewrite IH by lia. reflexivity.
Qed.
End Trailing.

Lemma rstrip_trimmed l : end_trimmed l (rstrip_ws l).
Proof.
  destruct (rstrip_decomp is_space l) as (q & E & F). exists q. split; [exact E|]. split.
  - apply Forall_forall. intros x I. apply space_iff. exact (proj1 (Forall_forall _ _) F x I).
  - unfold rstrip_ws, rstrip. rewrite rev_involutive. assert (H := lstrip_head is_space (rev l)).
    destruct (lstrip is_space (rev l)) as [|c r] eqn:X; [exact I|]. cbn [not_first]. intros S. apply space_iff in S.
    rewrite S in H. discriminate.
Qed.

(** ** The message *)
Lemma msg_loop_later kind : forall lines idx acc, idx <> 0 ->
  msg_loop kind idx lines acc = acc ++ ended (map (fun l => $"|           " ++ l) lines).
Proof.
  induction lines as [|l lines IH]; intros idx acc N; cbn [msg_loop]; [now rewrite app_nil_r|].
  destruct idx as [|idx]; [now elim N|]. rewrite IH by discriminate. unfold ended. cbn [map concat]. now rewrite <- !app_assoc.
Qed.
Lemma msg_loop_lines kind msg ls : lines_of msg ls -> msg_loop kind 0 ls msg = ended (heading_lines kind ls).
Proof.
  intros H. destruct ls as [|l ls].
  - inversion H. reflexivity.
  - cbn [msg_loop]. rewrite msg_loop_later by discriminate. unfold heading_lines, ended. cbn [map concat]. now rewrite <- !app_assoc.
Qed.
Lemma extras_loop_lines ls : forall acc, extras_loop ls acc = acc ++ ended (map more_line ls).
Proof.
  induction ls as [|l ls IH]; intros acc; cbn [extras_loop]; [now rewrite app_nil_r|].
  rewrite IH. unfold ended, more_line. cbn [map concat]. now rewrite <- !app_assoc.
Qed.
Lemma ended_app a b : ended (a ++ b) = ended a ++ ended b.
Proof. unfold ended. now rewrite map_app, concat_app. Qed.
Lemma unbroken_no_feed l : unbroken l -> ~ In 10%N l.
Proof. intros U I. apply (proj1 (Forall_forall _ _) U _ I). now left. Qed.

Lemma ended_blank ls total n : Forall (fun l => l <> [] /\ solid l /\ ~ In 10%N l) ls -> length (ended ([] :: ls)) < n ->
  sub_from total n false trailing_re newline (ended ([] :: ls)) = ended ([] :: map rstrip_ws ls).
Proof.
  intros F L. destruct n as [|n]; [lia|].
  assert (R : solid (ended ls)).
  { destruct F as [|l' ls' (NE' & S' & _) F]; [exact I|]. unfold ended. cbn [map concat]. destruct l' as [|x l']; [now elim NE'|]. exact S'. }
  change (ended ([] :: ls)) with (10%N :: ended ls) in *. change (ended ([] :: map rstrip_ws ls)) with (10%N :: ended (map rstrip_ws ls)).
  destruct (sub_line total _ R [] (S n) (fun x => x) ltac:(cbn [length]; lia)) as (m & M1 & M2 & E). cbn [app] in E. rewrite E.
  cbn [length] in M1, L. f_equal. rewrite sub_lines; [reflexivity|exact F|lia].
Qed.

Theorem formatted_boxed msg kind extras ls es : lines_of msg ls -> lines_of extras es -> ~ In 10%N kind ->
  boxed (heading_lines kind ls ++ map more_line es) (get_formatted_msg msg kind extras).
Proof.
  intros L E K. unfold get_formatted_msg. rewrite (splitlines_eq _ _ L), (splitlines_eq _ _ E), (msg_loop_lines kind msg ls L), extras_loop_lines.
  rewrite <- ended_app.
  replace (newline ++ $"+" ++ repeat 61%N 78 ++ $"+" ++ newline ++ ended (heading_lines kind ls ++ map more_line es) ++ $"+" ++ repeat 61%N 78 ++ $"+" ++ newline)
    with (ended ([] :: (rule :: (heading_lines kind ls ++ map more_line es) ++ [rule]))).
  2: { unfold ended. cbn [map concat]. rewrite map_app, concat_app. cbn [map concat]. rewrite app_nil_r. unfold rule. now rewrite <- !app_assoc. }
  unfold re_sub. rewrite ended_blank.
  - exists (map rstrip_ws (heading_lines kind ls ++ map more_line es)). split.
    + generalize (heading_lines kind ls ++ map more_line es). intros l. induction l as [|x l IH]; [constructor|]. constructor; [apply rstrip_trimmed|exact IH].
    + cbn [map]. rewrite map_app. cbn [map]. assert (X : rstrip_ws rule = rule) by (vm_compute; reflexivity). now rewrite X.
  - assert (RU : rule <> [] /\ solid rule /\ ~ In 10%N rule).
    { split; [discriminate|]. split; [reflexivity|]. vm_compute. intros H. repeat (destruct H as [H|H]; [discriminate|]). exact H. }
    constructor; [exact RU|]. apply Forall_app. split; [|now constructor]. apply Forall_app. split.
    + apply lines_unbroken in L. destruct L as [|l ls U L]; [constructor|]. cbn [heading_lines]. constructor.
      * split; [discriminate|]. split; [reflexivity|]. rewrite !in_app_iff. intros [H|[H|[H|H]]].
        -- vm_compute in H. repeat (destruct H as [H|H]; [discriminate|]). exact H.
        -- now apply K.
        -- vm_compute in H. repeat (destruct H as [H|H]; [discriminate|]). exact H.
        -- now apply (unbroken_no_feed l U).
      * apply Forall_forall. intros x I. apply in_map_iff in I as (l' & <- & I). split; [discriminate|]. split; [reflexivity|].
        rewrite in_app_iff. intros [H|H].
        -- vm_compute in H. repeat (destruct H as [H|H]; [discriminate|]). exact H.
        -- apply (unbroken_no_feed l' (proj1 (Forall_forall _ _) L l' I) H).
    + apply lines_unbroken in E. apply Forall_forall. intros x I. apply in_map_iff in I as (l' & <- & I). unfold more_line. split; [discriminate|].
      split; [reflexivity|]. rewrite in_app_iff. intros [H|H].
      * vm_compute in H. repeat (destruct H as [H|H]; [discriminate|]). exact H.
      * apply (unbroken_no_feed l' (proj1 (Forall_forall _ _) E l' I) H).
  - lia.
Qed.
