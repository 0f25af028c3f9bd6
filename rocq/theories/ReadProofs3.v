(** * Lines of a text; header and option lines; duplicates; failed reads. *)
From Coq Require Import String NArith Arith List Bool Lia.
Import ListNotations.
From Verif Require Import PyBase PyFacts IniView IniRead Cpe SpecWalk SpecParse SpecRead WalkProofs ReadProofs ReadProofs2.

Local Arguments is_space : simpl never.

(** ** Text to lines *)
Lemma split_aux s : forall cur, split_lines_aux cur s =
  match s with
  | [] => match cur with [] => [] | _ => [rev cur] end
  | c :: s' => if N.eqb c 10 then rev cur :: split_lines_aux [] s' else split_lines_aux (c :: cur) s'
  end.
Proof. destruct s; reflexivity. Qed.

Lemma split_run l : forall cur s, ~ In 10%N l -> split_lines_aux cur (l ++ s) = split_lines_aux (rev l ++ cur) s.
Proof.
  induction l as [|c l IH]; intros cur s N; auto. cbn [app rev split_lines_aux].
  destruct (N.eqb_spec c 10) as [->|NE]; [exfalso; apply N; now left|].
  rewrite IH by (intros X; apply N; now right). now rewrite <- app_assoc.
Qed.

Lemma translate_run l : forall s, no_newline l -> translate_newlines (l ++ s) = l ++ translate_newlines s.
Proof.
  induction l as [|c l IH]; intros s [N1 N2]; auto. cbn [app translate_newlines].
  destruct (N.eqb_spec c 13) as [->|NE]; [exfalso; apply N2; now left|].
  f_equal. apply IH. split; intros X; [apply N1|apply N2]; now right.
Qed.

Lemma lines_complete t ls : lines_of t ls -> text_lines t = ls.
Proof.
  unfold text_lines. induction 1 as [|l N NE|l t ls N L IH|l t ls N L IH|l t ls N H L IH].
  - reflexivity.
  - rewrite <- (app_nil_r l) at 1. rewrite translate_run by auto. cbn [translate_newlines].
    rewrite split_run by apply N. rewrite app_nil_r.
    assert (X : forall cur, cur <> [] -> split_lines_aux cur [] = [rev cur]) by (intros [|] ?; [congruence|reflexivity]).
    rewrite X, rev_involutive; auto. intros E. apply NE. apply (f_equal (@rev _)) in E. now rewrite rev_involutive in E.
  - rewrite translate_run by auto. cbn [translate_newlines N.eqb Pos.eqb]. rewrite split_run by apply N. cbn [split_lines_aux N.eqb Pos.eqb].
    rewrite app_nil_r, rev_involutive. now f_equal.
  - rewrite translate_run by auto. cbn [translate_newlines N.eqb Pos.eqb]. rewrite split_run by apply N. cbn [split_lines_aux N.eqb Pos.eqb].
    rewrite app_nil_r, rev_involutive. now f_equal.
  - rewrite translate_run by auto.
    assert (E : translate_newlines (13%N :: t) = 10%N :: translate_newlines t).
    { cbn [translate_newlines N.eqb Pos.eqb]. destruct t as [|d t]; auto.
      destruct (N.eqb_spec d 10) as [->|NE]; [exfalso; now apply H|reflexivity]. }
    rewrite E, split_run by apply N. cbn [split_lines_aux N.eqb Pos.eqb].
    rewrite app_nil_r, rev_involutive. now f_equal.
Qed.

(** Cutting a text at its first line end. *)
Lemma cut_line t : no_newline t \/ exists l c t', t = l ++ c :: t' /\ no_newline l /\ (c = 10 \/ c = 13)%N.
Proof.
  induction t as [|c t IH]; [left; split; auto|].
  destruct (N.eq_dec c 10) as [->|N1]; [right; exists [], 10%N, t; repeat split; auto|].
  destruct (N.eq_dec c 13) as [->|N2]; [right; exists [], 13%N, t; repeat split; auto|].
  destruct IH as [[A B]|(l & d & t' & -> & [A B] & H)].
  - left. split; cbn; intuition.
  - right. exists (c :: l), d, t'. repeat split; auto; cbn; intuition.
Qed.

Lemma lines_exist t : exists ls, lines_of t ls.
Proof.
  assert (H : forall n t, length t <= n -> exists ls, lines_of t ls).
  { clear t. induction n as [|n IH]; intros t L.
    { destruct t; [exists []; constructor|cbn in L; lia]. }
    destruct (cut_line t) as [N|(l & c & t' & -> & N & HC)].
    - destruct t as [|c t]; [exists []; constructor|]. exists [c :: t]. apply lo_last; auto. discriminate.
    - rewrite app_length in L. cbn in L. destruct HC as [->| ->].
      + destruct (IH t') as [ls H]; [lia|]. exists (l :: ls). now constructor.
      + destruct t' as [|d t''].
        * exists [l]. apply (lo_cr l [] []); auto; [discriminate|constructor].
        * destruct (N.eq_dec d 10) as [->|ND].
          -- destruct (IH t'') as [ls H]; [cbn in L; lia|]. exists (l :: ls). now apply lo_crlf.
          -- destruct (IH (d :: t'')) as [ls H]; [cbn in *; lia|]. exists (l :: ls). now apply lo_cr. }
  apply (H (length t)). lia.
Qed.

Theorem lines_iff t ls : lines_of t ls <-> text_lines t = ls.
Proof.
  split; [apply lines_complete|]. intros <-. destruct (lines_exist t) as [ls L].
  now rewrite (lines_complete _ _ L).
Qed.

Lemma lines_text_of ls : Forall no_newline ls -> lines_of (text_of ls) ls.
Proof.
  induction 1 as [|l ls N F IH]; [constructor|]. unfold text_of in *. cbn [flat_map]. rewrite <- app_assoc. cbn [app].
  now constructor.
Qed.

Lemma lines_no_newline t ls : lines_of t ls -> Forall no_newline ls.
Proof. induction 1; constructor; auto. Qed.

(** ** Strip *)
Lemma forallb_Forall {A} (f : A -> bool) l : forallb f l = true <-> Forall (fun x => f x = true) l.
Proof. rewrite forallb_forall, Forall_forall. tauto. Qed.

Lemma lstrip_blanks b s : forallb is_space b = true -> lstrip is_space (b ++ s) = lstrip is_space s.
Proof. induction b as [|c b IH]; cbn [app lstrip forallb]; auto. destruct (is_space c); [auto|discriminate]. Qed.
Lemma lstrip_all b : forallb is_space b = true -> lstrip is_space b = [].
Proof. intros H. rewrite <- (app_nil_r b). now rewrite lstrip_blanks. Qed.
Lemma forallb_rev {A} (f : A -> bool) l : forallb f (rev l) = forallb f l.
Proof. induction l as [|x l IH]; auto. cbn. rewrite forallb_app, IH. cbn. rewrite andb_true_r. apply andb_comm. Qed.
Lemma rstrip_blanks b s : forallb is_space b = true -> rstrip is_space (s ++ b) = rstrip is_space s.
Proof. intros H. unfold rstrip. rewrite rev_app_distr, lstrip_blanks; auto. now rewrite forallb_rev. Qed.
Lemma rstrip_keep a c s : is_space c = false -> rstrip is_space (a ++ c :: s) = a ++ c :: rstrip is_space s.
Proof.
  intros H. revert a. induction s as [|d s IH] using rev_ind; intros a.
  - rewrite rstrip_last, H. reflexivity.
  - replace (a ++ c :: s ++ [d]) with ((a ++ c :: s) ++ [d]) by now rewrite <- app_assoc.
    rewrite !rstrip_last. destruct (is_space d); auto. now rewrite <- app_assoc.
Qed.
Lemma rstrip_edge s : match rev s with [] => True | c :: _ => is_space c = false end -> rstrip is_space s = s.
Proof. intros H. unfold rstrip. rewrite lstrip_fix; auto. apply rev_involutive. Qed.
Lemma strip_edge s : edge_ok s -> strip_ws s = s.
Proof. intros [A B]. unfold strip_ws, strip. rewrite lstrip_fix by auto. now apply rstrip_edge. Qed.
Lemma indent_0 c s : is_space c = false -> indent (c :: s) = 0.
Proof. intros H. cbn [indent]. now rewrite H. Qed.

(** ** Header lines *)
Lemma last_bracket_none s : ~ In 93%N s -> last_bracket s = None.
Proof.
  induction s as [|c s IH]; intros N; auto. cbn. rewrite IH by (intros X; apply N; now right).
  destruct (N.eqb_spec c 93) as [->|]; auto. exfalso. apply N. now left.
Qed.
Lemma last_bracket_app s t : ~ In 93%N t -> last_bracket (s ++ 93%N :: t) = Some s.
Proof.
  intros N. induction s as [|c s IH]; cbn [app last_bracket].
  - now rewrite last_bracket_none.
  - now rewrite IH.
Qed.
Lemma rstrip_incl c s : In c (rstrip is_space s) -> In c s.
Proof. intros H. destruct (rstrip_decomp is_space s) as (q & E & _). rewrite E. apply in_or_app. now left. Qed.

Lemma header_strip s l : header_line s l ->
  exists tail, strip_ws l = 91%N :: s ++ 93%N :: tail /\ ~ In 93%N tail.
Proof.
  intros (NE & tail & -> & N). exists (rstrip is_space tail). split.
  - unfold strip_ws, strip. rewrite lstrip_fix by reflexivity.
    change (91%N :: s ++ 93%N :: tail) with ((91%N :: s) ++ 93%N :: tail). now rewrite rstrip_keep.
  - intros X. apply N. now apply rstrip_incl.
Qed.

Lemma header_sectcre s l : header_line s l -> sectcre (strip_ws l) = Some s.
Proof.
  intros H. destruct (header_strip s l H) as (tail & -> & N). destruct H as (NE & _).
  cbn [sectcre N.eqb Pos.eqb]. rewrite last_bracket_app by auto. destruct s; [now destruct NE|reflexivity].
Qed.

Section Lines.
Variables (delims : list str) (dn : str).
Notation rl := (read_line delims dn).
Notation rls := (read_lines delims dn).

(** What a header line does. *)
Lemma read_header s l r : header_line s l ->
  rl l r =
  if dmem s (r_secs r) then
    if str_mem s (r_addsec r)
    then (Err DuplicateSectionError,
          RState (r_secs r) (r_defs r) (r_cur r) s (r_optname r) 0 (r_err r) (r_addsec r) (r_addopt r))
    else (Ok tt, RState (r_secs r) (r_defs r) (CurSec s) s None 0 (r_err r) (sadd s (r_addsec r)) (r_addopt r))
  else if str_eqb s dn
       then (Ok tt, RState (r_secs r) (r_defs r) CurDefaults s None 0 (r_err r) (r_addsec r) (r_addopt r))
       else (Ok tt, RState (dset s [] (r_secs r)) (r_defs r) (CurSec s) s None 0 (r_err r)
                           (sadd s (r_addsec r)) (r_addopt r)).
Proof.
  intros H. pose proof (header_sectcre s l H) as SC. pose proof (header_strip s l H) as (tail & ST & _).
  destruct H as (NE & tl & -> & N).
  unfold read_line. rewrite (indent_0 91%N) by reflexivity. rewrite ST in *.
  cbn [starts_with lit String.length]. change (starts_with $"#" (91%N :: s ++ 93%N :: tail)) with false.
  change (starts_with $";" (91%N :: s ++ 93%N :: tail)) with false. cbn [orb].
  rewrite SC. assert (X : (r_indent r <? 0) = false) by (apply Nat.ltb_ge; lia). rewrite X.
  destruct (cur_is_none (r_cur r)); cbv zeta; reflexivity.
Qed.

(** ** Option lines *)
Lemma match_delim_none c s : Forall (fun d => exists c, d = [c] /\ is_space c = false) delims ->
  ~ In [c] delims -> match_delim delims (c :: s) = None.
Proof.
  clear. intros G. induction G as [|d ds (c' & -> & S) G IH]; intros N; auto. cbn [match_delim starts_with].
  destruct (N.eqb_spec c' c) as [->|NE].
  - exfalso. apply N. now left.
  - cbn [andb]. apply IH. intros X. apply N. now right.
Qed.
Lemma match_delim_some c s : Forall (fun d => exists c, d = [c] /\ is_space c = false) delims ->
  In [c] delims -> match_delim delims (c :: s) = Some s.
Proof.
  clear. intros G. induction G as [|d ds (c' & -> & S) G IH]; intros I; [destruct I|]. cbn [match_delim starts_with].
  destruct (N.eqb_spec c' c) as [->|NE].
  - reflexivity.
  - cbn [andb]. apply IH. destruct I as [I|I]; [congruence|auto].
Qed.

Hypothesis GD : good_delims delims.

Lemma vi_none c s : ~ In [c] delims -> match_vi delims (c :: s) = None.
Proof. destruct GD as [NE F]. intros N. unfold match_vi. destruct delims eqn:E; [congruence|]. rewrite <- E in *. now apply match_delim_none. Qed.
Lemma vi_some c s : In [c] delims -> match_vi delims (c :: s) = Some s.
Proof. destruct GD as [NE F]. intros N. unfold match_vi. destruct delims eqn:E; [congruence|]. rewrite <- E in *. now apply match_delim_some. Qed.
Lemma vi_nil : match_vi delims [] = None.
Proof.
  assert (X : forall ds, Forall (fun d => exists c, d = [c] /\ is_space c = false) ds -> match_delim ds [] = None).
  { intros ds F. induction F as [|d ds (c' & -> & S) G IH]; auto. }
  destruct GD as [NE F]. unfold match_vi. destruct delims eqn:E; [congruence|]. now apply X.
Qed.

Lemma delim_not_space c : In [c] delims -> is_space c = false.
Proof. destruct GD as [_ F]. rewrite Forall_forall in F. intros I. destruct (F _ I) as (c' & E & S). congruence. Qed.

(** Inside a key there is no match. *)
Lemma opt_at_key k s : k <> [] -> match rev k with [] => True | c :: _ => is_space c = false end ->
  Forall (fun c => ~ In [c] delims) k -> opt_at delims (k ++ s) = None.
Proof.
  intros NE L F. induction F as [|c k N F IH]; [congruence|]. cbn [app opt_at].
  rewrite vi_none by auto. destruct (is_space c) eqn:S; auto.
  destruct k as [|c' k].
  - cbn in L. congruence.
  - rewrite IH; auto; [discriminate|]. cbn [rev] in L |- *. rewrite <- app_assoc in L.
    destruct (rev k); cbn in *; auto.
Qed.

Lemma opt_at_blanks b : forallb is_space b = true -> opt_at delims b = Some None.
Proof.
  induction b as [|c b IH]; cbn [opt_at forallb].
  - now rewrite vi_nil.
  - intros H. apply andb_true_iff in H as [S H]. rewrite S, IH; auto.
Qed.
Lemma opt_at_value b c x : forallb is_space b = true -> In [c] delims ->
  opt_at delims (b ++ c :: x) = Some (Some (lstrip_ws x)).
Proof.
  intros H I. induction b as [|c' b IH]; cbn [app opt_at].
  - rewrite (vi_some c x I), (delim_not_space c I). reflexivity.
  - cbn in H. apply andb_true_iff in H as [S H]. rewrite S, IH; auto.
Qed.

Lemma optcre_key k s v : match rev k with [] => True | c :: _ => is_space c = false end ->
  Forall (fun c => ~ In [c] delims) k -> opt_at delims s = Some v -> optcre delims (k ++ s) = Some (k, v).
Proof.
  intros L F O. induction F as [|c k N F IH].
  - cbn [app]. destruct s; cbn [optcre]; now rewrite O.
  - cbn [app optcre]. change (c :: k ++ s) with ((c :: k) ++ s). rewrite opt_at_key; auto; [|discriminate].
    rewrite IH; auto. cbn [rev] in L. destruct (rev k); cbn in *; auto.
Qed.

Lemma rev_last_space k c : match rev (k ++ [c]) with [] => True | d :: _ => is_space d = false end -> is_space c = false.
Proof. rewrite rev_app_distr. auto. Qed.

(** Stripping an option line. *)
Lemma option_strip k v l : plain_key delims k -> option_line delims k v l ->
  exists rest, strip_ws l = k ++ rest /\
    opt_at delims rest = Some (match v with Some x => Some (lstrip_ws (rstrip_ws x)) | None => None end).
Proof.
  intros (NE & [E1 E2] & F & H) O. destruct k as [|c0 k]; [congruence|]. inversion O; subst.
  - exists []. split; [|cbn; now rewrite vi_nil]. unfold strip_ws, strip.
    rewrite lstrip_fix by (cbn; auto). rewrite rstrip_blanks by auto. rewrite app_nil_r. now apply rstrip_edge.
  - exists (b ++ c :: rstrip_ws x). split; [|now apply opt_at_value]. unfold strip_ws, strip.
    rewrite lstrip_fix by (cbn; auto). rewrite !app_assoc. apply rstrip_keep. now apply delim_not_space.
Qed.

Lemma strip_lr x : strip_ws (lstrip_ws (rstrip_ws x)) = strip_ws x.
Proof.
  assert (X : forall y, lstrip_ws (rstrip_ws y) = strip_ws y).
  { intros y. unfold lstrip_ws, rstrip_ws, strip_ws, strip.
    destruct (lstrip_decomp is_space y) as (q & E & Q). pose proof (lstrip_head is_space y) as HH.
    destruct (lstrip is_space y) as [|c z] eqn:L.
    - rewrite app_nil_r in E. subst y. assert (R : rstrip is_space q = []).
      { replace q with ([] ++ q) by auto. rewrite rstrip_blanks; [reflexivity|]. now apply forallb_Forall. }
      now rewrite R.
    - rewrite E, rstrip_keep by auto. rewrite lstrip_blanks by now apply forallb_Forall.
      rewrite lstrip_fix by auto. symmetry. exact (rstrip_keep [] c z HH). }
  rewrite X. unfold strip_ws. apply strip_idem.
Qed.

Definition line_value (v : option str) : rval :=
  match v with Some x => RLines [strip_ws x] | None => RNone end.

Lemma read_option k v l r : plain_key delims k -> option_line delims k v l -> r_cur r <> CurNone ->
  rl l r =
  if pair_mem (r_sectname r) k (r_addopt r)
  then (Err DuplicateOptionError,
        RState (r_secs r) (r_defs r) (r_cur r) (r_sectname r) (Some k) 0 (r_err r) (r_addsec r) (r_addopt r))
  else (Ok tt, set_cur_opts (RState (r_secs r) (r_defs r) (r_cur r) (r_sectname r) (Some k) 0 (r_err r) (r_addsec r)
                                    ((r_sectname r, k) :: r_addopt r))
                            (dset k (line_value v) (cur_opts r))).
Proof.
  intros PK O N. destruct (option_strip k v l PK O) as (rest & ST & OA).
  pose proof PK as (NE & [E1 E2] & F & H).
  assert (OC : optcre delims (k ++ rest) = Some (k, match v with Some x => Some (lstrip_ws (rstrip_ws x)) | None => None end))
    by now apply optcre_key.
  assert (RK : rstrip_ws k = k) by now apply rstrip_edge.
  destruct k as [|c0 k]; [congruence|].
  assert (IL : indent l = 0) by (inversion O; subst; now apply indent_0).
  unfold read_line. rewrite IL, ST. change ((c0 :: k) ++ rest) with (c0 :: k ++ rest) in *.
  cbn [hd] in H.
  assert (C1 : starts_with $"#" (c0 :: k ++ rest) = false).
  { cbn. destruct c0 as [|p]; auto. destruct (Pos.eqb_spec 35 p) as [<-|]; auto. exfalso. apply H. now left. }
  assert (C2 : starts_with $";" (c0 :: k ++ rest) = false).
  { cbn. destruct c0 as [|p]; auto. destruct (Pos.eqb_spec 59 p) as [<-|]; auto. exfalso. apply H. right. now left. }
  rewrite C1, C2. cbn [orb]. assert (X : (r_indent r <? 0) = false) by (apply Nat.ltb_ge; lia). rewrite X.
  assert (CN : cur_is_none (r_cur r) = false) by now apply cin_false. rewrite CN. cbv zeta.
  assert (SC : sectcre (c0 :: k ++ rest) = None).
  { cbn [sectcre]. destruct (N.eqb_spec c0 91) as [->|]; auto. exfalso. apply H. right. right. now left. }
  rewrite SC. cbn [r_cur r_secs r_addsec r_defs r_sectname r_optname r_indent r_err r_addopt]. rewrite CN, OC, RK.
  destruct (pair_mem (r_sectname r) (c0 :: k) (r_addopt r)); auto.
  f_equal. f_equal. unfold line_value. destruct v; auto. now rewrite strip_lr.
Qed.

(** ** What lines keep *)

Lemma pair_mem_In a b l : pair_mem a b l = true <-> In (a, b) l.
Proof.
  unfold pair_mem. rewrite existsb_exists. split.
  - intros ([x y] & I & E). cbn in E. apply andb_true_iff in E as [E1 E2]. apply str_eqb_eq in E1, E2. now subst.
  - intros I. exists (a, b). cbn. now rewrite !str_eqb_refl.
Qed.

(** Everything already seen stays seen, and the section changes only at headers. *)
Lemma read_line_keeps l r r1 : rl l r = (Ok tt, r1) ->
  (forall s, str_mem s (r_addsec r) = true -> str_mem s (r_addsec r1) = true) /\
  (forall p, In p (r_addopt r) -> In p (r_addopt r1)) /\
  (r_cur r <> CurNone -> r_cur r1 <> CurNone) /\
  (~ bracket_line l -> r_cur r1 = r_cur r /\ r_sectname r1 = r_sectname r).
Proof.
  assert (SCO : forall r' o, r_addsec (set_cur_opts r' o) = r_addsec r' /\ r_addopt (set_cur_opts r' o) = r_addopt r' /\
     r_cur (set_cur_opts r' o) = r_cur r' /\ r_sectname (set_cur_opts r' o) = r_sectname r').
  { intros r' o. unfold set_cur_opts. destruct (r_cur r') eqn:C; cbn; auto. }
  unfold read_line.
  set (comment := starts_with $"#" (strip_ws l) || starts_with $";" (strip_ws l)).
  destruct (if comment then [] else strip_ws l) as [|c0 value] eqn:EV.
  - destruct comment; [intros E; inversion E; subst; auto|].
    destruct (cur_is_none (r_cur r)); [intros E; inversion E; subst; auto|].
    destruct (opt_active (r_optname r)) as [k|]; [|intros E; inversion E; subst; auto].
    destruct (dget k (cur_opts r)) as [[]|]; intros E; inversion E; subst; auto.
    destruct (SCO r (dset k (RLines (ls ++ [[]])) (cur_opts r))) as (-> & -> & -> & ->). auto.
  - destruct (if cur_is_none (r_cur r) then _ else _) as [k|].
    + destruct (dget k (cur_opts r)) as [[]|]; intros E; inversion E; subst; auto.
      destruct (SCO r (dset k (RLines (ls ++ [c0 :: value])) (cur_opts r))) as (-> & -> & -> & ->). auto.
    + cbv zeta. cbn [r_cur r_secs r_addsec r_defs r_sectname r_optname r_indent r_err r_addopt].
      destruct (sectcre (c0 :: value)) as [name|] eqn:SC.
      * assert (BL : bracket_line l).
        { destruct comment; [discriminate|]. cbn in SC. destruct (N.eqb_spec c0 91) as [->|]; [|discriminate].
          destruct (strip_decomp is_space l) as (p & q & E & P & Q). unfold strip_ws in EV. rewrite EV in E.
          exists p, (value ++ q). split; auto. now apply forallb_Forall. }
        destruct (dmem name (r_secs r)); [destruct (str_mem name (r_addsec r))|destruct (str_eqb name dn)];
          intros E; inversion E; subst; cbn [r_addsec r_addopt r_cur r_sectname];
          (split; [|split; [auto|split; [discriminate|intros X; contradiction]]]); auto;
          intros s S; rewrite str_mem_sadd, S; apply orb_true_r.
      * destruct (cur_is_none (r_cur r)) eqn:CN; [discriminate|].
        destruct (optcre delims (c0 :: value)) as [[opt val]|]; [|intros E; inversion E; subst; cbn; auto].
        destruct (pair_mem _ _ _); intros E; inversion E; subst.
        match goal with |- context[set_cur_opts ?r' ?o] => destruct (SCO r' o) as (-> & -> & -> & ->) end.
        cbn. auto.
Qed.

Lemma read_lines_keeps ls : forall r r1, rls ls r = (Ok tt, r1) ->
  (forall s, str_mem s (r_addsec r) = true -> str_mem s (r_addsec r1) = true) /\
  (forall p, In p (r_addopt r) -> In p (r_addopt r1)) /\
  (r_cur r <> CurNone -> r_cur r1 <> CurNone) /\
  (Forall (fun l => ~ bracket_line l) ls -> r_cur r1 = r_cur r /\ r_sectname r1 = r_sectname r).
Proof.
  induction ls as [|l ls IH]; intros r r1; cbn [read_lines]; [intros E; inversion E; subst; auto|].
  destruct (rl l r) as [[[]|e] r'] eqn:E; [|discriminate]. intros E'.
  apply read_line_keeps in E as (A & B & C & D). apply IH in E' as (A' & B' & C' & D').
  split; [|split; [|split]]; auto. intros F. inversion F; subst.
  destruct (D' H2) as [-> ->]. auto.
Qed.
End Lines.
