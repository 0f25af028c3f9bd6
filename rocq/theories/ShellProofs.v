(** * The tokeniser follows the shell grammar. *)
From Coq Require Import NArith List Bool Lia.
Import ListNotations.
From Verif Require Import PyBase PyFacts Shlex SpecShell.

Lemma sh_space_blank c : sh_space c = true <-> blank c.
Proof.
  unfold sh_space, blank. cbn [existsb]. rewrite !orb_true_iff, !N.eqb_eq. intuition discriminate.
Qed.
Lemma sh_space_no c : sh_space c = false <-> ~ blank c.
Proof. rewrite <- sh_space_blank. destruct (sh_space c); intuition congruence. Qed.
Lemma sh_quote_iff c : sh_quote c = true <-> c = squote \/ c = dquote.
Proof. unfold sh_quote, squote, dquote. rewrite orb_true_iff, !N.eqb_eq. reflexivity. Qed.
Lemma sh_quote_no c : sh_quote c = false <-> c <> squote /\ c <> dquote.
Proof. unfold sh_quote, squote, dquote. rewrite orb_false_iff, !N.eqb_neq. reflexivity. Qed.
Lemma sh_escape_iff c : sh_escape c = true <-> c = backslash.
Proof. apply N.eqb_eq. Qed.
Lemma sh_escape_no c : sh_escape c = false <-> c <> backslash.
Proof. apply N.eqb_neq. Qed.

Lemma blank_not c : blank c -> c <> squote /\ c <> dquote /\ c <> backslash.
Proof. unfold blank, squote, dquote, backslash. intros [->|[->|[->| ->]]]; repeat split; discriminate. Qed.

(** What the rest of the text means in each state of the tokeniser: [tok] is
    the word so far. *)
Inductive tail : str -> list str -> Prop :=   (* after a complete piece *)
| t_end : tail [] [[]]
| t_blank c s l : blank c -> words s l -> tail (c :: s) ([] :: l)
| t_word s t : word s t -> tail s [t]
| t_word_more s t c s' l : word s t -> blank c -> words s' l -> tail (s ++ c :: s') (t :: l).

Definition pre (tok : str) (l : list str) : list str :=
  match l with [] => [] | x :: l' => (tok ++ x) :: l' end.

Lemma tail_ne s l : tail s l -> exists x l', l = x :: l'.
Proof. intros H; inversion H; eauto. Qed.

Lemma tail_piece s t s' l : piece s t -> tail s' l -> tail (s ++ s') (pre t l).
Proof.
  intros P T. inversion T; subst; cbn [pre]; rewrite ?app_nil_r.
  - apply t_word. now constructor.
  - apply t_word_more; auto. now constructor.
  - apply t_word. now constructor 2.
  - rewrite app_assoc. apply t_word_more; auto. now constructor 2.
Qed.

Lemma words_piece s t s' l : piece s t -> tail s' l -> words (s ++ s') (pre t l).
Proof.
  intros P T. inversion T; subst; cbn [pre]; rewrite ?app_nil_r.
  - apply ws_last. now constructor.
  - apply ws_word; auto. now constructor.
  - apply ws_last. now constructor 2.
  - rewrite app_assoc. apply ws_word; auto. now constructor 2.
Qed.

Lemma word_inv s t : word s t -> exists s1 t1 s2 t2, piece s1 t1 /\ s = s1 ++ s2 /\ t = t1 ++ t2 /\
  ((s2 = [] /\ t2 = []) \/ word s2 t2).
Proof.
  intros H; inversion H; subst.
  - exists s, t, [], []. rewrite !app_nil_r. repeat split; auto.
  - do 4 eexists. repeat split; eauto.
Qed.

Lemma tail_inv s l : tail s l ->
  (s = [] /\ l = [[]]) \/
  (exists c s' l', blank c /\ s = c :: s' /\ l = [] :: l' /\ words s' l') \/
  (exists s1 t1 s2 l2, piece s1 t1 /\ s = s1 ++ s2 /\ l = pre t1 l2 /\ tail s2 l2).
Proof.
  intros H; inversion H; subst; auto.
  - right. left. exists c, s0, l0. auto.
  - right. right. apply word_inv in H0 as (s1 & t1 & s2 & t2 & P & -> & -> & [[-> ->]|W]).
    + exists s1, t1, [], [[]]. repeat split; auto. constructor.
    + exists s1, t1, s2, [t2]. repeat split; auto. now constructor.
  - right. right. apply word_inv in H0 as (s1 & t1 & s2 & t2 & P & -> & -> & [[-> ->]|W]).
    + exists s1, t1, (c :: s'), ([] :: l0). rewrite <- app_assoc. repeat split; auto. now constructor.
    + exists s1, t1, (s2 ++ c :: s'), (t2 :: l0). rewrite <- app_assoc. repeat split; auto. now constructor.
Qed.

Lemma words_inv s l : words s l ->
  (s = [] /\ l = []) \/
  (exists c s', blank c /\ s = c :: s' /\ words s' l) \/
  (exists s1 t1 s2 l2, piece s1 t1 /\ s = s1 ++ s2 /\ l = pre t1 l2 /\ tail s2 l2).
Proof.
  intros H; inversion H; subst; auto.
  - right. left. eauto.
  - right. right. apply word_inv in H0 as (s1 & t1 & s2 & t2 & P & -> & -> & [[-> ->]|W]).
    + exists s1, t1, [], [[]]. repeat split; auto. constructor.
    + exists s1, t1, s2, [t2]. repeat split; auto. now constructor.
  - right. right. apply word_inv in H0 as (s1 & t1 & s2 & t2 & P & -> & -> & [[-> ->]|W]).
    + exists s1, t1, (c :: s'), ([] :: l0). rewrite <- app_assoc. repeat split; auto. now constructor.
    + exists s1, t1, (s2 ++ c :: s'), (t2 :: l0). rewrite <- app_assoc. repeat split; auto. now constructor.
Qed.

(** The rest of a quoted piece. *)
Inductive closes (q : pychar) : str -> str -> str -> Prop :=
| c_single s r : q = squote -> ~ In squote s -> closes q (s ++ squote :: r) s r
| c_double s t r : q = dquote -> in_dquotes s t -> closes q (s ++ dquote :: r) t r.

Lemma closes_inv q s t r : closes q s t r -> exists b, s = b ++ q :: r /\ piece (q :: b ++ [q]) t.
Proof. intros C. inversion C; subst; eexists; (split; [reflexivity|]); now constructor. Qed.

(** ** Soundness *)
(** What a successful run from each state means. *)
Definition run_ok (st : sh_state) (tok : str) (quoted : bool) (s : str) (l : list str) : Prop :=
  match st with
  | ShSpace => tok = [] -> quoted = false -> words s l
  | ShWord => (tok <> [] \/ quoted = true) -> exists l', tail s l' /\ l = pre tok l'
  | ShQuote q => (q = squote \/ q = dquote) ->
      exists t r l', closes q s t r /\ tail r l' /\ l = pre (tok ++ t) l'
  | ShEsc None => exists c r l', s = c :: r /\ tail r l' /\ l = pre (tok ++ [c]) l'
  | ShEsc (Some q) => q = dquote -> exists c s' t r l',
      s = c :: s' /\ closes dquote s' t r /\ tail r l' /\
      l = pre (tok ++ (if (negb (sh_escape c) && negb (N.eqb c dquote))%bool then [backslash; c] else [c]) ++ t) l'
  end.

Lemma pre_app a b l : pre a (pre b l) = pre (a ++ b) l.
Proof. destruct l; cbn [pre]; auto. now rewrite app_assoc. Qed.

Lemma sh_run_sound s : forall st tok quoted l, sh_run st tok quoted s = Ok l -> run_ok st tok quoted s l.
Proof.
  induction s as [|c s IH]; intros st tok qd l; cbn [sh_run].
  - destruct st as [| |q|b]; try discriminate; cbn [run_ok].
    + intros E -> ->. cbn in E. inversion E. constructor.
    + intros E H. exists [[]]. split; [constructor|]. cbn [pre]. rewrite app_nil_r.
      destruct (negb qd && str_eqb tok []) eqn:B; [|now inversion E].
      apply andb_true_iff in B as [B1 B2]. apply str_eqb_eq in B2. apply negb_true_iff in B1.
      destruct H; congruence.
  - destruct st as [| |q|[q|]]; cbn [run_ok].
    + (* between words *)
      destruct (sh_space c) eqn:SP.
      { intros E -> ->. cbn in E. apply sh_space_blank in SP. constructor; auto. now apply (IH _ _ _ _ E). }
      apply sh_space_no in SP. destruct (sh_escape c) eqn:ES.
      { intros E -> ->. apply sh_escape_iff in ES as ->. apply IH in E as (d & r & l' & -> & T & ->).
        change (backslash :: d :: r) with ([backslash; d] ++ r). apply words_piece; auto. constructor. }
      apply sh_escape_no in ES. destruct (sh_quote c) eqn:Q.
      { intros E -> ->. apply sh_quote_iff in Q. apply IH in E. destruct (E Q) as (t & r & l' & C & T & ->).
        apply closes_inv in C as (b & -> & P).
        replace (c :: b ++ c :: r) with ((c :: b ++ [c]) ++ r) by (cbn [app]; now rewrite <- app_assoc).
        now apply words_piece. }
      apply sh_quote_no in Q as [Q1 Q2]. intros E -> ->. apply IH in E.
      destruct E as (l' & T & ->); [left; discriminate|].
      change (c :: s) with ([c] ++ s). apply words_piece; auto. constructor. repeat split; auto.
    + (* in a word *)
      intros E H. destruct (sh_space c) eqn:SP.
      { apply sh_space_blank in SP. destruct (negb (str_eqb tok []) || qd) eqn:B.
        - destruct (sh_run ShSpace [] false s) as [l0|] eqn:R; [|discriminate]. inversion E; subst.
          exists ([] :: l0). split; [|cbn [pre]; now rewrite app_nil_r]. constructor; auto.
          now apply (IH _ _ _ _ R).
        - apply orb_false_iff in B as [B1 B2]. apply negb_false_iff, str_eqb_eq in B1.
          destruct H; congruence. }
      apply sh_space_no in SP. destruct (sh_quote c) eqn:Q.
      { apply sh_quote_iff in Q. apply IH in E. destruct (E Q) as (t & r & l' & C & T & ->).
        exists (pre t l'). rewrite pre_app. split; auto.
        apply closes_inv in C as (b & -> & P).
        replace (c :: b ++ c :: r) with ((c :: b ++ [c]) ++ r) by (cbn [app]; now rewrite <- app_assoc).
        now apply tail_piece. }
      apply sh_quote_no in Q as [Q1 Q2]. destruct (sh_escape c) eqn:ES.
      { apply sh_escape_iff in ES as ->. apply IH in E as (d & r & l' & -> & T & ->).
        exists (pre [d] l'). rewrite pre_app. split; auto.
        change (backslash :: d :: r) with ([backslash; d] ++ r). apply tail_piece; auto. constructor. }
      apply sh_escape_no in ES. apply IH in E. destruct E as (l' & T & ->).
      { left. destruct tok; discriminate. }
      exists (pre [c] l'). rewrite pre_app. split; auto. change (c :: s) with ([c] ++ s).
      apply tail_piece; auto. constructor. repeat split; auto.
    + (* in quotes *)
      intros E HQ. destruct (N.eqb_spec c q) as [->|NQ].
      { apply IH in E. destruct E as (l' & T & ->); [now right|].
        exists [], s, l'. rewrite app_nil_r. split; auto. destruct HQ as [-> | ->].
        - apply (c_single squote [] s); auto.
        - apply (c_double dquote [] [] s); auto. constructor. }
      destruct (sh_escape c && sh_escapedquote q) eqn:B.
      { apply andb_true_iff in B as [B1 B2]. apply sh_escape_iff in B1 as ->. apply N.eqb_eq in B2.
        subst q. apply IH in E. destruct (E eq_refl) as (d & s' & t & r & l' & -> & C & T & ->).
        exists ((if negb (sh_escape d) && negb (d =? dquote)%N then [backslash; d] else [d]) ++ t), r, l'.
        split; auto. inversion C as [? ? X|b ? ? _ DQ EQ]; subst; [discriminate|].
        change (backslash :: d :: b ++ dquote :: r) with ((backslash :: d :: b) ++ dquote :: r).
        apply c_double; auto. destruct (sh_escape d) eqn:ED; cbn [negb andb].
        { apply sh_escape_iff in ED as ->. cbn [app]. apply dq_escape; auto. }
        apply sh_escape_no in ED. destruct (N.eqb_spec d dquote); cbn [negb andb app].
        - apply dq_escape; auto.
        - apply dq_backslash; auto. }
      apply IH in E. destruct (E HQ) as (t & r & l' & C & T & ->).
      exists (c :: t), r, l'. rewrite <- app_assoc. split; auto. inversion C as [? ? X NI|b ? ? X DQ]; subst.
      * apply (c_single squote (c :: t) r); auto. intros [->|IN]; auto.
      * apply (c_double dquote (c :: b) (c :: t) r); auto. constructor; auto.
        rewrite andb_true_r in B. now apply sh_escape_no.
    + (* escape in double quotes *)
      intros E ->. apply IH in E. destruct E as (t & r & l' & C & T & ->); [now right|].
      exists c, s, t, r, l'. repeat split; auto. f_equal.
      destruct (negb (sh_escape c) && negb (c =? dquote)%N); now rewrite <- !app_assoc.
    + (* escape outside quotes *)
      intros E. apply IH in E. destruct E as (l' & T & ->); [left; destruct tok; discriminate|].
      exists c, s, l'. auto.
Qed.

(** ** Completeness *)
Lemma str_eqb_nil_app (a : str) c : str_eqb (a ++ [c]) [] = false.
Proof. destruct a; reflexivity. Qed.

Lemma run_single s r : ~ In squote s -> forall tok qd, sh_run (ShQuote squote) tok qd (s ++ squote :: r) = sh_run ShWord (tok ++ s) true r.
Proof.
  induction s as [|c s IH]; intros N tok qd; cbn [app sh_run].
  - rewrite N.eqb_refl, app_nil_r. reflexivity.
  - destruct (N.eqb_spec c squote) as [->|NE]; [exfalso; apply N; now left|].
    change (sh_escapedquote squote) with false. rewrite andb_false_r, IH; [|intros I; apply N; now right].
    now rewrite <- app_assoc.
Qed.

Lemma run_double s t r : in_dquotes s t -> forall tok qd, sh_run (ShQuote dquote) tok qd (s ++ dquote :: r) = sh_run ShWord (tok ++ t) true r.
Proof.
  induction 1 as [|c s t N1 N2 H IH|c s t E H IH|c s t N1 N2 H IH]; intros tok qd; cbn [app sh_run].
  - rewrite N.eqb_refl, app_nil_r. reflexivity.
  - apply N.eqb_neq in N1. rewrite N1. apply sh_escape_no in N2. rewrite N2. cbn [andb].
    rewrite IH. now rewrite <- app_assoc.
  - change (backslash =? dquote)%N with false. change (sh_escape backslash && sh_escapedquote dquote) with true.
    cbn [sh_run]. replace (negb (sh_escape c) && negb (c =? dquote)%N) with false.
    + rewrite IH. now rewrite <- app_assoc.
    + destruct E as [-> | ->]; reflexivity.
  - change (backslash =? dquote)%N with false. change (sh_escape backslash && sh_escapedquote dquote) with true.
    cbn [sh_run]. apply N.eqb_neq in N1. apply sh_escape_no in N2. rewrite N1, N2. cbn [negb andb].
    rewrite IH. now rewrite <- !app_assoc.
Qed.

Lemma quote_not_blank q : q = squote \/ q = dquote -> sh_space q = false /\ sh_escape q = false /\ sh_quote q = true.
Proof. intros [-> | ->]; auto. Qed.

Lemma run_piece_word s t r : piece s t -> forall tok qd, exists qd',
  (t = [] -> qd' = true) /\ (qd = true -> qd' = true) /\
  sh_run ShWord tok qd (s ++ r) = sh_run ShWord (tok ++ t) qd' r.
Proof.
  intros P tok qd. inversion P; subst; cbn [app sh_run].
  - destruct H as (B & Q1 & Q2 & E). apply sh_space_no in B. rewrite B.
    assert (Q : sh_quote c = false) by now apply sh_quote_no. apply sh_escape_no in E. rewrite Q, E.
    exists qd. repeat split; auto. discriminate.
  - cbn [sh_space existsb]. change (sh_space backslash) with false. change (sh_quote backslash) with false.
    change (sh_escape backslash) with true. cbn [sh_run]. exists qd. repeat split; auto. discriminate.
  - change (sh_space squote) with false. change (sh_quote squote) with true. cbn match.
    rewrite <- app_assoc. cbn [app]. rewrite run_single by auto. exists true. auto.
  - change (sh_space dquote) with false. change (sh_quote dquote) with true. cbn match.
    rewrite <- app_assoc. cbn [app]. rewrite (run_double _ t) by auto. exists true. auto.
Qed.

Lemma run_piece_space s t r : piece s t -> exists qd', (t = [] -> qd' = true) /\
  sh_run ShSpace [] false (s ++ r) = sh_run ShWord t qd' r.
Proof.
  intros P. inversion P; subst; cbn [app sh_run].
  - destruct H as (B & Q1 & Q2 & E). apply sh_space_no in B. rewrite B.
    assert (Q : sh_quote c = false) by now apply sh_quote_no. apply sh_escape_no in E. rewrite Q, E.
    exists false. split; auto. discriminate.
  - change (sh_space backslash) with false. change (sh_escape backslash) with true. cbn [sh_run app].
    exists false. split; auto. discriminate.
  - change (sh_space squote) with false. change (sh_escape squote) with false. change (sh_quote squote) with true.
    cbn match. rewrite <- app_assoc. cbn [app]. rewrite run_single by auto. exists true. auto.
  - change (sh_space dquote) with false. change (sh_escape dquote) with false. change (sh_quote dquote) with true.
    cbn match. rewrite <- app_assoc. cbn [app]. rewrite (run_double _ t) by auto. exists true. auto.
Qed.

Lemma run_word_word s t : word s t -> forall r tok qd, exists qd',
  (tok ++ t = [] -> qd' = true) /\ sh_run ShWord tok qd (s ++ r) = sh_run ShWord (tok ++ t) qd' r.
Proof.
  induction 1 as [s t P|s t s' t' P W IH]; intros r tok qd.
  - destruct (run_piece_word s t r P tok qd) as (qd' & A & B & E). exists qd'. split; auto.
    intros X. apply app_eq_nil in X as [_ ->]. auto.
  - rewrite <- app_assoc. destruct (run_piece_word s t (s' ++ r) P tok qd) as (q1 & A & B & ->).
    destruct (IH r (tok ++ t) q1) as (q2 & C & ->). exists q2. rewrite app_assoc. auto.
Qed.

Lemma run_word_space s t r : word s t -> exists qd', (t = [] -> qd' = true) /\
  sh_run ShSpace [] false (s ++ r) = sh_run ShWord t qd' r.
Proof.
  intros W. destruct W as [s t P|s t s' t' P W].
  - now apply run_piece_space.
  - rewrite <- app_assoc. destruct (run_piece_space s t (s' ++ r) P) as (q1 & A & ->).
    apply run_word_word; auto.
Qed.

Lemma words_complete s l : words s l -> shlex_split s = Ok l.
Proof.
  unfold shlex_split. induction 1 as [|c s l B W IH|s t W|s t c s' l W B WS IH].
  - reflexivity.
  - cbn [sh_run]. apply sh_space_blank in B. rewrite B. cbn. auto.
  - destruct (run_word_space s t [] W) as (q & A & E). rewrite app_nil_r in E. rewrite E. cbn [sh_run].
    destruct t as [|c t]; [rewrite A by auto; reflexivity|]. cbn [str_eqb]. now rewrite andb_false_r.
  - destruct (run_word_space s t (c :: s') W) as (q & A & ->). cbn [sh_run].
    apply sh_space_blank in B. rewrite B, IH.
    destruct t as [|d t]; [rewrite A by auto; reflexivity|]. reflexivity.
Qed.

Theorem shlex_words s l : shlex_split s = Ok l <-> words s l.
Proof.
  split; [|apply words_complete]. intros E. now apply (sh_run_sound s ShSpace [] false l E).
Qed.

Lemma sh_run_error s : forall st tok qd e, sh_run st tok qd s = Err e -> e = ValueError.
Proof.
  induction s as [|c s IH]; intros st tok qd e; cbn [sh_run].
  - destruct st; try (intros E; inversion E; auto; fail);
      destruct (negb qd && str_eqb tok []); discriminate.
  - destruct st as [| |q|[q|]];
      repeat match goal with
      | |- context [if ?b then _ else _] => destruct b
      end; try apply IH;
      (destruct (sh_run ShSpace [] false s) eqn:R; [discriminate|]; intros E; inversion E; subst; now apply (IH _ _ _ _ R)).
Qed.

Theorem shlex_error s : (forall l, ~ words s l) <-> shlex_split s = Err ValueError.
Proof.
  split.
  - intros N. destruct (shlex_split s) as [l|e] eqn:E; [exfalso; apply (N l); now apply shlex_words|].
    f_equal. now apply (sh_run_error s ShSpace [] false).
  - intros E l W. apply shlex_words in W. congruence.
Qed.

Theorem words_unique s l l' : words s l -> words s l' -> l = l'.
Proof. intros A B. apply shlex_words in A, B. congruence. Qed.

(** ** Quoting round trip *)
Lemma word_app s t s' t' : word s t -> word s' t' -> word (s ++ s') (t ++ t').
Proof.
  intros W W'. induction W as [s t P|s t s1 t1 P W IH].
  - now constructor 2.
  - rewrite <- !app_assoc. now constructor 2.
Qed.

(** Inside single quotes, from any position: the rest of a quoted token. *)
Lemma quoted_word t : forall a, ~ In squote a -> word (squote :: a ++ flat_map sq_char t ++ [squote]) (a ++ t).
Proof.
  induction t as [|c t IH]; intros a N; cbn [flat_map app].
  - rewrite app_nil_r. constructor. now constructor.
  - unfold sq_char at 1. destruct (N.eqb_spec c squote) as [->|NE].
    + cbn [app].
      replace (squote :: a ++ squote :: dquote :: squote :: dquote :: squote :: flat_map sq_char t ++ [squote])
        with ((squote :: a ++ [squote]) ++ (dquote :: [squote] ++ [dquote]) ++ (squote :: [] ++ flat_map sq_char t ++ [squote])).
      2: { cbn [app]. rewrite <- app_assoc. reflexivity. }
      replace (a ++ squote :: t) with (a ++ [squote] ++ ([] ++ t)) by reflexivity.
      constructor 2; [now constructor|]. constructor 2; [|apply IH; auto].
      constructor. repeat constructor; discriminate.
    + cbn [app]. specialize (IH (a ++ [c])). rewrite <- !app_assoc in IH. apply IH.
      rewrite in_app_iff. intros [X|[X|[]]]; auto.
Qed.

Theorem quote_round_trip l : shlex_split (join blank_sep (map quoted l)) = Ok l.
Proof.
  apply shlex_words. assert (Q : forall t, word (quoted t) t) by (intros t; apply (quoted_word t []); auto).
  induction l as [|t l IH]; [constructor|]. destruct l as [|t' l].
  - apply ws_last, Q.
  - cbn [map join] in *. unfold blank_sep at 1. cbn [app]. apply ws_word; auto. now left.
Qed.

(** ** Unquoted keys *)
Lemma ordinary_word w : w <> [] -> Forall ordinary w -> word w w.
Proof.
  intros N F. induction F as [|c w O F IH]; [congruence|]. destruct w as [|d w].
  - constructor. now constructor.
  - change (c :: d :: w) with ([c] ++ d :: w). constructor 2; [now constructor|]. apply IH. discriminate.
Qed.

Theorem unquoted_split l (seps : list str) :
  length seps = length l ->
  Forall (fun w => w <> [] /\ Forall ordinary w) l ->
  Forall (fun b => b <> [] /\ Forall blank b) seps ->
  shlex_split (concat (map (fun p => fst p ++ snd p) (combine l seps))) = Ok l.
Proof.
  intros LEN FL. revert seps LEN. induction FL as [|w l (N & O) FL IH]; intros seps LEN FS.
  - reflexivity.
  - destruct seps as [|b seps]; [discriminate|]. inversion FS as [|? ? (NB & FB) FS']; subst.
    apply shlex_words. cbn [combine map concat]. rewrite <- app_assoc. cbn [fst snd].
    specialize (IH seps ltac:(cbn in LEN; lia) FS'). apply shlex_words in IH.
    destruct b as [|c b]; [congruence|]. inversion FB; subst. cbn [app].
    apply ws_word; [now apply ordinary_word|auto|].
    match goal with H : Forall blank b |- _ => clear - H IH; induction H end; cbn [app]; auto.
    now apply ws_blank.
Qed.

(** ** Errors and non-emptiness *)
Theorem no_empty_split s c : In c s -> ~ blank c -> shlex_split s <> Ok [].
Proof.
  intros IN NB E. apply shlex_words in E. remember (@nil str) as l eqn:L.
  induction E as [|d s l B W IH| |]; [destruct IN| |discriminate|discriminate].
  destruct IN as [->|IN]; auto.
Qed.

Theorem trailing_backslash s : ~ In squote s -> ~ In dquote s -> ~ In backslash s ->
  shlex_split (s ++ [backslash]) = Err ValueError.
Proof.
  intros N1 N2 N3. unfold shlex_split.
  assert (H : forall tok qd st, st = ShSpace \/ st = ShWord -> sh_run st tok qd (s ++ [backslash]) = Err ValueError).
  { induction s as [|c s IH]; intros tok qd st HS; cbn [app sh_run].
    - destruct HS as [-> | ->]; reflexivity.
    - assert (Q : sh_quote c = false).
      { apply sh_quote_no. split; intros ->; [apply N1|apply N2]; now left. }
      assert (ES : sh_escape c = false) by (apply sh_escape_no; intros ->; apply N3; now left).
      assert (IH' := IH (fun X => N1 (or_intror X)) (fun X => N2 (or_intror X)) (fun X => N3 (or_intror X))).
      destruct HS as [-> | ->]; rewrite ?Q, ?ES;
        (destruct (sh_space c); [destruct (negb (str_eqb tok []) || qd); rewrite IH'; auto|]);
        rewrite ?Q, ?ES; apply IH'; auto. }
  apply H. auto.
Qed.

Theorem unclosed_quote s q a : q = squote \/ q = dquote ->
  ~ In squote s -> ~ In dquote s -> ~ In backslash s -> ~ In q a -> ~ In backslash a ->
  shlex_split (s ++ q :: a) = Err ValueError.
Proof.
  intros HQ N1 N2 N3 NA NB. unfold shlex_split.
  assert (HA : forall tok qd, sh_run (ShQuote q) tok qd a = Err ValueError).
  { clear -NA NB. induction a as [|c a IH]; intros tok qd; cbn [sh_run]; auto.
    destruct (N.eqb_spec c q) as [->|NE]; [exfalso; apply NA; now left|].
    assert (ES : sh_escape c = false) by (apply sh_escape_no; intros ->; apply NB; now left).
    rewrite ES. cbn [andb]. apply IH; intros X; [apply NA|apply NB]; now right. }
  destruct (quote_not_blank q HQ) as (B1 & B2 & B3).
  assert (H : forall tok qd st, st = ShSpace \/ st = ShWord -> sh_run st tok qd (s ++ q :: a) = Err ValueError).
  { induction s as [|c s IH]; intros tok qd st HS; cbn [app sh_run].
    - destruct HS as [-> | ->]; rewrite B1, ?B2, B3; apply HA.
    - assert (Q : sh_quote c = false).
      { apply sh_quote_no. split; intros ->; [apply N1|apply N2]; now left. }
      assert (ES : sh_escape c = false) by (apply sh_escape_no; intros ->; apply N3; now left).
      assert (IH' := IH (fun X => N1 (or_intror X)) (fun X => N2 (or_intror X)) (fun X => N3 (or_intror X))).
      destruct HS as [-> | ->]; rewrite ?Q, ?ES;
        (destruct (sh_space c); [destruct (negb (str_eqb tok []) || qd); rewrite IH'; auto|]);
        rewrite ?Q, ?ES; apply IH'; auto. }
  apply H. auto.
Qed.
