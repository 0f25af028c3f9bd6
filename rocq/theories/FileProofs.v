(** * Texts and loaded files: the functions of the model compute the relations
    of [SpecText.v] and [SpecFile.v]. *)
From Coq Require Import String NArith ZArith Arith List Bool Lia.
Import ListNotations.
From Verif Require Import PyBase PyFacts IniView Cpe SpecText SpecFile.

(** ** Trimming *)
Lemma space_iff c : is_space c = true <-> space c.
Proof.
  unfold is_space, space. rewrite existsb_exists. split.
  - intros (x & I & E). apply N.eqb_eq in E. now subst.
  - intros I. exists c. split; auto. apply N.eqb_refl.
Qed.
Lemma dquote_iff c : is_dquote c = true <-> double_quote c.
Proof. apply N.eqb_eq. Qed.

Section Strip.
Variables (p : pychar -> bool) (P : pychar -> Prop).
Hypothesis PP : forall c, p c = true <-> P c.

Lemma not_first_iff y : not_first P y <-> match y with [] => True | c :: _ => p c = false end.
Proof. destruct y as [|c y]; cbn; [tauto|]. rewrite <- PP. destruct (p c); intuition congruence. Qed.
Lemma all_iff a : Forall (fun c => p c = true) a <-> Forall P a.
Proof. rewrite !Forall_forall. split; intros H c I; apply PP; auto. Qed.

Lemma strip_trimmed x : trimmed P x (strip p x).
Proof.
  pose proof (strip_head p x) as H. pose proof (strip_last p x) as L.
  destruct (strip_decomp p x) as (a & b & E & A & B).
  exists a, b. rewrite <- !all_iff, !not_first_iff. auto.
Qed.
Lemma lstrip_run a s : Forall P a -> lstrip p (a ++ s) = lstrip p s.
Proof. rewrite <- all_iff. induction 1 as [|c a H F IH]; cbn [app lstrip]; auto. now rewrite H. Qed.
Lemma trimmed_strip x y : trimmed P x y -> strip p x = y.
Proof.
  intros (a & b & -> & A & B & H & L). apply not_first_iff in H, L.
  unfold strip. rewrite lstrip_run by auto. destruct y as [|c y].
  - cbn [app]. pose proof (lstrip_run b [] B) as E. rewrite app_nil_r in E. now rewrite E.
  - cbn [app]. rewrite lstrip_fix by auto. unfold rstrip. change (c :: y ++ b) with ((c :: y) ++ b).
    rewrite rev_app_distr, lstrip_run by now apply Forall_rev. rewrite lstrip_fix by auto. apply rev_involutive.
Qed.
Theorem strip_iff x y : trimmed P x y <-> strip p x = y.
Proof. split; [apply trimmed_strip|intros <-; apply strip_trimmed]. Qed.
End Strip.

Theorem trimmed_iff x y : trimmed space x y <-> strip_ws x = y.
Proof. exact (strip_iff is_space space space_iff x y). Qed.
Theorem unquoted_iff x y : trimmed double_quote x y <-> strip_dquote x = y.
Proof. exact (strip_iff is_dquote double_quote dquote_iff x y). Qed.
Theorem cleaned_iff v w : cleaned v w <-> clean_value v = w.
Proof.
  unfold cleaned, clean_value, normal. destruct v as [x|], w as [y|]; cbn [option_map]; try (split; [tauto|discriminate]).
  - split.
    + intros (m & A & B). apply trimmed_iff in A. apply unquoted_iff in B. now rewrite A, B.
    + intros E. injection E as E. exists (strip_ws x). split; [now apply trimmed_iff|now apply unquoted_iff].
  - tauto.
Qed.

(** ** Operation words *)
Section Words.
Context {Sh Us : Type} (K : pyclass Sh Us).
Lemma op_char_iff c : op_char K c = true <-> letter (k_uniword K) c \/ c = 45%N.
Proof.
  unfold op_char, word_char, letter. rewrite !orb_true_iff, !andb_true_iff, !N.leb_le, !N.eqb_eq. tauto.
Qed.
Lemma newline_no_op : op_char K 10%N = false.
Proof. reflexivity. Qed.
Lemma op_tail_iff s : op_tail K s = true <->
  exists u, Forall (fun c => letter (k_uniword K) c \/ c = 45%N) u /\ (s = u \/ s = u ++ [10%N]).
Proof.
  induction s as [|c s IH]; cbn [op_tail].
  - split; auto. intros _. exists []. auto.
  - rewrite orb_true_iff, !andb_true_iff, IH, op_char_iff. split.
    + intros [[C (u & F & [-> | ->])]|[C E]].
      * exists (c :: u). auto.
      * exists (c :: u). auto.
      * apply N.eqb_eq in C. destruct s; [|discriminate]. subst c. exists []. auto.
    + intros ([|x u] & F & [E|E]); try discriminate.
      * right. injection E as -> ->. auto.
      * left. injection E as -> ->. inversion F; subst. split; auto. exists u. auto.
      * left. injection E as -> ->. inversion F; subst. split; auto. exists u. auto.
Qed.
Theorem op_word_iff w : op_word K w = true <-> op_shaped (k_uniword K) w.
Proof.
  unfold op_word, op_shaped. destruct w as [|c w].
  - split; [discriminate|]. intros ([|x u] & N & _ & [E|E]); try discriminate; now elim N.
  - rewrite andb_true_iff, op_char_iff, op_tail_iff. split.
    + intros (C & u & F & E). exists (c :: u). split; [discriminate|]. split; auto. destruct E as [-> | ->]; auto.
    + intros ([|x u] & N & F & E); [congruence|]. inversion F; subst.
      destruct E as [E|E]; injection E as -> ->; (split; [auto|exists u; auto]).
Qed.
Lemma op_word_no w : op_word K w = false <-> ~ op_shaped (k_uniword K) w.
Proof. rewrite <- op_word_iff. destruct (op_word K w); intuition congruence. Qed.
End Words.

(** ** Interpolation *)
Section I.
Variable look : str -> option (option str).

Lemma split_percent_none s : ~ In percent s -> split_percent s = (s, []).
Proof.
  induction s as [|c s IH]; intros N; auto. cbn. destruct (N.eqb_spec c 37) as [->|NE].
  - exfalso. apply N. now left.
  - rewrite IH; auto. intros X. apply N. now right.
Qed.
Lemma split_percent_spec s : let (a, b) := split_percent s in s = a ++ b /\ ~ In percent a /\
  match b with [] => True | c :: _ => c = percent end.
Proof.
  induction s as [|c s IH]; cbn [split_percent]; auto. destruct (N.eqb_spec c 37) as [->|NE].
  - cbn. auto.
  - destruct (split_percent s) as [a b]. destruct IH as (-> & N & H). split; auto. split; auto.
    intros [X|X]; auto.
Qed.
Lemma split_percent_app a s : ~ In percent a -> split_percent (a ++ percent :: s) = (a, percent :: s).
Proof.
  induction a as [|c a IH]; intros N; cbn [app split_percent].
  - reflexivity.
  - destruct (N.eqb_spec c 37) as [->|NE]; [exfalso; apply N; now left|].
    rewrite IH; auto. intros X. apply N. now right.
Qed.

Lemma take_name_spec s : match take_name s with
  | Some (n, r) => s = n ++ 41%N :: r /\ ~ In 41%N n
  | None => ~ In 41%N s
  end.
Proof.
  induction s as [|c s IH]; cbn [take_name]; auto. destruct (N.eqb_spec c 41) as [->|NE].
  - cbn. auto.
  - destruct (take_name s) as [[n r]|].
    + destruct IH as (-> & N). split; auto. intros [X|X]; auto.
    + intros [X|X]; auto.
Qed.
Lemma take_name_app n r : ~ In 41%N n -> take_name (n ++ 41%N :: r) = Some (n, r).
Proof.
  induction n as [|c n IH]; intros N; cbn [app take_name]; auto.
  destruct (N.eqb_spec c 41) as [->|NE]; [exfalso; apply N; now left|].
  rewrite IH; auto. intros X. apply N. now right.
Qed.
Lemma keycre_spec s name r : keycre s = Some (name, r) <->
  name <> [] /\ ~ In 41%N name /\ s = name ++ 41%N :: 115%N :: r.
Proof.
  unfold keycre. split.
  - pose proof (take_name_spec s) as H. destruct (take_name s) as [[[|c n] [|t q]]|]; try discriminate.
    destruct (N.eqb_spec t 115) as [->|]; [|discriminate]. intros E. inversion E; subst.
    destruct H as [-> N]. split; [discriminate|auto].
  - intros (NE & N & ->). rewrite take_name_app by auto. destruct name; [congruence|]. reflexivity.
Qed.

Lemma reference_eq name s : reference name ++ s = percent :: 40%N :: name ++ 41%N :: 115%N :: s.
Proof. unfold reference. cbn. now rewrite <- app_assoc. Qed.
Lemma keycre_ref s name r : keycre s = Some (name, r) <-> ref_name name /\ percent :: 40%N :: s = reference name ++ r.
Proof.
  rewrite keycre_spec, reference_eq. unfold ref_name. split; [intros (A & B & ->); auto|].
  intros [[A B] E]. injection E as ->. auto.
Qed.

Lemma char_mem_percent v : char_mem 37%N v = true <-> In percent v.
Proof. apply char_mem_In. Qed.

(** One round of the loop. *)
Lemma loop_nil rec f : interp_loop look rec (S f) [] = Ok [].
Proof. reflexivity. Qed.

Lemma expands_pre d a s t : ~ In percent a -> expands look d s t -> expands look d (a ++ s) (a ++ t).
Proof.
  induction a as [|c a IH]; intros N E; auto. cbn [app]. constructor.
  - intros ->. apply N. now left.
  - apply IH; auto. intros X. apply N. now right.
Qed.

Lemma e_value' d x name v s t : x = reference name ++ s -> ref_name name -> look name = Some (Some v) -> ~ In percent v ->
  expands look (S d) s t -> expands look (S d) x (v ++ t).
Proof. intros ->. apply e_value. Qed.
Lemma e_nested' d x name v w s t : x = reference name ++ s -> ref_name name -> look name = Some (Some v) -> In percent v ->
  expands look d v w -> expands look (S d) s t -> expands look (S d) x (w ++ t).
Proof. intros ->. apply e_nested. Qed.

(** The remaining length bounds the rounds. *)
Lemma loop_sound d rec (REC : forall v w, rec v = Ok w -> expands look d v w) : forall f s t,
  interp_loop look rec f s = Ok t -> expands look (S d) s t.
Proof.
  induction f as [|f IH]; intros s t; cbn [interp_loop]; [discriminate|].
  destruct s as [|c0 s0]; [intros E; inversion E; constructor|].
  pose proof (split_percent_spec (c0 :: s0)) as SP. destruct (split_percent (c0 :: s0)) as [pre rest1].
  destruct SP as (-> & NP & H). destruct rest1 as [|x [|c r]].
  - intros E. inversion E; subst. rewrite app_nil_r. rewrite <- (app_nil_r t) at 1. rewrite <- (app_nil_r t) at 2.
    apply expands_pre; auto. constructor.
  - discriminate.
  - subst x. destruct (N.eqb_spec c 37) as [->|N1].
    + destruct (interp_loop look rec f r) as [tl|] eqn:E; [|discriminate]. intros X. inversion X; subst.
      apply expands_pre; auto. apply e_percent. auto.
    + destruct (N.eqb_spec c 40) as [->|N2]; [|discriminate].
      destruct (keycre r) as [[var r']|] eqn:KC; [|discriminate]. apply keycre_ref in KC as (RN & ER).
      destruct (look var) as [[v|]|] eqn:LV; try discriminate.
      destruct (char_mem 37%N v) eqn:CM.
      * destruct (rec v) as [v'|] eqn:RV; [|discriminate].
        destruct (interp_loop look rec f r') as [tl|] eqn:E; [|discriminate]. intros X. inversion X; subst.
        apply expands_pre; auto. eapply e_nested'; eauto. now apply char_mem_percent.
      * destruct (interp_loop look rec f r') as [tl|] eqn:E; [|discriminate]. intros X. inversion X; subst.
        apply expands_pre; auto. eapply e_value'; eauto. intros Y. apply char_mem_percent in Y. congruence.
Qed.

Lemma loop_pre rec f a s : ~ In percent a -> interp_loop look rec (S f) (a ++ s) =
  match interp_loop look rec (S f) s with Ok t => Ok (a ++ t) | Err e => Err e end.
Proof.
  intros N. destruct a as [|c a]; [cbn [app]; now destruct (interp_loop look rec (S f) s)|].
  pose proof (split_percent_spec s) as SP. cbn [interp_loop app].
  destruct s as [|c0 s0].
  - rewrite app_nil_r. change (c :: a) with ((c :: a)). rewrite (split_percent_none (c :: a)) by auto.
    reflexivity.
  - destruct (split_percent (c0 :: s0)) as [pre rest1]. destruct SP as (-> & NP & H).
    change (c :: a ++ pre ++ rest1) with ((c :: a) ++ pre ++ rest1). rewrite app_assoc.
    assert (NN : ~ In percent ((c :: a) ++ pre)) by (intros X; apply in_app_or in X; tauto).
    destruct rest1 as [|x r1].
    + rewrite app_nil_r, split_percent_none by auto. reflexivity.
    + subst x. rewrite split_percent_app by auto. destruct r1 as [|c1 r]; auto.
      destruct (N.eqb c1 37).
      { destruct (interp_loop look rec f r); auto. now rewrite <- app_assoc. }
      destruct (N.eqb c1 40); auto. destruct (keycre r) as [[var r']|]; auto.
      destruct (look var) as [[v|]|]; auto. destruct (char_mem 37%N v).
      * destruct (rec v); auto. destruct (interp_loop look rec f r'); auto. now rewrite <- app_assoc.
      * destruct (interp_loop look rec f r'); auto. now rewrite <- app_assoc.
Qed.

Lemma loop_complete d rec (REC : forall v w, expands look d v w -> rec v = Ok w) : forall s t,
  expands look (S d) s t -> forall f, length s < f -> interp_loop look rec f s = Ok t.
Proof.
  intros s t E. remember (S d) as d1 eqn:D. revert D.
  induction E as [d0|d0 c s t N E IH|d0 s t E IH|d0 name v s t [NE NI] L NP E IH|d0 name v w s t [NE NI] L IP EV _ E IH];
    intros D f F; (destruct f as [|f]; [lia|]).
  - reflexivity.
  - change (c :: s) with ([c] ++ s). rewrite loop_pre by (intros [X|[]]; auto).
    rewrite IH; auto. cbn [length] in F. unfold str, pychar in *. lia.
  - cbn [interp_loop split_percent N.eqb Pos.eqb percent app]. cbn [length] in F.
    assert (F' : length s < f) by (unfold str, pychar in *; lia). now rewrite (IH D f F').
  - assert (d0 = d) by congruence. subst d0. rewrite reference_eq in *. cbn [interp_loop split_percent N.eqb Pos.eqb percent].
    rewrite (proj2 (keycre_spec _ name s)) by auto. rewrite L.
    assert (CM : char_mem 37%N v = false).
    { destruct (char_mem 37%N v) eqn:X; auto. apply char_mem_percent in X. contradiction. }
    rewrite CM, IH; auto. cbn [length] in F. rewrite app_length in F. cbn [length] in F. unfold str, pychar in *. lia.
  - assert (d0 = d) by congruence. subst d0. rewrite reference_eq in *. cbn [interp_loop split_percent N.eqb Pos.eqb percent].
    rewrite (proj2 (keycre_spec _ name s)) by auto. rewrite L.
    apply char_mem_percent in IP. rewrite IP, (REC v w EV), IH; auto.
    cbn [length] in F. rewrite app_length in F. cbn [length] in F. unfold str, pychar in *. lia.
Qed.

Theorem interp_expands d s t : interp_some look d s = Ok t <-> expands look d s t.
Proof.
  revert s t. induction d as [|d IH]; intros s t.
  - split; [discriminate|]. intros E. exfalso. remember 0 as z. induction E; try discriminate; auto.
  - cbn [interp_some]. split.
    + apply loop_sound. intros v w. apply IH.
    + intros E. apply loop_complete with (d := d); auto. intros v w. apply IH.
Qed.

Theorem expands_unique d s t t' : expands look d s t -> expands look d s t' -> t = t'.
Proof. intros A B. apply interp_expands in A, B. congruence. Qed.

Theorem expands_plain d s : ~ In percent s -> expands look (S d) s s.
Proof.
  intros N. rewrite <- (app_nil_r s). apply expands_pre; auto. constructor.
Qed.
Theorem expands_escaped d s : expands look (S d) (escape_percent s) s.
Proof.
  induction s as [|c s IH]; cbn; [constructor|]. destruct (N.eqb_spec c percent) as [->|NE].
  - cbn [app]. now apply e_percent.
  - cbn [app]. now apply e_char.
Qed.

(** The errors. *)
Lemma loop_error rec (P : exc -> Prop)
  (P1 : P InterpolationSyntaxError) (P2 : P InterpolationMissingOptionError) (P3 : P TypeError)
  (REC : forall v e, rec v = Err e -> P e) : forall f s e, length s < f ->
  interp_loop look rec f s = Err e -> P e.
Proof.
  induction f as [|f IH]; intros s e F; cbn [interp_loop]; [lia|].
  destruct s as [|c0 s0]; [discriminate|].
  pose proof (split_percent_spec (c0 :: s0)) as SP. destruct (split_percent (c0 :: s0)) as [pre rest1].
  destruct SP as (E & NP & H). rewrite E in F. rewrite app_length in F. destruct rest1 as [|x [|c r]]; [discriminate| |].
  - intros X. inversion X; now subst.
  - destruct (N.eqb c 37).
    { destruct (interp_loop look rec f r) eqn:L; [discriminate|]. intros X. inversion X; subst.
      eapply IH; [|exact L]. cbn in F. lia. }
    destruct (N.eqb c 40); [|intros X; inversion X; now subst].
    destruct (keycre r) as [[var r']|] eqn:KC; [|intros X; inversion X; now subst].
    apply keycre_spec in KC as (NE & NI & ->).
    assert (LR : length r' < f) by (cbn in F; rewrite app_length in F; cbn in F; lia).
    destruct (look var) as [[v|]|]; try (intros X; inversion X; now subst).
    destruct (char_mem 37%N v).
    + destruct (rec v) eqn:RV; [|intros X; inversion X; subst; eauto].
      destruct (interp_loop look rec f r') eqn:L; [discriminate|]. intros X. inversion X; subst. eauto.
    + destruct (interp_loop look rec f r') eqn:L; [discriminate|]. intros X. inversion X; subst. eauto.
Qed.

Definition interp_exc (e : exc) : Prop :=
  e = InterpolationSyntaxError \/ e = InterpolationMissingOptionError \/ e = InterpolationDepthError \/ e = TypeError.

Theorem interp_error d s e : interp_some look d s = Err e -> interp_exc e.
Proof.
  revert s e. unfold interp_exc. induction d as [|d IH]; intros s e; cbn [interp_some].
  - intros E. inversion E; auto.
  - intros E. refine (loop_error (interp_some look d) _ _ _ _ IH _ s e _ E); auto.
Qed.

(** The error is that of the leftmost fault. *)
Lemma fails_pre d a s e : ~ In percent a -> fails look (S d) s e -> fails look (S d) (a ++ s) e.
Proof.
  induction a as [|c a IH]; intros N E; auto. cbn [app]. apply f_char.
  - intros ->. apply N. now left.
  - apply IH; auto. intros X. apply N. now right.
Qed.
Lemma loop_fails d rec (REC : forall v w, rec v = Ok w -> expands look d v w) (RECE : forall v e, rec v = Err e -> fails look d v e) :
  forall f s e, length s < f -> interp_loop look rec f s = Err e -> fails look (S d) s e.
Proof.
  induction f as [|f IH]; intros s e F; cbn [interp_loop]; [lia|].
  destruct s as [|c0 s0]; [discriminate|].
  pose proof (split_percent_spec (c0 :: s0)) as SP. destruct (split_percent (c0 :: s0)) as [pre rest1].
  destruct SP as (E & NP & H). rewrite E in *. rewrite app_length in F. destruct rest1 as [|x [|c r]]; [discriminate| |].
  - intros X. injection X as <-. subst x. apply fails_pre; auto. constructor.
  - subst x. destruct (N.eqb_spec c 37) as [->|N1].
    { destruct (interp_loop look rec f r) eqn:L; [discriminate|]. intros X. injection X as <-.
      apply fails_pre; auto. apply f_percent. eapply IH; [|exact L]. cbn in F. lia. }
    destruct (N.eqb_spec c 40) as [->|N2]; [|intros X; injection X as <-; apply fails_pre; auto; apply f_other; auto].
    destruct (keycre r) as [[var r']|] eqn:KC.
    2: { intros X. injection X as <-. apply fails_pre; auto.
         apply (f_open look d r). intros name q RN Y. assert (Z : keycre r = Some (name, q)) by (apply keycre_ref; split; auto). congruence. }
    pose proof (proj1 (keycre_spec _ _ _) KC) as (_ & _ & LE).
    assert (LR : length r' < f).
    { apply (f_equal (@length pychar)) in LE. rewrite app_length in LE. cbn in LE, F. unfold str, pychar in *. lia. }
    apply keycre_ref in KC as (RN & ER).
    assert (GO : forall e, fails look (S d) (reference var ++ r') e -> fails look (S d) (pre ++ percent :: 40%N :: r) e).
    { intros e0 X. apply fails_pre; auto. exact (eq_ind_r (fun z => fails look (S d) z e0) X ER). }
    destruct (look var) as [[v|]|] eqn:LV.
    + destruct (char_mem 37%N v) eqn:CM.
      * apply char_mem_percent in CM. destruct (rec v) eqn:RV.
        -- destruct (interp_loop look rec f r') eqn:L; [discriminate|]. intros X. injection X as <-.
           apply GO. eapply f_nested; eauto.
        -- intros X. injection X as <-. apply GO. eapply f_inner; eauto.
      * destruct (interp_loop look rec f r') eqn:L; [discriminate|]. intros X. injection X as <-.
        apply GO. eapply f_value; eauto. intros Y. apply char_mem_percent in Y. congruence.
    + intros X. injection X as <-. apply GO. now apply f_none.
    + intros X. injection X as <-. apply GO. now apply f_missing.
Qed.
Lemma fails_loop d rec (REC : forall v w, expands look d v w -> rec v = Ok w) (RECE : forall v e, fails look d v e -> rec v = Err e) :
  forall s e, fails look (S d) s e -> forall f, length s < f -> interp_loop look rec f s = Err e.
Proof.
  assert (KR : forall name s, ref_name name -> keycre (name ++ 41%N :: 115%N :: s) = Some (name, s)).
  { intros name s RN. apply keycre_ref. split; auto. symmetry. apply reference_eq. }
  intros s e E. remember (S d) as d1 eqn:D. revert D.
  induction E as [s|d0|d0 c s N1 N2|d0 s NO|d0 name s RN L|d0 name s RN L|d0 name v s e RN L IP E _
    |d0 c s e N E IH|d0 s e E IH|d0 name v s e RN L NP E IH|d0 name v w s e RN L IP EV E IH];
    intros D f F; try discriminate; assert (d0 = d) by congruence; subst d0; (destruct f as [|f]; [lia|]).
  - reflexivity.
  - cbn [interp_loop split_percent N.eqb Pos.eqb percent].
    destruct (N.eqb_spec c 37); [contradiction|]. destruct (N.eqb_spec c 40); [contradiction|]. reflexivity.
  - change ($"%(" ++ s) with (percent :: 40%N :: s). cbn [interp_loop split_percent N.eqb Pos.eqb percent].
    destruct (keycre s) as [[name r]|] eqn:KC; [|reflexivity]. apply keycre_ref in KC as (RN & ER). destruct (NO name r RN ER).
  - rewrite reference_eq. cbn [interp_loop split_percent N.eqb Pos.eqb percent]. now rewrite (KR _ _ RN), L.
  - rewrite reference_eq. cbn [interp_loop split_percent N.eqb Pos.eqb percent]. now rewrite (KR _ _ RN), L.
  - rewrite reference_eq. cbn [interp_loop split_percent N.eqb Pos.eqb percent]. rewrite (KR _ _ RN), L.
    apply char_mem_percent in IP. now rewrite IP, (RECE _ _ E).
  - change (c :: s) with ([c] ++ s). rewrite loop_pre by (intros [X|[]]; auto).
    rewrite IH; auto. cbn [length] in F. unfold str, pychar in *. lia.
  - cbn [interp_loop split_percent N.eqb Pos.eqb percent app]. cbn [length] in F.
    assert (F' : length s < f) by (unfold str, pychar in *; lia). now rewrite (IH D f F').
  - rewrite reference_eq in *. cbn [interp_loop split_percent N.eqb Pos.eqb percent]. rewrite (KR _ _ RN), L.
    assert (CM : char_mem 37%N v = false).
    { destruct (char_mem 37%N v) eqn:X; auto. apply char_mem_percent in X. contradiction. }
    rewrite CM, IH; auto. cbn [length] in F. rewrite app_length in F. cbn [length] in F. unfold str, pychar in *. lia.
  - rewrite reference_eq in *. cbn [interp_loop split_percent N.eqb Pos.eqb percent]. rewrite (KR _ _ RN), L.
    apply char_mem_percent in IP. rewrite IP, (REC v w EV), IH; auto.
    cbn [length] in F. rewrite app_length in F. cbn [length] in F. unfold str, pychar in *. lia.
Qed.
Theorem interp_fails d s e : interp_some look d s = Err e <-> fails look d s e.
Proof.
  revert s e. induction d as [|d IH]; intros s e.
  - split; [intros E; injection E as <-; constructor|]. intros E. inversion E; subst. reflexivity.
  - cbn [interp_some]. split.
    + apply loop_fails; auto; intros; [now apply interp_expands|now apply IH].
    + intros E. apply fails_loop with (d := d); auto; intros; [now apply interp_expands|now apply IH].
Qed.
Theorem fails_errors d s e : fails look d s e -> interp_exc e.
Proof. intros F. apply interp_fails in F. now apply interp_error in F. Qed.
End I.

(** ** Sections *)
Section File.
Variable i : ini.

Lemma own_iff s own : own_section i s own <-> own_options i s = Some own.
Proof.
  unfold own_section, own_options. destruct (str_eqb_spec s (i_defname i)) as [E|N].
  - split; [intros [[_ ->]|[X _]]; [auto|congruence]|]. intros X. injection X as <-. auto.
  - split; [intros [[X _]|[_ X]]; [congruence|auto]|auto].
Qed.
Theorem present_iff s : present i s <-> ini_items i s <> None.
Proof.
  unfold present, ini_items. split.
  - intros (own & X). apply own_iff in X. rewrite X. discriminate.
  - destruct (own_options i s) as [own|] eqn:E; [|congruence]. intros _. exists own. now apply own_iff.
Qed.
Theorem absent_iff s : ~ present i s <-> ini_items i s = None.
Proof. rewrite present_iff. destruct (ini_items i s); intuition congruence. Qed.

Lemma inherited_iff own l l' : inherited own l l' <-> filter (fun kv => negb (dmem (fst kv) own)) l = l'.
Proof.
  split.
  - induction 1 as [|k v l l' I _ IH|k v l l' I _ IH]; auto; cbn [filter fst].
    + apply dmem_keys in I. now rewrite I.
    + destruct (dmem k own) eqn:D; [apply dmem_keys in D; contradiction|]. cbn. now rewrite IH.
  - intros <-. induction l as [|[k v] l IH]; [constructor|]. cbn [filter fst]. destruct (dmem k own) eqn:D.
    + apply dmem_keys in D. now apply inh_own.
    + apply inh_new; auto. intros X. apply dmem_keys in X. congruence.
Qed.
Lemma value_iff own v r : value_is (scope i own) v r <-> ini_get i own v = r.
Proof.
  unfold ini_get, max_interpolation_depth. change (ini_lookup i own) with (scope i own). destruct v as [s|].
  - destruct (interp_some (scope i own) 10 s) as [t|e] eqn:E.
    + apply interp_expands in E. split.
      * intros H. inversion H; subst.
        -- f_equal. f_equal. eapply expands_unique; eauto.
        -- match goal with X : fails _ _ _ _ |- _ => apply interp_fails in X end. apply interp_expands in E. congruence.
      * intros <-. now constructor.
    + apply interp_fails in E. split.
      * intros H. inversion H; subst.
        -- match goal with X : expands _ _ _ _ |- _ => apply interp_expands in X end. apply interp_fails in E. congruence.
        -- match goal with X : fails _ _ _ _ |- _ => apply interp_fails in X end. apply interp_fails in E. congruence.
      * intros <-. now constructor.
  - split; [intros H; now inversion H|intros <-; constructor].
Qed.
Theorem shows_iff s items : section_shows i s items <-> ini_items i s = Some items.
Proof.
  assert (F2 : forall own l items, Forall2 (fun (kv : str * option str) (it : str * res (option str)) => fst it = fst kv /\ value_is (scope i own) (snd kv) (snd it)) l items <->
     map (fun kv => (fst kv, ini_get i own (snd kv))) l = items).
  { intros own. induction l as [|[k v] l IH]; intros its; cbn [map].
    - split; [intros H; now inversion H|intros <-; constructor].
    - split.
      + intros H. inversion H as [|? [k' r] ? its' [A B] C]; subst. cbn [fst snd] in *. apply value_iff in B. apply IH in C.
        subst. reflexivity.
      + intros <-. constructor; [|now apply IH]. cbn [fst snd]. split; auto. now apply value_iff. }
  unfold section_shows, ini_items. split.
  - intros (own & more & O & I & F). apply own_iff in O. rewrite O. apply inherited_iff in I. apply F2 in F. subst.
    reflexivity.
  - destruct (own_options i s) as [own|] eqn:O; [|discriminate]. intros E. injection E as E.
    exists own, (filter (fun kv => negb (dmem (fst kv) own)) (i_defs i)). split; [now apply own_iff|].
    split; [now apply inherited_iff|]. now apply F2.
Qed.
Theorem present_shows s : present i s <-> exists items, section_shows i s items.
Proof.
  rewrite present_iff. destruct (ini_items i s) as [its|] eqn:E.
  - split; [|discriminate]. intros _. exists its. now apply shows_iff.
  - split; [congruence|]. intros (its & H). apply shows_iff in H. congruence.
Qed.
End File.

(** Between the two forms. *)
Ltac filed := repeat match goal with
  | H : section_shows _ _ _ |- _ => apply shows_iff in H
  | H : ~ present _ _ |- _ => apply absent_iff in H
  | H : present _ _ |- _ => apply present_iff in H
  end.
#[export] Hint Extern 1 (section_shows _ _ _) => apply shows_iff; eassumption : core.
#[export] Hint Extern 1 (~ present _ _) => apply absent_iff; assumption : core.
#[export] Hint Extern 1 (present _ _) => apply present_iff; assumption : core.
#[export] Hint Extern 1 (ini_items _ _ = Some _) => apply shows_iff; assumption : core.
#[export] Hint Extern 1 (ini_items _ _ = None) => apply absent_iff; assumption : core.
