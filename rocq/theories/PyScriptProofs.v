(** * Proofs about the Python scripts. *)
From Coq Require Import String NArith ZArith List Bool Lia.
Import ListNotations.
From Verif Require Import PyBase PyFacts IniView IniRead Cpe EnvVar SetEnv PyScript SpecRun SpecEnv SpecSetEnv EnvProofs
  SetEnvProofs2 SetEnvProofs3.
Local Open Scope sm_scope.

Section P.
Variable which : environ -> str -> option str.
Variable mods : list str -> environ -> res Z * environ.
Variable other_program : str -> environ -> res unit * environ.
Notation py_line := (py_line which mods).
Notation py_lines := (py_lines which mods).
Notation run_python := (run_python which mods other_program).
Notation call := (call which mods).

(** The text [t] is made of whole lines that do [m]. *)
Definition lines_do (t : str) (m : SM environ unit) : Prop :=
  forall u k, py_lines (split_on 10%N u) = Some k ->
  exists k', py_lines (split_on 10%N (t ++ u)) = Some k' /\ forall e, k' e = (m ;; k) e.

Lemma split_line s u : ~ In 10%N s -> split_on 10%N (s ++ newline ++ u) = s :: split_on 10%N u.
Proof.
  induction s as [|c s IH]; intros N.
  - reflexivity.
  - cbn [app split_on]. destruct (N.eqb_spec c 10); [subst; cbn in N; tauto|].
    rewrite IH; [reflexivity|]. intros I. apply N. now right.
Qed.
Lemma lines_one s m : ~ In 10%N s -> py_line s = Some m -> lines_do (s ++ newline) m.
Proof.
  intros N E u k K. rewrite <- app_assoc, split_line by auto. cbn [PyScript.py_lines]. rewrite E, K.
  eexists. split; [reflexivity|]. reflexivity.
Qed.
Lemma lines_nil : lines_do [] (ret tt).
Proof. intros u k K. exists k. split; auto. Qed.
Lemma lines_app t u m k : lines_do t m -> lines_do u k -> lines_do (t ++ u) (m ;; k).
Proof.
  intros T U v j J. destruct (U v j J) as (k1 & E1 & F1). destruct (T _ _ E1) as (k2 & E2 & F2).
  exists k2. rewrite <- app_assoc. split; auto. intros e. rewrite F2. unfold bind.
  destruct (m e) as [[a|x] e1]; [|reflexivity]. rewrite F1. unfold bind.
  destruct (k e1) as [[b|x] e2]; reflexivity.
Qed.
Lemma lines_ext t m k : lines_do t m -> (forall e, m e = k e) -> lines_do t k.
Proof.
  intros T E u j J. destruct (T u j J) as (k' & A & B). exists k'. split; auto. intros e. rewrite B.
  unfold bind. now rewrite E.
Qed.
Lemma lines_run t m : lines_do t m -> forall e, run_python t e = m e.
Proof.
  intros T e. unfold PyScript.run_python. destruct (T [] (ret tt ;; ret tt) eq_refl) as (k & E & F).
  rewrite app_nil_r in E. rewrite E, F. unfold bind, ret. now destruct (m e) as [[[]|x] e1].
Qed.

Lemma plain_no_newline s : plain_text s -> ~ In 10%N s.
Proof.
  intros P I. apply (proj1 (Forall_forall _ _) P) in I. destruct I as [I _]. apply I. cbn; auto.
Qed.
Lemma comment_line s : forallb (fun c => negb (bad_source c)) s = true -> lines_do ((35%N :: s) ++ newline) (ret tt).
Proof.
  intros F. apply lines_one.
  - intros [X|I]; [discriminate|]. rewrite forallb_forall in F. specialize (F _ I). discriminate.
  - unfold PyScript.py_line. cbn [lstrip blank existsb N.eqb Pos.eqb orb]. unfold ends_here. cbn [N.eqb Pos.eqb andb].
    replace (existsb bad_source s) with false; [reflexivity|]. symmetry. apply not_true_iff_false. intros X.
    apply existsb_exists in X as (c & I & B). rewrite forallb_forall in F. specialize (F _ I). now rewrite B in F.
Qed.
Lemma lines_comment s u m : forallb (fun c => negb (bad_source c)) s = true -> lines_do u m ->
  lines_do ((35%N :: s) ++ newline ++ u) m.
Proof.
  intros F U. rewrite app_assoc. eapply lines_ext; [apply lines_app; [apply comment_line; auto|exact U]|]. reflexivity.
Qed.
Lemma lines_banner u m : lines_do u m -> lines_do (banner ++ u) m.
Proof.
  intros U. unfold banner. rewrite <- !app_assoc.
  apply (lines_comment $" -------------------------------------------------"); [reflexivity|].
  apply (lines_comment $"   S E T E N V I R O N M E N T   C O M M A N D S"); [reflexivity|].
  apply (lines_comment $" -------------------------------------------------"); [reflexivity|exact U].
Qed.
Lemma lines_heading header bang u m : lines_do u m -> lines_do (heading header $"python" false bang ++ u) m.
Proof.
  intros U. unfold heading. rewrite app_nil_r. destruct bang; [|exact U].
  replace (str_eqb $"python" $"bash") with false by reflexivity. rewrite <- !app_assoc.
  apply (lines_comment $"!/usr/bin/env python3"); [reflexivity|exact U].
Qed.
Lemma lines_blank : lines_do newline (ret tt).
Proof. apply (lines_one [] (ret tt)); [intros []|reflexivity]. Qed.

Lemma in_join c sep l : In c (join sep l) -> In c sep \/ exists x, In x l /\ In c x.
Proof.
  induction l as [|x l IH]; [intros []|]. destruct l as [|y l].
  - cbn [join]. intros I. right. exists x. split; [now left|exact I].
  - change (join sep (x :: y :: l)) with (x ++ sep ++ join sep (y :: l)). intros I.
    apply in_app_or in I as [I|I]; [right; exists x; split; [now left|exact I]|].
    apply in_app_or in I as [I|I]; [now left|]. destruct (IH I) as [J|(z & J & L)]; [now left|].
    right. exists z. split; [now right|exact L].
Qed.
Lemma call_no_newline f args : Forall plain_text args -> f = $"envvar_op(" \/ f = $"ModuleHelper.module(" ->
  ~ In 10%N (py_text (f, args)).
Proof.
  intros F W I. unfold py_text in I. cbn [fst snd] in I. apply in_app_or in I as [I|I].
  - destruct W as [->| ->]; revert I; apply plain_no_newline; apply str_plain; reflexivity.
  - apply in_app_or in I as [I|[I|[]]]; [|discriminate]. apply in_join in I as [[I|[]]|(x & I & J)]; [discriminate|].
    apply in_map_iff in I as (y & <- & I). unfold dquoted in J. apply in_app_or in J as [[J|[]]|J]; [discriminate|].
    apply in_app_or in J as [J|[J|[]]]; [|discriminate]. revert J. apply plain_no_newline.
    exact (proj1 (Forall_forall _ _) F y I).
Qed.
Lemma call_line f args : args <> [] -> Forall plain_text args ->
  f = $"envvar_op(" \/ f = $"ModuleHelper.module(" ->
  exists m, py_line (py_text (f, args)) = Some m /\ forall e, m e = (call (f, args) ;; ret tt) e.
Proof.
  intros NE F W. unfold PyScript.py_line.
  assert (E : ends_here (lstrip blank (py_text (f, args))) = false) by (destruct W as [->| ->]; reflexivity).
  rewrite E. unfold py_text. cbn [fst snd]. destruct W as [->| ->].
  - rewrite py_call_plain by auto. unfold SetEnvProofs2.call. cbn [fst snd].
    destruct args as [|a [|b [|c [|d args]]]]; eexists; (split; [reflexivity|reflexivity]).
  - replace (py_call $"envvar_op(" _) with (@None (list str)) by reflexivity.
    rewrite py_call_plain by auto. eexists. split; reflexivity.
Qed.

(** The lines of the actions. *)
Lemma lines_of_actions (o : sobj) l : Forall asked_action l -> Forall plain_action l ->
  forall t, ~ Exists incomplete l -> script_lines $"python" l t ->
  exists m, lines_do t m /\ forall e c, exists r e',
    performs_all which mods 0 l c e r e' /\
    m e = (match r with Ok _ => Ok tt | Err x => Err x end, e').
Proof.
  induction l as [|a l IH]; intros AA PA t C S; inversion S as [|? t1 ? u L1 S1]; subst.
  - exists (ret tt). split; [apply lines_nil|]. intros e c. exists (Ok c), e. split; [constructor|reflexivity].
  - inversion AA; subst. inversion PA; subst.
    destruct (IH ltac:(auto) ltac:(auto) u ltac:(intros X; apply C; now right) S1) as (k & K & R).
    destruct (asked_passes a ltac:(auto)) as [p P].
    pose proof (gen_python a p o P) as G.
    destruct (gen_line a $"python" o ltac:(auto) (or_introl eq_refl)) as [[X _]|(_ & t2 & L2 & G2)].
    { exfalso. apply C. now left. }
    rewrite (script_line_det _ _ _ _ L1 L2) in *. rewrite G2 in G.
    destruct p as [[f args]|]; [|discriminate]. assert (E2 : t2 = py_text (f, args)) by congruence. subst t2.
    destruct (passes_plain _ _ _ P ltac:(auto)) as (NE & PT & W).
    destruct (call_line f args NE PT W) as (m & M & ME).
    exists (m ;; k). split.
    + rewrite app_assoc. apply lines_app; [|exact K]. apply lines_one; auto. now apply call_no_newline.
    + intros e c. unfold bind at 1. rewrite ME. unfold bind.
      destruct (call (f, args) e) as [[z|x] e1] eqn:CE.
      * pose proof (performs_call which mods a _ e (Ok z) e1 P CE) as PF. cbn.
        destruct (R e1 (Z.max c z)) as (r & e' & PA2 & E'). exists r, e'. split; auto.
        eapply pa_next; [exact PF|right; reflexivity|exact PA2].
      * pose proof (performs_call which mods a _ e (Err x) e1 P CE) as PF.
        exists (Err x), e1. split; [now constructor|reflexivity].
Qed.

Variables (uniword : pychar -> bool) (fs : str -> option str) (fuel : nat) (header : str -> str).

Theorem python_script s l bang (o : sobj) text o' : dget s (o_user o) = Some l -> Forall asked_action l ->
  Forall plain_action l ->
  generate_script uniword fs fuel header s false true bang $"python" o = (Ok text, o') ->
  forall e, exists r e', performs_all which mods 0 l 0 e r e' /\
    run_python text e = (match r with Ok _ => Ok tt | Err x => Err x end, e').
Proof.
  intros D AA PA G e.
  destruct (script_known uniword fs fuel header s l false bang $"python" o D AA (or_introl eq_refl))
    as [[_ X]|(C & t & T & X)]; rewrite X in G; [discriminate|].
  assert (E : text = heading header $"python" false bang ++ banner ++ t ++ newline ++ newline) by congruence.
  subst text. clear G X.
  destruct (lines_of_actions o l AA PA t C T) as (m & M & R). destruct (R e 0%Z) as (r & e' & P & Q).
  exists r, e'. split; auto.
  rewrite (lines_run _ (m ;; ret tt)).
  - unfold bind. rewrite Q. now destruct r.
  - apply lines_heading, lines_banner. apply lines_app; [exact M|].
    eapply lines_ext; [apply lines_app; apply lines_blank|reflexivity].
Qed.

(** [apply] that returned, at any level. *)
Lemma lenient lvl l c e z e' : performs_all which mods lvl l c e (Ok z) e' ->
  performs_all which mods 0 l c e (Ok z) e'.
Proof.
  intros P. remember (Ok z) as r eqn:R. induction P; try discriminate; [constructor|].
  eapply pa_next; eauto. right. reflexivity.
Qed.

Lemma performs_complete a e z e1 : performs which mods a e (Ok z) e1 -> ~ incomplete a.
Proof.
  intros PF N. remember (Ok z) as r eqn:R. destruct PF; try discriminate; unfold incomplete in N;
    repeat match goal with
    | H : _ \/ _ |- _ => destruct H
    | H : _ /\ _ |- _ => destruct H
    end; try discriminate; try congruence.
Qed.

Theorem python_script_does_what_apply_does other i s (o : sobj) d l e bang z w : has_file fs o i ->
  str_mem s (checked_of o) = true -> section_of o s = Some d -> dget s (o_user o) = Some l ->
  Forall asked_action l -> Forall plain_action l ->
  apply which mods other uniword fs fuel s (World o e) = (Ok z, w) ->
  exists text, generate_script uniword fs fuel header s false true bang $"python" o = (Ok text, o) /\
    run_python text e = (Ok tt, w_env w).
Proof.
  intros H C SO D AA PA E.
  destruct (apply_again which mods other uniword fs i fuel s o d l H C SO D AA PA e) as (r & e' & o2 & E2 & P & _).
  rewrite E2 in E. assert (r = Ok z) by congruence. subst r.
  assert (w_env w = e') by (replace w with (World o2 e') by congruence; reflexivity). clear E E2.
  pose proof (lenient _ _ _ _ _ _ P) as P0.
  destruct (script_known uniword fs fuel header s l false bang $"python" o D AA (or_introl eq_refl))
    as [[X _]|(_ & t & T & G)].
  { exfalso. clear - X P AA. revert X. remember (Ok z) as r eqn:R. induction P as [| | |a l m e y e1 r e' PF Y P IH]; try discriminate; intros X.
    - inversion X.
    - inversion AA; subst. inversion X as [? ? N|]; subst; [|now apply IH].
      exact (performs_complete _ _ _ _ PF N). }
  eexists. split; [exact G|].
  destruct (python_script s l bang o _ o D AA PA G e) as (r1 & e1 & P1 & Q1).
  destruct (performs_all_det which mods 0 l 0 e _ _ P0 _ _ P1) as [<- <-]. rewrite Q1. now subst.
Qed.
End P.
