(** * Changing [configparser_delimiters]. *)
From Coq Require Import String NArith ZArith List Bool Lia ZifyBool.
Import ListNotations.
From Verif Require Import PyBase PyFacts Shlex IniView IniRead ExcControl Debuggable Cpe SpecBase BaseProofs SpecRun SpecApi
  SpecReload BlindProofs.

Section P.
Context {Sh Us : Type} (K : pyclass Sh Us).
Notation obj := (obj Sh Us).

Lemma delimiters_pre ds (o : obj) : snd (set_configparser_delimiters (Some ds) o) = pre (o_out o) (renewed (o_files o) ds o).
Proof. cbn. unfold pre, renewed. cbn. now rewrite app_nil_r. Qed.

Theorem delimiters_reset ds (o o' : obj) fs fuel h c : 
  set_configparser_delimiters (Some ds) o = (Ok tt, o') ->
  let u := after K fs fuel h o' in
  let n := after K fs fuel h (renewed (o_files o) ds o) in
  fst (exec_op K fs fuel c u) = fst (exec_op K fs fuel c n) /\
  fst (get_cpd fs u) = fst (get_cpd fs n) /\ data_of u = data_of n /\ o_last u = o_last n /\ o_log u = o_log n /\
  o_user u = o_user n /\ o_files u = o_files n /\ o_delims u = o_delims n /\ o_ec u = o_ec n /\ o_out u = o_out o ++ o_out n.
Proof.
  intros E u n. assert (H : o' = pre (o_out o) (renewed (o_files o) ds o)).
  { rewrite <- delimiters_pre. now rewrite E. }
  subst o'. subst u. rewrite after_pre. fold n. rewrite (b_exec K fs fuel c (o_out o) n), (b_cpd fs (o_out o) n).
  repeat split.
Qed.

Theorem delimiters_done ds (o : obj) : exists o', set_configparser_delimiters (Some ds) o = (Ok tt, o') /\ o_delims o' = ds.
Proof. eexists. split; reflexivity. Qed.

Theorem delimiters_bad (o : obj) : level_ok o -> exists out,
  set_configparser_delimiters None o = (Err TypeError, add_out out o).
Proof.
  intros L. unfold set_configparser_delimiters, event.
  pose proof (event_raise_iff (o_ec o) $"CATASTROPHIC" 0 TypeError true th_catastrophic) as H.
  destruct (ec_event (o_ec o) $"CATASTROPHIC" (XClass TypeError) true) as [r out]. cbn in H.
  unfold level_ok, level_of in L. destruct (0 <=? ec_level (o_ec o))%Z eqn:X; [|lia]. subst r. eauto.
Qed.
End P.
