(** * What the parser and the readers print: warnings only. *)
From Coq Require Import String NArith ZArith List Bool Lia Arith.
Import ListNotations.
From Verif Require Import PyBase PyFacts Shlex IniView IniRead ExcControl Debuggable Cpe
  SpecBase SpecWalk SpecRun SpecParse SpecApi BaseProofs Refine RefineRoot Trace.
Local Open Scope sm_scope.

Section Quiet.
Context {Sh Us : Type} (K : pyclass Sh Us) (fs : str -> option str).
Notation obj := (obj Sh Us).
Notation ctx := (ctx Sh Us).
Variable P : obj -> Prop.
Hypothesis Pcpd : keeps P (get_cpd fs).
Hypothesis Pdata : forall o d, P o -> P (set_edata d o).
Hypothesis Plog : forall o l, P o -> P (set_log l o).
Hypothesis Plast : forall o l, P o -> P (set_last l o).
Hypothesis Puser : forall o u, P o -> P (set_user u o).
Hypothesis Pwarn : forall o l, P o -> P (add_out (map OutWarn l) o).
Notation Pc := (fun c : ctx => P (x_obj c)).

Lemma q_event ev e : keeps P (event ev e).
Proof. intros o H. unfold event. destruct (ec_event (o_ec o) ev (XClass e) true). cbn. now apply Pwarn. Qed.
Lemma q_log e : keeps P (log e).
Proof. now apply keeps_log. Qed.
Lemma q_edata : keeps P get_edata.
Proof. intros o H. unfold get_edata. destruct (o_edata o); cbn; auto. Qed.
Lemma q_put d : keeps P (put_edata d).
Proof. apply keeps_modify. auto. Qed.
Lemma q_add s b : keeps P (data_add_section s b).
Proof. apply keeps_bind; [apply q_edata|intros; apply q_put]. Qed.
Lemma q_rval r : keeps P (check_rval r).
Proof.
  unfold check_rval. destruct r as [z|]; [|apply q_event].
  destruct (z =? 0)%Z; [apply keeps_ret|]. destruct (z <=? 10)%Z; apply q_event.
Qed.
Lemma q_user f s hp : keeps Pc (user_body f s hp).
Proof. intros c H. unfold user_body. destruct (f s hp (x_sh c) (o_user (x_obj c))) as [[r sh] us]. cbn. now apply Puser. Qed.
Lemma q_decorated hp body : keeps Pc body -> keeps Pc (decorated hp body).
Proof.
  intros H. unfold decorated. apply keeps_bind; [apply keeps_lift, q_log|intros _]. apply keeps_bind; [exact H|intros r].
  apply keeps_bind; [apply keeps_lift, q_log|intros _]. apply keeps_lift, q_rval.
Qed.
Lemma q_options : keeps P set_owner_options.
Proof.
  intros o H. unfold set_owner_options. pose proof (q_edata o H) as E. destruct (get_edata o) as [[d|e] o1]; cbn [snd] in *; auto.
Qed.

Section Reparse.
Variable reparse : str -> SM obj unit.
Hypothesis R : forall s, keeps P (reparse s).
Lemma q_owner s b : keeps P (parse_owner reparse s b).
Proof.
  apply keeps_bind; [apply q_edata|]. intros d. destruct (_ || b); [|apply keeps_ret].
  apply keeps_bind; [apply q_options|]. intros _. apply keeps_bind; [apply q_edata|]. intros d'.
  apply keeps_bind; [apply q_put|]. intros _. apply R.
Qed.
Lemma q_has_section s : keeps P (data_has_section fs reparse s).
Proof.
  apply keeps_bind; [exact Pcpd|]. intros i. apply keeps_bind.
  - destruct (ini_has_section i s); [|apply keeps_ret]. apply keeps_bind; [apply q_edata|]. intros d.
    destruct (str_mem s (d_checked d)); [apply keeps_ret|apply q_owner].
  - intros _. apply keeps_bind; [apply q_edata|]. intros; apply keeps_ret.
Qed.
Lemma q_set s k v : keeps P (data_set fs reparse s k v).
Proof.
  apply keeps_bind; [apply q_has_section|]. intros b. apply keeps_bind; [destruct b; [apply keeps_ret|apply q_add]|]. intros _.
  apply keeps_bind; [apply q_edata|]. intros d. destruct (ed_put s k v d); [apply q_put|apply keeps_raise].
Qed.
Variable rec : str -> bool -> bool -> SM ctx unit.
Hypothesis RC : forall s a b, keeps Pc (rec s a b).
Lemma q_use s hp : keeps Pc (use_body rec s hp).
Proof.
  unfold use_body. destruct (hp_params hp) as [|t l]; [apply keeps_raise|]. apply keeps_bind; [intros c H; exact H|]. intros c.
  destruct (negb _).
  - apply keeps_bind; [apply RC|intros; apply keeps_ret].
  - apply keeps_bind; [apply keeps_lift, q_log|intros _]. apply keeps_bind; [apply keeps_lift, q_log|intros _].
    apply keeps_bind; [apply keeps_lift, keeps_get_files|intros _]. apply keeps_bind; [apply keeps_lift, q_event|intros; apply keeps_ret].
Qed.
Lemma q_attr a s hp : keeps Pc (call_attr rec a s hp).
Proof.
  destruct a as [|[] f| |]; cbn [call_attr]; try apply keeps_raise; try (apply q_decorated, q_use); try (apply q_decorated, q_user);
    (apply keeps_bind; [apply q_user|intros; apply keeps_ret]).
Qed.
Lemma q_named n s hp : keeps Pc (call_named K rec n s hp).
Proof. unfold call_named. destruct (find_attr K n); [apply q_attr|apply keeps_raise]. Qed.
Lemma q_locate op : keeps P (locate_handler K op).
Proof.
  unfold locate_handler. cbv zeta. apply keeps_bind; [|intros _]; repeat match goal with |- keeps _ (match ?x with _ => _ end) => destruct x end;
    try apply keeps_ret; apply q_event.
Qed.
Lemma q_generic hp k v : keeps Pc (launch_generic fs reparse hp k v).
Proof.
  apply keeps_bind; [apply keeps_lift, q_set|intros _]. cbv zeta. apply keeps_bind; [apply q_decorated, keeps_ret|intros; apply keeps_ret].
Qed.
Lemma keeps_of_res {S A} (Q : S -> Prop) (r : res A) : keeps Q (of_res r).
Proof. destruct r; [apply keeps_ret|apply keeps_raise]. Qed.
Lemma q_item s hp kv : keeps Pc (process_item K fs rec reparse s hp kv).
Proof.
  apply keeps_bind; [apply keeps_of_res|]. intros v0. cbv zeta. apply keeps_bind; [apply keeps_lift, q_log|intros _].
  apply keeps_bind; [apply keeps_of_res|]. intros [|t0 ps]; [apply keeps_raise|]. destruct (negb _); [apply q_generic|].
  apply keeps_bind; [apply keeps_lift, q_log|intros _]. apply keeps_bind; [apply keeps_lift, q_locate|]. intros [[n a]|].
  - apply keeps_bind; [apply q_attr|intros; apply keeps_ret].
  - apply q_generic.
Qed.
Lemma q_items s l : forall hp, keeps Pc (run_items K fs rec reparse s hp l).
Proof. induction l as [|kv l IH]; intros hp; [apply keeps_ret|]. apply keeps_bind; [apply q_item|intros; apply IH]. Qed.
Lemma q_body root s a b : keeps Pc (psr_body K fs rec reparse root s a b).
Proof.
  unfold psr_body. apply keeps_bind.
  - destruct (a && _); [|apply keeps_ret]. apply keeps_bind; [apply q_named|intros _].
    apply keeps_bind; [apply keeps_lift, Pcpd|]. intros i. apply keeps_bind; [intros c H; exact H|]. intros c.
    destruct (ini_has_section _ _); [apply RC|apply keeps_ret].
  - intros _. apply keeps_bind; [apply keeps_lift, q_log|intros _]. apply keeps_bind; [apply keeps_lift, Pcpd|]. intros i.
    destruct (ini_items i s) as [items|].
    + apply keeps_bind; [apply keeps_lift, q_add|intros _]. apply keeps_bind; [apply keeps_modify; auto|intros _].
      apply keeps_bind; [apply q_items|intros hp]. apply keeps_bind; [destruct (b && _); [apply q_named|apply keeps_ret]|intros _].
      apply keeps_bind; [|intros _; apply keeps_lift, q_log]. intros c H. unfold proc_remove. now destruct (str_mem s (x_proc c)).
    + apply keeps_bind; [apply keeps_lift, keeps_get_files|intros _; apply keeps_raise].
Qed.
End Reparse.

Lemma q_section p s a b : (forall r s a b, keeps Pc (p r s a b)) -> keeps P (parse_section_with K p s a b).
Proof.
  intros H. apply keeps_bind; [apply keeps_modify; auto|intros _]. destruct (str_eqb s []); [apply keeps_raise|].
  apply keeps_bind.
  - apply keeps_bind; [apply q_edata|]. intros d. apply keeps_bind; [apply q_put|]. intros _ o Ho.
    pose proof (H s s a b (Ctx o (k_empty K) []) Ho) as Q. destruct (p s s a b (Ctx o (k_empty K) [])) as [[u|e] c]; exact Q.
  - intros r. apply keeps_bind; [apply keeps_modify; auto|intros; apply keeps_ret].
Qed.
Lemma q_psr fuel : forall r s a b, keeps Pc (psr K fs fuel r s a b).
Proof.
  induction fuel as [|f IH]; intros r s a b; cbn [psr]; [apply keeps_raise|]. apply q_body; [|intros; apply IH].
  intros t. apply keeps_bind; [now apply q_section|intros; apply keeps_ret].
Qed.
Lemma q_parse fuel s a b : keeps P (parse_section_str K fs fuel s a b).
Proof. apply q_section, q_psr. Qed.
Lemma q_reparse fuel s : keeps P (owner_parse K fs fuel s).
Proof. apply keeps_bind; [apply q_parse|intros; apply keeps_ret]. Qed.
Lemma q_get_section fuel s : keeps P (data_get K fs fuel s None).
Proof.
  apply keeps_bind; [apply q_edata|]. intros d. apply keeps_bind.
  - destruct (str_mem s (d_checked d)); [apply keeps_ret|]. apply q_owner, q_reparse.
  - intros _. apply keeps_bind; [apply q_has_section, q_reparse|]. intros []; [|apply keeps_raise].
    apply keeps_bind; [|intros; apply keeps_ret]. apply keeps_bind; [apply q_edata|]. intros e.
    destruct (dget s (d_data e)); [apply keeps_ret|apply keeps_raise].
Qed.
Lemma q_known : keeps P (get_known_operations_message K fs).
Proof.
  apply keeps_bind; [|intros; apply keeps_ret]. apply keeps_bind; [exact Pcpd|intros _]. apply keeps_bind; [apply q_edata|intros _].
  apply keeps_bind; [apply keeps_get_files|intros; apply keeps_ret].
Qed.
Lemma q_assert_section fuel s b : keeps P (assert_section K fs fuel s b).
Proof.
  apply keeps_bind; [apply q_get_section|]. intros [[|kv d]|v]; [apply keeps_ret| |apply keeps_raise]. cbv zeta. destruct b; [|apply keeps_ret].
  apply keeps_bind; [apply keeps_get_files|intros files]. apply keeps_bind; [apply q_known|intros m].
  cbv zeta. apply keeps_bind; [apply q_event|intros; apply keeps_ret].
Qed.
End Quiet.
