(** * Proofs: options that have been stored stay, with handlers that read sections. *)
From Coq Require Import String NArith ZArith List Bool Lia Arith.
Import ListNotations.
From Verif Require Import PyBase PyFacts Shlex IniView IniRead ExcControl Debuggable Cpe
  SpecFile SpecRun BaseProofs RefineRoot ApiProofs SpecApi Reentrant LastingProofs.
Local Open Scope sm_scope.

Section P.
Context {Sh Us : Type} (R : rclass (Sh := Sh)) (fs : str -> option str) (i : ini).
Notation obj := (obj Sh Us).
Notation ctx := (ctx Sh Us).
Notation upo := (upo (Sh := Sh) (Us := Us) fs i).
Notation upc := (upc (Sh := Sh) (Us := Us) fs i).

Section Body.
Variable read : str -> SM obj (dict (option str)).
Hypothesis READ : forall s, upo (read s).
Lemma r_prog p : upc (run_prog read p).
Proof.
  induction p as [r sh|s k IH]; intros c; cbn [run_prog]; [apply up_refl|]. pose proof (READ s (x_obj c)) as U. destruct (read s (x_obj c)) as [r o].
  eapply up_trans; [exact U|apply (IH r (Ctx o (x_sh c) (x_proc c)))].
Qed.
Lemma r_user f sec hp : upc (r_user_body read f sec hp).
Proof. intros c. unfold r_user_body. apply r_prog. Qed.
Variable rec : str -> bool -> bool -> SM ctx unit.
Hypothesis REC : forall s a b, upc (rec s a b).
Variable rp : str -> SM obj unit.
Hypothesis RP : forall t, upo (rp t).
Lemma r_upc_use sec hp : upc (use_body rec sec hp).
Proof.
  unfold use_body. destruct (hp_params hp) as [|t ps]; [apply upc_raise|]. apply upc_bind; [apply upc_get|]. intros c.
  destruct (negb _).
  - apply upc_bind; [apply REC|]. intros; apply upc_ret.
  - apply upc_bind; [apply upc_lift, upo_log|intros _]. apply upc_bind; [apply upc_lift, upo_log|intros _].
    apply upc_bind; [apply upc_lift, upo_files|intros _]. apply upc_bind; [apply upc_lift, upo_event|intros _]. apply upc_ret.
Qed.
Lemma r_upc_call a sec hp : upc (r_call_attr read rec a sec hp).
Proof.
  destruct a as [|k f| |]; cbn [r_call_attr]; try apply upc_raise.
  - apply upc_decorated, r_upc_use.
  - pose proof (r_user f sec hp) as X. destruct k; [now apply upc_decorated| |]; (apply upc_bind; [exact X|intros; apply upc_ret]).
Qed.
Lemma r_upc_named name sec hp : upc (r_call_named R read rec name sec hp).
Proof. unfold r_call_named. destruct (r_find_attr R name) as [a|]; [apply r_upc_call|apply upc_raise]. Qed.
Lemma r_upc_generic hp k v : upc (launch_generic fs rp hp k v).
Proof.
  unfold launch_generic. apply upc_bind; [apply upc_lift, upo_data_set, RP|intros _].
  apply upc_bind; [apply upc_decorated, upc_ret|intros _]. apply upc_ret.
Qed.
Lemma r_upo_locate op : upo (r_locate_handler R op).
Proof.
  unfold r_locate_handler. cbv zeta. generalize (r_locate_class_method R ($"handler_" ++ normalize_op op)) (r_locate_class_method R ($"_handler_" ++ normalize_op op)).
  intros public private. apply upo_bind.
  - destruct private, public; try apply upo_ret. apply upo_event.
  - intros _. destruct public; [apply upo_ret|]. destruct private; apply upo_ret.
Qed.
Lemma r_upc_item sec hp kv : upc (r_process_item R fs read rec rp sec hp kv).
Proof.
  unfold r_process_item. cbv zeta. apply upc_bind; [apply upc_of_res|intros v0]. apply upc_bind; [apply upc_lift, upo_log|intros _].
  apply upc_bind; [apply upc_of_res|intros toks]. destruct toks as [|t0 ps]; [apply upc_raise|]. destruct (negb _); [apply r_upc_generic|].
  apply upc_bind; [apply upc_lift, upo_log|intros _]. apply upc_bind; [apply upc_lift, r_upo_locate|].
  intros [[name a]|]; [|apply r_upc_generic]. apply upc_bind; [apply r_upc_call|intros; apply upc_ret].
Qed.
Lemma r_upc_items sec l : forall hp, upc (r_run_items R fs read rec rp sec hp l).
Proof. induction l as [|kv l IH]; intros hp; cbn [r_run_items]; [apply upc_ret|]. apply upc_bind; [apply r_upc_item|]. intros hp'. apply IH. Qed.
Lemma r_upc_body root sec a b : upc (r_psr_body R fs read rec rp root sec a b).
Proof.
  unfold r_psr_body. apply upc_bind.
  - destruct (a && _); [|apply upc_ret]. apply upc_bind; [apply r_upc_named|intros _].
    apply upc_bind; [apply upc_lift, upo_cpd|intros j]. apply upc_bind; [apply upc_get|]. intros c.
    destruct (ini_has_section _ _); [apply REC|apply upc_ret].
  - intros _. apply upc_bind; [apply upc_lift, upo_log|intros _]. apply upc_bind; [apply upc_lift, upo_cpd|intros j].
    destruct (ini_items j sec) as [items|].
    + apply upc_bind; [apply upc_lift, upo_add|intros _]. apply upc_bind; [intros c; apply up_refl|intros _].
      apply upc_bind; [apply r_upc_items|intros _]. apply upc_bind; [destruct (b && _); [apply r_upc_named|apply upc_ret]|intros _].
      apply upc_bind; [intros c; unfold proc_remove; destruct (str_mem _ _); apply up_refl|intros _]. apply upc_lift, upo_log.
    + apply upc_bind; [apply upc_lift, upo_files|intros _]. apply upc_raise.
Qed.
End Body.

Lemma r_upo_parse (p : str -> str -> bool -> bool -> SM ctx unit) s a b : upc (p s s a b) -> upo (parse_section_with (bare R) p s a b).
Proof.
  intros H. unfold parse_section_with. apply upo_bind; [apply upo_modify; intros o; now apply up_same|intros _].
  destruct (str_eqb s []); [apply upo_raise|]. apply upo_bind.
  - unfold parse_root. apply upo_update; [apply wider_check|].
    intros o. specialize (H (Ctx o (k_empty (bare (Us := Us) R)) [])). destruct (p s s a b _) as [[u|e] c1]; exact H.
  - intros r. apply upo_bind; [apply upo_modify; intros o; now apply up_same|intros _]. apply upo_ret.
Qed.
Lemma r_upc_psr read (READ : forall s, upo (read s)) f : forall root sec a b, upc (r_psr R fs read f root sec a b).
Proof.
  induction f as [|f IH]; intros root sec a b; cbn [r_psr]; [apply upc_raise|]. apply r_upc_body; auto.
  intros t. apply upo_bind; [apply r_upo_parse, IH|]. intros; apply upo_ret.
Qed.

(** Reading a section, whatever parses it. *)
Section Look.
Variable rp : str -> SM obj unit.
Hypothesis RP : forall s, upo (rp s).
Definition look (s : str) : SM obj (dict (option str)) := b <- data_has_section fs rp s ;; if b then data_section s else raise KeyError.
Lemma upo_look s : upo (look s).
Proof. unfold look. apply upo_bind; [apply upo_has, RP|]. intros b. destruct b; [apply upo_section|apply upo_raise]. Qed.
Lemma look_settled s o d x : has_file fs o i -> settled i s o -> o_edata o = Some d -> dget s (d_data d) = Some x ->
  fst (look s o) = Ok x.
Proof.
  intros H S E D. unfold look, data_has_section, data_section, bind. rewrite (get_cpd_ready fs i o H).
  assert (G : get_edata (set_cpd (Some i) o) = (Ok d, set_cpd (Some i) o)) by (unfold get_edata; cbn; now rewrite E).
  assert (DM : dmem s (d_data d) = true) by (unfold dmem; now rewrite D).
  unfold settled, checked_of in S. rewrite E in S.
  destruct (ini_has_section i s); [rewrite G, (S eq_refl)|]; cbn [ret]; rewrite G; cbn [ret]; rewrite DM; cbn; rewrite G; cbn; rewrite D; reflexivity.
Qed.
Lemma po_marks s b o : fst (parse_owner rp s b o) = Ok tt ->
  str_mem s (checked_of (snd (parse_owner rp s b o))) = true.
Proof.
  unfold parse_owner, bind. destruct (get_edata o) as [[d|e] o1] eqn:E; [|discriminate]. 
  destruct (negb (str_mem s (d_checked d)) || b) eqn:B.
  - destruct (set_owner_options o1) as [[u|e] o2]; [|discriminate]. destruct (get_edata o2) as [[d2|e] o3]; [|discriminate].
    cbn [put_edata modify]. intros _. destruct (RP s (set_edata (Some (ed_check s d2)) o3)) as [_ X].
    destruct (X _ eq_refl) as (d4 & E4 & W & _). unfold checked_of. rewrite E4. apply W. cbn -[str_mem sadd]. now rewrite str_mem_sadd, str_eqb_refl.
  - intros _. cbn. apply Bool.orb_false_iff in B as [B _]. apply Bool.negb_false_iff in B. unfold get_edata in E. unfold checked_of.
    destruct (o_edata o) as [d0|] eqn:E0; inversion E; subst; [now rewrite E0|discriminate B].
Qed.
Lemma look_lookup s o : has_file fs o i -> look s o =
  match (if ini_has_section i s then d <- get_edata ;; if str_mem s (d_checked d) then ret tt else parse_owner rp s false else ret tt)
    (set_cpd (Some i) o) with
  | (Ok _, o2) => lookup s o2
  | (Err e, o2) => (Err e, o2)
  end.
Proof.
  intros H. unfold look, data_has_section, lookup, bind. rewrite (get_cpd_ready fs i o H).
  match goal with |- context [match ?m (set_cpd (Some i) o) with _ => _ end] => destruct (m (set_cpd (Some i) o)) as [[u|e] o2] end; reflexivity.
Qed.
Lemma look_settles s o x : has_file fs o i -> fst (look s o) = Ok x ->
  let o1 := snd (look s o) in has_file fs o1 i /\ settled i s o1 /\ exists d, o_edata o1 = Some d /\ dget s (d_data d) = Some x.
Proof.
  intros H. cbv zeta. intros Q. split; [now apply (proj1 (upo_look s o))|].
  rewrite (look_lookup s o H) in *. set (o0 := set_cpd (Some i) o) in *.
  destruct (ini_has_section i s) eqn:I.
  - unfold bind in *. destruct (edata_made o0) as (d & o3 & E1 & E2 & E3 & E4). rewrite E1 in *. destruct (str_mem s (d_checked d)) eqn:M.
    + cbn [ret] in *. apply lookup_settles; [|exact Q]. intros _. unfold checked_of. now rewrite E2.
    + pose proof (po_marks s false o3) as PM. destruct (parse_owner rp s false o3) as [[[]|e] o4]; [|discriminate Q].
      apply lookup_settles; [|exact Q]. intros _. now apply PM.
  - cbn [ret] in *. apply lookup_settles; [|exact Q]. intros J. congruence.
Qed.
End Look.

Lemma upo_r_read fuel depth : forall s, upo (r_read R fs fuel depth s).
Proof.
  induction depth as [|d IH]; intros s; cbn [r_read]; [apply upo_raise|].
  apply (upo_look (fun t => parse_section_with (bare R) (r_psr R fs (r_read R fs fuel d) fuel) t true true ;; ret tt)).
  intros t. apply upo_bind; [apply r_upo_parse, r_upc_psr, IH|]. intros; apply upo_ret.
Qed.
Lemma upo_r_parse fuel depth s : upo (r_parse R fs fuel depth s).
Proof. unfold r_parse. apply r_upo_parse, r_upc_psr, upo_r_read. Qed.
Lemma up_r_after fuel depth l : forall o : obj, up fs i o (r_after R fs fuel depth l o).
Proof.
  unfold r_after. induction l as [|c l IH]; intros o; cbn [fold_left]; [apply up_refl|]. eapply up_trans; [|apply IH].
  destruct c as [s|s]; cbn [r_after1]; [apply upo_r_parse|apply upo_r_read].
Qed.
Lemma reads_last fuel depth depth' l s (o : obj) d : has_file fs o i -> fst (r_read R fs fuel (S depth) s o) = Ok d ->
  exists d' more, fst (r_read R fs fuel (S depth') s (r_after R fs fuel depth' l (snd (r_read R fs fuel (S depth) s o)))) = Ok d' /\
    map fst d' = map fst d ++ more.
Proof.
  intros H Q.
  assert (RP : forall dd t, upo (parse_section_with (bare R) (r_psr R fs (r_read R fs fuel dd) fuel) t true true ;; ret tt)).
  { intros dd t. apply upo_bind; [apply r_upo_parse, r_upc_psr, upo_r_read|]. intros; apply upo_ret. }
  destruct (look_settles _ (RP depth) s o d H Q) as (H1 & S1 & e & E & D).
  change (look _ s o) with (r_read R fs fuel (S depth) s o) in *. set (o1 := snd (r_read R fs fuel (S depth) s o)) in *.
  destruct (up_r_after fuel depth' l o1) as [F U]. destruct (U e E) as (e' & E' & W & G). destruct (G s d D) as (d' & D' & more & M).
  exists d', more. split; [|exact M]. apply (look_settled (fun t => parse_section_with (bare R) (r_psr R fs (r_read R fs fuel depth') fuel) t true true ;; ret tt) s _ e'); auto. intros I. specialize (S1 I). unfold checked_of in *. rewrite E in S1. rewrite E'. now apply W.
Qed.
End P.
