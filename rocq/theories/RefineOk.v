(** * Parses that return: what they require (C05, C06) and that they are walks. *)
From Coq Require Import String NArith ZArith List Bool Lia Arith.
Import ListNotations.
From Verif Require Import PyBase PyFacts Shlex IniView IniRead ExcControl Debuggable Cpe SpecText SpecFile SpecShell ShellProofs FileProofs SpecWalk MeaningProofs
  Refine RefineRoot.
Local Open Scope sm_scope.

(** ** More fuel never changes a result *)
Definition le_ok {S A} (m m' : SM S A) : Prop :=
  forall s a s', m s = (Ok a, s') -> m' s = (Ok a, s').

Lemma le_refl {S A} (m : SM S A) : le_ok m m.
Proof. intros s a s' H. exact H. Qed.
Lemma le_bind {S A B} (m m' : SM S A) (k k' : A -> SM S B) :
  le_ok m m' -> (forall a, le_ok (k a) (k' a)) -> le_ok (bind m k) (bind m' k').
Proof.
  intros H1 H2 s b s' H. apply bind_Ok in H as (a & s1 & E & H). unfold bind.
  rewrite (H1 _ _ _ E). now apply H2.
Qed.
Lemma le_lift {Sh Us A} (m m' : SM (obj Sh Us) A) : le_ok m m' -> le_ok (lift m) (lift m').
Proof.
  intros H c a c' E. unfold lift in *. destruct (m (x_obj c)) as [r o] eqn:M.
  inversion E; subst. now rewrite (H _ _ _ M).
Qed.

Section Mono.
Context {Sh Us : Type} (K : pyclass Sh Us) (fs : str -> option str).
Notation obj := (obj Sh Us).
Notation ctx := (ctx Sh Us).

Lemma le_parse_section_with (p p' : str -> str -> bool -> bool -> SM ctx unit) s init fin :
  (forall r s init fin, le_ok (p r s init fin) (p' r s init fin)) ->
  le_ok (parse_section_with K p s init fin) (parse_section_with K p' s init fin).
Proof.
  intros H. unfold parse_section_with. apply le_bind; [apply le_refl|intros _].
  destruct (str_eqb s []); [apply le_refl|].
  apply le_bind; [|intros; apply le_refl]. unfold parse_root.
  apply le_bind; [apply le_refl|intros d]. apply le_bind; [apply le_refl|intros _].
  intros o a o' E. destruct (p s s init fin (Ctx o (k_empty K) [])) as [[u|x] c] eqn:P; [|discriminate].
  now rewrite (H _ _ _ _ _ _ _ P).
Qed.

Section Body.
Variables (rec rec' : str -> bool -> bool -> SM ctx unit) (rp rp' : str -> SM obj unit).
Hypothesis Hrec : forall s init fin, le_ok (rec s init fin) (rec' s init fin).
Hypothesis Hrp : forall s, le_ok (rp s) (rp' s).

Lemma le_data_set s k v : le_ok (data_set fs rp s k v) (data_set fs rp' s k v).
Proof.
  unfold data_set. apply le_bind; [|intros; apply le_refl].
  unfold data_has_section. apply le_bind; [apply le_refl|intros j].
  apply le_bind; [|intros; apply le_refl]. destruct (ini_has_section j s); [|apply le_refl].
  apply le_bind; [apply le_refl|intros d]. destruct (str_mem s (d_checked d)); [apply le_refl|].
  unfold parse_owner. apply le_bind; [apply le_refl|intros d'].
  destruct (_ || _); [|apply le_refl].
  repeat (apply le_bind; [apply le_refl|intros]). apply Hrp.
Qed.

Lemma le_launch hp k v : le_ok (launch_generic fs rp hp k v) (launch_generic fs rp' hp k v).
Proof.
  unfold launch_generic. apply le_bind; [apply le_lift, le_data_set|intros; apply le_refl].
Qed.

Lemma le_call_attr a s hp : le_ok (call_attr rec a s hp) (call_attr rec' a s hp).
Proof.
  destruct a as [|[] f| |]; try apply le_refl. cbn [call_attr]. unfold decorated.
  apply le_bind; [apply le_refl|intros _]. apply le_bind; [|intros; apply le_refl].
  unfold use_body. destruct (hp_params hp) as [|t ps]; [apply le_refl|].
  apply le_bind; [apply le_refl|intros c]. destruct (negb _); [|apply le_refl].
  apply le_bind; [apply Hrec|intros; apply le_refl].
Qed.

Lemma le_run_items s l : forall hp,
  le_ok (run_items K fs rec rp s hp l) (run_items K fs rec' rp' s hp l).
Proof.
  induction l as [|kv l IH]; intros hp; cbn [run_items]; [apply le_refl|].
  apply le_bind; [|intros; apply IH]. unfold process_item.
  apply le_bind; [apply le_refl|intros v0]. apply le_bind; [apply le_refl|intros _].
  apply le_bind; [apply le_refl|intros toks]. destruct toks as [|t0 ps]; [apply le_refl|].
  destruct (negb _); [apply le_launch|].
  apply le_bind; [apply le_refl|intros _]. apply le_bind; [apply le_refl|intros h].
  destruct h as [[name a]|]; [|apply le_launch].
  apply le_bind; [apply le_call_attr|intros; apply le_refl].
Qed.

Lemma le_psr_body r s init fin :
  le_ok (psr_body K fs rec rp r s init fin) (psr_body K fs rec' rp' r s init fin).
Proof.
  assert (N : forall name hp, le_ok (call_named K rec name s hp) (call_named K rec' name s hp)).
  { intros name hp. unfold call_named. destruct (find_attr K name); [apply le_call_attr|apply le_refl]. }
  unfold psr_body. apply le_bind.
  { destruct (init && str_eqb s r); [|apply le_refl]. apply le_bind; [apply N|intros _].
    apply le_bind; [apply le_refl|intros j]. apply le_bind; [apply le_refl|intros c].
    destruct (ini_has_section _ _); [apply Hrec|apply le_refl]. }
  intros _. apply le_bind; [apply le_refl|intros _]. apply le_bind; [apply le_refl|intros j].
  destruct (ini_items j s) as [items|]; [|apply le_refl].
  apply le_bind; [apply le_refl|intros _]. apply le_bind; [apply le_refl|intros _].
  apply le_bind; [apply le_run_items|intros hp]. apply le_bind; [|intros; apply le_refl].
  destruct (fin && str_eqb s r); [apply N|apply le_refl].
Qed.
End Body.

Lemma psr_mono f f' : f <= f' ->
  forall r s init fin, le_ok (psr K fs f r s init fin) (psr K fs f' r s init fin).
Proof.
  revert f'. induction f as [|f IH]; intros f' L r s init fin.
  - intros c a c' H. discriminate.
  - destruct f' as [|f']; [lia|]. cbn [psr]. apply le_psr_body.
    + intros. apply IH. lia.
    + intros s0. apply le_bind; [|intros; apply le_refl].
      apply le_parse_section_with. intros. apply IH. lia.
Qed.
End Mono.

Section Ok.
Context {Sh Us : Type} (K : pyclass Sh Us) (fs : str -> option str) (i : ini).
Notation ev := (ev Sh Us).
Notation obj := (obj Sh Us).
Notation ctx := (ctx Sh Us).

(** ** The parser keeps the file loaded and the settings *)
Definition conf (o : obj) :=
  (o_files o, o_delims o, o_last o, o_ec o, o_debug o, o_defname o, o_intname o).
Definition keeps_conf {A} (m : SM obj A) : Prop := forall o, conf (snd (m o)) = conf o.
Definition keeps_confc {A} (m : SM ctx A) : Prop :=
  forall c, conf (x_obj (snd (m c))) = conf (x_obj c).

Lemma conf_ret {A} (a : A) : keeps_confc (ret a).
Proof. intros c. reflexivity. Qed.
Lemma conf_raise {A} e : keeps_confc (@raise ctx A e).
Proof. intros c. reflexivity. Qed.
Lemma conf_bind {A B} (m : SM ctx A) (k : A -> SM ctx B) :
  keeps_confc m -> (forall a, keeps_confc (k a)) -> keeps_confc (bind m k).
Proof.
  intros H1 H2 c. unfold bind. specialize (H1 c). destruct (m c) as [[a|e] c1]; auto.
  rewrite H2. exact H1.
Qed.
Lemma conf_obind {A B} (m : SM obj A) (k : A -> SM obj B) :
  keeps_conf m -> (forall a, keeps_conf (k a)) -> keeps_conf (bind m k).
Proof.
  intros H1 H2 c. unfold bind. specialize (H1 c). destruct (m c) as [[a|e] c1]; auto.
  rewrite H2. exact H1.
Qed.
Lemma conf_oret {A} (a : A) : keeps_conf (ret a).
Proof. intros c. reflexivity. Qed.
Lemma conf_oraise {A} e : keeps_conf (@raise obj A e).
Proof. intros c. reflexivity. Qed.
Lemma conf_lift {A} (m : SM obj A) : keeps_conf m -> keeps_confc (lift m).
Proof. intros H c. unfold lift. specialize (H (x_obj c)). now destruct (m (x_obj c)). Qed.
Lemma conf_log e : keeps_conf (log e).
Proof. intros o. reflexivity. Qed.
Lemma conf_event n e : keeps_conf (event n e).
Proof. intros o. unfold event. now destruct (ec_event _ _ _ _). Qed.
Lemma conf_get_files : keeps_conf get_files.
Proof. intros o. unfold get_files. now destruct (o_files o). Qed.
Lemma conf_get_edata : keeps_conf get_edata.
Proof. intros o. unfold get_edata. now destruct (o_edata o). Qed.
Lemma conf_put_edata d : keeps_conf (put_edata d).
Proof. intros o. reflexivity. Qed.
Lemma conf_get_cpd : keeps_conf (get_cpd fs).
Proof.
  intros o. unfold get_cpd. destruct (o_cpd o); auto. cbn [o_files set_cpd].
  destruct (o_files o) as [[|f fl]|]; auto. destruct (forallb _ _); auto.
  destruct (read_files _ _ _) as [[u|[]] j]; auto.
Qed.
Lemma conf_add_section s b : keeps_conf (data_add_section s b).
Proof. apply conf_obind; [apply conf_get_edata|intros; apply conf_put_edata]. Qed.
Lemma conf_put_plain r k v : keeps_conf (put_plain r k v).
Proof.
  unfold put_plain. apply conf_obind; [apply conf_get_edata|intros d].
  apply conf_obind; [destruct (dmem _ _); [apply conf_oret|apply conf_add_section]|intros _].
  apply conf_obind; [apply conf_get_edata|intros d'].
  destruct (ed_put _ _ _ _); [apply conf_put_edata|apply conf_oraise].
Qed.
Lemma conf_begin_op h k v : keeps_conf (begin_op h k v).
Proof.
  unfold begin_op. apply conf_obind; [apply conf_log|intros _]. apply conf_obind; [apply conf_log|intros _].
  destruct (h_amb h); [apply conf_event|apply conf_oret].
Qed.
Lemma conf_check_rval r : keeps_conf (check_rval r).
Proof.
  unfold check_rval. destruct r as [z|]; [|apply conf_event].
  destruct (z =? 0)%Z; [apply conf_oret|]. destruct (z <=? 10)%Z; apply conf_event.
Qed.
Lemma conf_user f s hp : keeps_confc (user_body f s hp).
Proof. intros c. unfold user_body. now destruct (f s hp _ _) as [[r sh] us]. Qed.
Lemma conf_decorated hp body : keeps_confc body -> keeps_confc (decorated hp body).
Proof.
  intros H. unfold decorated. apply conf_bind; [apply conf_lift, conf_log|intros _].
  apply conf_bind; [exact H|intros r]. apply conf_bind; [apply conf_lift, conf_log|intros _].
  apply conf_lift, conf_check_rval.
Qed.
Lemma conf_proc_add s : keeps_confc (proc_add s).
Proof. intros c. reflexivity. Qed.
Lemma conf_proc_remove s : keeps_confc (proc_remove s).
Proof. intros c. unfold proc_remove. now destruct (str_mem s (x_proc c)). Qed.
Ltac cf :=
  repeat first
    [ apply conf_ret | apply conf_raise | apply conf_proc_add | apply conf_proc_remove
    | apply conf_user | apply conf_decorated
    | apply conf_lift; first [ apply conf_log | apply conf_event | apply conf_get_files
                             | apply conf_get_cpd | apply conf_add_section | apply conf_put_plain
                             | apply conf_begin_op | apply conf_check_rval ]
    | apply conf_bind; [|intros ?] ].
Lemma conf_exec_hook r s name : keeps_confc (exec_hook K r s name).
Proof. unfold exec_hook. destruct (find_attr K name) as [[|[] f| |]|]; cf. Qed.
Lemma conf_exec_ev r e : keeps_confc (exec_ev K fs r e).
Proof.
  destruct e as [s|s|s|s w k v|s h kind f k v|s t h k v|s t h k v|s t h k v|s []|s name];
    cbn [exec_ev]; try (cf; fail).
  - cf. destruct w as [[]|]; cf.
  - cf. destruct kind; cf.
  - apply conf_exec_hook.
Qed.
Lemma conf_exec r evs : keeps_confc (exec K fs r evs).
Proof.
  induction evs as [|e evs IH]; cbn [exec]; [apply conf_ret|].
  apply conf_bind; [apply conf_exec_ev|intros _; exact IH].
Qed.

(** Loaded, root checked, default section name known. *)
Definition goodd (D root : str) (c : ctx) : Prop :=
  good i root c /\ o_defname (x_obj c) = D.

Lemma conf_defname (o o' : obj) : conf o = conf o' -> o_defname o = o_defname o'.
Proof. unfold conf. congruence. Qed.

Lemma goodd_ev D root r e : keeps (goodd D root) (exec_ev K fs r e).
Proof.
  intros c [G N]. split; [now apply keeps_exec_ev|]. rewrite <- N. apply conf_defname, conf_exec_ev.
Qed.
Lemma goodd_hook D root r s name : keeps (goodd D root) (exec_hook K r s name).
Proof.
  intros c [G N]. split; [now apply keeps_exec_hook|]. rewrite <- N. apply conf_defname, conf_exec_hook.
Qed.
Lemma goodd_lift {A} D root (m : SM obj A) :
  keeps (goodo i root) m -> keeps_conf m -> keeps (goodd D root) (lift m).
Proof.
  intros H1 H2 c [G N]. split; [now apply (keeps_lift_good i root)|].
  rewrite <- N. apply conf_defname, conf_lift, H2.
Qed.
Lemma goodd_Ok {A} D root (m : SM ctx A) c a c' :
  keeps (goodd D root) m -> goodd D root c -> m c = (Ok a, c') -> goodd D root c'.
Proof. intros H G E. specialize (H c G). now rewrite E in H. Qed.

Lemma goodd_log D root e : keeps (goodd D root) (lift (log e)).
Proof. apply goodd_lift; [|apply conf_log]. apply keeps_log. intros o l H; exact H. Qed.

Lemma run_items_keeps D root rec reparse s :
  (forall s init fin, keeps (goodd D root) (rec s init fin)) ->
  forall items hp, hp_root hp = root ->
  keeps (goodd D root) (run_items K fs rec reparse s hp items).
Proof.
  intros H items. induction items as [|item items IH]; intros hp R c G; [exact G|].
  cbn [run_items]. destruct (meaning_total K s item) as [[e|t h k v] M].
  - destruct (process_step K fs i rec reparse root s hp item e c M (proj1 G) R) as (hp' & R' & E).
    rewrite (bind_first _ _ _ c E), bind_assoc.
    apply (keeps_bind (goodd D root)); [apply goodd_ev| |exact G].
    intros _. intros c1 G1. rewrite bind_ret. now apply IH.
  - destruct (process_use K fs rec reparse root s hp item t h k v c M R) as (hp' & R' & E).
    destruct (str_mem t (x_proc c)); rewrite (bind_first _ _ _ c E).
    + rewrite bind_assoc.
      apply (keeps_bind (goodd D root)); [apply goodd_ev| |exact G].
      intros _ c1 G1. rewrite bind_ret. now apply IH.
    + rewrite !bind_assoc.
      apply (keeps_bind (goodd D root)); [apply goodd_ev| |exact G]. intros _ c1 G1.
      rewrite !bind_assoc. apply (keeps_bind (goodd D root)); [apply H| |exact G1]. intros _ c2 G2.
      rewrite bind_assoc. apply (keeps_bind (goodd D root)); [apply goodd_ev| |exact G2].
      intros _ c3 G3. rewrite bind_ret. now apply IH.
Qed.

Lemma psr_keeps D root fuel : forall s init fin, keeps (goodd D root) (psr K fs fuel root s init fin).
Proof.
  induction fuel as [|fuel IH]; intros s init fin c G; [exact G|].
  cbn [psr]. set (reparse := fun s : str => _).
  assert (HN : forall name, keeps (goodd D root) (call_named K (psr K fs fuel root) name s (hp_named root name))).
  { intros name c0 G0. rewrite call_named_hook. now apply goodd_hook. }
  revert c G. change (keeps (goodd D root) (psr_body K fs (psr K fs fuel root) reparse root s init fin)).
  unfold psr_body.
  assert (HC : keeps (goodd D root) (lift (get_cpd fs))) by (apply goodd_lift; [apply keeps_get_cpd|apply conf_get_cpd]).
  apply keeps_bind.
  { destruct (init && str_eqb s root); [|apply keeps_ret].
    apply keeps_bind; [apply HN|intros _]. apply keeps_bind; [exact HC|intros j].
    apply keeps_bind; [intros c G; exact G|intros c]. destruct (ini_has_section _ _); [apply IH|apply keeps_ret]. }
  intros _. apply keeps_bind; [apply goodd_log|intros _].
  apply keeps_bind; [exact HC|intros j]. destruct (ini_items j s) as [items|].
  2: { apply keeps_bind; [apply goodd_lift; [apply keeps_get_files|apply conf_get_files]|intros; apply keeps_raise]. }
  apply keeps_bind; [apply goodd_lift; [apply keeps_data_add_section|apply conf_add_section]|intros _].
  apply keeps_bind; [intros c G; exact G|intros _].
  apply keeps_bind; [apply run_items_keeps; [exact IH|reflexivity]|intros _].
  apply keeps_bind; [destruct (_ && _); [apply HN|apply keeps_ret]|intros _].
  apply keeps_bind; [|intros _; apply goodd_log].
  intros c G. unfold proc_remove. destruct (str_mem s (x_proc c)); exact G.
Qed.

(** ** The processed set of calls that return *)
Definition shrinks (c c' : ctx) : Prop := forall x, In x (x_proc c') -> In x (x_proc c).

Lemma exec_ev_step_proc root s item e (c : ctx) :
  meaning K s item (MStep e) -> x_proc (snd (exec_ev K fs root e c)) = x_proc c.
Proof.
  intros M. apply keeps_proc_exec_ev. inversion M; subst; exact I.
Qed.

(** What one returning [run_items] consists of, one option at a time. *)
Lemma run_items_cons D root rec reparse s hp item items c u c' :
  goodd D root c -> hp_root hp = root ->
  (forall s init fin, keeps (goodd D root) (rec s init fin)) ->
  run_items K fs rec reparse s hp (item :: items) c = (Ok u, c') ->
  exists c1 hp', goodd D root c1 /\ hp_root hp' = root /\
    run_items K fs rec reparse s hp' items c1 = (Ok u, c') /\
    ((exists e, meaning K s item (MStep e) /\ x_proc c1 = x_proc c) \/
     (exists t h k v, meaning K s item (MUse t h k v) /\
        (In t (x_proc c) /\ x_proc c1 = x_proc c \/
         ~ In t (x_proc c) /\ exists c2 c3 u3, goodd D root c2 /\ x_proc c2 = x_proc c /\
            rec t true false c2 = (Ok u3, c3) /\ x_proc c1 = x_proc c3))).
Proof.
  intros G R HK H. cbn [run_items] in H. destruct (meaning_total K s item) as [[e|t h k v] M].
  - destruct (process_step K fs i rec reparse root s hp item e c M (proj1 G) R) as (hp' & R' & E).
    rewrite (bind_first _ _ _ c E), bind_assoc in H.
    apply bind_Ok in H as (u1 & c1 & E1 & H). rewrite bind_ret in H.
    assert (G1 : goodd D root c1) by (eapply goodd_Ok; [apply goodd_ev|exact G|exact E1]).
    exists c1, hp'. split; [exact G1|]. split; [exact R'|]. split; [exact H|].
    left. exists e. split; auto. pose proof (exec_ev_step_proc root s item e c M) as P.
    rewrite E1 in P. exact P.
  - destruct (process_use K fs rec reparse root s hp item t h k v c M R) as (hp' & R' & E).
    destruct (str_mem t (x_proc c)) eqn:T; rewrite (bind_first _ _ _ c E) in H.
    + rewrite bind_assoc in H. apply bind_Ok in H as (u1 & c1 & E1 & H). rewrite bind_ret in H.
      assert (G1 : goodd D root c1) by (eapply goodd_Ok; [apply goodd_ev|exact G|exact E1]).
      exists c1, hp'. split; [exact G1|]. split; [exact R'|]. split; [exact H|].
      right. exists t, h, k, v. split; auto. left. split; [now apply str_mem_In|].
      pose proof (keeps_proc_exec_ev K fs root (Cycle s t h k v) I c) as P. rewrite E1 in P. exact P.
    + rewrite !bind_assoc in H. apply bind_Ok in H as (u1 & c2 & E1 & H).
      rewrite !bind_assoc in H. apply bind_Ok in H as (u3 & c3 & E3 & H).
      rewrite bind_assoc in H. apply bind_Ok in H as (u4 & c4 & E4 & H). rewrite bind_ret in H.
      assert (G2 : goodd D root c2) by (eapply goodd_Ok; [apply goodd_ev|exact G|exact E1]).
      assert (G3 : goodd D root c3) by (eapply goodd_Ok; [apply HK|exact G2|exact E3]).
      assert (G4 : goodd D root c4) by (eapply goodd_Ok; [apply goodd_ev|exact G3|exact E4]).
      exists c4, hp'. split; [exact G4|]. split; [exact R'|]. split; [exact H|].
      right. exists t, h, k, v. split; auto. right. split; [now apply str_mem_not_In|].
      exists c2, c3, u3. split; [exact G2|].
      pose proof (keeps_proc_exec_ev K fs root (UseIn s t h k v) I c) as P. rewrite E1 in P.
      pose proof (keeps_proc_exec_ev K fs root (UseOut s t h k v) I c3) as P'. rewrite E4 in P'.
      cbn [snd] in *. auto.
Qed.

(** What one returning call consists of. *)
Lemma psr_cons D root fuel s init fin c u c' :
  goodd D root c -> psr K fs fuel root s init fin c = (Ok u, c') ->
  exists f c0 c1 c2 hp items, fuel = S f /\ ini_items i s = Some items /\
    goodd D root c0 /\ goodd D root c1 /\
    ((init = true /\ s = root /\
      exists ca, goodd D root ca /\ x_proc ca = x_proc c /\
        if ini_has_section i D
        then exists ua, psr K fs f root D false false ca = (Ok ua, c0)
        else x_proc c0 = x_proc c) \/
     (init = false \/ s <> root) /\ x_proc c0 = x_proc c) /\
    x_proc c1 = sadd s (x_proc c0) /\
    (exists reparse, run_items K fs (psr K fs f root) reparse s (new_hp root) items c1 = (Ok hp, c2)) /\
    In s (x_proc c2) /\ x_proc c' = sremove s (x_proc c2).
Proof.
  intros G H. destruct fuel as [|f]; [discriminate|]. cbn [psr] in H.
  rewrite psr_body_split in H. set (reparse := fun s : str => _) in H.
  apply bind_Ok in H as (u0 & c0 & E0 & H).
  assert (X : goodd D root c0 /\
    ((init = true /\ s = root /\
      exists ca, goodd D root ca /\ x_proc ca = x_proc c /\
        if ini_has_section i D
        then exists ua, psr K fs f root D false false ca = (Ok ua, c0)
        else x_proc c0 = x_proc c) \/
     (init = false \/ s <> root) /\ x_proc c0 = x_proc c)).
  { destruct (init && str_eqb s root) eqn:B.
    - apply andb_prop in B as [-> B]. apply str_eqb_eq in B as ->.
      unfold bind at 1 in E0. rewrite call_named_hook in E0.
      pose proof (goodd_hook D root root root $"handler_initialize" c G) as GA.
      pose proof (keeps_proc_exec_hook K root root $"handler_initialize" c) as PA.
      destruct (exec_hook K root root $"handler_initialize" c) as [[ua|x] ca]; [|discriminate].
      cbn [snd] in *. rewrite bind_cpd with (i := i) in E0 by apply GA. rewrite bind_get in E0.
      rewrite (proj2 GA) in E0. destruct (ini_has_section i D) eqn:HS.
      + split; [eapply goodd_Ok; [apply psr_keeps|exact GA|exact E0]|]. left. repeat split; auto.
        exists ca. split; [exact GA|]. split; [exact PA|]. eauto.
      + inversion E0; subst. split; [exact GA|]. left. repeat split; auto. exists c0. auto.
    - inversion E0; subst. split; auto. right. split; auto. destruct init; auto. right.
      apply str_eqb_neq. exact B. }
  destruct X as [G0 X]. unfold section_part in H. rewrite bind_log in H.
  rewrite bind_cpd with (i := i) in H by apply G0.
  destruct (ini_items i s) as [items|] eqn:I.
  2: { apply bind_Ok in H as (? & ? & _ & H). discriminate. }
  apply bind_Ok in H as (u1 & cb & E1 & H). apply bind_Ok in H as (u2 & c1 & E2 & H).
  apply bind_Ok in H as (hp & c2 & E3 & H). apply bind_Ok in H as (u4 & c4 & E4 & H).
  apply bind_Ok in H as (u5 & c5 & E5 & H).
  assert (PB : x_proc cb = x_proc c0).
  { pose proof (keeps_proc_lift (data_add_section s false) (logc (LSecEntry s) c0)) as P.
    rewrite E1 in P. exact P. }
  assert (GB : goodd D root cb).
  { eapply (goodd_Ok D root (lift (data_add_section s false))); [apply goodd_lift; [apply keeps_data_add_section|apply conf_add_section]| |exact E1].
    exact G0. }
  assert (P1 : x_proc c1 = sadd s (x_proc c0)).
  { unfold proc_add, modify in E2. inversion E2. cbn. now rewrite PB. }
  assert (G1 : goodd D root c1). { unfold proc_add, modify in E2. inversion E2. exact GB. }
  assert (P4 : x_proc c4 = x_proc c2).
  { destruct (fin && str_eqb s root).
    - rewrite call_named_hook in E4.
      pose proof (keeps_proc_exec_hook K root s $"handler_finalize" c2) as P. rewrite E4 in P. exact P.
    - now inversion E4. }
  unfold proc_remove in E5. destruct (str_mem s (x_proc c4)) eqn:M; [|discriminate].
  inversion E5; subst c5.
  pose proof (keeps_proc_lift (log (LSecExit s)) (Ctx (x_obj c4) (x_sh c4) (sremove s (x_proc c4)))) as P5.
  rewrite H in P5. cbn [snd x_proc] in P5.
  exists f, c0, c1, c2, hp, items. repeat split; auto; try apply G0; try apply G1.
  - exists reparse. exact E3.
  - rewrite <- P4. now apply str_mem_In.
  - now rewrite P5, P4.
Qed.

(** A call that returns never enlarges the set and has removed its section. *)
Lemma run_items_shrinks D root rec reparse s :
  (forall s init fin, keeps (goodd D root) (rec s init fin)) ->
  (forall s init fin c u c', goodd D root c -> rec s init fin c = (Ok u, c') -> shrinks c c') ->
  forall items hp c u c', goodd D root c -> hp_root hp = root ->
  run_items K fs rec reparse s hp items c = (Ok u, c') -> shrinks c c'.
Proof.
  intros HK HS. induction items as [|item items IH]; intros hp c u c' G R H.
  - inversion H; subst. intros x; auto.
  - eapply run_items_cons in H as (c1 & hp' & G1 & R' & H & X); eauto.
    specialize (IH _ _ _ _ G1 R' H). intros x Hx. apply IH in Hx.
    destruct X as [(e & _ & P)|(t & h & k & v & _ & [[_ P]|(_ & c2 & c3 & u3 & G2 & P2 & E & P)])];
      rewrite P in Hx; auto.
    apply (HS _ _ _ _ _ _ G2 E) in Hx. now rewrite P2 in Hx.
Qed.

Lemma psr_shrinks D root fuel : forall s init fin c u c',
  goodd D root c -> psr K fs fuel root s init fin c = (Ok u, c') ->
  shrinks c c' /\ ~ In s (x_proc c').
Proof.
  induction fuel as [|fuel IH]; intros s init fin c u c' G H; [discriminate|].
  apply (psr_cons D) in H as (f & c0 & c1 & c2 & hp & items & Ef & I & G0 & G1 & X & P1 & (rp & H) & _ & P'); auto.
  inversion Ef; subst f. rewrite P'. split; [|intros F; apply In_sremove in F; tauto].
  assert (S0 : shrinks c c0).
  { destruct X as [(-> & -> & ca & GA & PA & X)|[_ X]].
    - destruct (ini_has_section _ _); [|intros x; now rewrite X].
      destruct X as [ua X]. apply IH in X as [X _]; auto. intros x Hx. apply X in Hx. now rewrite PA in Hx.
    - intros x. now rewrite X. }
  eapply run_items_shrinks in H; eauto using psr_keeps.
  - intros x Hx. rewrite P' in Hx. apply In_sremove in Hx as [N Hx]. apply H in Hx.
    rewrite P1 in Hx. apply In_sadd in Hx as [->|Hx]; [contradiction|auto].
  - intros s0 i0 f0 d0 u0 d0' GG E. eapply IH in E as [E _]; eauto.
Qed.

(** ** Routes *)
Inductive route : str -> list str -> str -> Prop :=
| route_nil s : route s [] s
| route_cons s t l u : uses K i s t -> route t l u -> route s (t :: l) u.

Lemma route_suffix s l u x : route s l u -> In x l -> exists l', route x l' u /\ incl (x :: l') l /\ (NoDup l -> NoDup (x :: l')).
Proof.
  induction 1 as [|s t l u U R IH]; intros Hx; [destruct Hx|].
  destruct Hx as [->|Hx].
  - exists l. split; auto. split; [apply incl_refl|auto].
  - destruct (IH Hx) as (l' & R' & I' & N'). exists l'. split; auto. split.
    + intros y Hy. right. auto.
    + intros N. apply N'. now inversion N.
Qed.

Lemma route_last s l u : route s l u -> s = u /\ l = [] \/ In u l.
Proof.
  induction 1 as [|s t l u U R [[-> ->]|IH]]; [auto|right; now left|right; now right].
Qed.

Lemma reaches_route s u : reaches K i s u -> exists l, route s l u /\ NoDup (s :: l).
Proof.
  induction 1 as [s|s t u U R (l & RT & N)].
  - exists []. split; [constructor|]. constructor; [intros []|constructor].
  - destruct (in_dec str_eq_dec s (t :: l)) as [I|I].
    + destruct I as [->|I]; [exists l; auto|].
      destruct (route_suffix _ _ _ _ RT I) as (l' & R' & I' & N'). exists l'. split; auto.
      apply N'. now inversion N.
    + exists (t :: l). split; [now constructor|]. now constructor.
Qed.

(** ** C06: the default section leading to the root *)
(** ** C06: the default section leading to the root *)
Section Bad.
Variables (root D : str).
Hypothesis ND : D <> root.
Hypothesis HD : ini_has_section i D = true.

Lemma run_items_uses rec reparse s x l :
  (forall s init fin, keeps (goodd D root) (rec s init fin)) ->
  (forall s init fin c u c', goodd D root c -> rec s init fin c = (Ok u, c') -> shrinks c c') ->
  (forall c u c', goodd D root c ->
     (forall y, In y (x :: l) -> ~ In y (x_proc c)) ->
     rec x true false c = (Ok u, c') -> ~ In D (x_proc c')) ->
  forall items hp c u c', goodd D root c -> hp_root hp = root ->
  uses_in K s items x -> (forall y, In y (x :: l) -> ~ In y (x_proc c)) ->
  run_items K fs rec reparse s hp items c = (Ok u, c') -> ~ In D (x_proc c').
Proof.
  intros HK HS HX. induction items as [|item items IH]; intros hp c u c' G R U A H.
  - destruct U as (it & h & k & v & [] & _).
  - eapply run_items_cons in H as (c1 & hp' & G1 & R' & H & X); eauto.
    destruct U as (it & h & k & v & [->|HI] & M).
    + destruct X as [(e & M' & _)|(t & h' & k' & v' & M' & X)];
        pose proof (meaning_fun K _ _ _ _ M M') as EE; [discriminate|]. inversion EE; subst.
      destruct X as [[I _]|(_ & c2 & c3 & u3 & G2 & P2 & E & P)].
      { exfalso. apply (A t); [now left|exact I]. }
      assert (N : ~ In D (x_proc c1)).
      { rewrite P. apply (HX c2 u3 c3 G2); auto. intros y Hy. rewrite P2. now apply A. }
      intros F. apply N. eapply run_items_shrinks; eauto.
    + eapply (IH hp' c1); eauto.
      * exists it, h, k, v. auto.
      * intros y Hy F. apply (A y Hy).
        destruct X as [(e & _ & P)|(t & h' & k' & v' & _ & [[_ P]|(_ & c2 & c3 & u3 & G2 & P2 & E & P)])];
          rewrite P in F; auto.
        apply (HS _ _ _ _ _ _ G2 E) in F. now rewrite P2 in F.
Qed.

Lemma psr_drops_default fuel : forall x l fin c u c',
  route x l root -> NoDup (x :: l) -> goodd D root c ->
  (forall y, In y (x :: l) -> ~ In y (x_proc c)) ->
  psr K fs fuel root x true fin c = (Ok u, c') -> ~ In D (x_proc c').
Proof.
  induction fuel as [|fuel IH]; intros x l fin c u c' RT N G A H; [discriminate|].
  apply (psr_cons D) in H as (f & c0 & c1 & c2 & hp & items & Ef & I & G0 & G1 & X & P1 & (rp & H) & _ & P'); auto.
  inversion Ef; subst f. rewrite P'. intros F. apply In_sremove in F as [NE F].
  assert (HS : forall s init fin c u c', goodd D root c ->
            psr K fs fuel root s init fin c = (Ok u, c') -> shrinks c c').
  { intros. eapply psr_shrinks; eauto. }
  inversion RT as [s|s t l' u' U RT']; subst.
  - (* the root: its initialisation runs the default section *)
    destruct X as [(_ & _ & ca & GA & PA & X)|[[?|?] _]]; try congruence.
    rewrite HD in X. destruct X as [ua X].
    apply (psr_shrinks D) in X as [_ X]; auto.
    assert (SH : shrinks c1 c2)
      by (eapply run_items_shrinks; [apply psr_keeps|exact HS|exact G1| |exact H]; reflexivity).
    apply SH in F. rewrite P1 in F. apply In_sadd in F as [->|F]; auto.
  - assert (NR : x <> root).
    { intros ->. inversion N as [|? ? N1 N2]; subst. apply N1.
      destruct (route_last _ _ _ RT') as [[-> ->]|L]; [now left|now right]. }
    destruct X as [(_ & ? & _)|[_ X]]; [contradiction|].
    destruct U as (items' & item & h & k & v & I' & HI & M). filed. rewrite I in I'. inversion I'; subst items'.
    inversion N as [|? ? N1 N2]; subst.
    revert F. eapply (run_items_uses (psr K fs fuel root) rp x t l'); [apply psr_keeps|exact HS| |exact G1|exact (eq_refl : hp_root (new_hp root) = root)| | |exact H].
    + intros d ud d' Gd Ad Ed. eapply IH; eauto.
    + exists item, h, k, v. auto.
    + intros y Hy. rewrite P1, X. intros F. apply In_sadd in F as [->|F]; [contradiction|].
      apply (A y); [now right|exact F].
Qed.

Theorem psr_default_to_root fuel fin c u c' :
  ready fs i root c -> o_defname (x_obj c) = D -> x_proc c = [] -> reaches K i D root ->
  psr K fs fuel root root true fin c = (Ok u, c') -> False.
Proof.
  intros RD N0 P R H.
  assert (HS : forall fuel s init fin c u c', goodd D root c ->
            psr K fs fuel root s init fin c = (Ok u, c') -> shrinks c c').
  { intros. eapply psr_shrinks; eauto. }
  destruct fuel as [|f]; [discriminate|]. cbn [psr] in H. rewrite psr_body_split in H.
  rewrite str_eqb_refl in H. cbn [andb] in H.
  apply bind_Ok in H as (u0 & c0 & X & _). unfold bind at 1 in X. rewrite call_named_hook in X.
  pose proof (ready_hook K fs i root root root $"handler_initialize" c RD) as GA.
  pose proof (keeps_proc_exec_hook K root root $"handler_initialize" c) as PA.
  pose proof (defname_hook K D root root $"handler_initialize" c N0) as NA.
  destruct (exec_hook K root root $"handler_initialize" c) as [[ua|x] ca]; [|discriminate].
  cbn [snd] in *. rewrite (bind_cpd_ready fs i root) in X by exact GA. rewrite bind_get in X.
  change (o_defname (x_obj (loaded i ca))) with (o_defname (x_obj ca)) in X. rewrite NA, HD in X.
  apply (psr_cons D) in X as (f' & d0 & d1 & d2 & hp & items & Ef & I & G0 & G1 & X & P1 & (rp & H) & IN & P').
  2: { split; [now apply (good_loaded fs)|exact NA]. }
  destruct X as [(? & _)|[_ X]]; [discriminate|].
  clear N0 NA. apply reaches_route in R as (l & RT & N).
  inversion RT as [s|s t l' u' U RT']; subst; [congruence|].
  destruct U as (items' & item & h & k & v & I' & HI & M). filed. rewrite I in I'. inversion I'; subst items'.
  inversion N as [|? ? N1 N2]; subst.
  revert IN. eapply (run_items_uses (psr K fs f' root) rp D t l'); [apply psr_keeps|apply HS| |exact G1|exact (eq_refl : hp_root (new_hp root) = root)| | |exact H].
  - intros d ud d' Gd Ad Ed. eapply psr_drops_default; eauto.
  - exists item, h, k, v. auto.
  - intros y Hy. rewrite P1, X. cbn [loaded x_proc]. rewrite PA, P. intros F. apply In_sadd in F as [->|[]]. contradiction.
Qed.
End Bad.

(** ** A parse that returns is a walk *)
Lemma psr_ok_default fuel root init fin c u c' :
  ready fs i root c -> x_proc c = [] ->
  psr K fs fuel root root init fin c = (Ok u, c') ->
  default_ok K i (o_defname (x_obj c)) root init.
Proof.
  intros R P H -> HS ND RE.
  eapply (psr_default_to_root root (o_defname (x_obj c))); eauto.
Qed.

Lemma same_proc_nil (c : ctx) : x_proc c = [] -> same_proc c [].
Proof. intros H x. now rewrite H. Qed.

Theorem psr_ok_walk fuel root init fin c u c' :
  ready fs i root c -> x_proc c = [] ->
  psr K fs fuel root root init fin c = (Ok u, c') ->
  exists evs n, parse_walk K i (o_defname (x_obj c)) root init fin evs n /\
    exec K fs root evs c = (Ok u, c').
Proof.
  intros R P H. pose proof (psr_ok_default _ _ _ _ _ _ _ R P H) as DO.
  destruct (parse_walk_exists K i (o_defname (x_obj c)) root init fin) as (evs & n & W & _).
  exists evs, n. split; auto.
  rewrite <- (psr_parse K fs i (Nat.max fuel n) root init fin evs n c); auto; [|lia|now apply same_proc_nil].
  eapply psr_mono; [|exact H]. lia.
Qed.
End Ok.
