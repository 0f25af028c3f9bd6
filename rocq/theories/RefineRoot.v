(** * Whole parses: existence, uniqueness and depth of the walk, and the
    refinement at the root. *)
From Coq Require Import String NArith ZArith List Bool Lia Arith.
Import ListNotations.
From Verif Require Import PyBase PyFacts Shlex IniView IniRead ExcControl Debuggable Cpe SpecText SpecFile SpecShell ShellProofs FileProofs SpecWalk MeaningProofs Refine.
Local Open Scope sm_scope.

Section Root.
Context {Sh Us : Type} (K : pyclass Sh Us) (fs : str -> option str) (i : ini).
Notation ev := (ev Sh Us).
Notation obj := (obj Sh Us).
Notation ctx := (ctx Sh Us).

(** ** The walk is unique *)
Lemma walk_unique :
  (forall path s evs n, walk K i path s evs n ->
     forall evs' n', walk K i path s evs' n' -> evs' = evs /\ n' = n) /\
  (forall path s items evs n, walk_options K i path s items evs n ->
     forall evs' n', walk_options K i path s items evs' n' -> evs' = evs /\ n' = n).
Proof.
  apply walk_both.
  - intros path s Hi evs' n' H. inversion H; subst; filed; [auto|congruence].
  - intros path s items evs n Hi W IH evs' n' H. inversion H; subst; filed; [congruence|].
    match goal with A : ini_items i s = Some ?x, B : ini_items i s = Some ?y |- _ =>
      rewrite A in B; inversion B; subst end.
    match goal with A : walk_options K i _ _ _ _ _ |- _ => apply IH in A as [-> ->] end. auto.
  - intros path s evs' n' H. inversion H; auto.
  - intros path s item rest e evs n M W IH evs' n' H. inversion H; subst.
    + match goal with A : meaning K s item (MStep _) |- _ =>
        pose proof (meaning_fun K _ _ _ _ M A) as E; inversion E; subst end.
      match goal with A : walk_options K i _ _ rest _ _ |- _ => apply IH in A as [-> ->] end. auto.
    + match goal with A : meaning K s item (MUse _ _ _ _) |- _ =>
        pose proof (meaning_fun K _ _ _ _ M A) as E; discriminate end.
    + match goal with A : meaning K s item (MUse _ _ _ _) |- _ =>
        pose proof (meaning_fun K _ _ _ _ M A) as E; discriminate end.
  - intros path s item rest t h k v evs1 n1 evs2 n2 M Ht W1 IH1 W2 IH2 evs' n' H.
    inversion H; subst;
    match goal with A : meaning K s item _ |- _ =>
      pose proof (meaning_fun K _ _ _ _ M A) as E; inversion E; subst end.
    + match goal with A : walk_options K i _ _ rest _ _ |- _ => apply IH2 in A as [-> ->] end.
      match goal with A : walk K i _ _ _ _ |- _ => apply IH1 in A as [-> ->] end. auto.
    + contradiction.
  - intros path s item rest t h k v evs n M Ht W IH evs' n' H.
    inversion H; subst;
    match goal with A : meaning K s item _ |- _ =>
      pose proof (meaning_fun K _ _ _ _ M A) as E; inversion E; subst end.
    + contradiction.
    + match goal with A : walk_options K i _ _ rest _ _ |- _ => apply IH in A as [-> ->] end. auto.
Qed.

(** ** Every section has a walk, of bounded depth *)
Definition universe : list str := ini_sections i ++ [i_defname i].
Definition unseen (path : list str) : list str :=
  filter (fun x => negb (str_mem x path)) universe.

Lemma ini_items_universe s items : ini_items i s = Some items -> In s universe.
Proof.
  unfold ini_items, own_options, universe. intros H. apply in_or_app.
  destruct (str_eqb_spec s (i_defname i)) as [->|N]; [right; now left|left].
  destruct (dget s (i_secs i)) as [own|] eqn:E; [|discriminate].
  unfold ini_sections. apply dmem_keys. unfold dmem. now rewrite E.
Qed.

Lemma filter_length_le {A} (f : A -> bool) l : length (filter f l) <= length l.
Proof. induction l; cbn; auto. destruct (f a); cbn; lia. Qed.

Lemma unseen_cons_le s path : length (unseen (s :: path)) <= length (unseen path).
Proof.
  unfold unseen. induction universe as [|x l IH]; cbn [filter]; auto.
  change (str_mem x (s :: path)) with (str_eqb x s || str_mem x path).
  destruct (str_eqb x s), (str_mem x path); cbn [negb orb length]; lia.
Qed.

Lemma unseen_cons_lt s path :
  In s universe -> ~ In s path -> length (unseen (s :: path)) < length (unseen path).
Proof.
  intros H N. unfold unseen. induction universe as [|x l IH]; [destruct H|].
  cbn [filter]. change (str_mem x (s :: path)) with (str_eqb x s || str_mem x path).
  assert (L : length (filter (fun x => negb (str_mem x (s :: path))) l) <=
              length (filter (fun x => negb (str_mem x path)) l)).
  { clear. induction l as [|x l IH]; cbn [filter]; auto.
    change (str_mem x (s :: path)) with (str_eqb x s || str_mem x path).
    destruct (str_eqb x s), (str_mem x path); cbn [negb orb length]; lia. }
  destruct H as [->|H].
  - rewrite str_eqb_refl. apply str_mem_not_In in N. rewrite N. cbn [negb orb length]. lia.
  - specialize (IH H). destruct (str_eqb x s), (str_mem x path); cbn [negb orb length]; lia.
Qed.

Lemma walk_exists_aux m : forall path s,
  length (unseen path) <= m -> ~ In s path ->
  exists evs n, walk K i path s evs n /\ n <= S m.
Proof.
  induction m as [m IH] using lt_wf_ind. intros path s L N.
  destruct (ini_items i s) as [items|] eqn:E.
  2: { do 2 eexists. split; [apply walk_missing; auto|lia]. }
  pose proof (unseen_cons_lt s path (ini_items_universe _ _ E) N) as LT.
  assert (W : exists evs n, walk_options K i (s :: path) s items evs n /\ n <= m).
  { clear E. induction items as [|item rest IHr].
    - exists [], 0. split; [constructor|lia].
    - destruct IHr as (evs & n & W & Hn).
      destruct (meaning_total K s item) as [[e|t h k v] M].
      + exists (e :: evs), n. split; [now constructor|exact Hn].
      + destruct (in_dec str_eq_dec t (s :: path)) as [I|I].
        * eexists _, n. split; [eapply wo_cycle; eauto|exact Hn].
        * destruct (IH (length (unseen (s :: path))) ltac:(lia) (s :: path) t (le_n _) I)
            as (evs1 & n1 & W1 & Hn1).
          do 2 eexists. split; [eapply wo_use; eauto|lia]. }
  destruct W as (evs & n & W & Hn). do 2 eexists. split; [eapply walk_section; eauto|lia].
Qed.

Lemma walk_options_exists path s items m :
  length (unseen path) <= m ->
  exists evs n, walk_options K i path s items evs n /\ n <= S m.
Proof.
  intros L. induction items as [|item rest (evs & n & W & Hn)].
  - exists [], 0. split; [constructor|lia].
  - destruct (meaning_total K s item) as [[e|t h k v] M].
    + exists (e :: evs), n. split; [now constructor|exact Hn].
    + destruct (in_dec str_eq_dec t path) as [I|I].
      * eexists _, n. split; [eapply wo_cycle; eauto|exact Hn].
      * destruct (walk_exists_aux m path t L I) as (evs1 & n1 & W1 & Hn1).
        do 2 eexists. split; [eapply wo_use; eauto|lia].
Qed.


Lemma unseen_le path : length (unseen path) <= S (length (ini_sections i)).
Proof.
  unfold unseen. etransitivity; [apply filter_length_le|].
  unfold universe. rewrite app_length. cbn. lia.
Qed.

Lemma default_walk_exists dname :
  exists evs n, default_walk K i dname evs n /\ n <= length (ini_sections i) + 2.
Proof.
  unfold default_walk. destruct (ini_has_section i dname).
  - destruct (walk_exists_aux _ [] dname (unseen_le []) (fun x => x)) as (evs & n & W & H).
    exists evs, n. split; [exact W|lia].
  - exists [], 0. split; [auto|lia].
Qed.

Lemma parse_walk_exists dname root init fin :
  exists evs n, parse_walk K i dname root init fin evs n /\
                n <= length (ini_sections i) + 3.
Proof.
  assert (D : exists evs0 n0, (if init then default_walk K i dname evs0 n0 else evs0 = [] /\ n0 = 0)
                              /\ n0 <= length (ini_sections i) + 2).
  { destruct init; [apply default_walk_exists|]. exists [], 0. split; [auto|lia]. }
  destruct D as (evs0 & n0 & D & L0).
  destruct (ini_items i root) as [items|] eqn:E.
  - destruct (walk_options_exists [root] root items _ (unseen_le [root])) as (evs & n & W & Hn).
    do 2 eexists. split; [eapply pw_section; eauto|lia].
  - do 2 eexists. split; [eapply pw_missing; eauto|lia].
Qed.

Lemma default_walk_unique dname evs n evs' n' :
  default_walk K i dname evs n -> default_walk K i dname evs' n' -> evs' = evs /\ n' = n.
Proof.
  unfold default_walk. destruct (ini_has_section i dname).
  - intros A B. eapply (proj1 walk_unique); eauto.
  - intros [-> ->] [-> ->]. auto.
Qed.

Lemma parse_walk_unique dname root init fin evs n evs' n' :
  parse_walk K i dname root init fin evs n ->
  parse_walk K i dname root init fin evs' n' -> evs' = evs /\ n' = n.
Proof.
  intros A B. inversion A as [e0 m0 D I|e0 m0 items e m D I W]; subst;
  inversion B as [e0' m0' D' I'|e0' m0' items' e' m' D' I' W']; subst; filed; try congruence.
  - destruct init.
    + destruct (default_walk_unique _ _ _ _ _ D D') as [-> ->]. auto.
    + destruct D as [-> ->], D' as [-> ->]. auto.
  - rewrite I in I'. inversion I'; subst.
    destruct (proj2 walk_unique _ _ _ _ _ W _ _ W') as [-> ->]. destruct init.
    + destruct (default_walk_unique _ _ _ _ _ D D') as [-> ->]. auto.
    + destruct D as [-> ->], D' as [-> ->]. auto.
Qed.

(** ** Where the walk goes *)
Lemma reaches_trans s t u : reaches K i s t -> reaches K i t u -> reaches K i s u.
Proof. induction 1; auto. intros. econstructor; eauto. Qed.

Definition uses_in (s : str) (items : list (str * res (option str))) (t : str) : Prop :=
  exists item h k v, In item items /\ meaning K s item (MUse t h k v).

Lemma walk_goes :
  (forall path s evs n, walk K i path s evs n ->
     forall s' t h k v, In (UseIn s' t h k v) evs ->
       ~ In t path /\ t <> s /\ reaches K i s t) /\
  (forall path s items evs n, walk_options K i path s items evs n ->
     forall s' t h k v, In (UseIn s' t h k v) evs ->
       ~ In t path /\ exists t', uses_in s items t' /\ reaches K i t' t).
Proof.
  apply walk_both.
  - intros path s Hi s' t h k v [H|[]]. discriminate.
  - intros path s items evs n Hi W IH s' t h k v [H|H]; [discriminate|].
    apply in_app_or in H as [H|[H|[]]]; [|discriminate].
    apply IH in H as [N (t' & (item & h' & k' & v' & HI & M) & R)].
    cbn in N. repeat split; [tauto|intros ->; tauto|].
    econstructor; [|exact R]. exists items, item, h', k', v'. auto.
  - intros path s s' t h k v [].
  - intros path s item rest e evs n M W IH s' t h k v [H|H].
    + subst. inversion M.
    + apply IH in H as [N (t' & (item' & h' & k' & v' & HI & M') & R)]. split; auto.
      exists t'. split; auto. exists item', h', k', v'. split; auto. now right.
  - intros path s item rest t0 h0 k0 v0 evs1 n1 evs2 n2 M Ht W1 IH1 W2 IH2 s' t h k v [H|H].
    + inversion H; subst. split; auto. exists t. split; [|constructor].
      exists item, h, k, v. split; auto. now left.
    + apply in_app_or in H as [H|[H|H]]; [|discriminate|].
      * apply IH1 in H as (N & _ & R). split; auto. exists t0. split; auto.
        exists item, h0, k0, v0. split; auto. now left.
      * apply IH2 in H as [N (t' & (item' & h' & k' & v' & HI & M') & R)]. split; auto.
        exists t'. split; auto. exists item', h', k', v'. split; auto. now right.
  - intros path s item rest t0 h0 k0 v0 evs n M Ht W IH s' t h k v [H|H]; [discriminate|].
    apply IH in H as [N (t' & (item' & h' & k' & v' & HI & M') & R)]. split; auto.
    exists t'. split; auto. exists item', h', k', v'. split; auto. now right.
Qed.

Lemma no_use_of_path path s items evs n root :
  walk_options K i path s items evs n -> In root path -> no_use_of root evs.
Proof.
  intros W I s' h k v H. apply (proj2 walk_goes _ _ _ _ _ W) in H as [N _]. contradiction.
Qed.

Lemma no_use_of_default dname root evs n :
  default_walk K i dname evs n -> default_ok K i dname root true -> no_use_of root evs.
Proof.
  unfold default_walk. intros W D s' h k v H.
  destruct (ini_has_section i dname) eqn:E; [|destruct W as [-> _]; destruct H].
  apply (proj1 walk_goes _ _ _ _ W) in H as (_ & N & R).
  apply (D eq_refl E (fun x => N (eq_sym x)) R).
Qed.

(** ** Loading *)
Definition ready (root : str) (c : ctx) : Prop :=
  fst (get_cpd fs (x_obj c)) = Ok i /\
  exists d, o_edata (x_obj c) = Some d /\ str_mem root (d_checked d) = true.

Definition loaded (c : ctx) : ctx := Ctx (set_cpd (Some i) (x_obj c)) (x_sh c) (x_proc c).

Lemma get_cpd_ready (o : obj) :
  fst (get_cpd fs o) = Ok i -> get_cpd fs o = (Ok i, set_cpd (Some i) o).
Proof.
  unfold get_cpd. destruct (o_cpd o) as [j|] eqn:C.
  - cbn. intros H. inversion H; subst. rewrite <- C. now destruct o.
  - cbn [set_cpd o_files o_delims]. destruct (o_files o) as [[|f fl]|]; try discriminate.
    destruct (forallb _ _); [|discriminate].
    destruct (read_files _ _ _) as [[u|e] j]; cbn.
    + intros H. inversion H; subst. reflexivity.
    + destruct e; discriminate.
Qed.

Lemma get_cpd_fst_ext (o o' : obj) :
  o_cpd o = o_cpd o' -> o_files o = o_files o' -> o_delims o = o_delims o' ->
  o_intname o = o_intname o' -> fst (get_cpd fs o) = fst (get_cpd fs o').
Proof.
  intros A B C D. unfold get_cpd. rewrite <- A. destruct (o_cpd o); auto. cbn.
  rewrite <- B, <- C, <- D. destruct (o_files o) as [[|f fl]|]; auto.
  destruct (forallb _ _); auto. destruct (read_files _ _ _) as [[u|[]] j]; auto.
Qed.

Lemma good_loaded root c : ready root c -> good i root (loaded c).
Proof. intros (A & d & B & C). split; auto. exists d. auto. Qed.
Lemma good_ready root c : good i root c -> ready root c.
Proof. intros (A & B). split; auto. now rewrite (get_cpd_loaded fs i). Qed.

Lemma bind_cpd_ready {A} root (k : ini -> SM ctx A) (c : ctx) :
  ready root c -> bind (lift (get_cpd fs)) k c = k i (loaded c).
Proof. intros (H & _). unfold bind, lift. now rewrite get_cpd_ready. Qed.

Lemma ready_logc root e c : ready root c -> ready root (logc e c).
Proof. intros (A & B). split; auto. rewrite <- A. now apply get_cpd_fst_ext. Qed.

Lemma loaded_logc e c : loaded (logc e c) = logc e (loaded c).
Proof. reflexivity. Qed.

Lemma exec_load root s evs c :
  ready root c -> exec K fs root (Enter s :: evs) c = exec K fs root (Enter s :: evs) (loaded c).
Proof.
  intros R. pose proof (good_ready _ _ (good_loaded _ _ R)) as R'.
  cbn [exec exec_ev]. sm.
  rewrite !(bind_cpd_ready root) by now apply ready_logc. reflexivity.
Qed.

Lemma exec_load_missing root s evs c :
  ready root c ->
  exec K fs root (Missing s :: evs) c = exec K fs root (Missing s :: evs) (loaded c).
Proof.
  intros R. pose proof (good_ready _ _ (good_loaded _ _ R)) as R'.
  cbn [exec exec_ev]. sm.
  rewrite !(bind_cpd_ready root) by now apply ready_logc. reflexivity.
Qed.

(** Hooks change only log, output and subclass state. *)
Definition stable (P : obj -> Prop) : Prop :=
  (forall o l, P o -> P (set_log l o)) /\ (forall o l, P o -> P (add_out l o)) /\
  (forall o l, P o -> P (set_user l o)).

Lemma stable_decorated P hp body :
  stable P -> keeps (fun c : ctx => P (x_obj c)) body ->
  keeps (fun c : ctx => P (x_obj c)) (decorated hp body).
Proof.
  intros (S1 & S2 & S3) H. unfold decorated.
  apply keeps_bind; [apply keeps_lift, keeps_log, S1|intros _].
  apply keeps_bind; [exact H|intros r].
  apply keeps_bind; [apply keeps_lift, keeps_log, S1|intros _].
  apply keeps_lift, keeps_check_rval, S2.
Qed.
Lemma stable_user P f s hp :
  stable P -> keeps (fun c : ctx => P (x_obj c)) (user_body f s hp).
Proof.
  intros (S1 & S2 & S3) c H. unfold user_body.
  destruct (f s hp (x_sh c) (o_user (x_obj c))) as [[r sh] us]. cbn. now apply S3.
Qed.
Lemma stable_hook P r s name :
  stable P -> keeps (fun c : ctx => P (x_obj c)) (exec_hook K r s name).
Proof.
  intros S. unfold exec_hook. destruct (find_attr K name) as [[|[] f| |]|];
    try apply keeps_raise;
    try (apply stable_decorated; auto; try apply keeps_raise; now apply stable_user);
    (apply keeps_bind; [now apply stable_user|intros; apply keeps_ret]).
Qed.

Lemma ready_hook root r s name : keeps (ready root) (exec_hook K r s name).
Proof.
  intros c H.
  apply (stable_hook (fun o => fst (get_cpd fs o) = Ok i /\
    exists d, o_edata o = Some d /\ str_mem root (d_checked d) = true)); auto.
  repeat split; try (destruct H0; assumption);
    rewrite <- (proj1 H0); now apply get_cpd_fst_ext.
Qed.

Lemma defname_hook n r s name :
  keeps (fun c : ctx => o_defname (x_obj c) = n) (exec_hook K r s name).
Proof. apply (stable_hook (fun o => o_defname o = n)). repeat split; auto. Qed.

Lemma call_named_hook rec name root s c :
  call_named K rec name s (hp_named root name) c = exec_hook K root s name c.
Proof.
  unfold call_named, exec_hook. destruct (find_attr K name) as [[|[] f| |]|]; reflexivity.
Qed.

Lemma bind_unit {S A B} (m : SM S A) (k : SM S B) s :
  bind m (fun _ => k) s = bind (bind m (fun _ => ret tt)) (fun _ => k) s.
Proof. unfold bind. destruct (m s) as [[]]; reflexivity. Qed.

(** ** The section proper *)
Definition section_part (rec : str -> bool -> bool -> SM ctx unit)
  (reparse : str -> SM obj unit) (root sec : str) (fin : bool) : SM ctx unit :=
  lift (log (LSecEntry sec)) ;;
  i <- lift (get_cpd fs) ;;
  match ini_items i sec with
  | None => lift get_files ;; raise KeyError
  | Some items =>
      lift (data_add_section sec false) ;;
      proc_add sec ;;
      run_items K fs rec reparse sec (new_hp root) items ;;
      (if fin && str_eqb sec root
       then call_named K rec $"handler_finalize" sec (hp_named root $"handler_finalize")
       else ret tt) ;;
      proc_remove sec ;;
      lift (log (LSecExit sec))
  end.

Lemma section_part_missing rec reparse root fin c :
  ready root c -> ini_items i root = None ->
  section_part rec reparse root root fin c = exec K fs root [Missing root] c.
Proof.
  intros R E. unfold section_part. cbn [exec exec_ev]. sm.
  rewrite !(bind_cpd_ready root) by now apply ready_logc. rewrite E. sm.
Qed.

Lemma section_part_exec fuel reparse root fin items evs n c :
  ready root c -> same_proc c [] -> ini_items i root = Some items ->
  walk_options K i [root] root items evs n -> n <= fuel ->
  section_part (psr K fs fuel root) reparse root root fin c =
  exec K fs root (Enter root :: evs ++ (if fin then [Hook root $"handler_finalize"] else [])
                  ++ [Leave root]) c.
Proof.
  intros R P E W L. unfold section_part. cbn [exec exec_ev]. sm.
  rewrite !(bind_cpd_ready root) by now apply ready_logc. rewrite E. sm.
  apply bind_ext; auto. intros u1 c1 E1. sm. apply bind_ext; auto. intros u2 c2 E2.
  assert (EE : exec_ev K fs root (Enter root) (loaded c) = (Ok u2, c2)).
  { cbn [exec_ev]. sm. rewrite (bind_cpd_ready root).
    2: { apply ready_logc, good_ready, good_loaded, R. }
    unfold bind at 1. change (loaded (logc (LSecEntry root) (loaded c))) with (loaded (logc (LSecEntry root) c)).
    rewrite E1. exact E2. }
  assert (G2 : good i root c2).
  { eapply (keeps_Ok i root (exec_ev K fs root (Enter root))); [apply keeps_exec_ev|apply good_loaded, R|exact EE]. }
  assert (P2 : same_proc c2 [root]).
  { apply exec_enter_proc in EE. intros x. rewrite EE, str_mem_sadd. cbn [loaded x_proc].
    rewrite P. reflexivity. }
  assert (RI := proj2 (psr_walk K fs i root) _ _ _ _ _ W
                 (no_use_of_path _ _ _ _ _ root W (or_introl eq_refl))
                 fuel reparse (new_hp root) c2 L G2 P2 eq_refl).
  rewrite bind_unit. rewrite (bind_first _ _ _ c2 RI). rewrite exec_app.
  apply bind_ext; auto. intros u3 c3 E3. rewrite str_eqb_refl, andb_true_r. rewrite exec_app.
  destruct fin; cbn [exec exec_ev].
  - sm. apply bind_ext; [apply call_named_hook|].
    intros u4 c4 _. sm.
  - sm.
Qed.

Lemma psr_body_split rec reparse root sec init fin c :
  psr_body K fs rec reparse root sec init fin c =
  ((if init && str_eqb sec root then
     call_named K rec $"handler_initialize" sec (hp_named root $"handler_initialize") ;;
     i <- lift (get_cpd fs) ;;
     c <- get ;;
     if ini_has_section i (o_defname (x_obj c))
     then rec (o_defname (x_obj c)) false false
     else ret tt
   else ret tt) ;; section_part rec reparse root sec fin) c.
Proof. reflexivity. Qed.

(** ** The whole parse *)
Theorem psr_parse fuel root init fin evs n c :
  parse_walk K i (o_defname (x_obj c)) root init fin evs n ->
  default_ok K i (o_defname (x_obj c)) root init ->
  n <= fuel -> ready root c -> same_proc c [] ->
  psr K fs fuel root root init fin c = exec K fs root evs c.
Proof.
  intros PW DO L R P.
  assert (F : exists f, fuel = S f).
  { inversion PW; subst; destruct fuel; try lia; eauto. }
  destruct F as [f ->]. cbn [psr]. rewrite psr_body_split, str_eqb_refl, andb_true_r.
  set (reparse := fun s : str => _).
  set (dname := o_defname (x_obj c)) in *.
  (* what the section part does from any ready state *)
  assert (MAIN : forall evs0 n0 main c0,
    (if init then default_walk K i dname evs0 n0 else evs0 = [] /\ n0 = 0) ->
    evs = (if init then Hook root $"handler_initialize" :: evs0 else []) ++ main ->
    ready root c0 -> same_proc c0 [] ->
    section_part (psr K fs f root) reparse root root fin c0 = exec K fs root main c0 /\
    (forall c', ready root c' -> exec K fs root main c' = exec K fs root main (loaded c'))).
  { intros evs0 n0 main c0 D EQ R0 P0. inversion PW as [e0 m0 D' I|e0 m0 items e m D' I W]; subst evs; filed.
    - assert (e0 = evs0).
      { destruct init; [|destruct D as [-> _], D' as [-> _]; auto].
        eapply default_walk_unique in D' as [? _]; eauto. }
      subst e0. apply app_inv_head in H. subst main. split.
      + now apply section_part_missing.
      + intros c' R'. now apply exec_load_missing.
    - assert (e0 = evs0).
      { destruct init; [|destruct D as [-> _], D' as [-> _]; auto].
        eapply default_walk_unique in D' as [? _]; eauto. }
      subst e0. apply app_inv_head in H. subst main. split.
      + eapply section_part_exec; eauto. lia.
      + intros c' R'. now apply exec_load. }
  assert (SHAPE : exists evs0 n0 main,
    (if init then default_walk K i dname evs0 n0 else evs0 = [] /\ n0 = 0) /\ S n0 <= S f /\
    evs = (if init then Hook root $"handler_initialize" :: evs0 else []) ++ main).
  { inversion PW; subst; do 3 eexists; (split; [eassumption|]); (split; [|reflexivity]); lia. }
  destruct SHAPE as (evs0 & n0 & main & D & L0 & EQ). rewrite EQ.
  destruct init.
  - cbn [app]. cbn [exec]. rewrite bind_assoc.
    apply bind_ext; [apply call_named_hook|]. intros u1 c1 E1.
    assert (R1 : ready root c1).
    { pose proof (ready_hook root root root $"handler_initialize" c R) as HR.
      cbn [exec_ev] in E1. rewrite E1 in HR. exact HR. }
    assert (N1 : o_defname (x_obj c1) = dname).
    { pose proof (defname_hook dname root root $"handler_initialize" c eq_refl) as HR.
      cbn [exec_ev] in E1. rewrite E1 in HR. exact HR. }
    assert (P1 : same_proc c1 []).
    { pose proof (keeps_proc_exec_hook K root root $"handler_initialize" c) as HR.
      cbn [exec_ev] in E1. rewrite E1 in HR. cbn in HR. intros x. rewrite HR. apply P. }
    rewrite bind_assoc. rewrite (bind_cpd_ready root) by exact R1. sm.
    change (o_defname (x_obj (loaded c1))) with (o_defname (x_obj c1)). rewrite N1.
    pose proof D as D0. unfold default_walk in D.
    assert (G1 : good i root (loaded c1)) by now apply good_loaded.
    destruct (ini_has_section i dname) eqn:HD.
    + assert (NU : no_use_of root evs0) by (eapply no_use_of_default; eauto).
      rewrite exec_app.
      rewrite (bind_first _ (exec K fs root evs0) _ (loaded c1)).
      2: { eapply (proj1 (psr_walk K fs i root)); [exact D|intros []|exact NU|lia|exact G1|exact P1|discriminate]. }
      assert (X : exec K fs root evs0 c1 = exec K fs root evs0 (loaded c1)).
      { inversion D; subst; filed; [now apply exec_load_missing|now apply exec_load]. }
      unfold bind at 1 2. rewrite X.
      destruct (exec K fs root evs0 (loaded c1)) as [[u2|x] c2] eqn:E2; auto.
      eapply MAIN; eauto.
      * apply good_ready. eapply keeps_Ok; [apply keeps_exec|exact G1|exact E2].
      * eapply (proj1 (exec_walk_proc K fs i root)); [exact D|intros []| |exact E2]. exact P1.
    + destruct D as [-> ->]. cbn [app]. sm.
      destruct (MAIN [] 0 main (loaded c1) D0 EQ (good_ready _ _ G1) P1) as [M1 M2].
      rewrite M1. symmetry. now apply M2.
  - cbn [app]. sm. destruct D as [-> ->]. eapply MAIN; eauto.
Qed.
End Root.
