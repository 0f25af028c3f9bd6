(** * The printers of [SetEnvironment]. *)
From Coq Require Import String NArith ZArith List Bool Arith Lia.
Import ListNotations.
From Verif Require Import PyBase PyFacts Shlex IniView IniRead ExcControl Cpe EnvVar Keyword SetEnv SpecWalk SpecRun SpecEnv SpecSetEnv SpecMessages
  Trace SetEnvProofs SetEnvProofs2 Printers SpecPrint MsgProofs MsgProofs2.

Section Actions.
Variable repr : action -> str.

Lemma words_text a d : in_words a d -> action_text repr a = Ok d.
Proof.
  intros H. destruct H as [n v|n v|op n v I|op n v I|n v|n v|n v I|n v I|n v|n v|n v|n v].
  - cbn -[app]. f_equal. now rewrite <- !app_assoc.
  - cbn -[app]. f_equal. now rewrite <- !app_assoc.
  - destruct I as [<-|[<-|[<-|[]]]]; reflexivity.
  - destruct I as [<-|[<-|[]]]; reflexivity.
  - reflexivity.
  - cbn -[app]. f_equal. now rewrite <- !app_assoc.
  - destruct I as [-> | ->]; reflexivity.
  - destruct v; [congruence|]. reflexivity.
  - reflexivity.
  - reflexivity.
  - reflexivity.
  - reflexivity.
Qed.
Lemma asked_words a : asked_action a -> exists d, in_words a d.
Proof.
  intros (q & A). destruct A as [op n ps v I|n ps v|n ps|op ps v I].
  - unfold envvar_requests in I. cbn [In] in I. destruct I as [<-|[<-|[<-|[<-|[<-|[<-|[<-|[<-|[]]]]]]]]]; eexists;
      first [apply iw_append | apply iw_prepend | apply iw_set; cbn; tauto | apply iw_name; cbn; tauto | apply iw_entry | apply iw_substr].
  - eexists. apply iw_name. cbn; tauto.
  - eexists. apply iw_name. cbn; tauto.
  - unfold module_requests in I. cbn [In] in I. destruct I as [<-|[<-|[<-|[<-|[<-|[]]]]]].
    + destruct v as [[|c v]|]; eexists; [apply iw_load; auto|apply iw_version; discriminate|apply iw_load; auto].
    + eexists; apply iw_purge.
    + eexists; apply iw_swap.
    + eexists; apply iw_unload.
    + eexists; apply iw_use.
Qed.

Lemma max_op_len_spec l : forall m, let w := max_op_len l m in
  m <= w /\ (forall a, In a l -> length (operation a) <= w) /\ (w = m \/ exists a, In a l /\ length (operation a) = w).
Proof.
  induction l as [|a l IH]; intros m; cbn [max_op_len]; cbv zeta.
  - split; [lia|]. split; [intros a []|]. now left.
  - specialize (IH (max m (length (op_of a)))). cbv zeta in IH. set (w := max_op_len l (max m (length (op_of a)))) in *.
    destruct IH as (A & B & C). change (op_of a) with (operation a) in *. split; [lia|]. split.
    + intros x [<-|I]; [lia|]. now apply B.
    + destruct C as [C|(x & I & E)].
      * destruct (Nat.max_spec m (length (operation a))) as [(L & E)|(L & E)]; rewrite E in C.
        -- right. exists a. split; [now left|]. now symmetry.
        -- now left.
      * right. exists x. split; [now right|exact E].
Qed.
Lemma column_det l w w' : column l w -> column l w' -> w = w'.
Proof.
  intros (A & B & C) (A' & B' & C').
  assert (K : forall v u, 14 <= u -> (forall a, In a l -> length (operation a) <= u) -> v = 14 \/ (exists a, In a l /\ length (operation a) = v) -> v <= u).
  { intros v u U F [->|(a & I & <-)]; auto. }
  pose proof (K w w' A' B' C). pose proof (K w' w A B C'). lia.
Qed.

Lemma print_lines w l : Forall asked_action l -> (forall a, In a l -> length (operation a) <= w) ->
  exists lines, Forall2 (action_line w) l lines /\ print_actions repr w l = Ok (ended lines).
Proof.
  induction 1 as [|a l A F IH]; intros L.
  - exists []. split; [constructor|reflexivity].
  - destruct IH as (lines & G & E); [intros; apply L; now right|]. destruct (asked_words a A) as (d & D).
    exists (($"--> " ++ operation a ++ repeat 32%N (w - length (operation a)) ++ $" : " ++ d) :: lines). split.
    + constructor; [|exact G]. exists (w - length (operation a)), d. split; [|split; [exact D|reflexivity]].
      specialize (L a (or_introl eq_refl)). lia.
    + cbn [print_actions]. rewrite (words_text _ _ D), E. cbn [rbind]. f_equal. unfold pad, ended. cbn [map concat].
      change (op_of a) with (operation a). now rewrite <- !app_assoc.
Qed.

Variables (uniword : pychar -> bool) (fs : str -> option str) (fuel : nat).
Notation K := (SetEnvironment uniword).
Notation pretty := (pretty_print_actions repr uniword fs fuel).

Lemma pretty_of s (o : sobj) d o1 l : getitem K fs fuel s o = (Ok d, o1) -> dget s (o_user o1) = Some l -> Forall asked_action l ->
  exists t, pretty s o = (Ok t, o1) /\ actions_shown l t.
Proof.
  intros G D A. pose proof (max_op_len_spec l 14) as M. cbv zeta in M. set (w := max_op_len l 14) in *.
  destruct (print_lines w l A (proj1 (proj2 M))) as (lines & F & E).
  exists (ended ([$"Actions"; $"======="] ++ lines)). split.
  - unfold pretty_print_actions. rewrite bind_eq, G. cbv [bind actions_get of_res]. rewrite D. fold w. rewrite E. cbn [rbind].
    rewrite ended_app. unfold ended at 2. cbn [map concat]. rewrite <- !app_assoc. cbn [app]. reflexivity.
  - exists w, lines. split; [exact M|]. split; [exact F|reflexivity].
Qed.
Lemma pretty_fails s (o : sobj) x o1 : getitem K fs fuel s o = (Err x, o1) -> pretty s o = (Err x, o1).
Proof. intros G. unfold pretty_print_actions. now rewrite bind_eq, G. Qed.
End Actions.

(** ** What is printed is what is applied *)
Lemma shown_once l t1 t2 : actions_shown l t1 -> actions_shown l t2 -> t1 = t2.
Proof.
  intros (w & ls & C & F & ->) (w' & ls' & C' & F' & ->). pose proof (column_det _ _ _ C C') as ->.
  f_equal. f_equal. clear C C'. revert ls' F'. induction F as [|a x l ls X F IH]; intros ls' F'; inversion F' as [|? x' ? ls0 X' F0]; subst; [reflexivity|].
  f_equal; [|now apply IH]. destruct X as (k & d & E & W & ->), X' as (k' & d' & E' & W' & ->). assert (k' = k) by lia. subst k'.
  apply (words_text (fun _ => [])) in W. apply (words_text (fun _ => [])) in W'. rewrite W in W'. now injection W' as <-.
Qed.
Theorem printed_applied repr which mods other uniword fs i fuel s (o : sobj) d o1 :
  has_file fs o i -> level_ok o -> ini_has_section i s = true -> str_mem s (checked_of o) = false ->
  getitem (SetEnvironment uniword) fs fuel s o = (Ok d, o1) ->
  exists evs n l t, parse_walk (SetEnvironment uniword) i (o_defname o) s true true evs n /\ remain (requests evs) l /\
    pretty_print_actions repr uniword fs fuel s o = (Ok t, o1) /\ actions_shown l t /\
    (Forall plain_action l -> forall e, exists r e' o',
       apply which mods other uniword fs fuel s (World o1 e) = (r, World o' e') /\ performs_all which mods (level_of o) l 0 e r e' /\
       fst (pretty_print_actions repr uniword fs fuel s o') = Ok t).
Proof.
  intros H L HS C G.
  destruct (lookup_first uniword fs i fuel s o d o1 H L HS C G) as (evs & n & l & W & R & D & LV & HF & C1 & S1 & _).
  pose proof (remain_asked _ _ R) as AA. destruct (pretty_of repr uniword fs fuel s o d o1 l G D AA) as (t & T & A).
  exists evs, n, l, t. split; [exact W|]. split; [exact R|]. split; [exact T|]. split; [exact A|]. intros PA e.
  destruct (apply_again which mods other uniword fs i fuel s o1 d l HF C1 S1 D AA PA e) as (r & e' & o' & E & P & U & LV' & HF' & C' & S').
  exists r, e', o'. split; [exact E|]. rewrite LV in P. split; [exact P|].
  pose proof (lookup_again uniword fs i fuel s o' HF' C') as G'. rewrite S' in G'.
  assert (D' : dget s (o_user (set_cpd (Some i) o')) = Some l) by (cbn; now rewrite U).
  destruct (pretty_of repr uniword fs fuel s o' d _ l G' D' AA) as (t' & T' & A'). rewrite T'. cbn [fst]. f_equal.
  exact (shown_once _ _ _ A' A).
Qed.

(** ** The words tell actions apart *)
Lemma first_char (c : pychar) (a b r r' : str) : ~ In c a -> ~ In c b -> a ++ c :: r = b ++ c :: r' -> a = b /\ r = r'.
Proof.
  revert b. induction a as [|x a IH]; intros [|y b] A B E; cbn [app] in E.
  - now injection E as ->.
  - injection E as <- _. elim B. now left.
  - injection E as -> _. elim A. now left.
  - injection E as -> E. destruct (IH b) as (-> & ->); auto.
    + intros I. apply A. now right.
    + intros I. apply B. now right.
Qed.
Lemma last_char (c : pychar) (a b r r' : str) : ~ In c r -> ~ In c r' -> a ++ c :: r = b ++ c :: r' -> a = b /\ r = r'.
Proof.
  intros R R' E. apply (f_equal (@rev _)) in E. rewrite !rev_app_distr in E. cbn [rev] in E. rewrite <- !app_assoc in E. cbn [app] in E.
  apply first_char in E as (E1 & E2).
  - split; [apply (f_equal (@rev _)) in E2|apply (f_equal (@rev _)) in E1]; now rewrite !rev_involutive in *.
  - now rewrite <- in_rev.
  - now rewrite <- in_rev.
Qed.
Lemma end_same (a b z : str) : a ++ z = b ++ z -> a = b.
Proof. apply app_inv_tail. Qed.

Definition same_effect (a a' : action) : Prop :=
  forall which mods e r e', performs which mods a e r e' <-> performs which mods a' e r e'.

Lemma assert_value which n v v' e : envvar_op which $"assert_not_empty" n v true e = envvar_op which $"assert_not_empty" n v' true e.
Proof. reflexivity. Qed.

(** Actions that are performed in the same way. *)
Inductive alike : action -> action -> Prop :=
| al_same a : alike a a
| al_unset n v v' : alike (AEnv $"envvar_unset" n v) (AEnv $"envvar_unset" n v')
| al_assert n v v' : alike (AEnv $"envvar_assert_not_empty" n (Some v)) (AEnv $"envvar_assert_not_empty" n (Some v'))
| al_purge n v n' v' : alike (AMod $"module_purge" n v) (AMod $"module_purge" n' v')
| al_load n v v' : v = None \/ v = Some [] -> v' = None \/ v' = Some [] -> alike (AMod $"module_load" (Some n) v) (AMod $"module_load" (Some n) v')
| al_version n v n' v' : v <> [] -> v' <> [] -> n ++ $"/" ++ v = n' ++ $"/" ++ v' ->
    alike (AMod $"module_load" (Some n) (Some v)) (AMod $"module_load" (Some n') (Some v'))
| al_unload n v v' : alike (AMod $"module_unload" (Some n) v) (AMod $"module_unload" (Some n) v')
| al_use n n' v : alike (AMod $"module_use" n (Some v)) (AMod $"module_use" n' (Some v)).
Lemma alike_sym a a' : alike a a' -> alike a' a.
Proof. destruct 1; constructor; auto. Qed.
Ltac module_of P :=
  inversion P; subst; clear P;
  try match goal with H : lit _ = lit _ |- _ => discriminate H end;
  try match goal with H : _ \/ _ |- _ => destruct H; try discriminate; try congruence end.
Lemma alike_one a a' which mods e r e' : alike a a' -> performs which mods a e r e' -> performs which mods a' e r e'.
Proof.
  intros A P. destruct A as [a|n v v'|n v v'|n v n' v'|n v v' V V'|n v n' v' V V' E|n v v'|n n' v]; [exact P|..].
  - inversion P; subst; try (exfalso; match goal with H : _ <> lit "unset" |- _ => now apply H end). now constructor.
  - inversion P; subst. change $"envvar_assert_not_empty" with ($"envvar_" ++ $"assert_not_empty"). apply pf_envvar; auto.
  - inversion P; subst. now constructor.
  - inversion P; subst; [|destruct V as [V|V]; [discriminate|injection V as ->; congruence]]. now constructor.
  - inversion P; subst; [match goal with H : _ \/ _ |- _ => destruct H as [H|H]; [discriminate H|injection H as ->; congruence] end|].
    constructor; [exact V'|]. rewrite <- E. assumption.
  - inversion P; subst. now constructor.
  - inversion P; subst. now constructor.
Qed.
Lemma alike_effect a a' : alike a a' -> same_effect a a'.
Proof. intros A which mods e r e'. split; intros P; eapply alike_one; [exact A|exact P|apply alike_sym; exact A|exact P]. Qed.

Lemma asked_cases a : asked_action a ->
  (exists op n v, a = AEnv op n v /\ In op ($"envvar_assert_not_empty" :: envvar_requests)) \/
  (exists op n v, a = AMod op n v /\ In op module_requests).
Proof.
  intros (q & A). destruct A as [op n ps v I|n ps v|n ps|op ps v I].
  - left. exists op, n, v. split; [reflexivity|now right].
  - left. do 3 eexists. split; [reflexivity|now left].
  - left. do 3 eexists. split; [reflexivity|now left].
  - right. do 3 eexists. split; [reflexivity|exact I].
Qed.
Lemma assert_has_value n v : asked_action (AEnv $"envvar_assert_not_empty" n v) -> exists u, v = Some u.
Proof.
  intros (q & A). inversion A as [? ? ? ? I| | |]; subst; eauto. exfalso.
  unfold envvar_requests in I. cbn [In] in I. repeat (destruct I as [I|I]; [discriminate I|]). destruct I.
Qed.
Lemma equal_texts (n n' x y : str) : ~ In 61%N n -> ~ In 61%N n' -> n ++ $"=""" ++ x = n' ++ $"=""" ++ y -> n = n' /\ x = y.
Proof.
  intros N N' E. change ($"=""" ++ x) with (61%N :: 34%N :: x) in E. change ($"=""" ++ y) with (61%N :: 34%N :: y) in E.
  apply first_char in E as (-> & E); auto. now injection E as ->.
Qed.
Lemma from_texts (v v' n n' : str) : ~ In 96%N n -> ~ In 96%N n' ->
  v ++ $"` from `" ++ n ++ $"`" = v' ++ $"` from `" ++ n' ++ $"`" -> n = n' /\ v = v'.
Proof.
  intros N N' E. change ($"` from `" ++ ?z) with ($"` from " ++ 96%N :: z) in E.
  assert (X : forall v n : str, v ++ $"` from " ++ 96%N :: n ++ $"`" = ((v ++ $"` from ") ++ 96%N :: n) ++ $"`").
  { intros a b. rewrite <- !app_assoc. reflexivity. }
  rewrite !X in E. apply app_inv_tail in E. apply last_char in E as (E & ->); auto. apply app_inv_tail in E. auto.
Qed.
Lemma from_texts_ref (v v' n n' : str) : ~ In 96%N n -> ~ In 96%N n' ->
  v ++ $"` from `" ++ ($"${" ++ n ++ $"}") ++ $"`" = v' ++ $"` from `" ++ ($"${" ++ n' ++ $"}") ++ $"`" -> n = n' /\ v = v'.
Proof.
  intros N N' E. apply from_texts in E as (E & ->).
  - apply app_inv_head in E. apply app_inv_tail in E. auto.
  - intros I. apply in_app_iff in I as [I|I]; [|apply in_app_iff in I as [I|I]; [auto|]]; cbn in I; repeat (destruct I as [I|I]; [discriminate|]); exact I.
  - intros I. apply in_app_iff in I as [I|I]; [|apply in_app_iff in I as [I|I]; [auto|]]; cbn in I; repeat (destruct I as [I|I]; [discriminate|]); exact I.
Qed.

Ltac values :=
  repeat match goal with
  | H : ~ incomplete (AEnv _ _ ?v) |- _ =>
      first [ destruct v as [?u|]; [clear H|exfalso; apply H; cbn [incomplete]; split; [discriminate|reflexivity]] ]
  end.
Lemma words_alike a a' d : tellable a -> tellable a' -> operation a = operation a' -> in_words a d -> in_words a' d -> alike a a'.
Proof.
  intros (A & C & T) (A' & C' & T') O W W'. apply (words_text (fun _ => [])) in W. apply (words_text (fun _ => [])) in W'.
  rewrite <- W' in W. clear W'.
  destruct (asked_cases a A) as [(op & n & v & -> & I)|(op & n & v & -> & I)],
    (asked_cases a' A') as [(op' & n' & v' & -> & I')|(op' & n' & v' & -> & I')]; cbn [operation] in O.
  2, 3: exfalso; subst op'; unfold envvar_requests, module_requests in *; cbn [In] in *;
    repeat (destruct I as [I|I]; [subst op; repeat (destruct I' as [I'|I']; [discriminate I'|]); exact I'|]); destruct I.
  - subst op'. clear I'. destruct T as (N & B & _ & _), T' as (N' & B' & _ & _). unfold envvar_requests in I. cbn [In] in I.
    destruct I as [<-|[<-|[<-|[<-|[<-|[<-|[<-|[<-|[<-|[]]]]]]]]]].
    + apply assert_has_value in A as (u & ->). apply assert_has_value in A' as (u' & ->). cbn in W. injection W as ->. constructor.
    + values. cbn -[app lit] in W. injection W as W. apply equal_texts in W as (-> & W); auto.
      apply (app_inv_head ($"${")) in W. apply app_inv_head in W. injection W as W. apply app_inv_tail in W. subst. constructor.
    + values. cbn -[app lit] in W. injection W as W. apply equal_texts in W as (-> & W); auto. apply app_inv_tail in W. subst. constructor.
    + values. cbn -[app lit] in W. injection W as W. apply equal_texts in W as (-> & W); auto.
      apply app_inv_tail in W. subst. constructor.
    + values. cbn -[app lit] in W. injection W as W. apply from_texts in W as (-> & ->); auto. constructor.
    + values. cbn -[app lit] in W. injection W as W. apply from_texts_ref in W as (-> & ->); auto. constructor.
    + values. cbn -[app lit] in W. injection W as W. apply equal_texts in W as (-> & W); auto. apply app_inv_tail in W. subst. constructor.
    + values. cbn -[app lit] in W. injection W as W. apply equal_texts in W as (-> & W); auto. apply app_inv_tail in W. subst. constructor.
    + cbn in W. injection W as ->. constructor.
  - subst op'. clear I'. destruct T as (N & V & _ & _), T' as (N' & V' & _ & _). unfold module_requests in I. cbn [In] in I.
    destruct I as [<-|[<-|[<-|[<-|[<-|[]]]]]].
    + destruct n as [n|]; [|exfalso; apply C; cbn [incomplete]; auto 10].
      destruct n' as [n'|]; [|exfalso; apply C'; cbn [incomplete]; auto 10].
      specialize (V eq_refl). specialize (V' eq_refl).
      destruct v as [[|c v]|], v' as [[|c' v']|]; cbn -[app lit] in W; injection W as W.
      all: try (apply app_inv_tail in W; subst n'; constructor; auto).
      all: try (constructor; [discriminate|discriminate|exact W]).
      all: exfalso; cbn [no_blank] in *.
      all: assert (BL : forall (m m' u : str), ~ In 32%N m' -> ~ In 32%N u -> m ++ $" (default)" <> m' ++ $"/" ++ u);
        [intros m m' u M U X; assert (J : In 32%N (m ++ $" (default)")) by (apply in_or_app; right; now left); rewrite X in J;
         apply in_app_iff in J as [J|J]; [now apply M|]; apply in_app_iff in J as [J|J]; [destruct J as [J|[]]; discriminate|now apply U]|].
      * exact (BL _ _ _ N' V' W).
      * exact (BL _ _ _ N V (eq_sym W)).
      * exact (BL _ _ _ N V (eq_sym W)).
      * exact (BL _ _ _ N' V' W).
    + constructor.
    + destruct n as [n|]; [|exfalso; apply C; cbn [incomplete]; auto 10]. destruct v as [v|]; [|exfalso; apply C; cbn [incomplete]; auto 10].
      destruct n' as [n'|]; [|exfalso; apply C'; cbn [incomplete]; auto 10]. destruct v' as [v'|]; [|exfalso; apply C'; cbn [incomplete]; auto 10].
      cbn -[app lit] in W. injection W as W. apply first_char in W as (-> & ->); auto. constructor.
    + destruct n as [n|]; [|exfalso; apply C; cbn [incomplete]; auto 10].
      destruct n' as [n'|]; [|exfalso; apply C'; cbn [incomplete]; auto 10]. cbn in W. injection W as ->. constructor.
    + destruct v as [v|]; [|exfalso; apply C; cbn [incomplete]; auto 10].
      destruct v' as [v'|]; [|exfalso; apply C'; cbn [incomplete]; auto 10]. cbn in W. injection W as ->. constructor.
Qed.

Lemma operation_solid a : asked_action a -> ~ In 32%N (operation a) /\ ~ In 10%N (operation a).
Proof.
  intros A. destruct (asked_cases a A) as [(op & n & v & -> & I)|(op & n & v & -> & I)]; cbn [operation];
    unfold envvar_requests, module_requests in I; cbn [In] in I;
    repeat (destruct I as [<-|I]; [split; vm_compute; intros H; repeat (destruct H as [H|H]; [discriminate|]); exact H|]); destruct I.
Qed.
Lemma blanks_inj k : forall k' (x y : str), repeat 32%N k ++ $" : " ++ x = repeat 32%N k' ++ $" : " ++ y -> k = k' /\ x = y.
Proof.
  induction k as [|k IH]; intros [|k'] x y E; cbn [repeat app] in E.
  - split; [reflexivity|]. now injection E as ->.
  - exfalso. injection E as E. destruct k'; discriminate E.
  - exfalso. injection E as E. destruct k; discriminate E.
  - injection E as E. destruct (IH k' x y E) as (-> & ->). auto.
Qed.
Lemma line_alike w w' a a' t : tellable a -> tellable a' -> action_line w a t -> action_line w' a' t -> alike a a'.
Proof.
  intros T T' (k & d & _ & W & ->) (k' & d' & _ & W' & E). apply app_inv_head in E.
  destruct (operation_solid a (proj1 T)) as (S & _), (operation_solid a' (proj1 T')) as (S' & _).
  assert (X : forall (k : nat) (d : str), repeat 32%N k ++ $" : " ++ d = 32%N :: (tl (repeat 32%N k ++ $" : " ++ d))).
  { intros [|j] z; reflexivity. }
  pose proof E as E0. rewrite (X k d), (X k' d') in E. apply first_char in E as (E & _); auto. rewrite E in E0. apply app_inv_head in E0.
  apply blanks_inj in E0 as (_ & <-). exact (words_alike a a' d T T' E W W').
Qed.
Lemma words_one_line a d : tellable a -> in_words a d -> ~ In 10%N d.
Proof.
  intros (A & C & T) W. assert (APP : forall x y : str, ~ In 10%N x -> ~ In 10%N y -> ~ In 10%N (x ++ y)).
  { intros x y X Y I. apply in_app_iff in I as [I|I]; auto. }
  assert (SH : forall v, one_line v -> ~ In 10%N (shown v)).
  { intros [v|] V; [exact V|]. vm_compute. intros H; repeat (destruct H as [H|H]; [discriminate|]); exact H. }
  assert (LIT : forall s, forallb (fun c => negb (N.eqb c 10)) (lit s) = true -> ~ In 10%N (lit s)).
  { intros s H I. apply (proj1 (forallb_forall _ _) H) in I. discriminate I. }
  destruct W; cbn [one_line] in T; destruct T as (T1 & T2 & T3 & T4); repeat apply APP; auto; try (apply LIT; reflexivity); try (intros []).
Qed.
Theorem told_apart l l' t : Forall tellable l -> Forall tellable l' -> actions_shown l t -> actions_shown l' t ->
  forall which mods lvl m e r e', performs_all which mods lvl l m e r e' <-> performs_all which mods lvl l' m e r e'.
Proof.
  intros T T' (w & ls & _ & F & ->) (w' & ls' & _ & F' & E).
  assert (NF : forall w l ls, Forall tellable l -> Forall2 (action_line w) l ls -> Forall (fun x => ~ In 10%N x) ls).
  { clear. intros w l ls T F. induction F as [|a x l ls X F IH]; [constructor|]. inversion T as [|? ? T0 T1]; subst. constructor; [|now apply IH].
    destruct X as (k & d & _ & W & ->). pose proof (words_one_line a d T0 W) as D. pose proof (proj2 (operation_solid a (proj1 T0))) as O.
    intros I. apply in_app_iff in I as [I|I]; [cbn in I; repeat (destruct I as [I|I]; [discriminate|]); exact I|].
    apply in_app_iff in I as [I|I]; [auto|]. apply in_app_iff in I as [I|I]; [apply repeat_spec in I; discriminate|].
    apply in_app_iff in I as [I|I]; [cbn in I; repeat (destruct I as [I|I]; [discriminate|]); exact I|auto]. }
  assert (H0 : Forall (fun x : str => ~ In 10%N x) [$"Actions"; $"======="]).
  { repeat (constructor; [vm_compute; intros H; repeat (destruct H as [H|H]; [discriminate|]); exact H|]). constructor. }
  apply ended_inj in E; [|apply Forall_app; split; [exact H0|exact (NF _ _ _ T F)]|apply Forall_app; split; [exact H0|exact (NF _ _ _ T' F')]].
  apply app_inv_head in E. subst ls'.
  assert (AL : Forall2 alike l l').
  { clear H0 NF. revert l' T' F'. induction F as [|a x l ls X F IH]; intros l' T' F'; inversion F' as [|a' ? l0 ? X' F0]; subst; [constructor|].
    inversion T; subst. inversion T'; subst. constructor; [|now apply IH]. eapply line_alike; eauto. }
  assert (ONE : forall l l', Forall2 alike l l' -> forall which mods lvl m e r e', performs_all which mods lvl l m e r e' -> performs_all which mods lvl l' m e r e').
  { clear. intros l l' AL which mods lvl. induction AL as [|a a' l l' X AL IH]; intros m e r e' P; [exact P|].
    inversion P; subst.
    - apply pa_raise. eapply alike_one; eauto.
    - eapply pa_code; eauto. eapply alike_one; eauto.
    - eapply pa_next; eauto. eapply alike_one; eauto. }
  assert (AL' : Forall2 alike l' l).
  { clear -AL. induction AL; constructor; auto. now apply alike_sym. }
  intros. split; apply ONE; assumption.
Qed.

(** ** Variables *)
Lemma matched_iff filter k : matched_key filter k = true <-> matching filter k.
Proof.
  unfold matched_key, matching. rewrite existsb_exists. split; intros (f & I & C); exists f; split; auto; now apply contains_spec.
Qed.
Lemma print_vars_lines filter only e : exists ls, var_lines filter only e ls /\ print_vars filter only e = ended ls.
Proof.
  induction e as [|(k, v) e IH].
  - exists []. split; [constructor|reflexivity].
  - destruct filter as [l|]; cbn [print_vars].
    + destruct IH as (ls & A & B). destruct (matched_key l k) eqn:M.
      * exists (with_value k v :: ls). split; [eapply vl_match; eauto; now apply matched_iff|]. rewrite orb_true_r, B. unfold ended, with_value.
        cbn [map concat]. now rewrite <- !app_assoc.
      * assert (NM : ~ matching l k) by (rewrite <- matched_iff, M; discriminate). destruct only; cbn [negb orb].
        -- exists ls. split; [eapply vl_skip; eauto|exact B].
        -- exists (($"[envvar]: " ++ k) :: ls). split; [eapply vl_name; eauto|]. rewrite B. unfold ended. cbn [map concat app]. now rewrite <- !app_assoc.
    + assert (X : forall b e, print_vars None b e = print_vars None false e) by (intros b [|(x, y) z]; reflexivity).
      rewrite (X only) in IH. destruct IH as (ls & A & B). exists (with_value k v :: ls). split; [now apply vl_all|].
      cbn [negb orb]. rewrite B. unfold ended, with_value. cbn [map concat]. now rewrite <- !app_assoc.
Qed.
Theorem vars_printed filter only e : vars_shown filter only e (pretty_print_envvars filter only e).
Proof.
  destruct (print_vars_lines filter only e) as (ls & A & B). exists ls. split; [exact A|]. unfold pretty_print_envvars. rewrite B, ended_app.
  unfold ended at 2. cbn [map concat]. unfold vars_rule. now rewrite <- !app_assoc.
Qed.
Theorem vars_one filter only e t : vars_shown filter only e t -> t = pretty_print_envvars filter only e.
Proof.
  destruct (vars_printed filter only e) as (ls' & A' & ->). intros (ls & A & ->). f_equal. f_equal. clear -A A'. revert ls' A'.
  induction A as [|k v e ls F A IH|l k v e ls F M A IH|l k v e ls F M O A IH|l k v e ls F M O A IH]; intros ls' A'; inversion A'; subst;
    try reflexivity; try discriminate; try congruence; try (f_equal; now apply IH); try now apply IH;
    try (match goal with H : Some _ = Some _ |- _ => injection H as <- end; contradiction).
Qed.
Theorem values_hidden filter only e e' : agree_on filter e e' ->
  pretty_print_envvars (Some filter) only e = pretty_print_envvars (Some filter) only e'.
Proof.
  intros A. unfold pretty_print_envvars. do 4 f_equal. induction A as [|(k, v) (k', v') e e' (K & V) A IH]; [reflexivity|].
  cbn [fst snd] in *. subst k'. cbn [print_vars]. destruct (matched_key filter k) eqn:M.
  - rewrite (V (proj1 (matched_iff _ _) M)), IH. reflexivity.
  - now rewrite IH.
Qed.
Theorem others_hidden filter e e' m : matching_vars filter e m -> matching_vars filter e' m ->
  pretty_print_envvars (Some filter) true e = pretty_print_envvars (Some filter) true e'.
Proof.
  assert (K : forall e m, matching_vars filter e m -> print_vars (Some filter) true e = print_vars (Some filter) true m).
  { clear. induction 1 as [|k v e m M H IH|k v e m M H IH]; cbn [print_vars]; [reflexivity| |].
    - now rewrite IH.
    - rewrite <- matched_iff in M. destruct (matched_key filter k); [congruence|]. exact IH. }
  intros A B. unfold pretty_print_envvars. now rewrite (K _ _ A), (K _ _ B).
Qed.
Theorem all_shown only only' e e' : Forall (fun x => ~ In 61%N (fst x) /\ ~ In 10%N (fst x) /\ ~ In 10%N (snd x)) e ->
  Forall (fun x => ~ In 61%N (fst x) /\ ~ In 10%N (fst x) /\ ~ In 10%N (snd x)) e' ->
  pretty_print_envvars None only e = pretty_print_envvars None only' e' -> e = e'.
Proof.
  intros F F' E. unfold pretty_print_envvars in E. do 3 apply app_inv_head in E. apply app_inv_head in E.
  assert (K : forall b e, print_vars None b e = ended (map (fun x => with_value (fst x) (snd x)) e)).
  { clear. intros b e. revert b. induction e as [|(k, v) e IH]; intros b; [reflexivity|]. cbn [print_vars negb orb]. rewrite IH.
    unfold ended, with_value. cbn [map concat fst snd]. now rewrite <- !app_assoc. }
  rewrite !K in E.
  assert (NF : forall e : environ, Forall (fun x => ~ In 61%N (fst x) /\ ~ In 10%N (fst x) /\ ~ In 10%N (snd x)) e ->
    Forall (fun x => ~ In 10%N x) (map (fun x => with_value (fst x) (snd x)) e)).
  { clear. intros e F. apply Forall_forall. intros x I. apply in_map_iff in I as ((k, v) & <- & I).
    destruct (proj1 (Forall_forall _ _) F _ I) as (_ & A & B). cbn [fst snd] in *. unfold with_value. intros J.
    apply in_app_iff in J as [J|J]; [cbn in J; repeat (destruct J as [J|J]; [discriminate|]); exact J|].
    apply in_app_iff in J as [J|J]; [auto|]. apply in_app_iff in J as [J|J]; [cbn in J; repeat (destruct J as [J|J]; [discriminate|]); exact J|auto]. }
  apply ended_inj in E; [|now apply NF|now apply NF]. clear K NF. revert e' F' E.
  induction F as [|(k, v) e (A & _ & _) F IH]; intros [|(k', v') e'] F' E; cbn [map] in E; try discriminate E; [reflexivity|].
  inversion F' as [|? ? (A' & _ & _) F0]; subst. cbn [fst snd] in *. injection E as E E0. f_equal; [|now apply IH].
  change (k ++ $" = " ++ v = k' ++ $" = " ++ v') in E.
  assert (X : forall k v : str, k ++ $" = " ++ v = (k ++ [32%N]) ++ 61%N :: 32%N :: v) by (intros a b; now rewrite <- app_assoc).
  rewrite !X in E. apply first_char in E as (E1 & E2).
  - apply app_inv_tail in E1. injection E2 as ->. now subst.
  - intros I. apply in_app_iff in I as [I|[I|[]]]; [auto|discriminate].
  - intros I. apply in_app_iff in I as [I|[I|[]]]; [auto|discriminate].
Qed.
Theorem only_ignored e : pretty_print_envvars None true e = pretty_print_envvars None false e.
Proof. unfold pretty_print_envvars. destruct e as [|(k, v) e]; reflexivity. Qed.
Theorem vars_iff filter only e t : vars_shown filter only e t <-> t = pretty_print_envvars filter only e.
Proof. split; [apply vars_one|intros ->; apply vars_printed]. Qed.
