(** * Views and dicts: programs that keep references (C96). *)
From Coq Require Import String NArith ZArith List Bool Arith Lia.
Import ListNotations.
From Verif Require Import PyBase PyFacts Shlex IniView IniRead ExcControl Debuggable Cpe SpecFile SpecWalk SpecParse SpecApi Views SpecViews ViewsProofs ViewsProofs2.
Local Open Scope string_scope.
Local Open Scope list_scope.

Section P.
Context {Sh Us : Type}.
Notation obj := (obj Sh Us).
Notation world := (world (Sh := Sh) (Us := Us)).
Variable K : pyclass Sh Us.
Variable fs : str -> option str.
Local Open Scope sm_scope.

(** ** The first view *)
Lemma data_ext (w : world) : sound w -> sound (snd (w_data w)) /\ ext w (snd (w_data w)) /\ abs (snd (w_data w)) = snd (get_edata (abs w)).
Proof.
  intros SO. unfold w_data. destruct (w_cur w) as [v|] eqn:C; cbn [snd].
  - split; [exact SO|]. split; [apply ext_refl|]. destruct (cur_view v w (conj SO C)) as (x & E & Q). now rewrite (get_edata_cur v w x (conj SO C) E).
  - set (w' := World _ _ _ _).
    assert (HO : forall v s a, holds w' v s a <-> holds w v s a).
    { intros v s a. unfold holds, w'. cbn [w_views]. split; intros (x & E & G).
      - destruct (Nat.lt_ge_cases v (length (w_views w))) as [L|L]; [rewrite nth_error_app1 in E by exact L; eauto|]. rewrite nth_error_app2 in E by exact L.
        destruct (v - length (w_views w)) as [|n]; cbn in E; [injection E as <-; discriminate|destruct n; discriminate].
      - exists x. split; [|exact G]. rewrite nth_error_app1; [exact E|]. apply nth_error_Some. congruence. }
    destruct SO as (A & B & D & E). split; [|split].
    + split; [|split; [|split]].
      * unfold w'. cbn [w_cur w_views]. intros v Q. injection Q as <-. rewrite app_length. cbn. lia.
      * intros v x. unfold w'. cbn [w_views]. intros Q. destruct (Nat.lt_ge_cases v (length (w_views w))) as [L|L]; [rewrite nth_error_app1 in Q by exact L; eauto|].
        rewrite nth_error_app2 in Q by exact L. destruct (v - length (w_views w)) as [|n]; cbn in Q; [injection Q as <-; constructor|destruct n; discriminate].
      * intros v s a H. apply HO in H. exact (D _ _ _ H).
      * intros v s a v' s' H H'. apply HO in H, H'. eauto.
    + constructor; unfold w'; cbn [w_cur w_views w_dicts]; try lia; fold w'.
      * rewrite C. intros v Q. injection Q as <-. lia.
      * rewrite app_length. lia.
      * intros v s a H. now apply HO.
      * intros v s a _ _ H. now apply HO.
      * intros v s a H. left. now apply HO.
      * intros a _ _. reflexivity.
    + unfold abs, w'. cbn [w_cur w_views w_dicts w_obj]. rewrite C. rewrite nth_error_app2, Nat.sub_diag by lia. reflexivity.
Qed.

(** ** Parsing from any state *)
Definition unlog (w : world) : world := World (w_views w) (w_dicts w) (w_cur w) (set_log None (w_obj w)).
Lemma data_twice (w : world) : w_data (snd (w_data w)) = w_data w.
Proof. unfold w_data. destruct (w_cur w) as [v|] eqn:C; cbn [snd w_cur]; [now rewrite C|reflexivity]. Qed.
Lemma data_unlog (w : world) : snd (w_data (unlog w)) = unlog (snd (w_data w)).
Proof. unfold w_data, unlog. cbn [w_cur w_views w_dicts w_obj]. destruct (w_cur w) as [v|] eqn:C; cbn [snd w_views w_dicts w_cur w_obj]; [now rewrite C|reflexivity]. Qed.
Lemma w_root_data p s init fin w : w_parse_root K p s init fin (snd (w_data w)) = w_parse_root K p s init fin w.
Proof. unfold w_parse_root. unfold bind at 1. unfold bind at 2. rewrite data_twice. reflexivity. Qed.
Lemma data_parse w p s init fin : s <> [] -> w_parse_section_with K p s init fin (snd (w_data w)) = w_parse_section_with K p s init fin w.
Proof.
  intros N. apply str_eqb_neq in N.
  assert (E : forall x, w_parse_section_with K p s init fin x = bind (w_parse_root K p s init fin) (fun r => on_obj (modify (set_last (Some r))) ;; ret r) (unlog x)).
  { intros x. unfold w_parse_section_with. rewrite N. reflexivity. }
  rewrite !E, <- data_unlog. unfold bind at 1. rewrite w_root_data. reflexivity.
Qed.
Lemma edata_twice (o : obj) : get_edata (snd (get_edata o)) = get_edata o.
Proof. unfold get_edata. destruct (o_edata o) eqn:C; cbn [snd]; [now rewrite C|reflexivity]. Qed.
Lemma edata_unlog (o : obj) : snd (get_edata (set_log None o)) = set_log None (snd (get_edata o)).
Proof. unfold get_edata. cbn [o_edata set_log]. destruct (o_edata o); reflexivity. Qed.
Lemma root_edata p s init fin (o : obj) : parse_root K p s init fin (snd (get_edata o)) = parse_root K p s init fin o.
Proof. unfold parse_root. unfold bind at 1. unfold bind at 2. rewrite edata_twice. reflexivity. Qed.
Lemma edata_parse (o : obj) p s init fin : s <> [] -> parse_section_with K p s init fin (snd (get_edata o)) = parse_section_with K p s init fin o.
Proof.
  intros N. apply str_eqb_neq in N.
  assert (E : forall x, parse_section_with K p s init fin x = bind (parse_root K p s init fin) (fun r => modify (set_last (Some r)) ;; ret r) (set_log None x)).
  { intros x. unfold parse_section_with. rewrite N. reflexivity. }
  rewrite !E, <- edata_unlog. unfold bind at 1. rewrite root_edata. reflexivity.
Qed.
Lemma parse_any fuel s init fin w : sound w ->
  parse_section_str K fs fuel s init fin (abs w) = (fst (w_parse_section K fs fuel s init fin w), abs (snd (w_parse_section K fs fuel s init fin w))) /\
  sound (snd (w_parse_section K fs fuel s init fin w)) /\ ext w (snd (w_parse_section K fs fuel s init fin w)).
Proof.
  intros SO. destruct (list_eq_dec N.eq_dec s []) as [->|N].
  - unfold parse_section_str, w_parse_section, parse_section_with, w_parse_section_with, bind, on_obj, modify, raise. cbn [str_eqb fst snd].
    split; [reflexivity|]. set (w' := World _ _ _ _). assert (S : still w w') by (repeat split). split; [exact (still_sound _ _ S SO)|exact (still_ext _ _ S)].
  - destruct (data_ext w SO) as (SO' & X & E). unfold parse_section_str, w_parse_section. rewrite <- (data_parse w _ s init fin N), <- (edata_parse (abs w) _ s init fin N), <- E.
    assert (C : exists v, w_cur (snd (w_data w)) = Some v) by (unfold w_data; destruct (w_cur w) eqn:Q; cbn; eauto). destruct C as (v & C).
    destruct (sim_parse K fs v fuel s init fin (snd (w_data w)) (conj SO' C)) as (P & (SO2 & _) & X2). unfold parse_section_str, w_parse_section in P, SO2, X2.
    rewrite map_res_id in P. split; [exact P|]. split; [exact SO2|eapply ext_trans; eauto].
Qed.

(** ** What every command keeps *)
Definition keeps {A} (h : SM world A) : Prop := forall w, sound w -> sound (snd (h w)) /\ ext w (snd (h w)).
Lemma keeps_ret {A} (a : A) : keeps (ret a).
Proof. intros w SO. split; [exact SO|apply ext_refl]. Qed.
Lemma keeps_raise {A} e : keeps (raise e : SM world A).
Proof. intros w SO. split; [exact SO|apply ext_refl]. Qed.
Lemma keeps_bind {A B} (h : SM world A) (k : A -> SM world B) : keeps h -> (forall a, keeps (k a)) -> keeps (bind h k).
Proof.
  intros H H' w SO. destruct (H w SO) as (S1 & X1). unfold bind. destruct (h w) as [[a|e] w1]; cbn [snd] in *; [|auto].
  destruct (H' a w1 S1) as (S2 & X2). split; [exact S2|eapply ext_trans; eauto].
Qed.
Lemma keeps_view v : keeps (the_view v).
Proof. intros w SO. unfold the_view. destruct (nth_error (w_views w) v); (split; [exact SO|apply ext_refl]). Qed.
Lemma keeps_on {A} (m : SM obj A) : keeps (on_obj m).
Proof.
  intros w SO. unfold on_obj. destruct (m (w_obj w)) as [r o]. cbn [snd]. set (w' := World _ _ _ _). assert (S : still w w') by (repeat split).
  split; [exact (still_sound _ _ S SO)|exact (still_ext _ _ S)].
Qed.
Lemma keeps_contents a : keeps (w_contents a).
Proof. intros w SO. split; [exact SO|apply ext_refl]. Qed.
Lemma keeps_data : keeps w_data.
Proof. intros w SO. destruct (data_ext w SO) as (A & B & _). auto. Qed.
Lemma keeps_dict v s : keeps (w_dict v s).
Proof. apply keeps_bind; [apply keeps_view|intros x]. destruct (dget s (v_data x)); [apply keeps_ret|apply keeps_raise]. Qed.
Lemma keeps_check v s : keeps (w_check v s).
Proof.
  intros w SO. unfold w_check, bind, the_view. destruct (nth_error (w_views w) v) as [x|] eqn:E; cbn [snd]; [|split; [exact SO|apply ext_refl]].
  unfold put_view, modify. cbn [snd]. pose proof (put_still w v x (View (v_data x) (sadd s (v_checked x)) (v_level x) (v_debug x)) E eq_refl) as S.
  split; [exact (still_sound _ _ S SO)|exact (still_ext _ _ S)].
Qed.
Lemma keeps_options v : keeps (w_set_owner_options v).
Proof.
  intros w SO. unfold w_set_owner_options, bind, the_view, get. destruct (nth_error (w_views w) v) as [x|] eqn:E; cbn [snd]; [|split; [exact SO|apply ext_refl]].
  unfold put_view, modify. cbn [snd]. pose proof (put_still w v x (View (v_data x) (v_checked x) (ec_level (o_ec (w_obj w))) (o_debug (w_obj w))) E eq_refl) as S.
  split; [exact (still_sound _ _ S SO)|exact (still_ext _ _ S)].
Qed.
Lemma keeps_parse fuel s init fin : keeps (w_parse_section K fs fuel s init fin).
Proof. intros w SO. destruct (parse_any fuel s init fin w SO) as (_ & A & B). auto. Qed.
Lemma keeps_owner_parse fuel s : keeps (w_owner_parse K fs fuel s).
Proof. apply keeps_bind; [apply keeps_parse|intros; apply keeps_ret]. Qed.
Lemma keeps_owner fuel v s force : keeps (w_parse_owner (w_owner_parse K fs fuel) v s force).
Proof.
  apply keeps_bind; [apply keeps_view|intros x]. destruct (negb (str_mem s (v_checked x)) || force); [|apply keeps_ret].
  apply keeps_bind; [apply keeps_options|intros _]. apply keeps_bind; [apply keeps_check|intros _; apply keeps_owner_parse].
Qed.
Lemma keeps_has fuel v s : keeps (w_has_section fs (w_owner_parse K fs fuel) v s).
Proof.
  apply keeps_bind; [apply keeps_on|intros i]. apply keeps_bind; [|intros _; apply keeps_bind; [apply keeps_view|intros x; apply keeps_ret]].
  destruct (ini_has_section i s); [|apply keeps_ret]. apply keeps_bind; [apply keeps_view|intros x]. destruct (str_mem s (v_checked x)); [apply keeps_ret|apply keeps_owner].
Qed.
Lemma keeps_item fuel v s : keeps (w_getitem K fs fuel v s).
Proof. apply keeps_bind; [apply keeps_has|intros []]; [apply keeps_dict|apply keeps_raise]. Qed.
Lemma keeps_has_option fuel v s k : keeps (w_has_option K fs fuel v s k).
Proof.
  apply keeps_bind; [apply keeps_owner|intros _]. apply keeps_bind; [apply keeps_view|intros x]. destruct (dget s (v_data x)); [|apply keeps_ret].
  apply keeps_bind; [apply keeps_contents|intros; apply keeps_ret].
Qed.
Lemma keeps_get fuel v s k : keeps (w_get K fs fuel v s k).
Proof.
  apply keeps_bind; [apply keeps_view|intros x]. apply keeps_bind; [destruct (str_mem s (v_checked x)); [apply keeps_ret|apply keeps_owner]|intros _].
  apply keeps_bind; [apply keeps_has|intros []]; [|apply keeps_raise]. destruct k as [k|].
  - apply keeps_bind; [apply keeps_has_option|intros []]; [|apply keeps_raise]. apply keeps_bind; [apply keeps_dict|intros a]. apply keeps_bind; [apply keeps_contents|intros d].
    destruct (dget k d); [apply keeps_ret|apply keeps_raise].
  - apply keeps_bind; [apply keeps_dict|intros; apply keeps_ret].
Qed.
Lemma keeps_for_each f l : (forall s, keeps (f s)) -> keeps (w_for_each f l : SM world unit).
Proof. intros H. induction l as [|x l IH]; cbn [w_for_each]; [apply keeps_ret|]. apply keeps_bind; [apply H|intros _; exact IH]. Qed.
Lemma keeps_sections fuel v p force : keeps (w_sections K fs fuel v p force).
Proof.
  unfold w_sections, w_keys. destruct p; [|apply keeps_on]. apply keeps_bind; [apply keeps_on|intros l]. apply keeps_bind; [|intros _; apply keeps_on].
  apply keeps_for_each. intros s. apply keeps_owner.
Qed.

(** A command that gives or changes no dict by itself. *)
Definition plain (c : cmd) : Prop :=
  match c with CDelims _ | CAdd _ _ _ | CSet _ _ _ _ | CWrite _ _ _ | CDelete _ _ => False | _ => True end.
Lemma keeps_exec fuel c : plain c -> keeps (w_exec K fs fuel c).
Proof.
  destruct c; cbn [plain w_exec]; intros P; try contradiction;
  repeat first [apply keeps_ret | apply keeps_on | apply keeps_data | apply keeps_parse | apply keeps_view | apply keeps_item | apply keeps_get | apply keeps_has | apply keeps_has_option
    | apply keeps_sections | apply keeps_contents | (apply keeps_bind; [|intros ?])].
Qed.

(** What every command keeps, [CAdd] and the like included. *)
Record grows (w w' : world) : Prop := {
  g_views : length (w_views w) <= length (w_views w');
  g_dicts : length (w_dicts w) <= length (w_dicts w');
  g_cur : forall v, v < length (w_views w) -> w_cur w <> Some v -> w_cur w' <> Some v;
  g_new : forall v s a, a < length (w_dicts w) -> holds w' v s a -> holds w v s a }.
Lemma ext_grows w w' : ext w w' -> grows w w'.
Proof.
  intros X. constructor; [exact (e_views _ _ X)|exact (e_dicts _ _ X)| |].
  - intros v L N. eapply ext_not_cur; eauto.
  - intros v s a L H. destruct (e_new _ _ X _ _ _ H); [assumption|lia].
Qed.
Lemma grows_trans w w' w'' : grows w w' -> grows w' w'' -> grows w w''.
Proof. intros [A B C D] [A' B' C' D']. constructor; try lia; [intros; apply C'; [lia|auto]|intros; apply D; [assumption|apply D'; [lia|assumption]]]. Qed.

(** [add_section] *)
Lemma add_any (w : world) v s force : sound w -> let w' := snd (w_add v s force w) in
  sound w' /\ grows w w' /\ (forall a, a < length (w_dicts w) -> nth_error (w_dicts w') a = nth_error (w_dicts w) a) /\
  (forall u t a, holds w u t a -> force = false \/ u <> v \/ t <> s -> holds w' u t a).
Proof.
  intros SO. unfold w_add, bind, the_view. destruct (nth_error (w_views w) v) as [x|] eqn:E; cbn [snd].
  2:{ split; [exact SO|]. split; [apply ext_grows, ext_refl|]. auto. }
  destruct (if force then None else dget s (v_data x)) as [a|] eqn:G; cbn [ret snd].
  { split; [exact SO|]. split; [apply ext_grows, ext_refl|]. auto. }
  destruct (add_sound w v x s SO E) as (S1 & HO). set (w' := World _ _ _ _) in *. assert (L : v < length (w_views w)) by (apply nth_error_Some; congruence).
  split; [exact S1|]. split; [|split].
  - constructor; unfold w'; cbn [w_views w_dicts w_cur]; [rewrite set_at_length; lia|rewrite app_length; lia|auto|]. fold w'.
    intros u t a La H. destruct (HO _ _ _ H) as [(H' & _)|(-> & _)]; [exact H'|lia].
  - intros a La. unfold w'. cbn [w_dicts]. now apply nth_error_app1.
  - intros u t a (y & Ey & Gy) D. unfold holds, w'. cbn [w_views]. destruct (Nat.eq_dec u v) as [->|N]; [|rewrite set_at_other by exact N; eauto].
    rewrite set_at_same by exact L. rewrite E in Ey. injection Ey as <-. eexists. split; [reflexivity|]. cbn [v_data].
    destruct (list_eq_dec N.eq_dec t s) as [->|N]; [|now rewrite dget_dset_other].
    exfalso. destruct D as [->|[D|D]]; [congruence|congruence|congruence].
Qed.
Lemma put_any (w : world) a d : sound w -> let w' := World (w_views w) (set_at a d (w_dicts w)) (w_cur w) (w_obj w) in
  sound w' /\ grows w w' /\ (forall b, b <> a -> nth_error (w_dicts w') b = nth_error (w_dicts w) b) /\ (forall u t b, holds w u t b -> holds w' u t b).
Proof.
  intros SO w'. split; [apply put_sound; exact SO|]. split; [constructor; unfold w'; cbn [w_views w_dicts w_cur]; try rewrite set_at_length; auto|].
  split; [|auto]. intros b N. unfold w'. cbn [w_dicts]. now apply set_at_other.
Qed.
Lemma put_cell (w : world) a d : holds w = holds (World (w_views w) (set_at a d (w_dicts w)) (w_cur w) (w_obj w)).
Proof. reflexivity. Qed.

Lemma set_any fuel v s k val (w : world) : sound w -> let w' := snd (w_set fs (w_owner_parse K fs fuel) v s k val w) in
  sound w' /\ grows w w' /\ (forall a, a < length (w_dicts w) -> detached w a -> ~ holds w v s a -> nth_error (w_dicts w') a = nth_error (w_dicts w) a) /\
  (forall u t a, holds w u t a -> holds w' u t a).
Proof.
  intros SO.
  assert (Q : w_set fs (w_owner_parse K fs fuel) v s k val w = match w_has_section fs (w_owner_parse K fs fuel) v s w with
    | (Ok b, w1) => match ((if b then ret tt else w_add v s false ;; ret tt) : SM world unit) w1 with
                    | (Ok _, w2) => (a <- w_dict v s ;; w_put a k val) w2 | (Err e, w2) => (Err e, w2) end
    | (Err e, w1) => (Err e, w1) end) by reflexivity.
  rewrite Q. clear Q. destruct (keeps_has fuel v s w SO) as (S1 & X1). destruct (w_has_section fs (w_owner_parse K fs fuel) v s w) as [[b|e] w1]; cbn [snd] in S1, X1.
  2:{ cbn [snd]. split; [exact S1|]. split; [apply ext_grows; exact X1|]. split; [intros a L D _; now apply (e_same _ _ X1)|apply (e_held _ _ X1)]. }
  assert (M : exists r w2, ((if b then ret tt else w_add v s false ;; ret tt) : SM world unit) w1 = (r, w2) /\ sound w2 /\ grows w1 w2 /\
    (forall a, a < length (w_dicts w1) -> nth_error (w_dicts w2) a = nth_error (w_dicts w1) a) /\ (forall u t a, holds w1 u t a -> holds w2 u t a)).
  { destruct b; [exists (Ok tt), w1; split; [reflexivity|]; split; [exact S1|]; split; [apply ext_grows, ext_refl|auto]|].
    destruct (add_any w1 v s false S1) as (A & B & C & D). unfold bind. destruct (w_add v s false w1) as [[x|e] w2]; cbn [snd] in *; (eexists; exists w2; split; [reflexivity|]; split; [exact A|]; split; [exact B|]; split; [exact C|]; intros; apply D; auto). }
  destruct M as (r & w2 & M & S2 & G2 & N2 & H2). rewrite M. clear M.
  assert (G12 : grows w w2) by (eapply grows_trans; [apply ext_grows; exact X1|exact G2]).
  assert (N12 : forall a, a < length (w_dicts w) -> detached w a -> nth_error (w_dicts w2) a = nth_error (w_dicts w) a).
  { intros a L D. rewrite N2 by (pose proof (e_dicts _ _ X1); lia). now apply (e_same _ _ X1). }
  assert (H12 : forall u t a, holds w u t a -> holds w2 u t a) by (intros; apply H2; now apply (e_held _ _ X1)).
  destruct r as [[]|e]; cbn [snd]; [|split; [exact S2|]; split; [exact G12|]; split; [auto|exact H12]].
  unfold w_dict, bind, the_view. destruct (nth_error (w_views w2) v) as [x|] eqn:E; cbn [snd]; [|split; [exact S2|]; split; [exact G12|]; split; [auto|exact H12]].
  destruct (dget s (v_data x)) as [a|] eqn:G; cbn [ret raise snd]; [|split; [exact S2|]; split; [exact G12|]; split; [auto|exact H12]].
  unfold w_put, modify. cbn [snd]. destruct (put_any w2 a (dset k val (nth a (w_dicts w2) [])) S2) as (A & B & C & D).
  split; [exact A|]. split; [eapply grows_trans; eauto|]. split; [|intros; apply D; auto].
  intros b' L De Nh. rewrite C; [auto|]. intros ->. apply Nh. apply (g_new _ _ G12); [exact L|]. exists x. auto.
Qed.

(** ** One command, many commands *)
Theorem exec_any fuel c (w : world) : sound w -> let w' := snd (w_exec K fs fuel c w) in
  sound w' /\ grows w w' /\
  (forall a, a < length (w_dicts w) -> detached w a -> ~ writes w a c -> nth_error (w_dicts w') a = nth_error (w_dicts w) a) /\
  (forall u t a, holds w u t a -> ~ replaces u t c -> holds w' u t a).
Proof.
  intros SO. assert (PL : plain c -> let w' := snd (w_exec K fs fuel c w) in sound w' /\ grows w w' /\
    (forall a, a < length (w_dicts w) -> detached w a -> ~ writes w a c -> nth_error (w_dicts w') a = nth_error (w_dicts w) a) /\
    (forall u t a, holds w u t a -> ~ replaces u t c -> holds w' u t a)).
  { intros P. destruct (keeps_exec fuel c P w SO) as (S1 & X1). split; [exact S1|]. split; [apply ext_grows; exact X1|]. split; [intros; now apply (e_same _ _ X1)|].
    intros; now apply (e_held _ _ X1). }
  destruct c; try exact (PL Logic.I); clear PL; cbn [w_exec].
  - unfold w_set_delims, bind, ret. cbn [snd]. set (w' := World _ _ _ _). split; [destruct SO as (A & B & C & D); split; [discriminate|]; split; [exact B|]; split; [exact C|exact D]|].
    split; [constructor; unfold w'; cbn [w_views w_dicts w_cur]; auto; discriminate|]. split; [reflexivity|auto].
  - destruct (add_any w v s force SO) as (A & B & C & D). unfold bind. destruct (w_add v s force w) as [[x|e] w2]; cbn [snd ret] in *;
    (split; [exact A|]; split; [exact B|]; split; [intros; auto|]; intros u t a H R; apply D; [exact H|]; destruct force; [right|left; reflexivity];
     cbn [replaces] in R; destruct (Nat.eq_dec u v); [right; intros ->; apply R; auto|left; assumption]).
  - assert (Q : (the_view v ;; w_set fs (w_owner_parse K fs fuel) v s k val ;; ret PDone) w = match nth_error (w_views w) v with
      | Some _ => match w_set fs (w_owner_parse K fs fuel) v s k val w with (Ok _, w2) => (Ok PDone, w2) | (Err e, w2) => (Err e, w2) end
      | None => (Err AttributeError, w) end).
    { unfold bind at 1, the_view. destruct (nth_error (w_views w) v); reflexivity. }
    rewrite Q. clear Q. destruct (nth_error (w_views w) v) as [x|] eqn:E; cbn [snd].
    2:{ split; [exact SO|]. split; [apply ext_grows, ext_refl|]. auto. }
    destruct (set_any fuel v s k val w SO) as (A & B & C & D). destruct (w_set fs (w_owner_parse K fs fuel) v s k val w) as [[y|e] w2]; cbn [snd] in *;
    (split; [exact A|]; split; [exact B|]; split; [exact C|]; intros; apply D; assumption).
  - unfold w_put, bind, modify, ret. cbn [snd]. destruct (put_any w a (dset k val (nth a (w_dicts w) [])) SO) as (A & B & C & D).
    split; [exact A|]. split; [exact B|]. split; [intros b _ _ N; apply C; intros ->; apply N; reflexivity|intros; apply D; assumption].
  - unfold bind, modify, ret. cbn [snd]. destruct (put_any w a (filter (fun kv => negb (str_eqb (fst kv) k)) (nth a (w_dicts w) [])) SO) as (A & B & C & D).
    split; [exact A|]. split; [exact B|]. split; [intros b _ _ N; apply C; intros ->; apply N; reflexivity|intros; apply D; assumption].
Qed.
Theorem run_sound fuel l : forall w : world, sound w -> sound (w_run K fs fuel l w).
Proof. induction l as [|c l IH]; intros w SO; cbn [w_run]; [exact SO|]. apply IH. exact (proj1 (exec_any fuel c w SO)). Qed.
Theorem run_holds fuel v s a l : forall w : world, sound w -> holds w v s a -> Forall (fun c => ~ replaces v s c) l -> holds (w_run K fs fuel l w) v s a.
Proof.
  induction l as [|c l IH]; intros w SO H F; cbn [w_run]; [exact H|]. inversion F; subst. destruct (exec_any fuel c w SO) as (A & _ & _ & D). apply IH; auto.
Qed.
Lemma grows_detached w w' a : grows w w' -> a < length (w_dicts w) -> detached w a -> detached w' a.
Proof. intros G L D v s H. pose proof (g_new _ _ G _ _ _ L H) as H'. apply (g_cur _ _ G); [eapply holds_lt; eauto|eapply D; eauto]. Qed.
Lemma grows_writes w w' a c : grows w w' -> a < length (w_dicts w) -> writes w' a c -> writes w a c.
Proof. intros G L. destruct c; cbn [writes]; auto. apply (g_new _ _ G). exact L. Qed.
Theorem run_detached fuel a d l : forall w : world, sound w -> detached w a -> contains w a d -> Forall (fun c => ~ writes w a c) l ->
  contains (w_run K fs fuel l w) a d /\ detached (w_run K fs fuel l w) a.
Proof.
  induction l as [|c l IH]; intros w SO D C F; cbn [w_run]; [auto|]. inversion F as [|? ? F1 F2]; subst.
  assert (L : a < length (w_dicts w)) by (apply nth_error_Some; unfold contains in C; congruence).
  destruct (exec_any fuel c w SO) as (A & B & N & _). apply IH; [exact A|eapply grows_detached; eauto|unfold contains; rewrite N; auto|].
  eapply Forall_impl; [|exact F2]. intros c' NW W. apply NW. eapply grows_writes; eauto.
Qed.

(** ** An old view *)
Lemma has_old fuel v s (w : world) : sound w -> v < length (w_views w) -> w_cur w <> Some v -> forall b w', w_has_section fs (w_owner_parse K fs fuel) v s w = (Ok b, w') ->
  b = true <-> exists a, holds w v s a.
Proof.
  intros SO L N b w' E. assert (R : exists x, nth_error (w_views w') v = Some x /\ b = dmem s (v_data x)).
  { unfold w_has_section in E. unfold bind at 1 in E. destruct (on_obj (get_cpd fs) w) as [[i|e] w1]; [|discriminate].
    unfold bind at 1 in E.
    match type of E with (match ?m w1 with _ => _ end) = _ => destruct (m w1) as [[u|e] w2]; [|discriminate] end.
    unfold bind, the_view, ret in E. destruct (nth_error (w_views w2) v) as [x|] eqn:Q; [|discriminate]. injection E as <- <-. eauto. }
  destruct R as (x & Q & ->). destruct (keeps_has fuel v s w SO) as (S1 & X1). rewrite E in S1, X1. cbn [snd] in S1, X1. split.
  - unfold dmem. destruct (dget s (v_data x)) as [a|] eqn:G; [|discriminate]. intros _. exists a. apply (e_old _ _ X1); [exact L|exact N|]. exists x. auto.
  - intros (a & H). apply (e_held _ _ X1) in H. destruct H as (y & Qy & G). rewrite Q in Qy. injection Qy as <-. unfold dmem. now rewrite G.
Qed.
Theorem old_view fuel v s (w : world) : sound w -> v < length (w_views w) -> w_cur w <> Some v -> forall r w', w_exec K fs fuel (CItem v s) w = (r, w') ->
  (forall p, r = Ok p -> exists a, p = PDict a /\ holds w v s a) /\ ((forall a, ~ holds w v s a) -> exists e, r = Err e).
Proof.
  intros SO L N r w' E. cbn [w_exec] in E. unfold bind at 1, the_view in E. destruct (nth_error (w_views w) v) as [x|] eqn:Ev; [|apply nth_error_None in Ev; lia].
  assert (M : (exists e, r = Err e) \/ exists a, r = Ok (PDict a) /\ holds w v s a).
  { unfold w_getitem in E. unfold bind at 1 2 in E. destruct (w_has_section fs (w_owner_parse K fs fuel) v s w) as [[b|e] w1] eqn:H; [|injection E as <- <-; left; eauto].
    pose proof (has_old fuel v s w SO L N b w1 H) as HB. destruct b; [|injection E as <- <-; left; eauto].
    destruct (proj1 HB eq_refl) as (a & Ha). destruct (keeps_has fuel v s w SO) as (S1 & X1). rewrite H in S1, X1. cbn [snd] in S1, X1.
    pose proof (e_held _ _ X1 _ _ _ Ha) as (y & Q & G). unfold w_dict, bind, the_view, ret in E. rewrite Q, G in E. injection E as <- <-. right. eauto. }
  destruct M as [(e & ->)|(a & -> & H)]; split.
  - discriminate.
  - eauto.
  - intros p Q. injection Q as <-. eauto.
  - intros NH. exfalso. eapply NH; eauto.
Qed.
Theorem old_has fuel v s (w : world) : sound w -> v < length (w_views w) -> w_cur w <> Some v -> forall b w', w_exec K fs fuel (CHas v s) w = (Ok (PBoolean b), w') ->
  b = true <-> exists a, holds w v s a.
Proof.
  intros SO L N b w' E. cbn [w_exec] in E. unfold bind at 1, the_view in E. destruct (nth_error (w_views w) v) as [x|] eqn:Ev; [|discriminate].
  unfold bind, ret in E. destruct (w_has_section fs (w_owner_parse K fs fuel) v s w) as [[c|e] w1] eqn:H; [|discriminate]. injection E as <- <-. eapply has_old; eauto.
Qed.
End P.
