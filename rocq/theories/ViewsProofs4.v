(** * Views and dicts: what the calls answer (C96). *)
From Coq Require Import String NArith ZArith List Bool Arith Lia.
Import ListNotations.
From Verif Require Import PyBase PyFacts Shlex IniView IniRead ExcControl Debuggable Cpe SpecFile SpecWalk SpecRun SpecParse SpecApi RunProofs ApiProofs ApiProofs2 Views SpecViews ViewsProofs ViewsProofs2 ViewsProofs3.
Local Open Scope string_scope.
Local Open Scope list_scope.

Section P.
Context {Sh Us : Type}.
Notation obj := (obj Sh Us).
Notation world := (world (Sh := Sh) (Us := Us)).
Variable K : pyclass Sh Us.
Variable fs : str -> option str.
Local Open Scope sm_scope.

(** ** The object that a state looks like *)
Lemma inside_spec (w : world) l : Forall (fun sa => snd sa < length (w_dicts w)) l ->
  forall l', Forall2 (fun sa sd => fst sd = fst sa /\ contains w (snd sa) (snd sd)) l l' <-> l' = inside (w_dicts w) l.
Proof.
  intros F. induction F as [|[s a] l L F IH]; intros l'; cbn [inside map].
  - split; [intros H; now inversion H|intros ->; constructor].
  - cbn [fst snd] in *. split.
    + intros H. inversion H as [|? [t d] ? l1 (E & C) T]; subst. cbn [fst snd] in *. subst t. apply IH in T. subst l1. f_equal. f_equal. symmetry. now apply nth_error_nth.
    + intros ->. constructor; [|now apply IH]. cbn [fst snd]. split; [reflexivity|]. unfold contains. now apply nth_error_nth'.
Qed.
Lemma held_all (w : world) v x : sound w -> nth_error (w_views w) v = Some x -> Forall (fun sa => snd sa < length (w_dicts w)) (v_data x).
Proof.
  intros (_ & N & L & _) E. apply Forall_forall. intros [s a] I. cbn [snd]. apply (L v s a). exists x. split; [exact E|]. specialize (N _ _ E).
  revert N I. clear. induction (v_data x) as [|[t b] l IH]; intros N I; [destruct I|]. cbn [dget]. inversion N as [|? ? N1 N2]; subst. destruct I as [I|I].
  - injection I as -> ->. now rewrite str_eqb_refl.
  - destruct (str_eqb_spec s t) as [Q|_]; [|auto]. subst t. exfalso. apply N1. apply in_map_iff. exists (s, a). auto.
Qed.
Lemma looks_abs (w : world) (o : obj) : sound w -> looks_like w o <-> o = abs w.
Proof.
  intros SO. unfold looks_like, abs. destruct (w_cur w) as [v|] eqn:C.
  - pose proof (proj1 SO v C) as L. destruct (nth_error (w_views w) v) as [x|] eqn:E; [|apply nth_error_None in E; lia]. cbn [option_map].
    pose proof (inside_spec w _ (held_all w v x SO E)) as IS. split.
    + destruct o as [a1 a2 a3 [e|] a5 a6 a7 a8 a9 a10 a11 a12]; cbn [o_edata]; intros (Q & R); [|contradiction]. destruct R as (y & Ey & F & A & B & D). injection Ey as <-.
      apply IS in F. destruct e as [f1 f2 f3 f4]. cbn in F, A, B, D. rewrite F, A, B, D. unfold set_edata in Q |- *. cbn [o_files o_cpd o_delims o_last o_ec o_debug o_log o_defname o_intname o_user o_out] in Q. inversion Q. reflexivity.
    + intros ->. split; [destruct (w_obj w); reflexivity|]. destruct (w_obj w); cbn. exists x. split; [reflexivity|]. split; [now apply IS|auto].
  - split.
    + destruct o as [a1 a2 a3 [e|] a5 a6 a7 a8 a9 a10 a11 a12]; cbn [o_edata]; intros (Q & R); [contradiction|]. exact Q.
    + intros ->. split; [destruct (w_obj w); reflexivity|destruct (w_obj w); exact Logic.I].
Qed.

(** ** Calls on the present view *)
Lemma dict_held (w w' : world) v s a : w_dict v s w = (Ok a, w') -> holds w' v s a.
Proof.
  unfold w_dict, bind, the_view, ret, raise. destruct (nth_error (w_views w) v) as [x|] eqn:E; [|discriminate]. destruct (dget s (v_data x)) as [b|] eqn:G; [|discriminate].
  intros Q. injection Q as <- <-. exists x. auto.
Qed.
Lemma item_held fuel (w w' : world) v s a : w_getitem K fs fuel v s w = (Ok a, w') -> holds w' v s a.
Proof.
  unfold w_getitem, bind. destruct (w_has_section fs (w_owner_parse K fs fuel) v s w) as [[[]|e] w1]; try discriminate. apply dict_held.
Qed.
Lemma get_held fuel (w w' : world) v s k a : w_get K fs fuel v s k w = (Ok (GotDict a), w') -> holds w' v s a.
Proof.
  assert (R : w_get K fs fuel v s k w = match the_view v w with
    | (Ok x, w1) => match (if str_mem s (v_checked x) then ret tt else w_parse_owner (w_owner_parse K fs fuel) v s false) w1 with
        | (Ok _, w2) => match w_has_section fs (w_owner_parse K fs fuel) v s w2 with
            | (Ok b, w3) => (if b then match k with
                 | None => a <- w_dict v s ;; ret (GotDict a)
                 | Some k => b <- w_has_option K fs fuel v s k ;; (if b then a <- w_dict v s ;; d <- w_contents a ;; match dget k d with Some t => ret (GotText t) | None => raise KeyError end else raise KeyError)
                 end else raise KeyError) w3
            | (Err e, w3) => (Err e, w3) end
        | (Err e, w2) => (Err e, w2) end
    | (Err e, w1) => (Err e, w1) end) by reflexivity.
  rewrite R. clear R. destruct (the_view v w) as [[x|e] w1]; [|discriminate].
  destruct ((if str_mem s (v_checked x) then ret tt else w_parse_owner (w_owner_parse K fs fuel) v s false) w1) as [[u|e] w2]; [|discriminate].
  destruct (w_has_section fs (w_owner_parse K fs fuel) v s w2) as [[[]|e] w3]; try discriminate. destruct k as [k|].
  - unfold bind. destruct (w_has_option K fs fuel v s k w3) as [[[]|e] w4]; try discriminate. destruct (w_dict v s w4) as [[b|e] w5]; [|discriminate].
    unfold w_contents. cbv beta. destruct (dget k _); discriminate.
  - unfold bind. destruct (w_dict v s w3) as [[b|e] w4] eqn:D; [|discriminate]. intros Q. injection Q as <- <-. eapply dict_held; eauto.
Qed.
Lemma held_contains (w : world) v s a : sound w -> holds w v s a -> contains w a (deref w a).
Proof. intros SO H. unfold contains, deref. apply nth_error_nth'. exact (proj1 (proj2 (proj2 SO)) _ _ _ H). Qed.

Theorem call_same fuel v c op (w : world) : sound w -> w_cur w = Some v -> calls v c op -> let w' := snd (w_exec K fs fuel c w) in
  same_reply w' (fst (w_exec K fs fuel c w)) (fst (exec_op K fs fuel op (abs w))) /\ snd (exec_op K fs fuel op (abs w)) = abs w' /\ sound w' /\ w_cur w' = Some v.
Proof.
  intros SO C CA. assert (I : inv v w) by (split; assumption).
  assert (TV : forall {A} (h : SM world A), (the_view v ;; h) w = h w).
  { intros A h. destruct (cur_view v w I) as (x & E & _). unfold bind, the_view. now rewrite E. }
  destruct CA as [s|s|s|s k|s|s k| | |f|z|z]; cbn [w_exec exec_op]; unfold fmap; try rewrite TV; unfold bind, ret.
  - destruct (sim_parse K fs v fuel s true true w I) as (E & (S1 & C1) & _). rewrite E. destruct (w_parse_section K fs fuel s true true w) as [[r|e] w1]; cbn [fst snd map_res] in *; (split; [constructor|auto]).
  - destruct (sim_getitem K fs v fuel s w I) as (E & (S1 & C1) & _). rewrite E. destruct (w_getitem K fs fuel v s w) as [[a|e] w1] eqn:G; cbn [fst snd map_res] in *; (split; [|auto]); [|reflexivity].
    constructor. eapply held_contains; [exact S1|eapply item_held; eauto].
  - unfold data_options. destruct (sim_getitem K fs v fuel s w I) as (E & (S1 & C1) & _). rewrite E. destruct (w_getitem K fs fuel v s w) as [[a|e] w1] eqn:G; cbn [fst snd map_res] in *; (split; [|auto]); [|reflexivity].
    constructor. eapply held_contains; [exact S1|eapply item_held; eauto].
  - destruct (sim_getting K fs v fuel s k w I) as (E & (S1 & C1) & _). rewrite E. destruct (w_get K fs fuel v s k w) as [[[a|t]|e] w1] eqn:G; cbn [fst snd map_res deref_got] in *; (split; [|auto]); try constructor.
    eapply held_contains; [exact S1|eapply get_held; eauto].
  - destruct (sim_has_section K fs v fuel s w I) as (E & (S1 & C1) & _). rewrite E. destruct (w_has_section fs (w_owner_parse K fs fuel) v s w) as [[b|e] w1]; cbn [fst snd map_res] in *; (split; [constructor|auto]).
  - destruct (sim_has_option K fs v fuel s k w I) as (E & (S1 & C1) & _). rewrite E. destruct (w_has_option K fs fuel v s k w) as [[b|e] w1]; cbn [fst snd map_res] in *; (split; [constructor|auto]).
  - destruct (sim_sections K fs v fuel false w I) as (E & (S1 & C1) & _). rewrite E. destruct (w_sections K fs fuel v true false w) as [[b|e] w1]; cbn [fst snd map_res] in *; (split; [constructor|auto]).
  - destruct (sim_sections K fs v fuel true w I) as (E & (S1 & C1) & _). rewrite E. destruct (w_sections K fs fuel v true true w) as [[b|e] w1]; cbn [fst snd map_res] in *; (split; [constructor|auto]).
  - unfold w_sections, data_sections. destruct (sim_keys fs v w I) as (E & (S1 & C1) & _). rewrite E. destruct (w_keys fs w) as [[b|e] w1]; cbn [fst snd map_res] in *; (split; [constructor|auto]).
  - destruct (keeps_on (set_level z) w SO) as (S1 & _). unfold on_obj, set_level, modify in *. cbn [fst snd] in *. split; [constructor|]. split; [rewrite abs_with; reflexivity|]. split; [exact S1|exact C].
  - destruct (keeps_on (set_debug_level z) w SO) as (S1 & _). unfold on_obj, set_debug_level, modify in *. cbn [fst snd] in *. split; [constructor|]. split; [rewrite abs_with; reflexivity|]. split; [exact S1|exact C].
Qed.

(** ** Programs that read *)
Section R.
Variables (i : ini) (dname : str) (fuel : nat).
Hypothesis WB : well_behaved K.
Hypothesis F : length (ini_sections i) + 3 <= fuel.
Hypothesis GP : all_parsable K i dname.
Variable files : list str.
Notation good := (ApiProofs.inv K fs i dname (fun s => ini_has_section i s = true) True files).

Definition fine (w : world) : Prop := sound w /\ good (abs w).
Definition stays {A} (P : A -> Prop) (v : nat) (h : SM world A) : Prop := forall w, fine w -> v < length (w_views w) -> w_cur w <> Some v ->
  let w' := snd (h w) in fine w' /\ ext w w' /\ (forall a, fst (h w) = Ok a -> P a).
Definition any {A} (_ : A) : Prop := True.
Lemma stays_ret {A} (P : A -> Prop) v a : P a -> stays P v (ret a).
Proof. intros p w H L N. split; [exact H|]. split; [apply ext_refl|]. cbn. intros b Q. now injection Q as <-. Qed.
Lemma stays_raise {A} (P : A -> Prop) v e : stays P v (raise e).
Proof. intros w H L N. split; [exact H|]. split; [apply ext_refl|]. discriminate. Qed.
Lemma stays_bind {A B} (P : A -> Prop) (Q : B -> Prop) v h (k : A -> SM world B) : stays P v h -> (forall a, P a -> stays Q v (k a)) -> stays Q v (bind h k).
Proof.
  intros H H' w J L N. destruct (H w J L N) as (J1 & X1 & R). unfold bind. destruct (h w) as [[a|e] w1]; cbn [fst snd] in *; [|split; [exact J1|]; split; [exact X1|discriminate]].
  destruct (H' a (R a eq_refl) w1 J1) as (J2 & X2 & R2); [pose proof (e_views _ _ X1); lia|eapply ext_not_cur; eauto|]. split; [exact J2|]. split; [eapply ext_trans; eauto|exact R2].
Qed.
Lemma on_abs {A} (m : SM obj A) (w : world) : blind m -> fst (on_obj m w) = fst (m (abs w)) /\ abs (snd (on_obj m w)) = snd (m (abs w)).
Proof.
  intros B. unfold on_obj. pose proof (B (w_obj w) (o_edata (abs w))) as E. assert (Q : set_edata (o_edata (abs w)) (w_obj w) = abs w) by reflexivity. rewrite Q in E.
  destruct (m (w_obj w)) as [r o1]. cbn [fst snd] in *. rewrite E. cbn [fst snd]. split; [reflexivity|apply abs_with].
Qed.
Lemma fine_on {A} (m : SM obj A) (w : world) : blind m -> good (snd (m (abs w))) -> fine w -> fine (snd (on_obj m w)).
Proof. intros B G (SO & _). split; [exact (proj1 (keeps_on m w SO))|]. now rewrite (proj2 (on_abs m w B)). Qed.
Lemma stays_cpd v : stays (fun j => j = i) v (on_obj (get_cpd fs)).
Proof.
  intros w J L N. destruct (get_cpd_inv K fs i dname _ True files _ (proj2 J)) as (o' & E & G & _). destruct (on_abs (get_cpd fs) w (blind_cpd fs)) as (E1 & E2). rewrite E in E1.
  split; [apply fine_on; [apply blind_cpd|rewrite E; exact (go_inv _ _ _ _ _ _ _ _ _ G)|exact J]|]. split; [exact (proj2 (keeps_on _ w (proj1 J)))|]. intros a Q. cbv zeta in *. rewrite E1 in Q. cbn in Q. congruence.
Qed.
Lemma stays_keys v : stays (fun l => forall s, In s l -> ini_has_section i s = true) v (on_obj (data_keys fs)).
Proof.
  intros w J L N. destruct (data_keys_good K fs i dname _ True files _ (proj2 J)) as (o' & E & G). destruct (on_abs (data_keys fs) w (blind_keys fs)) as (E1 & E2). rewrite E in E1.
  split; [apply fine_on; [apply blind_keys|rewrite E; exact (go_inv _ _ _ _ _ _ _ _ _ G)|exact J]|]. split; [exact (proj2 (keeps_on _ w (proj1 J)))|]. intros a Q. cbv zeta in *. rewrite E1 in Q. cbn in Q.
  injection Q as <-. intros s IN. now apply dmem_keys.
Qed.
Lemma stays_view v : stays any v (the_view v).
Proof. intros w J L N. unfold the_view. destruct (nth_error (w_views w) v); (split; [exact J|]; split; [apply ext_refl|unfold any; auto]). Qed.
Lemma stays_contents v a : stays any v (w_contents a).
Proof. intros w J L N. split; [exact J|]. split; [apply ext_refl|unfold any; auto]. Qed.
Lemma stays_put v (f : world -> view -> view) : (forall w x, v_data (f w x) = v_data x) -> stays any v (fun w => match nth_error (w_views w) v with
  | Some x => (Ok tt, World (set_at v (f w x) (w_views w)) (w_dicts w) (w_cur w) (w_obj w)) | None => (Err AttributeError, w) end).
Proof.
  intros D w (SO & G) L N. destruct (nth_error (w_views w) v) as [x|] eqn:E; cbn [fst snd]; [|split; [split; assumption|]; split; [apply ext_refl|unfold any; auto]].
  pose proof (put_still w v x (f w x) E (D w x)) as S. split; [split; [exact (still_sound _ _ S SO)|]|split; [exact (still_ext _ _ S)|unfold any; auto]].
  assert (Q : abs (World (set_at v (f w x) (w_views w)) (w_dicts w) (w_cur w) (w_obj w)) = abs w); [|rewrite Q; exact G].
  unfold abs. cbn [w_cur w_views w_dicts w_obj]. destruct (w_cur w) as [u|]; [|reflexivity]. rewrite set_at_other by congruence. reflexivity.
Qed.
Lemma stays_check v s : stays any v (w_check v s).
Proof.
  intros w. assert (Q : w_check v s w = match nth_error (w_views w) v with
    | Some x => (Ok tt, World (set_at v (View (v_data x) (sadd s (v_checked x)) (v_level x) (v_debug x)) (w_views w)) (w_dicts w) (w_cur w) (w_obj w)) | None => (Err AttributeError, w) end).
  { unfold w_check, bind, the_view, put_view, modify. destruct (nth_error (w_views w) v); reflexivity. }
  rewrite Q. exact (stays_put v (fun _ x => View (v_data x) (sadd s (v_checked x)) (v_level x) (v_debug x)) (fun _ _ => eq_refl) w).
Qed.
Lemma stays_options v : stays any v (w_set_owner_options v).
Proof.
  intros w. assert (Q : w_set_owner_options v w = match nth_error (w_views w) v with
    | Some x => (Ok tt, World (set_at v (View (v_data x) (v_checked x) (ec_level (o_ec (w_obj w))) (o_debug (w_obj w))) (w_views w)) (w_dicts w) (w_cur w) (w_obj w)) | None => (Err AttributeError, w) end).
  { unfold w_set_owner_options, bind, the_view, put_view, modify, get. destruct (nth_error (w_views w) v); reflexivity. }
  rewrite Q. exact (stays_put v (fun w x => View (v_data x) (v_checked x) (ec_level (o_ec (w_obj w))) (o_debug (w_obj w))) (fun _ _ => eq_refl) w).
Qed.
Lemma fine_parse s w : fine w -> ini_has_section i s = true -> fine (snd (w_parse_section K fs fuel s true true w)) /\ ext w (snd (w_parse_section K fs fuel s true true w)).
Proof.
  intros (SO & G) IN. destruct (parse_any K fs fuel s true true w SO) as (E & S1 & X1). split; [|exact X1]. split; [exact S1|].
  destruct (exec_op_good K fs i dname fuel WB F GP files (OParse s) _ G IN) as (_ & G1 & _). cbn [exec_op] in G1. unfold fmap, bind, ret in G1. rewrite E in G1.
  destruct (w_parse_section K fs fuel s true true w) as [[r|e] w1]; exact G1.
Qed.
Lemma stays_owner_parse v s : ini_has_section i s = true -> stays any v (w_owner_parse K fs fuel s).
Proof.
  intros IN. apply stays_bind with any; [|intros; apply stays_ret; exact Logic.I]. intros w J L N. destruct (fine_parse s w J IN) as (J1 & X1). split; [exact J1|]. split; [exact X1|unfold any; auto].
Qed.
Ltac go := repeat first [apply stays_ret; exact Logic.I | apply stays_raise | apply stays_view | apply stays_contents | apply stays_check | apply stays_options | (apply stays_owner_parse; assumption)
  | (apply stays_bind with any; [|intros ? _])].
Lemma stays_owner v s force : ini_has_section i s = true -> stays any v (w_parse_owner (w_owner_parse K fs fuel) v s force).
Proof. intros IN. unfold w_parse_owner. apply stays_bind with any; [go|intros x _]. destruct (negb (str_mem s (v_checked x)) || force); go. Qed.
Lemma stays_has v s : ini_has_section i s = true -> stays any v (w_has_section fs (w_owner_parse K fs fuel) v s).
Proof.
  intros IN. unfold w_has_section. apply stays_bind with (fun j => j = i); [apply stays_cpd|intros j ->]. apply stays_bind with any; [|intros _ _; go].
  rewrite IN. apply stays_bind with any; [go|intros x _]. destruct (str_mem s (v_checked x)); [go|apply stays_owner; exact IN].
Qed.
Lemma stays_dict v s : stays any v (w_dict v s).
Proof. unfold w_dict. apply stays_bind with any; [go|intros x _]. destruct (dget s (v_data x)); go. Qed.
Lemma stays_item v s : ini_has_section i s = true -> stays any v (w_getitem K fs fuel v s).
Proof. intros IN. unfold w_getitem. apply stays_bind with any; [apply stays_has; exact IN|intros [] _]; [apply stays_dict|go]. Qed.
Lemma stays_has_option v s k : ini_has_section i s = true -> stays any v (w_has_option K fs fuel v s k).
Proof.
  intros IN. unfold w_has_option. apply stays_bind with any; [apply stays_owner; exact IN|intros _ _]. apply stays_bind with any; [go|intros x _]. destruct (dget s (v_data x)); go.
Qed.
Lemma stays_get v s k : ini_has_section i s = true -> stays any v (w_get K fs fuel v s k).
Proof.
  intros IN. unfold w_get. apply stays_bind with any; [go|intros x _]. apply stays_bind with any; [destruct (str_mem s (v_checked x)); [go|apply stays_owner; exact IN]|intros _ _].
  apply stays_bind with any; [apply stays_has; exact IN|intros [] _]; [|go]. destruct k as [k|].
  - apply stays_bind with any; [apply stays_has_option; exact IN|intros [] _]; [|go]. apply stays_bind with any; [apply stays_dict|intros a _]. apply stays_bind with any; [go|intros d _].
    destruct (dget k d); go.
  - apply stays_bind with any; [apply stays_dict|intros a _]. go.
Qed.
Lemma stays_any {A} (P : A -> Prop) v h : stays P v h -> stays any v h.
Proof. intros H w J L N. destruct (H w J L N) as (A1 & A2 & _). split; [exact A1|]. split; [exact A2|unfold any; auto]. Qed.
Lemma stays_sections v p f : stays any v (w_sections K fs fuel v p f).
Proof.
  unfold w_sections, w_keys. destruct p; [|exact (stays_any _ _ _ (stays_keys v))].
  apply stays_bind with (fun l => forall s, In s l -> ini_has_section i s = true); [apply stays_keys|intros l IN]. apply stays_bind with any; [|intros _ _; exact (stays_any _ _ _ (stays_keys v))].
  induction l as [|s l IH]; cbn [w_for_each]; [go|]. apply stays_bind with any; [apply stays_owner; apply IN; now left|intros _ _]. apply IH. intros t T. apply IN. now right.
Qed.

Lemma fine_data w : fine w -> fine (snd (w_data w)).
Proof.
  intros (SO & G). destruct (data_ext w SO) as (S1 & _ & E). split; [exact S1|]. rewrite E. destruct (get_edata_inv K fs i dname _ True files _ G) as (d & o' & Q & G1 & _).
  rewrite Q. exact (go_inv _ _ _ _ _ _ _ _ _ G1).
Qed.
Lemma fine_call v c op (w : world) : fine w -> w_cur w = Some v -> calls v c op -> in_file K i dname op -> fine (snd (w_exec K fs fuel c w)).
Proof.
  intros (SO & G) C CA IN. destruct (call_same fuel v c op w SO C CA) as (_ & E & S1 & _). split; [exact S1|]. rewrite <- E.
  exact (proj1 (proj2 (exec_op_good K fs i dname fuel WB F GP files op _ G IN))).
Qed.
Lemma fine_view (w : world) v c h : w_exec K fs fuel c = (the_view v ;; h) -> (exists op, calls v c op /\ in_file K i dname op) -> stays any v h -> fine w -> fine (snd (w_exec K fs fuel c w)).
Proof.
  intros E (op & CA & IN) ST J. destruct (Nat.lt_ge_cases v (length (w_views w))) as [L|L].
  - assert (D : w_cur w = Some v \/ w_cur w <> Some v) by (destruct (w_cur w) as [u|]; [destruct (Nat.eq_dec u v); [left|right]; congruence|right; discriminate]).
    destruct D as [C|N]; [eapply fine_call; eauto|]. rewrite E. unfold bind, the_view. destruct (nth_error (w_views w) v); [|exact J]. exact (proj1 (ST w J L N)).
  - rewrite E. unfold bind, the_view. destruct (nth_error (w_views w) v) eqn:Q; [|exact J]. exfalso. assert (v < length (w_views w)) by (apply nth_error_Some; congruence). lia.
Qed.
Lemma fine_exec c (w : world) : reads K i dname c -> fine w -> fine (snd (w_exec K fs fuel c w)).
Proof.
  intros R J. destruct c; cbn [reads] in R; try contradiction.
  - cbn [w_exec]. unfold bind, ret. pose proof (fine_data w J) as H. destruct (w_data w) as [[u|e] w1]; exact H.
  - cbn [w_exec]. unfold bind, ret. pose proof (proj1 (fine_parse s w J R)) as H. destruct (w_parse_section K fs fuel s true true w) as [[u|e] w1]; exact H.
  - destruct J as (SO & G). cbn [w_exec]. unfold bind, ret, on_obj, set_level, modify. cbn [snd]. split; [exact (proj1 (keeps_on (set_level z) w SO))|].
    rewrite abs_with. exact (proj1 (proj2 (exec_op_good K fs i dname fuel WB F GP files (OLevel z) _ G R))).
  - destruct J as (SO & G). cbn [w_exec]. unfold bind, ret, on_obj, set_debug_level, modify. cbn [snd]. split; [exact (proj1 (keeps_on (set_debug_level z) w SO))|].
    rewrite abs_with. exact (proj1 (proj2 (exec_op_good K fs i dname fuel WB F GP files (ODebug z) _ G Logic.I))).
  - eapply fine_view; [reflexivity| | |exact J]; [exists (OItem s); split; [constructor|exact R]|]. apply stays_bind with any; [apply stays_item; exact R|intros; go].
  - eapply fine_view; [reflexivity| | |exact J]; [exists (OGet s k); split; [constructor|exact R]|]. apply stays_bind with any; [apply stays_get; exact R|intros; go].
  - eapply fine_view; [reflexivity| | |exact J]; [exists (OHasSection s); split; [constructor|exact R]|]. apply stays_bind with any; [apply stays_has; exact R|intros; go].
  - eapply fine_view; [reflexivity| | |exact J]; [exists (OHasOption s k); split; [constructor|exact R]|]. apply stays_bind with any; [apply stays_has_option; exact R|intros; go].
  - eapply fine_view; [reflexivity| | |exact J]; [|apply stays_bind with any; [apply stays_sections|intros; go]].
    destruct parse; [destruct force|]; eexists; (split; [constructor|exact Logic.I]).
  - exact J.
Qed.
Lemma fine_run l : forall w : world, Forall (reads K i dname) l -> fine w -> fine (w_run K fs fuel l w).
Proof. induction l as [|c l IH]; intros w R J; cbn [w_run]; [exact J|]. inversion R; subst. apply IH; [assumption|]. now apply fine_exec. Qed.
End R.

Theorem program_answers i dname fuel : well_behaved K -> length (ini_sections i) + 3 <= fuel -> all_parsable K i dname ->
  forall (w : world) o, sound w -> looks_like w o -> opened K fs i dname o -> forall l, Forall (reads K i dname) l ->
  forall v c op, w_cur (w_run K fs fuel l w) = Some v -> calls v c op -> in_file K i dname op ->
  let w1 := w_run K fs fuel l w in exists a, answers K i dname (level_of (w_obj w1)) op a /\ same_reply (snd (w_exec K fs fuel c w1)) (fst (w_exec K fs fuel c w1)) a.
Proof.
  intros WB F GP w o SO LO OP l R v c op C CA IN. cbv zeta. apply (looks_abs w o SO) in LO. subst o. destruct (opened_inv K fs i dname (abs w) OP) as (files & G).
  destruct (fine_run i dname fuel WB F GP files l w R (conj SO G)) as (S1 & G1). set (w1 := w_run K fs fuel l w) in *.
  destruct (call_same fuel v c op w1 S1 C CA) as (SR & _). eexists. split; [|exact SR].
  exact (proj1 (exec_op_good K fs i dname fuel WB F GP files op (abs w1) G1 IN)).
Qed.
Theorem present_view fuel v c op (w : world) o : sound w -> w_cur w = Some v -> looks_like w o -> calls v c op ->
  let w' := snd (w_exec K fs fuel c w) in
  same_reply w' (fst (w_exec K fs fuel c w)) (fst (exec_op K fs fuel op o)) /\ looks_like w' (snd (exec_op K fs fuel op o)) /\ sound w' /\ w_cur w' = Some v.
Proof.
  intros SO C LO CA. apply (looks_abs w o SO) in LO. subst o. destruct (call_same fuel v c op w SO C CA) as (A & B & S1 & C1). cbv zeta. split; [exact A|]. split; [|auto]. now apply looks_abs.
Qed.
Theorem first_view fuel s (w : world) o : sound w -> looks_like w o -> let w' := snd (w_exec K fs fuel (CParse s) w) in
  same_reply w' (fst (w_exec K fs fuel (CParse s) w)) (fst (exec_op K fs fuel (OParse s) o)) /\ looks_like w' (snd (exec_op K fs fuel (OParse s) o)) /\ sound w'.
Proof.
  intros SO LO. apply (looks_abs w o SO) in LO. subst o. destruct (parse_any K fs fuel s true true w SO) as (E & S1 & _). cbn [w_exec exec_op]. unfold fmap, bind, ret. rewrite E.
  destruct (w_parse_section K fs fuel s true true w) as [[r|e] w1]; cbn [fst snd] in *; (split; [constructor|]; split; [now apply looks_abs|exact S1]).
Qed.
Theorem given_dict fuel v s c (w w' : world) a : c = CItem v s \/ c = CGet v s None \/ (exists force, c = CAdd v s force) ->
  w_exec K fs fuel c w = (Ok (PDict a), w') -> holds w' v s a.
Proof.
  intros [->|[->|(force & ->)]]; cbn [w_exec].
  - unfold bind at 1. destruct (the_view v w) as [[x|e] w1]; [|discriminate]. unfold bind, ret. destruct (w_getitem K fs fuel v s w1) as [[b|e] w2] eqn:E; [|discriminate].
    intros Q. injection Q as <- <-. eapply item_held; eauto.
  - unfold bind at 1. destruct (the_view v w) as [[x|e] w1]; [|discriminate]. unfold bind, ret. destruct (w_get K fs fuel v s None w1) as [[[b|b]|e] w2] eqn:E; try discriminate.
    intros Q. injection Q as <- <-. eapply get_held; eauto.
  - unfold w_add, bind, the_view, ret. destruct (nth_error (w_views w) v) as [x|] eqn:E; [|discriminate].
    destruct (if force then None else dget s (v_data x)) as [b|] eqn:G; intros Q; injection Q as <- <-.
    + destruct force; [discriminate|]. exists x. auto.
    + eexists. cbn [w_views]. rewrite set_at_same by (apply nth_error_Some; congruence). split; [reflexivity|]. cbn [v_data]. apply dget_dset_same.
Qed.
Theorem new_delimiters fuel ds (w : world) : let w' := snd (w_exec K fs fuel (CDelims ds) w) in
  (forall a, detached w' a) /\ (forall a d, contains w' a d <-> contains w a d) /\ (forall v s a, holds w' v s a <-> holds w v s a) /\
  exists v w'', w_exec K fs fuel CData w' = (Ok (PView v), w'') /\
    nth_error (w_views w) v = None /\ w_cur w'' = Some v /\ forall s a, ~ holds w'' v s a.
Proof.
  cbn [w_exec]. unfold w_set_delims, bind, ret. cbn [snd]. split; [intros a v s _; discriminate|]. split; [reflexivity|]. split; [reflexivity|].
  unfold w_data. cbn [w_cur w_views w_dicts w_obj]. eexists. eexists. split; [reflexivity|]. split; [apply nth_error_None; lia|]. split; [reflexivity|].
  intros s a (x & E & G). cbn [w_views] in E. rewrite nth_error_app2, Nat.sub_diag in E by lia. injection E as <-. discriminate.
Qed.
End P.
