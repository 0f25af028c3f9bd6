(** * The parser performs exactly the steps of the walk. *)
From Coq Require Import String NArith ZArith List Bool Lia Arith.
Import ListNotations.
From Verif Require Import PyBase PyFacts Shlex IniView IniRead ExcControl Debuggable Cpe SpecText SpecFile FileProofs SpecWalk MeaningProofs.
Local Open Scope sm_scope.

Scheme walk_mut := Minimality for walk Sort Prop
  with walk_options_mut := Minimality for walk_options Sort Prop.
Combined Scheme walk_both_shown from walk_mut, walk_options_mut.
Theorem walk_both {Sh Us : Type} (K : pyclass Sh Us) (i : ini) (P : list str -> str -> list (ev Sh Us) -> nat -> Prop)
  (Q : list str -> str -> list (str * res (option str)) -> list (ev Sh Us) -> nat -> Prop) :
  (forall path s, ini_items i s = None -> P path s [Missing s] 1) ->
  (forall path s items evs n, ini_items i s = Some items -> walk_options K i (s :: path) s items evs n ->
     Q (s :: path) s items evs n -> P path s (Enter s :: evs ++ [Leave s]) (S n)) ->
  (forall path s, Q path s [] [] 0) ->
  (forall path s item rest e evs n, meaning K s item (MStep e) -> walk_options K i path s rest evs n ->
     Q path s rest evs n -> Q path s (item :: rest) (e :: evs) n) ->
  (forall path s item rest t h k v evs1 n1 evs2 n2, meaning K s item (MUse t h k v) -> ~ In t path ->
     walk K i path t evs1 n1 -> P path t evs1 n1 ->
     walk_options K i path s rest evs2 n2 -> Q path s rest evs2 n2 ->
     Q path s (item :: rest) (UseIn s t h k v :: evs1 ++ UseOut s t h k v :: evs2) (Nat.max n1 n2)) ->
  (forall path s item rest t h k v evs n, meaning K s item (MUse t h k v) -> In t path ->
     walk_options K i path s rest evs n -> Q path s rest evs n ->
     Q path s (item :: rest) (Cycle s t h k v :: evs) n) ->
  (forall path s evs n, walk K i path s evs n -> P path s evs n) /\
  (forall path s items evs n, walk_options K i path s items evs n -> Q path s items evs n).
Proof. intros A B C D E F. apply walk_both_shown; auto; intros; filed; eauto. Qed.

Section Refine.
Context {Sh Us : Type} (K : pyclass Sh Us) (fs : str -> option str) (i : ini).
Notation ev := (ev Sh Us).
Notation obj := (obj Sh Us).
Notation ctx := (ctx Sh Us).

(** ** Effect of one step *)
Definition put_plain (root k : str) (v : option str) : SM obj unit :=
  d <- get_edata ;;
  (if dmem root (d_data d) then ret tt else data_add_section root false) ;;
  d <- get_edata ;;
  match ed_put root k v d with
  | None => raise KeyError
  | Some d' => put_edata d'
  end.

Definition hp_of (root : str) (h : opinfo) (k : str) (v : option str) : hparams :=
  Hp root (Some k, v) (h_op h) (h_params h) v (h_name h).

(** Logging of an option that names an operation, and the ambiguity event. *)
Definition begin_op (h : opinfo) (k : str) (v : option str) : SM obj unit :=
  log (LKeyValue k v) ;;
  log (LOperation (h_op h) (h_params h)) ;;
  if h_amb h then event $"SERIOUS" AmbiguousHandlerError else ret tt.

Definition exec_hook (root s name : str) : SM ctx unit :=
  match find_attr K name with
  | None => raise AttributeError
  | Some a =>
      match a with
      | AUse => decorated (hp_named root name) (raise IndexError)
      | AUser Decorated f => decorated (hp_named root name) (user_body f s (hp_named root name))
      | AUser _ f => user_body f s (hp_named root name) ;; ret tt
      | ANone | AObj => raise TypeError
      end
  end.

Definition exec_ev (root : str) (e : ev) : SM ctx unit :=
  match e with
  | Enter s =>
      lift (log (LSecEntry s)) ;; lift (get_cpd fs) ;;
      lift (data_add_section s false) ;; proc_add s
  | Leave s => proc_remove s ;; lift (log (LSecExit s))
  | Missing s =>
      lift (log (LSecEntry s)) ;; lift (get_cpd fs) ;; lift get_files ;; raise KeyError
  | Plain s w k v =>
      lift (log (LKeyValue k v)) ;;
      (match w with
       | None => ret tt
       | Some (op, ps) => lift (log (LOperation op ps))
       end) ;;
      lift (put_plain root k v) ;;
      lift (log (LHEntry $"_generic_option_handler" (Some k, v))) ;;
      lift (log (LHExit $"_generic_option_handler" (Some k, v)))
  | Call s h kind f k v =>
      lift (begin_op h k v) ;;
      match kind with
      | Decorated => decorated (hp_of root h k v) (user_body f s (hp_of root h k v))
      | _ => user_body f s (hp_of root h k v) ;; ret tt
      end
  | UseIn s t h k v =>
      lift (begin_op h k v) ;; lift (log (LHEntry (h_name h) (Some k, v)))
  | UseOut s t h k v => lift (log (LHExit (h_name h) (Some k, v)))
  | Cycle s t h k v =>
      lift (begin_op h k v) ;; lift (log (LHEntry (h_name h) (Some k, v))) ;;
      lift (log (LCycle s (h_op h))) ;; lift (log (LHExit (h_name h) (Some k, v))) ;;
      lift get_files ;; lift (event $"WARNING" ValueError) ;;
      lift (log (LHExit (h_name h) (Some k, v)))
  | Stop s (StopValue e) => raise e
  | Stop s (StopKey k v e) => lift (log (LKeyValue k v)) ;; raise e
  | Stop s (StopUse h k v) =>
      lift (begin_op h k v) ;; lift (log (LHEntry (h_name h) (Some k, v))) ;; raise IndexError
  | Stop s (StopObj h k v) => lift (begin_op h k v) ;; raise TypeError
  | Hook s name => exec_hook root s name
  end.

Fixpoint exec (root : str) (evs : list ev) : SM ctx unit :=
  match evs with
  | [] => ret tt
  | e :: evs' => exec_ev root e ;; exec root evs'
  end.

Lemma exec_app root a b c :
  exec root (a ++ b) c = (exec root a ;; exec root b) c.
Proof.
  revert c. induction a as [|e a IH]; intros c; cbn [app exec]; auto.
  unfold bind. destruct (exec_ev root e c) as [[u|x] c1]; auto.
  rewrite IH. reflexivity.
Qed.

(** ** The meaning relation is the function the parser computes *)
Lemma undash_normalize w : undash w = normalize_op w.
Proof. reflexivity. Qed.

Lemma normalize_idem w : normalize_op (normalize_op w) = normalize_op w.
Proof.
  unfold normalize_op, replace_char. rewrite map_map. apply map_ext. intros c.
  destruct (N.eqb c 45) eqn:E; auto. now rewrite E.
Qed.

Lemma handler_of_fun op r r' : handler_of K op r -> handler_of K op r' -> r = r'.
Proof. intros [] []; congruence. Qed.

Lemma handler_of_total op : exists r, handler_of K op r.
Proof.
  destruct (has_attr K (public_name op)) as [a|] eqn:A;
  destruct (has_attr K (private_name op)) as [b|] eqn:B; eexists.
  - eapply ho_both; eauto.
  - eapply ho_public; eauto.
  - eapply ho_private; eauto.
  - eapply ho_none; eauto.
Qed.

Lemma handler_of_not_none op name amb : ~ handler_of K op (Some (name, ANone, amb)).
Proof.
  intros H. inversion H; subst; unfold has_attr in *;
  match goal with X : match ?y with _ => _ end = Some ANone |- _ =>
    destruct y as [[]|]; discriminate end.
Qed.

Lemma meaning_total s item : exists m, meaning K s item m.
Proof.
  assert (C : exists m, cmeaning K s item m); [|destruct C as (m & C); exists m; now apply meaning_iff].
  destruct item as [k0 [v0|e]]; [|eexists; constructor].
  destruct (shlex_split (strip_ws k0)) as [[|w ps]|e] eqn:E.
  - eexists; now apply c_key_empty.
  - destruct (op_word K w) eqn:W; [|eexists; eapply c_noword; eauto].
    destruct (handler_of_total (undash w)) as [[[[name a] amb]|] H].
    + destruct a as [|kind f| |].
      * destruct ps as [|t ps]; eexists; [eapply c_use_bad|eapply c_use]; eauto.
      * eexists; eapply c_user; eauto.
      * exfalso. eapply handler_of_not_none; eauto.
      * eexists; eapply c_obj; eauto.
    + eexists; eapply c_plain; eauto.
  - eexists; eapply c_key_err; eauto.
Qed.

Lemma meaning_fun s item m m' : meaning K s item m -> meaning K s item m' -> m = m'.
Proof.
  intros H H'. apply meaning_iff in H, H'. inversion H; subst; inversion H'; subst; try congruence;
  repeat match goal with
  | A : shlex_split ?x = _, B : shlex_split ?x = _ |- _ => rewrite A in B; inversion B; subst; clear B
  | A : handler_of K ?x ?r, B : handler_of K ?x ?r' |- _ =>
      pose proof (handler_of_fun _ _ _ A B) as EE; inversion EE; subst; clear B
  end; try congruence.
Qed.

(** [_locate_handler_method] computes [handler_of]. *)
Lemma locate_handler_spec op r (o : obj) :
  handler_of K op r -> normalize_op op = op ->
  locate_handler K op o =
  match r with
  | Some (name, a, amb) =>
      ((if amb then event $"SERIOUS" AmbiguousHandlerError else ret tt) ;;
       ret (Some (name, a))) o
  | None => (Ok None, o)
  end.
Proof.
  intros H N. unfold locate_handler. rewrite N.
  change (locate_class_method K) with (has_attr K).
  fold (public_name op) (private_name op).
  inversion H; subst; repeat match goal with X : has_attr K _ = _ |- _ => rewrite X; clear X end;
    reflexivity.
Qed.

(** ** Good contexts: the file is loaded and the root is marked as checked *)
Definition good (root : str) (c : ctx) : Prop :=
  o_cpd (x_obj c) = Some i /\
  exists d, o_edata (x_obj c) = Some d /\ str_mem root (d_checked d) = true.

Definition goodo (root : str) (o : obj) : Prop :=
  o_cpd o = Some i /\ exists d, o_edata o = Some d /\ str_mem root (d_checked d) = true.

Lemma get_cpd_loaded (o : obj) : o_cpd o = Some i -> get_cpd fs o = (Ok i, o).
Proof. intros H. unfold get_cpd. now rewrite H. Qed.

(** [preserves P m]: [m] keeps the invariant, whether or not it raises. *)
Definition keeps {S A} (P : S -> Prop) (m : SM S A) : Prop :=
  forall s, P s -> P (snd (m s)).

Lemma keeps_ret {S A} (P : S -> Prop) (a : A) : keeps P (ret a).
Proof. intros s H. exact H. Qed.
Lemma keeps_raise {S A} (P : S -> Prop) e : keeps P (@raise S A e).
Proof. intros s H. exact H. Qed.
Lemma keeps_bind {S A B} (P : S -> Prop) (m : SM S A) (k : A -> SM S B) :
  keeps P m -> (forall a, keeps P (k a)) -> keeps P (bind m k).
Proof.
  intros H1 H2 s Hs. unfold bind. specialize (H1 s Hs).
  destruct (m s) as [[a|e] s']; cbn in *; auto. now apply H2.
Qed.

Lemma keeps_log (P : obj -> Prop) e :
  (forall o l, P o -> P (set_log l o)) -> keeps P (log e).
Proof. intros H o Ho. unfold log. cbn. now apply H. Qed.

Lemma keeps_event (P : obj -> Prop) ev e :
  (forall o l, P o -> P (add_out l o)) -> keeps P (event ev e).
Proof.
  intros H o Ho. unfold event. destruct (ec_event (o_ec o) ev (XClass e) true). cbn. now apply H.
Qed.

Lemma keeps_get_files (P : obj -> Prop) : keeps P get_files.
Proof. intros o Ho. unfold get_files. now destruct (o_files o). Qed.

Lemma keeps_lift {A} (P : obj -> Prop) (m : SM obj A) :
  keeps P m -> keeps (fun c : ctx => P (x_obj c)) (lift m).
Proof.
  intros H c Hc. unfold lift. specialize (H _ Hc). destruct (m (x_obj c)). cbn in *. auto.
Qed.

Lemma keeps_modify {S} (P : S -> Prop) (f : S -> S) :
  (forall s, P s -> P (f s)) -> keeps P (modify f).
Proof. intros H s Hs. cbn. auto. Qed.

Lemma keeps_check_rval (P : obj -> Prop) r :
  (forall o l, P o -> P (add_out l o)) -> keeps P (check_rval r).
Proof.
  intros H. unfold check_rval. destruct r as [z|].
  - destruct (z =? 0)%Z; [apply keeps_ret|]. destruct (z <=? 10)%Z; now apply keeps_event.
  - now apply keeps_event.
Qed.

Lemma keeps_get_cpd root : keeps (goodo root) (get_cpd fs).
Proof. intros o H. rewrite get_cpd_loaded; [exact H|apply H]. Qed.

Lemma keeps_data_add_section root s :
  keeps (goodo root) (data_add_section s false).
Proof.
  intros o (Hc & d & Hd & Hm). unfold data_add_section, bind, get_edata. rewrite Hd.
  cbn. split; auto. eexists; split; [reflexivity|]. unfold ed_add_section.
  destruct (_ || _); auto.
Qed.

Lemma keeps_put_plain root r k v : keeps (goodo root) (put_plain r k v).
Proof.
  unfold put_plain. apply keeps_bind.
  - intros o (Hc & d & Hd & Hm). unfold get_edata. rewrite Hd. cbn. split; eauto.
  - intros d0. apply keeps_bind.
    + destruct (dmem _ _); [apply keeps_ret|apply keeps_data_add_section].
    + intros _ o (Hc & d & Hd & Hm). unfold bind, get_edata. rewrite Hd. unfold ed_put.
      destruct (dget r (d_data d)); (split; [exact Hc|]).
      * eexists; split; [reflexivity|exact Hm].
      * exists d; split; assumption.
Qed.

Lemma keeps_begin_op root h k v : keeps (goodo root) (begin_op h k v).
Proof.
  unfold begin_op.
  apply keeps_bind; [apply keeps_log; intros o l H; exact H|intros _].
  apply keeps_bind; [apply keeps_log; intros o l H; exact H|intros _].
  destruct (h_amb h); [apply keeps_event; intros o l H; exact H|apply keeps_ret].
Qed.

Lemma keeps_user_body root f s hp : keeps (good root) (user_body f s hp).
Proof.
  intros c H. unfold user_body. destruct (f s hp (x_sh c) (o_user (x_obj c))) as [[r sh] us].
  exact H.
Qed.

Lemma keeps_lift_good root {A} (m : SM obj A) :
  keeps (goodo root) m -> keeps (good root) (lift m).
Proof. apply keeps_lift. Qed.

Lemma keeps_lift_log root e : keeps (good root) (lift (log e)).
Proof. apply keeps_lift_good, keeps_log. intros o l H; exact H. Qed.

Lemma keeps_decorated root hp body :
  keeps (good root) body -> keeps (good root) (decorated hp body).
Proof.
  intros H. unfold decorated.
  apply keeps_bind; [apply keeps_lift_log|intros _].
  apply keeps_bind; [exact H|intros r].
  apply keeps_bind; [apply keeps_lift_log|intros _].
  apply keeps_lift_good, keeps_check_rval. intros o l G; exact G.
Qed.

Ltac keeps_tac :=
  repeat first
    [ apply keeps_ret | apply keeps_raise | apply keeps_lift_log
    | apply keeps_user_body | apply keeps_decorated
    | apply keeps_lift_good, keeps_begin_op
    | apply keeps_lift_good, keeps_data_add_section
    | apply keeps_lift_good, keeps_put_plain
    | apply keeps_lift_good, keeps_get_files
    | apply keeps_lift_good, keeps_get_cpd
    | apply keeps_lift_good, keeps_event; intros ? ? GG; exact GG
    | apply keeps_bind; [|intros ?] ].

Lemma keeps_exec_hook root r s name : keeps (good root) (exec_hook r s name).
Proof.
  unfold exec_hook. destruct (find_attr K name) as [[|[] f| |]|]; keeps_tac.
Qed.

Lemma keeps_exec_ev root r e : keeps (good root) (exec_ev r e).
Proof.
  destruct e as [s|s|s|s w k v|s h kind f k v|s t h k v|s t h k v|s t h k v|s []|s name];
    cbn [exec_ev]; try (keeps_tac; fail).
  - keeps_tac. intros c H. exact H.
  - keeps_tac. intros c H. unfold proc_remove. destruct (str_mem s (x_proc c)); exact H.
  - keeps_tac. destruct w as [[]|]; keeps_tac.
  - keeps_tac. destruct kind; keeps_tac.
  - apply keeps_exec_hook.
Qed.

Lemma keeps_exec root r evs : keeps (good root) (exec r evs).
Proof.
  induction evs as [|e evs IH]; cbn [exec]; [apply keeps_ret|].
  apply keeps_bind; [apply keeps_exec_ev|intros _; exact IH].
Qed.

(** ** [set] inside a parse never re-enters the parser *)
Lemma data_set_plain root reparse k v (o : obj) :
  goodo root o -> data_set fs reparse root k v o = put_plain root k v o.
Proof.
  intros (Hc & d & Hd & Hm). unfold data_set, data_has_section, put_plain.
  unfold bind at 1 2. rewrite get_cpd_loaded by auto.
  destruct (ini_has_section i root).
  - unfold bind, get_edata. rewrite Hd, Hm. cbn. rewrite Hd. reflexivity.
  - unfold bind, get_edata, ret. rewrite Hd. reflexivity.
Qed.

(** ** One option *)
Lemma lift_log_eq e (c : ctx) :
  lift (log e) c = (Ok tt, Ctx (snd (log e (x_obj c))) (x_sh c) (x_proc c)).
Proof. reflexivity. Qed.

Lemma lift_ret {A} (a : A) (c : ctx) : lift (ret a) c = (Ok a, c).
Proof. now destruct c. Qed.

Lemma lift_bind {A B} (m : SM obj A) (k : A -> SM obj B) (c : ctx) :
  lift (bind m k) c = bind (lift m) (fun a => lift (k a)) c.
Proof.
  unfold lift, bind. destruct (m (x_obj c)) as [[a|e] o]; reflexivity.
Qed.

Lemma keeps_run {S A} (P : S -> Prop) (m : SM S A) s r s' :
  keeps P m -> P s -> m s = (r, s') -> P s'.
Proof. intros H Hs E. specialize (H s Hs). now rewrite E in H. Qed.

(** Rewriting of monadic programs run in a state. *)
Definition logc (e : logent) (c : ctx) : ctx :=
  Ctx (snd (log e (x_obj c))) (x_sh c) (x_proc c).
Lemma bind_log {A} e (k : unit -> SM ctx A) (c : ctx) :
  bind (lift (log e)) k c = k tt (logc e c).
Proof. reflexivity. Qed.
Lemma logc_proc e (c : ctx) : x_proc (logc e c) = x_proc c.
Proof. reflexivity. Qed.
Lemma bind_lift_ret {A B} (a : A) (k : A -> SM ctx B) (c : ctx) :
  bind (lift (ret a)) k c = k a c.
Proof. unfold bind. now rewrite lift_ret. Qed.
Lemma bind_ret {S A B} (a : A) (k : A -> SM S B) s : bind (ret a) k s = k a s.
Proof. reflexivity. Qed.
Lemma bind_raise {S A B} e (k : A -> SM S B) s : bind (raise e) k s = raise e s.
Proof. reflexivity. Qed.
Lemma bind_of_ok {S A B} (a : A) (k : A -> SM S B) s : bind (of_res (Ok a)) k s = k a s.
Proof. reflexivity. Qed.
Lemma bind_of_err {S A B} e (k : A -> SM S B) s : bind (of_res (Err e)) k s = raise e s.
Proof. reflexivity. Qed.
Lemma bind_get {S B} (k : S -> SM S B) s : bind get k s = k s s.
Proof. reflexivity. Qed.

Lemma bind_first {S A B} (m m' : SM S A) (k : A -> SM S B) s :
  m s = m' s -> bind m k s = bind m' k s.
Proof. unfold bind. now intros ->. Qed.

Lemma bind_cpd {A} (k : ini -> SM ctx A) (c : ctx) :
  o_cpd (x_obj c) = Some i -> bind (lift (get_cpd fs)) k c = k i c.
Proof. intros H. unfold bind, lift. rewrite get_cpd_loaded by exact H. now destruct c. Qed.

Ltac sm :=
  repeat first [ rewrite bind_assoc | rewrite bind_log | rewrite bind_ret | rewrite bind_raise
               | rewrite bind_of_ok | rewrite bind_of_err | rewrite bind_get ];
  try reflexivity.

Section Item.
Variable rec : str -> bool -> bool -> SM ctx unit.
Variable reparse : str -> SM obj unit.

Lemma launch_generic_spec root hp k v (c : ctx) :
  good root c -> hp_root hp = root -> hp_raw hp = (Some k, v) ->
  exists hp', hp_root hp' = root /\
  launch_generic fs reparse hp k v c =
  (lift (put_plain root k v) ;;
   lift (log (LHEntry $"_generic_option_handler" (Some k, v))) ;;
   lift (log (LHExit $"_generic_option_handler" (Some k, v))) ;; ret hp') c.
Proof.
  intros G R W. eexists (Hp (hp_root hp) (hp_raw hp) (hp_op hp) (hp_params hp) (hp_value hp)
                $"_generic_option_handler"). split; [exact R|].
  unfold launch_generic. apply bind_ext.
  - unfold lift. rewrite R. rewrite data_set_plain; auto.
  - intros u c1 _. unfold decorated. cbn [hp_name hp_raw]. rewrite W. reflexivity.
Qed.

(** The generic shape of an option that names an operation. *)
Lemma process_op hp s k0 v0 w ps r (c : ctx) :
  shlex_split (strip_ws k0) = Ok (w :: ps) -> op_word K w = true ->
  handler_of K (undash w) r ->
  process_item K fs rec reparse s hp (k0, Ok v0) c =
  let k := strip_ws k0 in let v := clean_value v0 in
  match r with
  | Some (name, a, amb) =>
      let h := OpInfo (undash w) ps name amb in
      (lift (begin_op h k v) ;;
       call_attr rec a s (hp_of (hp_root hp) h k v) ;;
       ret (hp_of (hp_root hp) h k v)) c
  | None =>
      (lift (log (LKeyValue k v)) ;; lift (log (LOperation (undash w) ps)) ;;
       launch_generic fs reparse
         (Hp (hp_root hp) (Some k, v) (undash w) ps v (hp_name hp)) k v) c
  end.
Proof.
  intros E W H. unfold process_item. cbn [fst snd].
  unfold bind at 1, of_res at 1. cbv zeta.
  replace (strip_ws (strip_ws k0)) with (strip_ws k0) by (symmetry; apply strip_idem).
  unfold bind at 1. rewrite lift_log_eq.
  unfold bind at 1. unfold of_res. rewrite E, W. cbn [negb].
  change (normalize_op w) with (undash w).
  unfold bind at 1. rewrite lift_log_eq. cbn [hp_root hp_raw hp_value hp_name hp_op hp_params].
  unfold bind at 1. unfold lift at 1.
  rewrite (locate_handler_spec _ r) by (auto; apply normalize_idem).
  destruct r as [[[name a] amb]|].
  - unfold hp_of. cbn [h_op h_params h_name].
    unfold bind at 3. unfold begin_op. rewrite lift_bind. unfold bind at 3. rewrite lift_log_eq.
    rewrite lift_bind. unfold bind at 3. rewrite lift_log_eq.
    cbn [h_amb x_obj x_sh x_proc h_op h_params]. unfold lift at 1. cbn [x_obj x_sh x_proc].
    destruct amb.
    + unfold bind at 1. destruct (event _ _ _) as [[]]; reflexivity.
    + reflexivity.
  - reflexivity.
Qed.

Lemma process_step root s hp item e (c : ctx) :
  meaning K s item (MStep e) -> good root c -> hp_root hp = root ->
  exists hp', hp_root hp' = root /\
  process_item K fs rec reparse s hp item c = (exec_ev root e ;; ret hp') c.
Proof.
  intros M G R. meaning_cases M; clear M.
  1: { exists hp. auto. }
  1,2,3:
    unfold process_item; cbn [fst snd]; cbv zeta;
    replace (strip_ws (strip_ws k0)) with (strip_ws k0) by (symmetry; apply strip_idem);
    repeat match goal with H : shlex_split _ = _ |- _ => rewrite H; clear H end.
  - exists hp. split; auto.
  - exists hp. split; auto.
  - match goal with H : op_word K _ = _ |- _ => rename H into W end. sm. rewrite W. cbn [negb].
    match goal with |- context [launch_generic fs reparse ?hp0 ?k ?v ?cc] =>
      destruct (launch_generic_spec (hp_root hp) hp0 k v cc) as (hp' & R' & E); auto end.
    exists hp'. split; auto. rewrite E. cbn [exec_ev]. sm.
  - erewrite process_op by eassumption. cbv zeta iota beta. sm.
    match goal with |- context [launch_generic fs reparse ?hp0 ?k ?v ?cc] =>
      destruct (launch_generic_spec (hp_root hp) hp0 k v cc) as (hp' & R' & E); auto end.
    exists hp'. split; auto. rewrite E. cbn [exec_ev]. sm.
  - erewrite process_op by eassumption. cbv zeta iota beta.
    eexists. split; [|cbn [exec_ev call_attr]; rewrite bind_assoc; apply bind_ext; [reflexivity|]].
    2: { intros u c1 _. destruct kind; reflexivity. }
    reflexivity.
  - erewrite process_op by eassumption. cbv zeta iota beta.
    exists hp. split; auto. cbn [exec_ev]. rewrite bind_assoc. apply bind_ext; auto.
  - erewrite process_op by eassumption. cbv zeta iota beta.
    exists hp. split; auto. cbn [exec_ev]. rewrite bind_assoc. apply bind_ext; auto.
Qed.

Lemma process_use root s hp item t h k v (c : ctx) :
  meaning K s item (MUse t h k v) -> hp_root hp = root ->
  exists hp', hp_root hp' = root /\
  process_item K fs rec reparse s hp item c =
  if str_mem t (x_proc c)
  then (exec_ev root (Cycle s t h k v) ;; ret hp') c
  else (exec_ev root (UseIn s t h k v) ;; rec t true false ;;
        exec_ev root (UseOut s t h k v) ;; ret hp') c.
Proof.
  intros M R. meaning_cases M; clear M.
  erewrite process_op by eassumption. cbv zeta iota beta.
  eexists (hp_of (hp_root hp) (OpInfo (undash w) (t :: ps) name amb) (strip_ws k0) (clean_value v0)).
  split; [reflexivity|]. cbn [call_attr exec_ev].
  destruct (str_mem t (x_proc c)) eqn:T.
  - sm. apply bind_ext; auto. intros u c1 E1.
    assert (P1 : x_proc c1 = x_proc c).
    { unfold lift in E1. destruct (begin_op _ _ _ (x_obj c)). now inversion E1. }
    unfold decorated, use_body. cbn [hp_of hp_params h_params hp_name hp_raw]. sm.
    rewrite logc_proc, P1, T. cbn [negb]. sm. apply bind_ext; auto. intros fl c2 _. sm.
  - sm. apply bind_ext; auto. intros u c1 E1.
    assert (P1 : x_proc c1 = x_proc c).
    { unfold lift in E1. destruct (begin_op _ _ _ (x_obj c)). now inversion E1. }
    unfold decorated, use_body. cbn [hp_of hp_params h_params hp_name hp_raw]. sm.
    rewrite logc_proc, P1, T. cbn [negb]. sm.
Qed.
End Item.

(** ** Processed sections *)
Definition same_proc (c : ctx) (path : list str) : Prop :=
  forall x, str_mem x (x_proc c) = str_mem x path.

Lemma lift_proc {A} (m : SM obj A) (c : ctx) : x_proc (snd (lift m c)) = x_proc c.
Proof. unfold lift. now destruct (m (x_obj c)). Qed.

Definition keeps_proc {A} (m : SM ctx A) : Prop := forall c, x_proc (snd (m c)) = x_proc c.

Lemma keeps_proc_lift {A} (m : SM obj A) : keeps_proc (lift m).
Proof. intros c. apply lift_proc. Qed.
Lemma keeps_proc_ret {A} (a : A) : keeps_proc (ret a).
Proof. intros c. reflexivity. Qed.
Lemma keeps_proc_raise {A} e : keeps_proc (@raise ctx A e).
Proof. intros c. reflexivity. Qed.
Lemma keeps_proc_bind {A B} (m : SM ctx A) (k : A -> SM ctx B) :
  keeps_proc m -> (forall a, keeps_proc (k a)) -> keeps_proc (bind m k).
Proof.
  intros H1 H2 c. unfold bind. specialize (H1 c). destruct (m c) as [[a|e] c1]; auto.
  rewrite H2. exact H1.
Qed.
Lemma keeps_proc_user f s hp : keeps_proc (user_body f s hp).
Proof.
  intros c. unfold user_body. now destruct (f s hp (x_sh c) (o_user (x_obj c))) as [[r sh] us].
Qed.
Lemma keeps_proc_decorated hp body : keeps_proc body -> keeps_proc (decorated hp body).
Proof.
  intros H. unfold decorated. apply keeps_proc_bind; [apply keeps_proc_lift|intros _].
  apply keeps_proc_bind; [exact H|intros r].
  apply keeps_proc_bind; [apply keeps_proc_lift|intros _]. apply keeps_proc_lift.
Qed.
Ltac kp :=
  repeat first [ apply keeps_proc_ret | apply keeps_proc_raise | apply keeps_proc_lift
               | apply keeps_proc_user | apply keeps_proc_decorated
               | apply keeps_proc_bind; [|intros ?] ].

Lemma keeps_proc_exec_hook r s name : keeps_proc (exec_hook r s name).
Proof. unfold exec_hook. destruct (find_attr K name) as [[|[] f| |]|]; kp. Qed.

Lemma keeps_proc_exec_ev r e :
  match e with Enter _ | Leave _ => False | _ => True end -> keeps_proc (exec_ev r e).
Proof.
  destruct e as [s|s|s|s w k v|s h kind f k v|s t h k v|s t h k v|s t h k v|s []|s name];
    intros HH; try contradiction; cbn [exec_ev]; try (kp; fail).
  - kp. destruct w as [[]|]; kp.
  - kp. destruct kind; kp.
  - apply keeps_proc_exec_hook.
Qed.

Lemma exec_enter_proc r s (c c' : ctx) u :
  exec_ev r (Enter s) c = (Ok u, c') -> x_proc c' = sadd s (x_proc c).
Proof.
  cbn [exec_ev]. intros H. apply bind_Ok in H as (a1 & c1 & E1 & H).
  apply bind_Ok in H as (a2 & c2 & E2 & H). apply bind_Ok in H as (a3 & c3 & E3 & H).
  pose proof (keeps_proc_lift (log (LSecEntry s)) c) as P1. rewrite E1 in P1.
  pose proof (keeps_proc_lift (get_cpd fs) c1) as P2. rewrite E2 in P2.
  pose proof (keeps_proc_lift (data_add_section s false) c2) as P3. rewrite E3 in P3.
  cbn in *. unfold proc_add, modify in H. inversion H; subst. cbn. congruence.
Qed.

Lemma exec_leave_proc r s (c c' : ctx) u :
  exec_ev r (Leave s) c = (Ok u, c') -> x_proc c' = sremove s (x_proc c).
Proof.
  cbn [exec_ev]. intros H. apply bind_Ok in H as (a1 & c1 & E1 & H).
  unfold proc_remove in E1. destruct (str_mem s (x_proc c)); inversion E1; subst.
  pose proof (keeps_proc_lift (log (LSecExit s)) (Ctx (x_obj c) (x_sh c) (sremove s (x_proc c)))) as P.
  rewrite H in P. exact P.
Qed.

(** A completed walk leaves the processed set as it was. *)
Lemma exec_walk_proc root :
  (forall path s evs n, walk K i path s evs n ->
     ~ In s path ->
     forall c c' u, same_proc c path -> exec root evs c = (Ok u, c') -> same_proc c' path) /\
  (forall path s items evs n, walk_options K i path s items evs n ->
     forall c c' u, same_proc c path -> exec root evs c = (Ok u, c') -> same_proc c' path).
Proof.
  apply walk_both.
  - intros path s Hi Hp c c' u Hc H. cbn [exec] in H.
    apply bind_Ok in H as (a1 & c1 & E1 & H). cbn [exec_ev] in E1.
    apply bind_Ok in E1 as (a2 & c2 & E2 & E1). apply bind_Ok in E1 as (a3 & c3 & E3 & E1).
    apply bind_Ok in E1 as (a4 & c4 & E4 & E1). discriminate.
  - intros path s items evs n Hi Hw IH Hp c c' u Hc H. cbn [exec] in H.
    apply bind_Ok in H as (a1 & c1 & E1 & H). rewrite exec_app in H.
    apply bind_Ok in H as (a2 & c2 & E2 & H). cbn [exec] in H.
    apply bind_Ok in H as (a3 & c3 & E3 & H). inversion H; subst.
    apply exec_enter_proc in E1.
    assert (S1 : same_proc c1 (s :: path)).
    { intros x. rewrite E1, str_mem_sadd, Hc. reflexivity. }
    specialize (IH _ _ _ S1 E2). apply exec_leave_proc in E3.
    intros x. rewrite E3, str_mem_sremove, IH. cbn [str_mem existsb].
    destruct (str_eqb_spec x s) as [->|N]; cbn [negb andb orb]; auto.
    symmetry. now apply str_mem_not_In.
  - intros path s c c' u Hc H. inversion H; subst. exact Hc.
  - intros path s item rest e evs n M _ IH c c' u Hc H. cbn [exec] in H.
    apply bind_Ok in H as (a1 & c1 & E1 & H). eapply IH; [|exact H].
    pose proof (keeps_proc_exec_ev root e) as P.
    assert (HE : match e with Enter _ | Leave _ => False | _ => True end)
      by (inversion M; subst; auto).
    specialize (P HE c). rewrite E1 in P. cbn in P. intros x. rewrite P. apply Hc.
  - intros path s item rest t h k v evs1 n1 evs2 n2 M Ht W1 IH1 W2 IH2 c c' u Hc H.
    cbn [exec] in H. apply bind_Ok in H as (a1 & c1 & E1 & H).
    rewrite exec_app in H. apply bind_Ok in H as (a2 & c2 & E2 & H). cbn [exec] in H.
    apply bind_Ok in H as (a3 & c3 & E3 & H).
    pose proof (keeps_proc_exec_ev root (UseIn s t h k v) I c) as P1. rewrite E1 in P1.
    pose proof (keeps_proc_exec_ev root (UseOut s t h k v) I c2) as P2. rewrite E3 in P2.
    cbn [snd] in *.
    eapply IH2; [|exact H]. intros x. rewrite P2. eapply IH1; [exact Ht| |exact E2].
    intros y. rewrite P1. apply Hc.
  - intros path s item rest t h k v evs n M Ht W IH c c' u Hc H.
    cbn [exec] in H. apply bind_Ok in H as (a1 & c1 & E1 & H).
    pose proof (keeps_proc_exec_ev root (Cycle s t h k v) I c) as P1. rewrite E1 in P1.
    cbn [snd] in *. eapply IH; [|exact H]. intros x. rewrite P1. apply Hc.
Qed.

(** ** The main refinement *)

(** No [use] step enters [root] (which would start the initialisation again). *)
Definition no_use_of (root : str) (evs : list ev) : Prop :=
  forall s h k v, ~ In (UseIn s root h k v) evs.

Lemma no_use_of_cons root e evs :
  no_use_of root (e :: evs) -> no_use_of root evs.
Proof. intros H s h k v I. apply (H s h k v). now right. Qed.
Lemma no_use_of_app root a b :
  no_use_of root (a ++ b) -> no_use_of root a /\ no_use_of root b.
Proof.
  intros H. split; intros s h k v I; apply (H s h k v), in_or_app; auto.
Qed.

Lemma keeps_Ok {A} root (m : SM ctx A) c a c' :
  keeps (good root) m -> good root c -> m c = (Ok a, c') -> good root c'.
Proof. intros H G E. specialize (H c G). now rewrite E in H. Qed.

Lemma psr_walk root :
  (forall path s evs n, walk K i path s evs n ->
     ~ In s path -> no_use_of root evs ->
     forall fuel init c, n <= fuel -> good root c -> same_proc c path ->
       (init = true -> s <> root) ->
       psr K fs fuel root s init false c = exec root evs c) /\
  (forall path s items evs n, walk_options K i path s items evs n ->
     no_use_of root evs ->
     forall fuel reparse hp c, n <= fuel -> good root c -> same_proc c path ->
       hp_root hp = root ->
       (run_items K fs (psr K fs fuel root) reparse s hp items ;; ret tt) c = exec root evs c).
Proof.
  apply walk_both.
  - intros path s Hi Hp HN fuel init c Hf G P Hr. destruct fuel as [|fuel]; [lia|].
    cbn [psr]. unfold psr_body.
    assert (E : init && str_eqb s root = false).
    { destruct init; auto. cbn. apply str_eqb_neq. auto. }
    rewrite E. cbn [exec exec_ev]. sm. rewrite !bind_cpd by apply G. rewrite Hi. sm.
  - intros path s items evs n Hi W IH Hp HN fuel init c Hf G P Hr.
    destruct fuel as [|fuel]; [lia|]. cbn [psr]. unfold psr_body.
    assert (E : init && str_eqb s root = false).
    { destruct init; auto. cbn. apply str_eqb_neq. auto. }
    rewrite E. cbn [exec exec_ev]. sm. rewrite !bind_cpd by apply G. rewrite Hi.
    sm. apply bind_ext; auto. intros u1 c1 E1. sm.
    apply bind_ext; auto. intros u2 c2 E2. rewrite exec_app.
    apply no_use_of_cons in HN. apply no_use_of_app in HN as [HN _].
    assert (G2 : good root c2).
    { eapply (keeps_Ok root (exec_ev root (Enter s))); [apply keeps_exec_ev|exact G|].
      cbn [exec_ev]. sm. rewrite bind_cpd by apply G. unfold bind at 1. rewrite E1. exact E2. }
    assert (P2 : same_proc c2 (s :: path)).
    { assert (EE : exec_ev root (Enter s) c = (Ok u2, c2)).
      { cbn [exec_ev]. sm. rewrite bind_cpd by apply G. unfold bind at 1. rewrite E1. exact E2. }
      apply exec_enter_proc in EE. intros x. rewrite EE, str_mem_sadd, P. reflexivity. }
    assert (IH' := IH HN fuel (fun s0 : str => parse_section_with K (psr K fs fuel) s0 true true;; ret tt)
                     (new_hp root) c2 ltac:(lia) G2 P2 eq_refl).
    rewrite (bind_first _ _ _ c2 (eq_sym IH')).
    rewrite bind_assoc. apply bind_ext; auto. intros hp' c3 E3. sm. cbn [andb exec exec_ev]. sm.
  - intros path s HN fuel reparse hp c Hf G P R. reflexivity.
  - intros path s item rest e evs n M W IH HN fuel reparse hp c Hf G P R.
    cbn [run_items exec]. rewrite bind_assoc.
    destruct (process_step (psr K fs fuel root) reparse root s hp item e c M G R) as (hp' & R' & E).
    rewrite (bind_first _ _ _ c E), bind_assoc. apply bind_ext; auto. intros u c1 E1.
    rewrite bind_ret. apply IH; auto.
    + eapply no_use_of_cons; eauto.
    + eapply keeps_Ok; [apply keeps_exec_ev|exact G|exact E1].
    + pose proof (keeps_proc_exec_ev root e) as PP.
      assert (HE : match e with Enter _ | Leave _ => False | _ => True end)
        by (inversion M; subst; auto).
      specialize (PP HE c). rewrite E1 in PP. cbn in PP. intros x. rewrite PP. apply P.
  - intros path s item rest t h k v evs1 n1 evs2 n2 M Ht W1 IH1 W2 IH2 HN fuel reparse hp c Hf G P R.
    cbn [run_items exec]. rewrite bind_assoc.
    destruct (process_use (psr K fs fuel root) reparse root s hp item t h k v c M R) as (hp' & R' & E).
    assert (T : str_mem t (x_proc c) = false) by (rewrite P; now apply str_mem_not_In).
    rewrite T in E. rewrite (bind_first _ _ _ c E). repeat rewrite bind_assoc.
    apply bind_ext; auto. intros u c1 E1. rewrite exec_app. rewrite bind_assoc.
    assert (G1 : good root c1) by (eapply keeps_Ok; [apply keeps_exec_ev|exact G|exact E1]).
    pose proof (keeps_proc_exec_ev root (UseIn s t h k v) I c) as P1. rewrite E1 in P1. cbn [snd] in P1.
    assert (P1' : same_proc c1 path) by (intros x; rewrite P1; apply P).
    assert (HT : t <> root).
    { intros ->. apply (HN s h k v). now left. }
    apply no_use_of_cons in HN. apply no_use_of_app in HN as [HN1 HN2].
    assert (IH1' := IH1 Ht HN1 fuel true c1 ltac:(lia) G1 P1' (fun _ => HT)).
    rewrite (bind_first _ _ _ c1 IH1'). apply bind_ext; auto. intros u2 c2 E2. cbn [exec].
    assert (G2 : good root c2) by (eapply keeps_Ok; [apply keeps_exec|exact G1|exact E2]).
    rewrite bind_assoc. apply bind_ext; auto. intros u3 c3 E3. rewrite bind_ret.
    apply IH2; auto.
    + eapply no_use_of_cons; eauto.
    + lia.
    + eapply keeps_Ok; [apply keeps_exec_ev|exact G2|exact E3].
    + pose proof (keeps_proc_exec_ev root (UseOut s t h k v) I c2) as P3. rewrite E3 in P3. cbn [snd] in P3.
      intros x. rewrite P3. eapply (proj1 (exec_walk_proc root)); eauto.
  - intros path s item rest t h k v evs n M Ht W IH HN fuel reparse hp c Hf G P R.
    cbn [run_items exec]. rewrite bind_assoc.
    destruct (process_use (psr K fs fuel root) reparse root s hp item t h k v c M R) as (hp' & R' & E).
    assert (T : str_mem t (x_proc c) = true) by (rewrite P; now apply str_mem_In).
    rewrite T in E. rewrite (bind_first _ _ _ c E), bind_assoc.
    apply bind_ext; auto. intros u c1 E1. rewrite bind_ret. apply IH; auto.
    + eapply no_use_of_cons; eauto.
    + eapply keeps_Ok; [apply keeps_exec_ev|exact G|exact E1].
    + pose proof (keeps_proc_exec_ev root (Cycle s t h k v) I c) as PP.
      rewrite E1 in PP. cbn in PP. intros x. rewrite PP. apply P.
Qed.
End Refine.

Ltac sm :=
  repeat first [ rewrite bind_assoc | rewrite bind_log | rewrite bind_ret | rewrite bind_raise
               | rewrite bind_of_ok | rewrite bind_of_err | rewrite bind_get ];
  try reflexivity.
