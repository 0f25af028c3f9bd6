(** * Views and dicts: the same runs as without them (C96). *)
From Coq Require Import String NArith ZArith List Bool Arith Lia.
Import ListNotations.
From Verif Require Import PyBase PyFacts Shlex IniView IniRead ExcControl Debuggable Cpe Views SpecViews ViewsProofs.
Local Open Scope string_scope.
Local Open Scope list_scope.

Definition map_res {A B} (f : A -> B) (r : res A) : res B := match r with Ok a => Ok (f a) | Err e => Err e end.
Lemma map_res_id {A} (r : res A) : map_res (fun x => x) r = r.
Proof. now destruct r. Qed.

Section P.
Context {Sh Us : Type}.
Notation obj := (obj Sh Us).
Notation world := (world (Sh := Sh) (Us := Us)).
Notation wctx := (wctx (Sh := Sh) (Us := Us)).
Notation ctx := (ctx Sh Us).
Variable K : pyclass Sh Us.
Variable fs : str -> option str.

(** ** Methods that have nothing to do with the data *)
Definition blind {A} (m : SM obj A) : Prop := forall o e, m (set_edata e o) = (fst (m o), set_edata e (snd (m o))).
Lemma blind_ret {A} (a : A) : blind (ret a).
Proof. intros o e. reflexivity. Qed.
Lemma blind_raise {A} x : blind (raise x : SM obj A).
Proof. intros o e. reflexivity. Qed.
Lemma blind_bind {A B} (m : SM obj A) (k : A -> SM obj B) : blind m -> (forall a, blind (k a)) -> blind (bind m k).
Proof.
  intros H H' o e. unfold bind. rewrite H. destruct (m o) as [[a|x] o1]; cbn [fst snd]; [apply H'|reflexivity].
Qed.
Lemma blind_event ev x : blind (event ev x : SM obj unit).
Proof. intros o e. unfold event. cbn [o_ec set_edata]. destruct (ec_event (o_ec o) ev (XClass x) true). reflexivity. Qed.
Lemma blind_log l : blind (log l : SM obj unit).
Proof. intros o e. reflexivity. Qed.
Lemma blind_files : blind (get_files : SM obj _).
Proof. intros o e. unfold get_files. cbn [o_files set_edata]. destruct (o_files o); reflexivity. Qed.
Lemma blind_cpd : blind (get_cpd fs : SM obj _).
Proof.
  intros o e. unfold get_cpd. cbn [o_cpd set_edata]. destruct (o_cpd o); [reflexivity|]. cbn [o_files set_cpd o_delims o_intname set_edata].
  destruct (o_files o) as [[|p fl]|]; try reflexivity. destruct (forallb (file_exists fs) (p :: fl)); [|reflexivity].
  destruct (read_files (o_delims o) (file_texts fs (p :: fl)) (Ini [] [] (o_intname o))) as [[[]|x] j]; [reflexivity|]. destruct x; reflexivity.
Qed.
Lemma blind_rval r : blind (check_rval r : SM obj unit).
Proof. unfold check_rval. destruct r as [z|]; [|apply blind_event]. destruct (z =? 0)%Z; [apply blind_ret|]. destruct (z <=? 10)%Z; apply blind_event. Qed.
Lemma blind_locate op : blind (locate_handler K op : SM obj _).
Proof.
  unfold locate_handler. cbv zeta. apply blind_bind; [|intros _].
  - destruct (locate_class_method K ($"_handler_" ++ normalize_op op)), (locate_class_method K ($"handler_" ++ normalize_op op)); try apply blind_ret. apply blind_event.
  - destruct (locate_class_method K ($"handler_" ++ normalize_op op)), (locate_class_method K ($"_handler_" ++ normalize_op op)); apply blind_ret.
Qed.
Lemma blind_set_log l : blind (modify (set_log l) : SM obj unit).
Proof. intros o e. reflexivity. Qed.
Lemma blind_set_last l : blind (modify (set_last l) : SM obj unit).
Proof. intros o e. reflexivity. Qed.
Lemma blind_keys : blind (data_keys fs : SM obj _).
Proof. apply blind_bind; [apply blind_cpd|intros i; apply blind_ret]. Qed.

Section V.
Variable v0 : nat.
Definition inv (w : world) : Prop := sound w /\ w_cur w = Some v0.

(** ** The runs in step *)
Definition sim {S T A B} (ab : S -> T) (wd : S -> world) (f : S -> A -> B) (h : SM S A) (m : SM T B) : Prop := forall s, inv (wd s) ->
  m (ab s) = (map_res (f (snd (h s))) (fst (h s)), ab (snd (h s))) /\ inv (wd (snd (h s))) /\ ext (wd s) (wd (snd (h s))).
Definition simw {A} (h : SM world A) (m : SM obj A) : Prop := sim abs (fun w => w) (fun _ x => x) h m.
Definition cabs (c : wctx) : ctx := Ctx (abs (wx_w c)) (wx_sh c) (wx_proc c).
Definition simc {A} (h : SM wctx A) (m : SM ctx A) : Prop := sim cabs wx_w (fun _ x => x) h m.

Section G.
Context {S T : Type} (ab : S -> T) (wd : S -> world).
Lemma sim_ret {A B} (f : S -> A -> B) a b : (forall s, f s a = b) -> sim ab wd f (ret a) (ret b).
Proof. intros E s I. unfold ret. cbn [fst snd map_res]. rewrite E. split; [reflexivity|]. split; [exact I|apply ext_refl]. Qed.
Lemma sim_raise {A B} (f : S -> A -> B) e : sim ab wd f (raise e) (raise e).
Proof. intros s I. cbn. split; [reflexivity|]. split; [exact I|apply ext_refl]. Qed.
Lemma sim_res {A} (r : res A) : sim ab wd (fun _ x => x) (of_res r) (of_res r).
Proof. intros s I. unfold of_res. cbn [fst snd]. rewrite map_res_id. split; [reflexivity|]. split; [exact I|apply ext_refl]. Qed.
Lemma sim_bind {A B C} (f : S -> B -> C) (h : SM S A) (m : SM T A) k k' :
  sim ab wd (fun _ x => x) h m -> (forall a, sim ab wd f (k a) (k' a)) -> sim ab wd f (bind h k) (bind m k').
Proof.
  intros H H' s I. destruct (H s I) as (E & I1 & X). unfold bind. rewrite E. destruct (h s) as [[a|e] s1]; cbn [fst snd map_res] in *.
  - destruct (H' a s1 I1) as (E2 & I2 & X2). rewrite E2. split; [reflexivity|]. split; [exact I2|eapply ext_trans; eauto].
  - split; [reflexivity|]. split; [exact I1|exact X].
Qed.
Lemma sim_seq {A A' B C} (f : S -> B -> C) (g : S -> A -> A') (h : SM S A) (m : SM T A') k k' :
  sim ab wd g h m -> sim ab wd f k k' -> sim ab wd f (bind h (fun _ => k)) (bind m (fun _ => k')).
Proof.
  intros H H' s I. destruct (H s I) as (E & I1 & X). unfold bind. rewrite E. destruct (h s) as [[a|e] s1]; cbn [fst snd map_res] in *.
  - destruct (H' s1 I1) as (E2 & I2 & X2). rewrite E2. split; [reflexivity|]. split; [exact I2|eapply ext_trans; eauto].
  - split; [reflexivity|]. split; [exact I1|exact X].
Qed.
Lemma sim_get {B C} (f : S -> B -> C) k k' : (forall c, sim ab wd f (k c) (k' (ab c))) -> sim ab wd f (bind get k) (bind get k').
Proof. intros H s I. unfold bind, get. exact (H s s I). Qed.
End G.

Lemma abs_with (w : world) (o : obj) : abs (World (w_views w) (w_dicts w) (w_cur w) o) = set_edata (o_edata (abs w)) o.
Proof. reflexivity. Qed.
Lemma sim_on {A} (m : SM obj A) : blind m -> simw (on_obj m) m.
Proof.
  intros H w I. unfold on_obj. assert (E : abs w = set_edata (o_edata (abs w)) (w_obj w)) by reflexivity. rewrite E, H. destruct (m (w_obj w)) as [r o] eqn:Q. cbn [fst snd].
  rewrite abs_with, map_res_id. split; [reflexivity|]. assert (S : still w (World (w_views w) (w_dicts w) (w_cur w) o)) by (repeat split).
  split; [split; [exact (still_sound _ _ S (proj1 I))|exact (proj2 I)]|exact (still_ext _ _ S)].
Qed.
Lemma sim_lift {A B} (f : world -> A -> B) (h : SM world A) (m : SM obj B) :
  sim abs (fun w => w) f h m -> sim cabs wx_w (fun c => f (wx_w c)) (wlift h) (lift m).
Proof.
  intros H c I. unfold wlift, lift. destruct (H (wx_w c) I) as (E & I1 & X). cbn [cabs x_obj x_sh x_proc]. rewrite E. destruct (h (wx_w c)) as [r w']. cbn [fst snd] in *.
  split; [reflexivity|]. split; [exact I1|exact X].
Qed.

(** ** The present view *)
Lemma cur_view w : inv w -> exists x, nth_error (w_views w) v0 = Some x /\ o_edata (abs w) = Some (data_in (w_dicts w) x).
Proof.
  intros (SO & C). destruct (nth_error (w_views w) v0) as [x|] eqn:E; [|apply nth_error_None in E; pose proof (proj1 SO _ C); lia].
  exists x. split; [reflexivity|]. cbn [abs o_edata set_edata]. unfold abs. cbn [o_edata set_edata]. rewrite C, E. reflexivity.
Qed.
Lemma get_edata_cur w x : inv w -> nth_error (w_views w) v0 = Some x -> get_edata (abs w) = (Ok (data_in (w_dicts w) x), abs w).
Proof. intros I E. destruct (cur_view w I) as (y & E' & Q). rewrite E in E'. injection E' as <-. unfold get_edata. now rewrite Q. Qed.
Lemma abs_put w x : inv w -> abs (World (set_at v0 x (w_views w)) (w_dicts w) (w_cur w) (w_obj w)) = set_edata (Some (data_in (w_dicts w) x)) (abs w).
Proof.
  intros (SO & C). unfold abs. cbn [w_cur w_views w_dicts w_obj]. rewrite C, set_at_same by (apply (proj1 SO); exact C). reflexivity.
Qed.
Lemma put_inv w x y : inv w -> nth_error (w_views w) v0 = Some x -> v_data y = v_data x -> inv (World (set_at v0 y (w_views w)) (w_dicts w) (w_cur w) (w_obj w)) /\
  ext w (World (set_at v0 y (w_views w)) (w_dicts w) (w_cur w) (w_obj w)).
Proof.
  intros (SO & C) E D. pose proof (put_still w v0 x y E D) as S. split; [split; [exact (still_sound _ _ S SO)|exact C]|exact (still_ext _ _ S)].
Qed.

Local Open Scope sm_scope.
(** Reading the view. *)
Lemma sim_view {B C} (f : world -> B -> C) k k' : (forall D x, sim abs (fun w => w) f (k x) (k' (data_in D x))) ->
  sim abs (fun w => w) f (x <- the_view v0 ;; k x) (d <- get_edata ;; k' d).
Proof.
  intros H w I. destruct (cur_view w I) as (x & E & _). unfold bind. rewrite (get_edata_cur w x I E). unfold the_view. rewrite E. exact (H (w_dicts w) x w I).
Qed.
Lemma sim_check s : sim abs (fun w => w) (fun _ x => x) (w_check v0 s) (d <- get_edata ;; put_edata (ed_check s d)).
Proof.
  intros w I. destruct (cur_view w I) as (x & E & _). unfold w_check, bind. rewrite (get_edata_cur w x I E). unfold the_view. rewrite E.
  unfold put_edata, put_view, modify. cbn [fst snd map_res]. rewrite abs_put by exact I. split; [reflexivity|].
  eapply put_inv; [exact I|exact E|reflexivity].
Qed.
Lemma sim_owner_options : simw (w_set_owner_options v0) set_owner_options.
Proof.
  intros w I. destruct (cur_view w I) as (x & E & _). unfold set_owner_options. rewrite (get_edata_cur w x I E).
  unfold w_set_owner_options, bind, the_view, get. rewrite E. unfold put_view, modify. cbn [fst snd map_res]. rewrite abs_put by exact I. split; [reflexivity|].
  eapply put_inv; [exact I|exact E|reflexivity].
Qed.
Lemma sim_add s : sim abs (fun w => w) (fun _ _ => tt) (w_add v0 s false) (data_add_section s false).
Proof.
  intros w I. destruct (cur_view w I) as (x & E & _). unfold w_add, data_add_section, bind. rewrite (get_edata_cur w x I E). unfold the_view. rewrite E.
  unfold put_edata, modify, ed_add_section. cbn [orb d_data data_in]. rewrite dmem_inside. unfold dmem. destruct (dget s (v_data x)) as [a|] eqn:G; cbn [negb].
  - unfold ret. cbn [fst snd map_res]. split; [|split; [exact I|apply ext_refl]]. f_equal. destruct (cur_view w I) as (y & E' & Q). rewrite E in E'. injection E' as <-.
    unfold abs in *. cbn [set_edata o_edata o_files o_cpd o_delims o_last o_ec o_debug o_log o_defname o_intname o_user o_out] in *. now rewrite Q.
  - cbn [fst snd map_res]. split; [|split].
    + f_equal. destruct I as (SO & C). unfold abs at 2. cbn [w_cur w_views w_dicts w_obj]. rewrite C, set_at_same by (apply (proj1 SO); exact C).
      unfold data_in. cbn [v_data v_checked v_level v_debug option_map d_checked d_level d_debug]. rewrite inside_new. reflexivity.
    + split; [exact (proj1 (add_sound w v0 x s (proj1 I) E))|exact (proj2 I)].
    + exact (add_ext w v0 x s (proj1 I) E G (proj2 I)).
Qed.
Lemma sim_put s k val : sim abs (fun w => w) (fun _ x => x) (a <- w_dict v0 s ;; w_put a k val)
  (d <- get_edata ;; match ed_put s k val d with None => raise KeyError | Some d' => put_edata d' end).
Proof.
  intros w I. destruct (cur_view w I) as (x & E & _). unfold w_dict, bind. rewrite (get_edata_cur w x I E). unfold the_view. rewrite E.
  unfold ed_put. cbn [d_data data_in]. rewrite dget_inside. destruct (dget s (v_data x)) as [a|] eqn:G; cbn [option_map].
  - assert (H : holds w v0 s a) by (exists x; auto). pose proof I as ((A & B & CC & D) & C). unfold ret, w_put, put_edata, modify. cbn [fst snd map_res]. split; [|split].
    + f_equal. unfold abs at 2. cbn [w_cur w_views w_dicts w_obj]. rewrite C, E. unfold data_in. cbn [option_map d_checked d_level d_debug]. rewrite (inside_put _ _ s); [reflexivity|exact G|eapply CC; eauto|eauto|].
      intros s' Q. assert (H' : holds w v0 s' a) by (exists x; auto). destruct (D _ _ _ _ _ H H') as (_ & ->). reflexivity.
    + split; [apply put_sound; exact (proj1 I)|exact C].
    + eapply put_ext; eauto.
  - unfold raise. cbn [fst snd map_res]. split; [reflexivity|]. split; [exact I|apply ext_refl].
Qed.
Lemma sim_data {B C} (f : world -> B -> C) k m : sim abs (fun w => w) f (k v0) m -> sim abs (fun w => w) f (v <- w_data ;; k v) m.
Proof. intros H w I. unfold bind, w_data. rewrite (proj2 I). exact (H w I). Qed.

Ltac go := repeat first
  [ apply (sim_ret _ _ (fun _ x => x)); reflexivity | apply sim_raise | apply sim_res | apply sim_on
  | apply blind_event | apply blind_log | apply blind_files | apply blind_cpd | apply blind_rval | apply blind_locate | apply blind_set_log | apply blind_set_last | apply blind_keys
  | assumption | apply (sim_lift (fun _ x => x)) | (apply sim_bind; [|intros ?]) ].

Section R.
Variables (h : str -> SM world unit) (m : str -> SM obj unit).
Hypothesis H : forall s, simw (h s) (m s).
Lemma sim_owner s force : simw (w_parse_owner h v0 s force) (parse_owner m s force).
Proof.
  unfold w_parse_owner, parse_owner. apply sim_view. intros D x. cbn [d_checked data_in]. destruct (negb (str_mem s (v_checked x)) || force); [|go].
  apply sim_bind; [apply sim_owner_options|intros _]. 
  assert (Q : forall o, bind get_edata (fun d => bind (put_edata (ed_check s d)) (fun _ => m s)) o = bind (bind get_edata (fun d => put_edata (ed_check s d))) (fun _ => m s) o).
  { intros o. unfold bind. destruct (get_edata o) as [[]]; reflexivity. }
  intros w I. rewrite Q. revert w I. change (simw (bind (w_check v0 s) (fun _ => h s)) (bind (bind get_edata (fun d => put_edata (ed_check s d))) (fun _ => m s))).
  apply sim_bind; [apply sim_check|intros _; apply H].
Qed.
Lemma sim_has s : simw (w_has_section fs h v0 s) (data_has_section fs m s).
Proof.
  unfold w_has_section, data_has_section. apply sim_bind; [go|intros i]. apply sim_bind.
  - destruct (ini_has_section i s); [|go]. apply sim_view. intros D x. cbn [d_checked data_in]. destruct (str_mem s (v_checked x)); [go|apply sim_owner].
  - intros _. apply sim_view. intros D x. cbn [d_data data_in]. rewrite dmem_inside. go.
Qed.
Lemma sim_set s k val : simw (w_set fs h v0 s k val) (data_set fs m s k val).
Proof.
  unfold w_set, data_set. apply sim_bind; [apply sim_has|intros b]. apply sim_bind; [|intros _; apply sim_put].
  destruct b; [go|]. intros w I. unfold bind. destruct (sim_add s w I) as (E & I1 & X). rewrite E. destruct (w_add v0 s false w) as [[a|e] w1]; cbn [fst snd map_res ret] in *; auto.
Qed.
End R.
Lemma sim_decorated hp (h : SM wctx (option Z)) m : simc h m -> simc (w_decorated hp h) (decorated hp m).
Proof. intros H. unfold w_decorated, decorated. go. Qed.
Lemma sim_user f sec hp : simc (w_user_body f sec hp) (user_body f sec hp).
Proof.
  intros c I. unfold w_user_body, user_body. cbn [cabs x_obj x_sh x_proc]. change (o_user (abs (wx_w c))) with (o_user (w_obj (wx_w c))).
  destruct (f sec hp (wx_sh c) (o_user (w_obj (wx_w c)))) as [[r sh] us]. cbn [fst snd wx_w]. rewrite map_res_id. split; [reflexivity|].
  assert (S : still (wx_w c) (World (w_views (wx_w c)) (w_dicts (wx_w c)) (w_cur (wx_w c)) (set_user us (w_obj (wx_w c))))) by (repeat split).
  split; [split; [exact (still_sound _ _ S (proj1 I))|exact (proj2 I)]|exact (still_ext _ _ S)].
Qed.

Section Rec.
Variables (h : str -> bool -> bool -> SM wctx unit) (m : str -> bool -> bool -> SM ctx unit).
Hypothesis H : forall s a b, simc (h s a b) (m s a b).
Variables (h' : str -> SM world unit) (m' : str -> SM obj unit).
Hypothesis H' : forall s, simw (h' s) (m' s).
Lemma sim_use sec hp : simc (w_use_body h sec hp) (use_body m sec hp).
Proof. unfold w_use_body, use_body. destruct (hp_params hp); [go|]. apply sim_get. intros c. cbn [cabs x_proc]. destruct (negb (str_mem s (wx_proc c))); go. apply H. Qed.
Lemma sim_attr a sec hp : simc (w_call_attr h a sec hp) (call_attr m a sec hp).
Proof.
  destruct a as [|[] f| |]; cbn [w_call_attr call_attr]; [apply sim_decorated, sim_use|apply sim_decorated, sim_user| | | |]; try solve [go];
  (apply sim_bind; [apply sim_user|intros _; go]).
Qed.
Lemma sim_named n sec hp : simc (w_call_named K h n sec hp) (call_named K m n sec hp).
Proof. unfold w_call_named, call_named. destruct (find_attr K n); [apply sim_attr|go]. Qed.
Lemma sim_generic hp k val : simc (w_launch_generic fs h' hp k val) (launch_generic fs m' hp k val).
Proof.
  unfold w_launch_generic, launch_generic. apply sim_bind; [apply (sim_lift (fun _ x => x)), sim_data, sim_set, H'|intros _].
  apply sim_bind; [apply sim_decorated; go|intros _; go].
Qed.
Lemma sim_item sec hp kv : simc (w_process_item K fs h h' sec hp kv) (process_item K fs m m' sec hp kv).
Proof.
  unfold w_process_item, process_item. apply sim_bind; [go|intros v1]. cbv zeta. apply sim_bind; [go|intros _]. apply sim_bind; [go|intros toks].
  destruct toks as [|t0 params]; [go|]. destruct (negb (op_word K t0)); [apply sim_generic|]. apply sim_bind; [go|intros _].
  apply sim_bind; [go|intros [[name a]|]]; [|apply sim_generic]. apply sim_bind; [apply sim_attr|intros _; go].
Qed.
Lemma sim_items sec l : forall hp, simc (w_run_items K fs h h' sec hp l) (run_items K fs m m' sec hp l).
Proof. induction l as [|kv l IH]; intros hp; cbn [w_run_items run_items]; [go|]. apply sim_bind; [apply sim_item|intros hp'; apply IH]. Qed.
Lemma sim_proc_add s : simc (w_proc_add s) (proc_add s).
Proof. intros c I. cbn. split; [reflexivity|]. split; [exact I|apply ext_refl]. Qed.
Lemma sim_proc_remove s : simc (w_proc_remove s) (proc_remove s).
Proof. intros c I. unfold w_proc_remove, proc_remove. cbn [cabs x_proc]. destruct (str_mem s (wx_proc c)); cbn; (split; [reflexivity|]; split; [exact I|apply ext_refl]). Qed.
Lemma sim_body root sec init fin : simc (w_psr_body K fs h h' root sec init fin) (psr_body K fs m m' root sec init fin).
Proof.
  unfold w_psr_body, psr_body. apply sim_bind.
  { destruct (init && str_eqb sec root); [|go]. apply sim_bind; [apply sim_named|intros _]. apply sim_bind; [go|intros i]. apply sim_get. intros c.
    cbn [cabs x_obj]. change (o_defname (abs (wx_w c))) with (o_defname (w_obj (wx_w c))). destruct (ini_has_section i (o_defname (w_obj (wx_w c)))); [apply H|go]. }
  intros _. apply sim_bind; [go|intros _]. apply sim_bind; [go|intros i]. destruct (ini_items i sec); [|go].
  eapply sim_seq; [apply (sim_lift (fun _ _ => tt)), sim_data, sim_add|]. apply sim_bind; [apply sim_proc_add|intros _]. apply sim_bind; [apply sim_items|intros _].
  apply sim_bind; [|intros _; apply sim_bind; [apply sim_proc_remove|intros _; go]].
  destruct (fin && str_eqb sec root); [apply sim_named|go].
Qed.
End Rec.

Lemma sim_root h m s init fin : (forall a b c d, simc (h a b c d) (m a b c d)) -> simw (w_parse_root K h s init fin) (parse_root K m s init fin).
Proof.
  intros H. unfold w_parse_root, parse_root. apply sim_data.
  set (p := fun o => match m s s init fin (Ctx o (k_empty K) []) with (Ok _, c) => (Ok (x_sh c), x_obj c) | (Err e, c) => (Err e, x_obj c) end).
  assert (Q : forall o, bind get_edata (fun d => bind (put_edata (ed_check s d)) (fun _ => p)) o = bind (bind get_edata (fun d => put_edata (ed_check s d))) (fun _ => p) o).
  { intros o. unfold bind. destruct (get_edata o) as [[]]; reflexivity. }
  intros w I. rewrite Q. revert w I. 
  match goal with |- forall w, _ -> bind ?a ?b (abs w) = (_ (fst (?h w)), _) /\ _ => change (simw h (bind a b)) end.
  apply sim_bind; [apply sim_check|intros _]. intros w I. destruct (H s s init fin (WCtx w (k_empty K) []) I) as (E & I1 & X). unfold p. cbn [cabs wx_w wx_sh wx_proc] in E. unfold cabs in E. cbn [wx_w wx_sh wx_proc] in E. rewrite E.
  destruct (h s s init fin (WCtx w (k_empty K) [])) as [[u|e] c]; cbn [fst snd map_res cabs x_sh x_obj] in *; auto.
Qed.
Lemma sim_with h m s init fin : (forall a b c d, simc (h a b c d) (m a b c d)) -> simw (w_parse_section_with K h s init fin) (parse_section_with K m s init fin).
Proof.
  intros H. unfold w_parse_section_with, parse_section_with. apply sim_bind; [go|intros _]. destruct (str_eqb s []); [go|].
  apply sim_bind; [apply sim_root, H|intros r]. apply sim_bind; [go|intros _; go].
Qed.
Lemma sim_psr fuel : forall root sec init fin, simc (w_psr K fs fuel root sec init fin) (psr K fs fuel root sec init fin).
Proof.
  induction fuel as [|f IH]; intros root sec init fin; cbn [w_psr psr]; [go|]. apply sim_body; [intros; apply IH|].
  intros s. apply sim_bind; [apply sim_with, IH|intros ?; go].
Qed.
Lemma sim_parse fuel s init fin : simw (w_parse_section K fs fuel s init fin) (parse_section_str K fs fuel s init fin).
Proof. apply sim_with, sim_psr. Qed.
Lemma sim_owner_parse fuel s : simw (w_owner_parse K fs fuel s) (owner_parse K fs fuel s).
Proof. unfold w_owner_parse, owner_parse. apply sim_bind; [apply sim_parse|intros ?; go]. Qed.

(** ** The methods of the view *)
Definition deref (w : world) (a : nat) : dict (option str) := nth a (w_dicts w) [].
Lemma sim_section s : sim abs (fun w => w) deref (w_dict v0 s) (data_section s).
Proof.
  intros w I. destruct (cur_view w I) as (x & E & _). unfold w_dict, data_section, bind. rewrite (get_edata_cur w x I E). unfold the_view. rewrite E.
  cbn [d_data data_in]. rewrite dget_inside. destruct (dget s (v_data x)) as [a|]; cbn; (split; [reflexivity|]; split; [exact I|apply ext_refl]).
Qed.
Lemma sim_has_section fuel s : simw (w_has_section fs (w_owner_parse K fs fuel) v0 s) (has_section K fs fuel s).
Proof. apply sim_has. intros t. apply sim_owner_parse. Qed.
Lemma sim_getitem fuel s : sim abs (fun w => w) deref (w_getitem K fs fuel v0 s) (getitem K fs fuel s).
Proof. unfold w_getitem, getitem. apply sim_bind; [apply sim_has_section|intros []]; [apply sim_section|apply sim_raise]. Qed.
Lemma sim_has_option fuel s k : simw (w_has_option K fs fuel v0 s k) (has_option K fs fuel s k).
Proof.
  unfold w_has_option, has_option. apply sim_bind; [apply sim_owner; intros; apply sim_owner_parse|intros _].
  intros w I. destruct (cur_view w I) as (x & E & _). unfold bind. rewrite (get_edata_cur w x I E). unfold the_view. rewrite E. cbn [d_data data_in]. rewrite dget_inside.
  destruct (dget s (v_data x)) as [a|]; cbn; (split; [reflexivity|]; split; [exact I|apply ext_refl]).
Qed.
Definition deref_got (w : world) (g : got_ref) : got := match g with GotDict a => GotSection (deref w a) | GotText t => GotValue t end.
Lemma sim_getting fuel s k : sim abs (fun w => w) deref_got (w_get K fs fuel v0 s k) (data_get K fs fuel s k).
Proof.
  unfold w_get, data_get. apply sim_view. intros D x. cbn [d_checked data_in].
  apply sim_bind; [destruct (str_mem s (v_checked x)); [go|apply sim_owner; intros; apply sim_owner_parse]|intros _].
  apply sim_bind; [apply sim_has_section|intros []]; [|apply sim_raise]. destruct k as [k|].
  - apply sim_bind; [apply sim_has_option|intros []]; [|apply sim_raise]. intros w I. unfold bind. destruct (sim_section s w I) as (E & I1 & X). rewrite E.
    destruct (w_dict v0 s w) as [[a|e] w1]; cbn [fst snd map_res w_contents] in *; [|auto]. change (nth a (w_dicts w1) []) with (deref w1 a).
    destruct (dget k (deref w1 a)); cbn; auto.
  - intros w I. unfold bind. destruct (sim_section s w I) as (E & I1 & X). rewrite E. destruct (w_dict v0 s w) as [[a|e] w1]; cbn [fst snd map_res] in *; auto.
Qed.
Lemma sim_keys : simw (w_keys fs) (data_keys fs).
Proof. exact (sim_on _ blind_keys). Qed.
Lemma sim_at {A B} (f : world -> A -> B) h m : sim abs (fun w => w) f h m -> sim abs (fun w => w) f (the_view v0 ;; h) m.
Proof. intros H w I. destruct (cur_view w I) as (x & E & _). unfold bind, the_view. rewrite E. exact (H w I). Qed.
Lemma sim_for_each (h : str -> SM world unit) m l : (forall s, simw (h s) (m s)) -> simw (w_for_each h l) (for_each m l).
Proof. intros H. induction l as [|x l IH]; cbn [w_for_each for_each]; [go|]. apply sim_bind; [apply H|intros _; apply IH]. Qed.
Lemma sim_sections fuel force : simw (w_sections K fs fuel v0 true force) (data_sections K fs fuel (if force then PStr $"force" else PBool true)).
Proof.
  assert (G : simw (w_sections K fs fuel v0 true force) (bind (data_keys fs) (fun l => bind (for_each (fun s => parse_owner (owner_parse K fs fuel) s force) l) (fun _ => data_keys fs)))).
  { unfold w_sections. apply sim_bind; [apply sim_keys|intros l]. apply sim_bind; [|intros _; apply sim_keys]. apply sim_for_each. intros s. apply sim_owner. intros; apply sim_owner_parse. }
  destruct force; exact G.
Qed.
Lemma sim_data_set fuel s k val : simw (w_set fs (w_owner_parse K fs fuel) v0 s k val) (data_set_user K fs fuel s k val).
Proof. apply sim_set. intros. apply sim_owner_parse. Qed.
End V.
End P.
