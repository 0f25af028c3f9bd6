(** * The texts do not change what happens (C94). *)
From Coq Require Import String NArith ZArith List Bool Lia.
Import ListNotations.
From Verif Require Import PyBase PyFacts Shlex IniView IniRead ExcControl Debuggable Cpe Errors Texts SpecTexts.
Local Open Scope string_scope.
Local Open Scope list_scope.

(** [t] with its texts forgotten is [m]. *)
Definition er {S A} (t : TM S A) (m : SM S A) : Prop := forall s, forget (t s) = m s.

Lemma er_ret {S A} (a : A) : er (tret a : TM S A) (ret a).
Proof. intros s. reflexivity. Qed.
Lemma er_raise {S A} e x : er (traise e x : TM S A) (raise e).
Proof. intros s. reflexivity. Qed.
Lemma er_of {S A} (m : SM S A) : er (tof m) m.
Proof. intros s. unfold tof, forget. destruct (m s) as [[a|e] s']; reflexivity. Qed.
Lemma er_bind {S A B} (t : TM S A) m (k : A -> TM S B) k' : er t m -> (forall a, er (k a) (k' a)) -> er (tbind t k) (bind m k').
Proof.
  intros H H' s. unfold tbind, bind. rewrite <- (H s). unfold forget at 2. destruct (t s) as [[[a|e x] s1] w]; cbn [unsaid]; [|reflexivity].
  rewrite <- (H' a s1). destruct (k a s1) as [[r s2] w']. reflexivity.
Qed.

(** A message is shown line by line. *)
Fixpoint cut (m : str) : list str :=
  match m with
  | [] => [[]]
  | c :: m => if N.eqb c 10 then [] :: cut m else match cut m with l :: ls => (c :: l) :: ls | [] => [[c]] end
  end.
Lemma join_cons sep (x : str) y l : join sep (x :: y :: l) = x ++ sep ++ join sep (y :: l).
Proof. reflexivity. Qed.
Lemma join_head sep c (x : str) l : join sep ((c :: x) :: l) = c :: join sep (x :: l).
Proof. destruct l; reflexivity. Qed.
Lemma cut_spec m : exists x l, cut m = x :: l /\ Forall (fun y => ~ In 10%N y) (x :: l) /\ m = join newline (x :: l) /\
  flat_map (fun c => if N.eqb c 10%N then newline ++ $"!!            : " else [c]) m = join (newline ++ $"!!            : ") (x :: l).
Proof.
  induction m as [|c m (x & l & E & F & J & K)]; [exists [], []; repeat split; [constructor; [tauto|constructor]]|].
  cbn [cut flat_map]. rewrite E. destruct (N.eqb_spec c 10) as [->|N].
  - exists [], (x :: l). split; [reflexivity|]. split; [constructor; [cbn; tauto|exact F]|]. rewrite !join_cons, <- J, <- K. split; reflexivity.
  - exists (c :: x), l. split; [reflexivity|]. inversion F; subst. split; [constructor; [cbn; intros [Q|Q]; [congruence|auto]|auto]|].
    rewrite !join_head, <- K. split; reflexivity.
Qed.
Lemma shown_warns m : warns m (shown_message m).
Proof.
  destruct (cut_spec m) as (x & l & _ & F & J & K). exists (x :: l). split; [exact F|]. split; [exact J|]. unfold shown_message, warning_lines. f_equal. exact K.
Qed.

Section E.
Context {Sh Us : Type}.
Notation obj := (obj Sh Us).
Notation ctx := (ctx Sh Us).
Variable K : pyclass Sh Us.
Variable fs : str -> option str.
Variables (cwd : str) (shown_files : list str -> str).

Lemma er_lift {A} (t : TM obj A) m : er t m -> er (tlift t) (lift m : SM ctx A).
Proof. intros H c. unfold tlift, lift. rewrite <- (H (x_obj c)). unfold forget. destruct (t (x_obj c)) as [[r o] w]. reflexivity. Qed.
Lemma er_event ev e x : er (tevent ev e x) (event ev e : SM obj unit).
Proof. intros o. unfold tevent, event. destruct (ec_event (o_ec o) ev (XClass e) true) as [[[]|e'] out]; reflexivity. Qed.
Lemma er_files : er tget_files (get_files : SM obj (list str)).
Proof. intros o. unfold tget_files, get_files. destruct (o_files o); reflexivity. Qed.
Lemma first_missing_iff fl : match first_missing fs fl with Some _ => forallb (file_exists fs) fl = false | None => forallb (file_exists fs) fl = true end.
Proof.
  unfold first_missing. induction fl as [|p fl IH]; [reflexivity|]. cbn [find forallb]. destruct (file_exists fs p); cbn [negb andb]; [exact IH|reflexivity].
Qed.
Lemma er_cpd : er (tget_cpd fs cwd) (get_cpd fs : SM obj ini).
Proof.
  intros o. unfold tget_cpd, get_cpd. destruct (o_cpd o); [reflexivity|]. cbn [o_files set_cpd o_delims o_intname]. destruct (o_files o) as [[|p fl]|]; try reflexivity.
  pose proof (first_missing_iff (p :: fl)) as F. destruct (first_missing fs (p :: fl)); rewrite F; [reflexivity|].
  destruct (read_files (o_delims o) (file_texts fs (p :: fl)) (Ini [] [] (o_intname o))) as [[[]|e] j]; [reflexivity|]. destruct e; reflexivity.
Qed.

Ltac go := repeat first
  [ apply er_ret | apply er_of | apply er_raise | apply er_files | apply er_cpd | apply er_event | assumption
  | apply er_lift | (apply er_bind; [|intros ?]) ].

Section R.
Variables (t : str -> TM obj unit) (m : str -> SM obj unit).
Hypothesis H : forall s, er (t s) (m s).
Lemma er_owner s force : er (tparse_owner t s force) (parse_owner m s force).
Proof. unfold tparse_owner, parse_owner. go. destruct (negb (str_mem s (d_checked a)) || force); go. apply H. Qed.
Lemma er_has_section s : er (tdata_has_section fs cwd t s) (data_has_section fs m s).
Proof.
  unfold tdata_has_section, data_has_section. apply er_bind; [apply er_cpd|intros i]. apply er_bind; [|intros ?; go].
  destruct (ini_has_section i s); [|go]. apply er_bind; [go|intros d]. destruct (str_mem s (d_checked d)); [go|].
  intros o. rewrite <- (er_owner s false o). destruct (tparse_owner t s false o) as [[[a|e x] o'] w]; [reflexivity|]. destruct e; reflexivity.
Qed.
Lemma er_set s k v : er (tdata_set fs cwd t s k v) (data_set fs m s k v).
Proof.
  unfold tdata_set, data_set. apply er_bind; [apply er_has_section|intros b]. apply er_bind; [destruct b; go|intros _]. go.
  destruct (ed_put s k v a); go.
Qed.
End R.
Lemma er_rval n r : er (tcheck_rval n r) (check_rval r : SM obj unit).
Proof. unfold tcheck_rval, check_rval. destruct r as [z|]; go. destruct (z =? 0)%Z; go. destruct (z <=? 10)%Z; go. Qed.
Lemma er_decorated hp (t : TM ctx (option Z)) m : er t m -> er (tdecorated hp t) (decorated hp m).
Proof. intros H. unfold tdecorated, decorated. go. apply er_rval. Qed.

Section Rec.
Variables (t : str -> bool -> bool -> TM ctx unit) (m : str -> bool -> bool -> SM ctx unit).
Hypothesis H : forall s a b, er (t s a b) (m s a b).
Variables (t' : str -> TM obj unit) (m' : str -> SM obj unit).
Hypothesis H' : forall s, er (t' s) (m' s).
Lemma er_use sec hp : er (tuse_body shown_files t sec hp) (use_body m sec hp).
Proof. unfold tuse_body, use_body. destruct (hp_params hp); go. destruct (negb (str_mem s (x_proc a))); go. apply H. Qed.
Lemma er_attr a sec hp : er (tcall_attr shown_files t a sec hp) (call_attr m a sec hp).
Proof. destruct a as [|[] f| |]; cbn [tcall_attr call_attr]; [apply er_decorated, er_use|apply er_decorated; go| | | |]; go. Qed.
Lemma er_named n sec hp : er (tcall_named K shown_files t n sec hp) (call_named K m n sec hp).
Proof. unfold tcall_named, call_named. destruct (find_attr K n); [apply er_attr|go]. Qed.
Lemma er_locate op : er (tlocate_handler K op) (locate_handler K op : SM obj _).
Proof.
  unfold tlocate_handler, locate_handler. cbv zeta. destruct (locate_class_method K ($"_handler_" ++ normalize_op op)), (locate_class_method K ($"handler_" ++ normalize_op op)); go.
Qed.
Lemma er_generic hp k v : er (tlaunch_generic fs cwd t' hp k v) (launch_generic fs m' hp k v).
Proof. unfold tlaunch_generic, launch_generic. apply er_bind; [apply er_lift, er_set, H'|intros _]. apply er_bind; [apply er_decorated; go|intros _; go]. Qed.
Lemma er_item sec hp kv : er (tprocess_item K fs cwd shown_files t t' sec hp kv) (process_item K fs m m' sec hp kv).
Proof.
  unfold tprocess_item, process_item. apply er_bind; [go|intros v0]. cbv zeta. apply er_bind; [go|intros _]. apply er_bind; [go|intros toks].
  destruct toks as [|t0 params]; [go|]. destruct (negb (op_word K t0)); [apply er_generic|]. apply er_bind; [go|intros _].
  apply er_bind; [apply er_lift, er_locate|intros [[name a]|]]; [|apply er_generic]. apply er_bind; [apply er_attr|intros _; go].
Qed.
Lemma er_items sec l : forall hp, er (trun_items K fs cwd shown_files t t' sec hp l) (run_items K fs m m' sec hp l).
Proof. induction l as [|kv l IH]; intros hp; cbn [trun_items run_items]; [go|]. apply er_bind; [apply er_item|intros hp'; apply IH]. Qed.
Lemma er_body root sec init fin : er (tpsr_body K fs cwd shown_files t t' root sec init fin) (psr_body K fs m m' root sec init fin).
Proof.
  unfold tpsr_body, psr_body. apply er_bind.
  { destruct (init && str_eqb sec root); [|go]. apply er_bind; [apply er_named|intros _]. go. destruct (ini_has_section a (o_defname (x_obj a0))); [apply H|go]. }
  intros _. apply er_bind; [go|intros _]. apply er_bind; [go|intros i]. destruct (ini_items i sec); [|go].
  apply er_bind; [go|intros _]. apply er_bind; [go|intros _]. apply er_bind; [apply er_items|intros _]. apply er_bind; [|intros _; go].
  destruct (fin && str_eqb sec root); [apply er_named|go].
Qed.
End Rec.

Lemma er_with t m s init fin : (forall a b c d, er (t a b c d) (m a b c d)) -> er (tparse_section_with K t s init fin) (parse_section_with K m s init fin).
Proof.
  intros H. unfold tparse_section_with, parse_section_with. apply er_bind; [go|intros _]. destruct (str_eqb s []); [go|].
  apply er_bind; [|intros r; go]. unfold tparse_root, parse_root. go. intros o.
  match goal with |- context[t s s init fin ?c] => rewrite <- (H s s init fin c); destruct (t s s init fin c) as [[[u|e x] c'] w]; reflexivity end.
Qed.
Lemma er_psr fuel : forall root sec init fin, er (tpsr K fs cwd shown_files fuel root sec init fin) (psr K fs fuel root sec init fin).
Proof.
  induction fuel as [|f IH]; intros root sec init fin; cbn [tpsr psr]; [go|]. apply er_body; [intros; apply IH|].
  intros s. apply er_bind; [apply er_with, IH|intros ?; go].
Qed.
Theorem er_parse fuel s init fin : er (tparse_section_str K fs cwd shown_files fuel s init fin) (parse_section_str K fs fuel s init fin).
Proof. apply er_with, er_psr. Qed.

Lemma er_owner_parse fuel s : er (towner_parse K fs cwd shown_files fuel s) (owner_parse K fs fuel s).
Proof. unfold towner_parse, owner_parse. apply er_bind; [apply er_parse|intros ?; go]. Qed.
Lemma er_has fuel s : er (thas_section K fs cwd shown_files fuel s) (has_section K fs fuel s).
Proof. apply er_has_section, er_owner_parse. Qed.
Theorem er_getitem fuel s : er (tgetitem K fs cwd shown_files fuel s) (getitem K fs fuel s).
Proof. unfold tgetitem, getitem. apply er_bind; [apply er_has|intros b]. destruct b; go. Qed.
Theorem er_options fuel s : er (tdata_options K fs cwd shown_files fuel s) (data_options K fs fuel s).
Proof. unfold tdata_options, data_options, getitem. apply er_bind; [apply er_has|intros b]. destruct b; go. Qed.
Theorem er_has_option fuel s k : er (thas_option K fs cwd shown_files fuel s k) (has_option K fs fuel s k).
Proof. unfold thas_option, has_option. apply er_bind; [apply er_owner, er_owner_parse|intros _]. go. Qed.
Theorem er_get fuel s k : er (tdata_get K fs cwd shown_files fuel s k) (data_get K fs fuel s k).
Proof.
  unfold tdata_get, data_get. apply er_bind; [go|intros d]. apply er_bind; [destruct (str_mem s (d_checked d)); [go|apply er_owner, er_owner_parse]|intros _].
  apply er_bind; [apply er_has|intros b]. destruct b; [|go]. destruct k as [k|]; [|go]. apply er_bind; [apply er_has_option|intros b]. destruct b; [|go].
  go. destruct (dget k a); go.
Qed.
End E.
