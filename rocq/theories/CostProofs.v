(** * How often handlers are called. *)
From Coq Require Import String NArith ZArith List Bool Lia Arith.
Import ListNotations.
From Verif Require Import PyBase PyFacts Shlex IniView IniRead ExcControl Debuggable Cpe SpecText SpecFile SpecShell FileProofs MeaningProofs ShellProofs
  SpecRead ReadProofs3 ReadProofs5
  SpecBase SpecWalk SpecRun SpecParse BaseProofs Refine RefineRoot RefineOk RunProofs ParseProofs2 SpecCost.
Local Open Scope list_scope.

(** ** At most *)
Section Most.
Context {Sh Us : Type} (K : pyclass Sh Us) (i : ini) (m : nat).
Hypothesis SMALL : forall u items, section_shows i u items -> length items <= m.

Definition all_names : list str := i_defname i :: ini_sections i.
Definition room (path : list str) : nat := length (filter (fun x => negb (str_mem x path)) all_names).

Lemma shown_name s items : ini_items i s = Some items -> In s all_names.
Proof.
  unfold ini_items, own_options. destruct (str_eqb s (i_defname i)) eqn:E.
  - apply str_eqb_eq in E. subst. intros _. now left.
  - destruct (dget s (i_secs i)) eqn:D; [|discriminate]. intros _. right. apply dget_Some_In in D. now apply (in_map fst) in D.
Qed.
Lemma room_push s path : In s all_names -> ~ In s path -> S (room (s :: path)) <= room path.
Proof.
  intros I N. unfold room. revert I. generalize all_names as l. induction l as [|x l IH]; [intros []|]. intros I. cbn [filter].
  assert (G : length (filter (fun x => negb (str_mem x (s :: path))) l) <= length (filter (fun x => negb (str_mem x path)) l)).
  { clear. induction l as [|y l IH]; [auto|]. cbn [filter].
    destruct (str_mem y path) eqn:E.
    - assert (Q : str_mem y (s :: path) = true) by (apply str_mem_In in E; apply str_mem_In; now right). rewrite Q. exact IH.
    - destruct (str_mem y (s :: path)); cbn [negb length]; lia. }
  destruct (str_eqb x s) eqn:E.
  - apply str_eqb_eq in E. subst x.
    assert (A : str_mem s (s :: path) = true) by (apply str_mem_In; now left).
    assert (B : str_mem s path = false) by (destruct (str_mem s path) eqn:B; [apply str_mem_In in B; contradiction|reflexivity]).
    rewrite A, B. cbn [negb length]. lia.
  - assert (Q : str_mem x (s :: path) = str_mem x path) by (unfold str_mem; cbn [existsb]; now rewrite E).
    rewrite Q. destruct I as [->|I]; [rewrite str_eqb_refl in E; discriminate|]. specialize (IH I). destruct (str_mem x path); cbn [negb length]; lia.
Qed.
Lemma room_most path : room path <= length (ini_sections i) + 1.
Proof.
  unfold room. assert (F : forall (f : str -> bool) l, length (filter f l) <= length l).
  { intros f. induction l as [|x l IH]; cbn [filter length]; [lia|]. destruct (f x); cbn [length]; lia. }
  etransitivity; [apply F|]. unfold all_names. cbn [length]. lia.
Qed.
Lemma pow_pos a : 1 <= m -> 1 <= m ^ a.
Proof. intros M. induction a; cbn [Nat.pow]; nia. Qed.

Definition ncalls (root : str) (evs : list (ev Sh Us)) : nat := length (calls K root evs).
Lemma ncalls_app root a b : ncalls root (a ++ b) = ncalls root a + ncalls root b.
Proof. unfold ncalls, calls. now rewrite flat_map_app, app_length. Qed.
Lemma meaning_not_hook s item e : meaning K s item (MStep e) -> forall root, length (call_of K root e) <= 1.
Proof. intros M root. meaning_cases M; cbn; lia. Qed.

Lemma walk_calls root :
  (forall path s evs n, walk K i path s evs n -> ~ In s path -> ncalls root evs <= m ^ room path) /\
  (forall path s items evs n, walk_options K i path s items evs n -> (items <> [] -> 1 <= m) -> ncalls root evs <= length items * m ^ room path).
Proof.
  apply walk_both.
  - intros path s _ _. cbn. lia.
  - intros path s items evs n IT _ IH N.
    change (Enter s :: evs ++ [Leave s]) with ([Enter s] ++ evs ++ [Leave s]). rewrite !ncalls_app. cbn [ncalls calls flat_map call_of length app].
    pose proof (SMALL s items (proj2 (shows_iff i s items) IT)) as L. pose proof (room_push s path (shown_name _ _ IT) N) as R.
    assert (M : items <> [] -> 1 <= m) by (destruct items; [congruence|cbn [length] in L; lia]). specialize (IH M).
    destruct items as [|x items]; [cbn in IH; lia|]. specialize (M ltac:(discriminate)).
    assert (P : m ^ S (room (s :: path)) <= m ^ room path) by (apply Nat.pow_le_mono_r; lia).
    cbn [Nat.pow] in P. unfold ncalls in *. cbn [flat_map calls call_of length app]. nia.
  - intros. cbn. lia.
  - intros path s item rest e evs n M _ IH P. specialize (IH (fun _ => P ltac:(discriminate))).
    change (e :: evs) with ([e] ++ evs). rewrite ncalls_app. unfold ncalls at 1. cbn [calls flat_map]. rewrite app_nil_r.
    pose proof (meaning_not_hook _ _ _ M root). pose proof (pow_pos (room path) (P ltac:(discriminate))). cbn [length]. lia.
  - intros path s item rest t h k v evs1 n1 evs2 n2 M N _ IH1 _ IH2 P. specialize (IH1 N). specialize (IH2 (fun _ => P ltac:(discriminate))).
    change (UseIn s t h k v :: evs1 ++ UseOut s t h k v :: evs2) with ([UseIn s t h k v] ++ evs1 ++ [UseOut s t h k v] ++ evs2).
    rewrite !ncalls_app. cbn [length]. change (ncalls root [UseIn s t h k v]) with 0. change (ncalls root [UseOut s t h k v]) with 0. lia.
  - intros path s item rest t h k v evs n M N _ IH P. specialize (IH (fun _ => P ltac:(discriminate))).
    change (Cycle s t h k v :: evs) with ([Cycle s t h k v] ++ evs). rewrite ncalls_app. change (ncalls root [Cycle s t h k v]) with 0. cbn [length]. lia.
Qed.
Lemma hook_calls root s nm : ncalls root [Hook s nm] <= 1.
Proof. unfold ncalls. cbn [calls flat_map call_of]. rewrite app_nil_r. destruct (find_attr K nm) as [[]|]; cbn; lia. Qed.

Theorem calls_bounded dname s init fin evs n : parse_walk K i dname s init fin evs n ->
  length (calls K s evs) <= 2 * m ^ (length (ini_sections i) + 1) + 2.
Proof.
  intros W. change (length (calls K s evs)) with (ncalls s evs). set (B := m ^ (length (ini_sections i) + 1)).
  assert (TOP : forall u evs n, walk K i [] u evs n -> ncalls s evs <= B).
  { intros u e k X. inversion X; subst; filed.
    - cbn. lia.
    - match goal with H : ini_items i u = Some ?its, Y : walk_options _ _ _ _ _ _ _ |- _ => pose proof (SMALL u its (proj2 (shows_iff i u its) H)) as L; destruct its as [|x its] end.
      + match goal with Y : walk_options _ _ _ _ _ _ _ |- _ => inversion Y; subst end. cbn. lia.
      + etransitivity; [apply (proj1 (walk_calls s) _ _ _ _ X); intros []|]. apply Nat.pow_le_mono_r; [cbn [length] in L; lia|apply room_most]. }
  assert (DW : forall evs0 n0, (if init then default_walk K i dname evs0 n0 else evs0 = [] /\ n0 = 0) -> ncalls s evs0 <= B).
  { intros e k D. destruct init; [|destruct D as [-> _]; cbn; lia]. unfold default_walk in D. destruct (ini_has_section i dname); [eauto|destruct D as [-> _]; cbn; lia]. }
  inversion W; subst.
  - match goal with D : (if init then _ else _) |- _ => apply DW in D; rename D into D' end. rewrite ncalls_app.
    change (ncalls s [Missing s]) with 0. destruct init; [|cbn; lia].
    match goal with |- context [Hook s ?x :: ?l] => change (Hook s x :: l) with ([Hook s x] ++ l); pose proof (hook_calls s s x) end.
    rewrite ncalls_app. lia.
  - match goal with D : (if init then _ else _) |- _ => apply DW in D; rename D into D' end.
    assert (X : walk K i [] s (Enter s :: evs1 ++ [Leave s]) (S n1)) by (eapply walk_section; eauto). apply TOP in X.
    change (Enter s :: evs1 ++ [Leave s]) with ([Enter s] ++ evs1 ++ [Leave s]) in X. rewrite !ncalls_app in X.
    change (Enter s :: evs1 ++ (if fin then [Hook s $"handler_finalize"] else []) ++ [Leave s])
      with ([Enter s] ++ evs1 ++ (if fin then [Hook s $"handler_finalize"] else []) ++ [Leave s]).
    rewrite !ncalls_app.
    assert (F : ncalls s (if fin then [Hook s $"handler_finalize"] else []) <= 1) by (destruct fin; [apply hook_calls|cbn; lia]).
    assert (I : ncalls s (if init then Hook s $"handler_initialize" :: evs0 else []) <= 1 + B).
    { destruct init; [|cbn; lia]. pose proof (hook_calls s s $"handler_initialize").
      change (Hook s $"handler_initialize" :: evs0) with ([Hook s $"handler_initialize"] ++ evs0). rewrite ncalls_app. lia. }
    lia.
Qed.
End Most.

(** ** At least *)
Definition key1 (m : nat) : str := $"use " ++ name m.
Definition key2 (m : nat) : str := $"use " ++ name m ++ $" again".
Definition opts_at (k : nat) : options := match k with O => [($"note", None)] | S m => [(key1 m, None); (key2 m, None)] end.
Fixpoint tower_secs (n : nat) : dict options := (name n, opts_at n) :: match n with O => [] | S m => tower_secs m end.
Definition tower_ini (n : nat) : ini := Ini (tower_secs n) [] $"CONFIGPARSERENHANCED_COMMON".

Lemma name_chars k (P : pychar -> Prop) : P 97%N -> Forall P (name k).
Proof. intros H. unfold name. apply Forall_forall. intros c I. apply repeat_spec in I. now subst. Qed.
Lemma name_inj j k : name j = name k -> j = k.
Proof. intros E. apply (f_equal (@length _)) in E. unfold name in E. rewrite !repeat_length in E. lia. Qed.
Lemma name_rev k : rev (name k) = name k.
Proof.
  unfold name. induction k as [|k IH]; [reflexivity|]. change (repeat 97%N (S (S k))) with (97%N :: repeat 97%N (S k)). cbn [rev]. rewrite IH.
  clear. induction k as [|k IH]; [reflexivity|]. cbn [repeat app] in *. now rewrite IH.
Qed.
Lemma name_head k : exists r, name k = 97%N :: r.
Proof. now exists (repeat 97%N k). Qed.

Lemma tower_length n : length (tower n) = 3 * n + 2.
Proof. induction n as [|n IH]; [reflexivity|]. cbn [tower length]. rewrite IH. lia. Qed.
Lemma tower_keys n k : In (name k) (dkeys (tower_secs n)) <-> k <= n.
Proof.
  induction n as [|n IH].
  - cbn. split; [intros [E|[]]; apply (name_inj 0) in E; lia|]. intros H. left. now replace k with 0 by lia.
  - cbn [tower_secs dkeys map fst]. split.
    + intros [E|I]; [apply name_inj in E; lia|]. apply IH in I. lia.
    + intros H. destruct (Nat.eq_dec k (S n)) as [->|]; [now left|]. right. apply IH. lia.
Qed.
Lemma tower_key_name n x : In x (dkeys (tower_secs n)) -> exists k, x = name k.
Proof. induction n as [|n IH]; cbn [tower_secs dkeys map fst]; intros [E|I]; eauto. destruct I. Qed.
Lemma tower_nodup n : NoDup (dkeys (tower_secs n)).
Proof.
  induction n as [|n IH]; [repeat constructor; intros []|]. cbn [tower_secs dkeys map fst]. constructor; auto.
  intros I. apply (tower_keys n (S n)) in I. lia.
Qed.
Lemma tower_len n : length (tower_secs n) = S n.
Proof. induction n as [|n IH]; [reflexivity|]. cbn [tower_secs length]. now rewrite IH. Qed.
Lemma tower_get n k : k <= n -> dget (name k) (tower_secs n) = Some (opts_at k).
Proof.
  intros H. induction n as [|n IH].
  - replace k with 0 by lia. reflexivity.
  - cbn [tower_secs dget]. destruct (str_eqb (name k) (name (S n))) eqn:E.
    + apply str_eqb_eq, name_inj in E. now subst.
    + apply IH. destruct (Nat.eq_dec k (S n)) as [->|]; [rewrite str_eqb_refl in E; discriminate|lia].
Qed.
Lemma not_name l k : (exists c r, l = c :: r /\ c <> 97%N) -> name k <> l.
Proof. intros (c & r & -> & N) E. destruct (name_head k) as (x & Q). rewrite Q in E. injection E as E _. congruence. Qed.

Definition delims0 : list str := [$"="; $":"].
Lemma good0 : good_delims delims0.
Proof. split; [discriminate|]. repeat constructor; eexists; split; reflexivity. Qed.
Lemma plain_note : plain_key delims0 $"note".
Proof.
  split; [discriminate|]. split; [split; reflexivity|]. split; [|intros [X|[X|[X|[]]]]; discriminate X].
  repeat apply Forall_cons; try apply Forall_nil; intros [X|[X|[]]]; discriminate X.
Qed.
Ltac char_ok := intros [X|[X|[]]]; discriminate X.
Lemma chars_use : Forall (fun c => ~ In [c] delims0) $"use ".
Proof. repeat apply Forall_cons; try apply Forall_nil; char_ok. Qed.
Lemma plain_key1 m : plain_key delims0 (key1 m).
Proof.
  split; [discriminate|]. split; [|split; [|intros [X|[X|[X|[]]]]; discriminate X]].
  - split; [reflexivity|]. unfold key1. rewrite rev_app_distr, name_rev. destruct (name_head m) as (r & ->). reflexivity.
  - apply Forall_app. split; [apply chars_use|]. apply name_chars. char_ok.
Qed.
Lemma plain_key2 m : plain_key delims0 (key2 m).
Proof.
  split; [discriminate|]. split; [|split; [|intros [X|[X|[X|[]]]]; discriminate X]].
  - split; [reflexivity|]. unfold key2. rewrite !rev_app_distr. reflexivity.
  - apply Forall_app. split; [apply chars_use|]. apply Forall_app. split; [apply name_chars; char_ok|].
    repeat apply Forall_cons; try apply Forall_nil; char_ok.
Qed.
Lemma header k : header_line (name k) ($"[" ++ name k ++ $"]").
Proof. split; [now destruct (name_head k) as (r & ->)|]. exists []. split; [reflexivity|intros []]. Qed.
Lemma one_option k : plain_key delims0 k -> option_block delims0 (k, None) [k].
Proof. intros P. apply ob_none; [exact P| |constructor]. pose proof (ol_key delims0 k [] eq_refl) as L. now rewrite app_nil_r in L. Qed.
Lemma tower_layout n : sections_block delims0 (tower_secs n) (tower n).
Proof.
  induction n as [|n IH].
  - apply (sb_cons delims0 (name 0) (opts_at 0) [] $"[a]" [] ([$"note"] ++ []) []); [exact (header 0)|constructor| |constructor].
    apply osb_cons; [apply one_option, plain_note|apply osb_nil].
  - cbn [tower tower_secs]. apply (sb_cons delims0 (name (S n)) (opts_at (S n)) _ _ [] ([key1 n] ++ [key2 n] ++ []) (tower n)); [apply header|constructor| |exact IH].
    apply osb_cons; [apply one_option, plain_key1|]. apply osb_cons; [apply one_option, plain_key2|apply osb_nil].
Qed.
Lemma tower_text n : Forall no_newline (tower n).
Proof.
  assert (NN : forall l, Forall (fun c => c <> 10%N /\ c <> 13%N) l -> no_newline l).
  { intros l F. rewrite Forall_forall in F. split; intros I; apply F in I; tauto. }
  assert (A : forall m, Forall (fun c => c <> 10%N /\ c <> 13%N) (name m)) by (intros m; apply name_chars; split; discriminate).
  assert (B : forall l, forallb (fun c => negb (N.eqb c 10) && negb (N.eqb c 13)) l = true -> Forall (fun c => c <> 10%N /\ c <> 13%N) l).
  { intros l H. rewrite forallb_forall in H. apply Forall_forall. intros c I. apply H in I. apply andb_prop in I as [I J].
    apply negb_true_iff, N.eqb_neq in I. apply negb_true_iff, N.eqb_neq in J. auto. }
  induction n as [|n IH]; cbn [tower].
  - repeat apply Forall_cons; try apply Forall_nil; apply NN, B; reflexivity.
  - repeat apply Forall_cons; [..|exact IH]; apply NN; repeat (apply Forall_app; split); auto; apply B; reflexivity.
Qed.
Theorem tower_read n : read_file delims0 (text_of (tower n)) (empty_ini $"CONFIGPARSERENHANCED_COMMON") = (Ok tt, tower_ini n).
Proof.
  refine (layout_read delims0 _ good0 _ (tower n) (tower_secs n) _ _ _ _ _); [apply lines_text_of, tower_text| |apply tower_nodup| |].
  - exists [], (tower n). split; [reflexivity|]. split; [constructor|apply tower_layout].
  - apply Forall_forall. intros [s o] I. cbn [snd].
    assert (X : exists k, o = opts_at k).
    { clear - I. induction n as [|n IH]; cbn [tower_secs] in I; destruct I as [I|I].
      - exists 0. apply (f_equal snd) in I. now cbn [snd] in I.
      - destruct I.
      - exists (S n). apply (f_equal snd) in I. now cbn [snd] in I.
      - auto. }
    destruct X as ([|k] & ->); cbn [opts_at dkeys map fst]; [repeat constructor; intros []|].
    constructor; [|repeat constructor; intros []]. intros [E|[]]. unfold key1, key2 in E. apply app_inv_head in E.
    apply (f_equal (@length _)) in E. rewrite app_length in E. cbn in E. lia.
  - intros I. apply tower_key_name in I as (k & E). symmetry in E. revert E. apply not_name. eexists _, _. split; [reflexivity|discriminate].
Qed.

Section Count.
Variable uniword : pychar -> bool.
Notation K := (count_class uniword).
Notation cev := (ev unit N).
Definition calm (e : cev) : Prop :=
  match e with
  | Enter _ | Leave _ | UseOut _ _ _ _ _ => True
  | UseIn _ _ h _ _ => h_amb h = false
  | Call _ h kind f _ _ => h_amb h = false /\ kind = Decorated /\ f = count_body
  | Hook _ nm => nm = $"handler_initialize" \/ nm = $"handler_finalize"
  | _ => False
  end.
Definition weight (evs : list cev) : N := fold_right (fun e x => match e with Call _ _ _ _ _ _ => x + 1 | _ => x end)%N 0%N evs.
Lemma weight_cons e l : weight (e :: l) = match e with Call _ _ _ _ _ _ => weight l + 1 | _ => weight l end%N.
Proof. reflexivity. Qed.
Lemma weight_app a b : weight (a ++ b) = (weight a + weight b)%N.
Proof. induction a as [|e a IH]; [reflexivity|]. cbn [app weight fold_right]. fold (weight (a ++ b)) (weight a). rewrite IH. destruct e; lia. Qed.
Lemma run_calm root lvl ps evs : Forall calm evs -> forall sh us, run K root lvl ps evs sh us = (Ok tt, sh, (us + weight evs)%N, evs).
Proof.
  induction evs as [|e evs IH]; intros F sh us; [cbn; now rewrite N.add_0_r|].
  apply Forall_cons_iff in F as [C F]. cbn [run].
  destruct e; cbn [calm] in C; try contradiction; cbn [step weight fold_right]; fold (weight evs).
  - now rewrite IH.
  - now rewrite IH.
  - destruct C as (A & -> & ->). unfold ambiguity. rewrite A. cbn [andb run_handler count_body rval_policy Z.eqb]. rewrite IH by auto.
    do 2 f_equal. lia.
  - unfold ambiguity. rewrite C. cbn [andb]. now rewrite IH.
  - now rewrite IH.
  - destruct C as [->| ->].
    + change (find_attr K $"handler_initialize") with (Some (AUser Decorated (@noop_body unit N))).
      cbn [run_handler noop_body rval_policy Z.eqb]. now rewrite IH.
    + change (find_attr K $"handler_finalize") with (Some (AUser Decorated (@noop_body unit N))).
      cbn [run_handler noop_body rval_policy Z.eqb]. now rewrite IH.
Qed.

Lemma letters w : w <> [] -> forallb (fun c => (97 <=? c)%N && (c <=? 122)%N) w = true -> op_shaped uniword w.
Proof.
  intros NE H. exists w. split; auto. split; auto. rewrite forallb_forall in H. apply Forall_forall. intros c I. apply H, andb_prop in I as [I J].
  apply N.leb_le in I. apply N.leb_le in J. left. left. right. right. left. auto.
Qed.
Lemma letters_ordinary w : forallb (fun c => (97 <=? c)%N && (c <=? 122)%N) w = true -> Forall ordinary w.
Proof.
  intros H. rewrite forallb_forall in H. apply Forall_forall. intros c I. apply H, andb_prop in I as [I J]. apply N.leb_le in I. apply N.leb_le in J.
  unfold ordinary, blank, squote, dquote, backslash. lia.
Qed.
Lemma name_letters k : forallb (fun c => (97 <=? c)%N && (c <=? 122)%N) (name k) = true.
Proof. apply forallb_forall. intros c I. apply repeat_spec in I. now subst. Qed.
Lemma name_word k : word (name k) (name k).
Proof. apply ordinary_word; [now destruct (name_head k) as (r & ->)|]. apply letters_ordinary, name_letters. Qed.
Lemma lit_word w : w <> [] -> forallb (fun c => (97 <=? c)%N && (c <=? 122)%N) w = true -> word w w.
Proof. intros NE H. apply ordinary_word; auto. now apply letters_ordinary. Qed.
Lemma use_handler : handler_of K (undash $"use") (Some (private_name $"use", AUse, false)).
Proof. apply ho_private; reflexivity. Qed.
Lemma words1 m : words (key1 m) [$"use"; name m].
Proof. apply (ws_word $"use" $"use" 32%N (name m)); [now apply lit_word|now left|]. apply ws_last, name_word. Qed.
Lemma words2 m : words (key2 m) [$"use"; name m; $"again"].
Proof.
  apply (ws_word $"use" $"use" 32%N (name m ++ 32%N :: $"again")); [now apply lit_word|now left|].
  apply ws_word; [apply name_word|now left|]. apply ws_last. now apply lit_word.
Qed.
Lemma trimmed_self x : (forall c r, x = c :: r -> ~ space c) -> (forall c r, rev x = c :: r -> ~ space c) -> trimmed space x x.
Proof.
  intros A B. exists [], []. rewrite app_nil_r. split; [reflexivity|]. split; [constructor|]. split; [constructor|]. split.
  - destruct x as [|c r]; [exact Logic.I|exact (A c r eq_refl)].
  - destruct (rev x) as [|c r]; [exact Logic.I|exact (B c r eq_refl)].
Qed.
Definition h1 (m : nat) := OpInfo $"use" [name m] (private_name $"use") false.
Definition h2 (m : nat) := OpInfo $"use" [name m; $"again"] (private_name $"use") false.
Definition h0 := OpInfo $"note" [] (public_name $"note") false.
Lemma not_space c : (97 <= c <= 122)%N -> ~ space c.
Proof. intros H X. repeat (destruct X as [X|X]; [lia|]). destruct X. Qed.
Lemma meaning1 m s : meaning K s (key1 m, Ok None) (MUse (name m) (h1 m) (key1 m) None).
Proof.
  apply (m_use K s (key1 m) None (key1 m) None $"use" (name m) []); [|exact Logic.I|apply words1|now apply letters|apply use_handler].
  apply trimmed_self.
  - intros c r E. injection E as <- _. now apply not_space.
  - unfold key1. rewrite rev_app_distr, name_rev. destruct (name_head m) as (x & ->). intros c r E. injection E as <- _. now apply not_space.
Qed.
Lemma meaning2 m s : meaning K s (key2 m, Ok None) (MUse (name m) (h2 m) (key2 m) None).
Proof.
  apply (m_use K s (key2 m) None (key2 m) None $"use" (name m) [$"again"]); [|exact Logic.I|apply words2|now apply letters|apply use_handler].
  apply trimmed_self.
  - intros c r E. injection E as <- _. now apply not_space.
  - unfold key2. rewrite !rev_app_distr. intros c r E. injection E as <- _. now apply not_space.
Qed.
Lemma meaning0 s : meaning K s ($"note", Ok None) (MStep (Call s h0 Decorated count_body $"note" None)).
Proof. apply meaning_iff, (c_user K s $"note" None $"note" []); [reflexivity..|]. apply ho_public; reflexivity. Qed.

Variable n : nat.
Notation i := (tower_ini n).
Lemma shows_at k : k <= n -> section_shows i (name k) (map (fun kv => (fst kv, Ok None)) (opts_at k)).
Proof.
  intros H. apply shows_iff. unfold ini_items, own_options. cbn [i_defname i_secs tower_ini].
  assert (E : str_eqb (name k) $"CONFIGPARSERENHANCED_COMMON" = false).
  { apply str_eqb_neq, not_name. eexists _, _. split; [reflexivity|discriminate]. }
  rewrite E, tower_get by auto. unfold section_raw. cbn [i_defs]. rewrite app_nil_r. f_equal. destruct k; reflexivity.
Qed.
Lemma walk_tower k : k <= n -> forall path, (forall j, j < k -> ~ In (name j) path) ->
  exists evs d, walk_options K i (name k :: path) (name k) (map (fun kv => (fst kv, Ok None)) (opts_at k)) evs d /\
    Forall calm evs /\ weight evs = (2 ^ N.of_nat k)%N.
Proof.
  induction k as [|k IH]; intros H path P.
  - exists [Call (name 0) h0 Decorated count_body $"note" None], 0. split; [|split; [repeat constructor|reflexivity]].
    apply wo_step; [apply meaning0|apply wo_nil].
  - assert (N : forall j, j <= k -> ~ In (name j) (name (S k) :: path)).
    { intros j J [E|I]; [apply name_inj in E; lia|apply (P j); [lia|exact I]]. }
    destruct (IH ltac:(lia) (name (S k) :: path) (fun j J => N j ltac:(lia))) as (evs & d & W & C & E).
    assert (WK : walk K i (name (S k) :: path) (name k) (Enter (name k) :: evs ++ [Leave (name k)]) (S d)).
    { eapply walk_section; [apply shows_at; lia|exact W]. }
    do 2 eexists. split; [|split].
    + cbn [opts_at map fst]. eapply wo_use; [apply meaning1|apply N; lia|exact WK|].
      eapply wo_use; [apply meaning2|apply N; lia|exact WK|apply wo_nil].
    + assert (D : Forall calm (Enter (name k) :: evs ++ [Leave (name k)])).
      { apply Forall_cons; [exact Logic.I|]. apply Forall_app. split; auto. repeat constructor. }
      apply Forall_cons; [reflexivity|]. apply Forall_app. split; [exact D|]. apply Forall_cons; [exact Logic.I|].
      apply Forall_cons; [reflexivity|]. apply Forall_app. split; [exact D|]. repeat constructor.
    + assert (A : weight (Enter (name k) :: evs ++ [Leave (name k)]) = weight evs).
      { rewrite weight_cons, weight_app. cbn [weight fold_right]. lia. }
      rewrite weight_cons, weight_app, A, weight_cons, weight_cons, weight_app, A.
      rewrite E. cbn [weight fold_right]. rewrite Nat2N.inj_succ, N.pow_succ_r'. lia.
Qed.
End Count.

Lemma one_file {Sh Us} fs (o : obj Sh Us) p t i : o_cpd o = None -> o_files o = Some [p] -> fs p = Some t ->
  read_file (o_delims o) t (empty_ini (o_intname o)) = (Ok tt, i) -> has_file fs o i.
Proof.
  intros A B C D. unfold has_file, get_cpd. rewrite A. cbn [set_cpd o_files]. rewrite B. cbn [forallb]. unfold file_exists, file_texts.
  rewrite C. cbn [andb set_cpd o_delims map]. rewrite C. cbn [read_files]. unfold empty_ini in D. rewrite D. reflexivity.
Qed.
Theorem tower_calls uniword n fs p fuel : fs p = Some (text_of (tower n)) -> n + 4 <= fuel ->
  exists o', parse_section_str (count_class uniword) fs fuel (name n) true true (set_files (Some [p]) (new_obj 0%N)) = (Ok tt, o') /\
    o_user o' = (2 ^ N.of_nat n)%N.
Proof.
  intros F L. set (o := set_files (Some [p]) (new_obj 0%N)).
  assert (HF : has_file fs o (tower_ini n)).
  { exact (one_file fs o p _ _ eq_refl eq_refl F (tower_read n)). }
  assert (NOD : ini_has_section (tower_ini n) $"DEFAULT" = false).
  { unfold ini_has_section. cbn [tower_ini i_secs]. destruct (dmem $"DEFAULT" (tower_secs n)) eqn:E; [|reflexivity]. exfalso.
    apply dmem_keys, tower_key_name in E as (k & E). symmetry in E. revert E. apply not_name. eexists _, _. split; [reflexivity|discriminate]. }
  destruct (walk_tower uniword n n (le_n _) [] (fun _ _ X => X)) as (evs & d & W & C & E).
  assert (PW : exists d', parse_walk (count_class uniword) (tower_ini n) $"DEFAULT" (name n) true true
    ([Hook (name n) $"handler_initialize"] ++ Enter (name n) :: evs ++ [Hook (name n) $"handler_finalize"] ++ [Leave (name n)]) d').
  { eexists. apply (pw_section (count_class uniword) (tower_ini n) $"DEFAULT" (name n) true true [] 0 (map (fun kv => (fst kv, Ok None)) (opts_at n)) evs d); [|apply shows_at; auto|exact W].
    unfold default_walk. rewrite NOD. auto. }
  destruct PW as (d' & PW).
  destruct (parse_outcome (count_class uniword) fs (tower_ini n) fuel (name n) true true o) as (evs' & d2 & r & sh & us & done & o' & W' & R & X & PA & _).
  - now destruct (name_head n) as (r & ->).
  - exact HF.
  - split; discriminate.
  - intros _ H. exfalso. change (o_defname o) with $"DEFAULT" in H. rewrite NOD in H. discriminate.
  - unfold ini_sections, dkeys. cbn [tower_ini i_secs]. rewrite map_length, tower_len. lia.
  - change (o_defname o) with $"DEFAULT" in W'. destruct (parse_walk_unique _ _ _ _ _ _ _ _ _ _ PW W') as [EQ _]. subst evs'.
    rewrite run_calm in R.
    + pose proof (f_equal (fun x => fst (fst (fst x))) R) as R1. pose proof (f_equal (fun x => snd (fst x)) R) as R2. cbn [fst snd] in R1, R2.
      subst r. exists o'. split; [rewrite X; now destruct sh|]. rewrite (pa_user _ _ _ _ _ _ _ _ _ _ PA), <- R2.
      change (o_user o) with 0%N. rewrite N.add_0_l. change (Enter (name n) :: evs ++ [Hook (name n) $"handler_finalize"] ++ [Leave (name n)]) with ([Enter (name n)] ++ evs ++ [Hook (name n) $"handler_finalize"] ++ [Leave (name n)]).
      rewrite !weight_app, E. cbn [weight fold_right]. lia.
    + apply Forall_cons; [now left|]. apply Forall_cons; [exact Logic.I|]. apply Forall_app. split; [exact C|]. repeat apply Forall_cons; try apply Forall_nil; cbn; auto.
Qed.
Theorem tower_both n : length (tower n) = 3 * n + 2 /\
  forall uniword fs p fuel, fs p = Some (text_of (tower n)) -> n + 4 <= fuel ->
    exists o', parse_section_str (count_class uniword) fs fuel (name n) true true (set_files (Some [p]) (new_obj 0%N)) = (Ok tt, o') /\
      o_user o' = (2 ^ N.of_nat n)%N.
Proof. split; [exact (tower_length n)|]. intros uniword fs p fuel F L. exact (tower_calls uniword n fs p fuel F L). Qed.
