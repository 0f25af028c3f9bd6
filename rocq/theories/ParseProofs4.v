(** * Proofs about the default-to-root link, dispatch, handler calls and the log. *)
From Coq Require Import String NArith ZArith List Bool Lia Arith ZifyBool.
Import ListNotations.
From Verif Require Import PyBase PyFacts Shlex IniView IniRead ExcControl Debuggable Cpe
  SpecBase SpecText SpecFile SpecShell ShellProofs FileProofs SpecWalk MeaningProofs SpecRun SpecParse BaseProofs Refine RefineRoot RefineOk RunProofs Trace WalkProofs
  ParseProofs ParseProofs2 ParseProofs3.
Local Open Scope sm_scope.

Section P.
Context {Sh Us : Type} (K : pyclass Sh Us) (fs : str -> option str) (i : ini).
Notation ev := (ev Sh Us).
Notation obj := (obj Sh Us).
Notation ctx := (ctx Sh Us).

(** ** C06 *)
Theorem default_to_root_fails fuel s fin (o : obj) :
  has_file fs o i -> level_ok o -> ini_has_section i (o_defname o) = true ->
  o_defname o <> s -> reaches K i (o_defname o) s ->
  forall v, fst (parse_section_str K fs fuel s true fin o) <> Ok v.
Proof.
  intros H [L _] HS N R v E. destruct (parse_section_str K fs fuel s true fin o) as [r o'] eqn:E'.
  cbn in E. subst r. destruct (parse_section_Ok K fs i _ _ _ _ _ _ _ H L E') as (_ & DO & _).
  exact (DO eq_refl HS N R).
Qed.

Section Direct.
Variables (D root : str).
Hypothesis WB : well_behaved K.
Hypothesis ND : D <> root.
Hypothesis HD : ini_has_section i D = true.
Variables (pre post : list (str * res (option str))) (item : str * res (option str))
  (h : opinfo) (k : str) (v : option str).
Hypothesis IT : ini_items i D = Some (pre ++ item :: post).
Hypothesis PRE : forall it, In it pre -> exists w k v, meaning K D it (MStep (SpecWalk.Plain D w k v)).
Hypothesis USE : meaning K D item (MUse root h k v).

Definition okc (c : ctx) : Prop :=
  goodd i D root c /\ (0 <= level_of (x_obj c))%Z.

Lemma okc_ev (c : ctx) e : okc c -> (origin K i D e \/ is_hook e) ->
  wb_res (level_of (x_obj c)) (path_set_of (x_obj c)) e = Ok tt ->
  (forall s, e = Leave s -> In s (x_proc c)) ->
  exists c', exec_ev K fs root e c = (Ok tt, c') /\ okc c'.
Proof.
  intros [G L] O W P.
  pose proof (does_ev K fs i root e c ltac:(unfold has_file; now rewrite (get_cpd_loaded fs i _ (proj1 (proj1 G)))) L P) as X.
  destruct (step_wb K i root (level_of (x_obj c)) (path_set_of (x_obj c)) D e (x_sh c) (o_user (x_obj c)) WB O)
    as (sh' & us' & S). rewrite S, W in X. destruct X as (l & (c' & E & F) & _).
  exists c'. split; auto. split; [eapply goodd_Ok; [apply goodd_ev|exact G|exact E]|].
  unfold level_of. pose proof (ef_conf _ _ _ _ _ _ _ _ F) as C.
  apply conf_level in C. unfold level_of in *. now rewrite C.
Qed.

Lemma direct_loop fuel :
  (forall fin c, okc c -> ~ In root (x_proc c) ->
     fst (psr K fs fuel root root true fin c) = Err RecursionError) /\
  (forall c, okc c -> ~ In root (x_proc c) ->
     fst (psr K fs fuel root D false false c) = Err RecursionError).
Proof.
  induction fuel as [|fuel [IHA IHB]]; [split; reflexivity|]. split.
  - intros fin c G NP. cbn [psr]. set (reparse := fun s : str => _). rewrite psr_body_split.
    rewrite str_eqb_refl. cbn [andb]. rewrite !bind_assoc.
    destruct (okc_ev c (Hook root $"handler_initialize") G) as (c1 & E1 & G1);
      [right; exists root; auto|reflexivity|discriminate|].
    cbn [exec_ev] in E1.
    assert (P1 : x_proc c1 = x_proc c).
    { pose proof (keeps_proc_exec_hook K root root $"handler_initialize" c) as P. now rewrite E1 in P. }
    rewrite bind_eq, call_named_hook, E1. cbn [fst]. rewrite !bind_assoc.
    rewrite (bind_cpd fs i) by apply G1. rewrite !bind_assoc, bind_get.
    rewrite (proj2 (proj1 G1)), HD.
    specialize (IHB c1 G1 ltac:(now rewrite P1)).
    rewrite bind_eq. destruct (psr K fs fuel root D false false c1) as [[u|x] c2]; cbn in *; [discriminate|auto].
  - intros c G NP. cbn [psr]. set (reparse := fun s : str => _). rewrite psr_body_split. cbn [andb].
    rewrite bind_ret.
    assert (SPL : section_part K fs (psr K fs fuel root) reparse root D false c =
      (exec_ev K fs root (Enter D) ;; run_items K fs (psr K fs fuel root) reparse D (new_hp root) (pre ++ item :: post) ;;
       ret tt ;; exec_ev K fs root (Leave D)) c).
    { unfold section_part. cbn [exec_ev andb]. sm.
      rewrite !(bind_cpd fs i) by apply G. rewrite IT. sm. }
    rewrite SPL. clear SPL.
    destruct (okc_ev c (Enter D) G) as (c1 & E1 & G1);
      [left; split; [constructor|congruence]|reflexivity|discriminate|].
    rewrite (bind_eq (exec_ev K fs root (Enter D))), E1.
    assert (P1 : ~ In root (x_proc c1)).
    { cbn [exec_ev] in E1. apply bind_Ok in E1 as (u0 & ca & E0 & E1).
      pose proof (keeps_proc_lift (log (LSecEntry D)) c) as Q0. rewrite E0 in Q0. cbn in Q0.
      apply bind_Ok in E1 as (j & cb & Eb & E1).
      pose proof (keeps_proc_lift (get_cpd fs) ca) as Q1. rewrite Eb in Q1. cbn in Q1.
      apply bind_Ok in E1 as (u2 & cc & Ec & E1).
      pose proof (keeps_proc_lift (data_add_section D false) cb) as Q2. rewrite Ec in Q2. cbn in Q2.
      unfold proc_add in E1. inversion E1; subst. cbn. intros X. apply In_sadd in X as [X|X]; [congruence|].
      rewrite Q2, Q1, Q0 in X. contradiction. }
    assert (LP : forall pr, (forall it, In it pr -> exists w k v,
        meaning K D it (MStep (SpecWalk.Plain D w k v)) /\ In it (pre ++ item :: post)) ->
      forall c1 hp, okc c1 -> ~ In root (x_proc c1) -> hp_root hp = root ->
      fst ((run_items K fs (psr K fs fuel root) reparse D hp (pr ++ item :: post) ;;
            ret tt ;; exec_ev K fs root (Leave D)) c1) = Err RecursionError).
    2: { apply LP; auto. intros it I. destruct (PRE it I) as (w & k' & v' & M). exists w, k', v'.
         split; auto. apply in_or_app; auto. }
    clear c c1 E1 G G1 NP P1.
    intros pr. induction pr as [|it pr IHp]; intros PR c1 hp G1 P1 HR.
    + cbn [app run_items].
      destruct (process_use K fs (psr K fs fuel root) reparse root D hp item root h k v c1 USE HR) as (hp' & R' & E).
      destruct (str_mem root (x_proc c1)) eqn:SM; [apply str_mem_In in SM; contradiction|].
      rewrite !bind_assoc. rewrite (bind_first _ _ _ c1 E). rewrite !bind_assoc.
      destruct (okc_ev c1 (UseIn D root h k v) G1) as (c2 & E2 & G2);
        [left; split; [constructor|]; exists (pre ++ item :: post), item; split; auto; split; auto;
         apply in_or_app; right; now left|reflexivity|discriminate|].
      rewrite (bind_eq (exec_ev K fs root _)), E2.
      pose proof (keeps_proc_exec_ev K fs root (UseIn D root h k v) I c1) as P2. rewrite E2 in P2. cbn in P2.
      specialize (IHA false c2 G2 ltac:(now rewrite P2)).
      rewrite !bind_assoc, bind_eq.
      destruct (psr K fs fuel root root true false c2) as [[u|x] c3]; cbn [fst] in *; [discriminate|auto].
    + cbn [app run_items]. destruct (PR it (or_introl eq_refl)) as (w & k' & v' & M & IN).
      destruct (process_step K fs i (psr K fs fuel root) reparse root D hp it _ c1 M (proj1 (proj1 G1)) HR)
        as (hp' & R' & E).
      rewrite !bind_assoc. rewrite (bind_first _ _ _ c1 E). rewrite !bind_assoc.
      destruct (okc_ev c1 (SpecWalk.Plain D w k' v') G1) as (c2 & E2 & G2);
        [left; split; [constructor|]; exists (pre ++ item :: post), it; auto|reflexivity|discriminate|].
      rewrite (bind_eq (exec_ev K fs root _)), E2. rewrite bind_ret.
      pose proof (keeps_proc_exec_ev K fs root (SpecWalk.Plain D w k' v') I c1) as P2. rewrite E2 in P2. cbn in P2.
      apply IHp; auto.
      * intros x Hx. apply PR. now right.
      * now rewrite P2.
Qed.

Theorem default_uses_root fuel fin (o : obj) :
  root <> [] -> has_file fs o i -> level_ok o -> o_defname o = D ->
  fst (parse_section_str K fs fuel root true fin o) = Err RecursionError.
Proof.
  intros NE H [L _] N. rewrite parse_section_start by auto.
  pose proof (start_ready K fs i o root H) as RD.
  destruct (psr_loaded K fs i fuel root true fin _ RD) as [E _].
  assert (G : okc (loaded i (start K o root))).
  { split; [split; [apply (good_loaded fs), RD|exact N]|exact L]. }
  pose proof (proj1 (direct_loop fuel) fin _ G (fun F => F)) as X. rewrite E in X.
  unfold onl in X. destruct (psr K fs fuel root root true fin (start K o root)) as [[u|x] c]; cbn in *; congruence.
Qed.
End Direct.

Theorem default_uses_root_loops (D root : str) :
  well_behaved K -> D <> root -> ini_has_section i D = true ->
  forall (pre post : list (str * res (option str))) (item : str * res (option str)) (h : opinfo) (k : str) (v : option str),
  section_shows i D (pre ++ item :: post) ->
  (forall it, In it pre -> exists w k v, meaning K D it (MStep (SpecWalk.Plain D w k v))) ->
  meaning K D item (MUse root h k v) ->
  forall fuel fin (o : obj), root <> [] -> has_file fs o i -> level_ok o -> o_defname o = D ->
  fst (parse_section_str K fs fuel root true fin o) = Err RecursionError.
Proof.
  intros WB ND HD pre post item h k v IT PRE USE. apply shows_iff in IT.
  exact (default_uses_root D root WB ND HD pre post item h k v IT PRE USE).
Qed.

(** ** C20 *)
Lemma call_all_app l l' : forall (sh : Sh) (us : Us),
  call_all (l ++ l') sh us = let '(sh', us') := call_all l sh us in call_all l' sh' us'.
Proof.
  induction l as [|[[[kind f] s] hp] l IH]; intros sh us; [reflexivity|]. cbn [app call_all].
  destruct (f s hp sh us) as [[r sh'] us']. apply IH.
Qed.

Lemma step_calls root lvl ps (e : ev) sh us r sh' us' :
  step K root lvl ps e sh us = (r, sh', us') ->
  call_all (call_of K root e) sh us = (sh', us') \/ (r <> Ok tt /\ (sh, us) = (sh', us')).
Proof.
  intros S.
  destruct e; cbn [step call_of] in *;
    try (left; cbn [call_all]; inversion S; subst; reflexivity).
  - destruct (ambiguity lvl h); [|right; inversion S; split; [discriminate|reflexivity]].
    left. unfold run_handler in S. cbn [call_all].
    destruct (f s (params_of root h k v) sh us) as [[x1 a1] b1]. inversion S; subst. reflexivity.
  - left. destruct r0; inversion S; subst; reflexivity.
  - destruct (find_attr K name) as [[|kind f| |]|]; try (left; inversion S; subst; reflexivity).
    left. unfold run_handler in S. cbn [call_all].
    destruct (f s (hp_named root name) sh us) as [[x1 a1] b1]. inversion S; subst. reflexivity.
Qed.

Lemma run_calls root lvl ps (evs : list ev) : forall sh us r sh' us' done,
  run K root lvl ps evs sh us = (r, sh', us', done) ->
  exists pre post, calls K root evs = pre ++ post /\ call_all pre sh us = (sh', us') /\
    (r = Ok tt -> post = []).
Proof.
  induction evs as [|e evs IH]; intros sh us r sh' us' done R; cbn [run] in R.
  - inversion R; subst. exists [], []. auto.
  - destruct (step K root lvl ps e sh us) as [[r1 sh1] us1] eqn:S.
    change (calls K root (e :: evs)) with (call_of K root e ++ calls K root evs).
    pose proof (step_calls _ _ _ _ _ _ _ _ _ S) as C. destruct r1 as [[]|x].
    + destruct C as [C|[C _]]; [|contradiction].
      destruct (run K root lvl ps evs sh1 us1) as [[[r2 sh2] us2] d2] eqn:R2. inversion R; subst.
      destruct (IH _ _ _ _ _ _ R2) as (pre & post & E & A & B).
      exists (call_of K root e ++ pre), post. rewrite E, app_assoc. split; auto. split; auto.
      rewrite call_all_app, C. exact A.
    + inversion R; subst. destruct C as [C|[_ C]].
      * exists (call_of K root e), (calls K root evs). split; auto. split; auto. discriminate.
      * exists [], (call_of K root e ++ calls K root evs). split; auto. split; auto. discriminate.
Qed.

Lemma calls_app root (a b : list ev) : calls K root (a ++ b) = calls K root a ++ calls K root b.
Proof. unfold calls. now rewrite flat_map_app. Qed.

Theorem handler_calls fuel s init fin (o : obj) :
  s <> [] -> has_file fs o i -> level_ok o -> default_ok K i (o_defname o) s init ->
  length (ini_sections i) + 3 <= fuel ->
  exists evs n pre post, parse_walk K i (o_defname o) s init fin evs n /\
    calls K s evs = pre ++ post /\
    snd (call_all pre (k_empty K) (o_user o)) = o_user (snd (parse_section_str K fs fuel s init fin o)) /\
    (forall v, fst (parse_section_str K fs fuel s init fin o) = Ok v ->
       post = [] /\ fst (call_all pre (k_empty K) (o_user o)) = v).
Proof.
  intros NE H L DO F.
  destruct (parse_outcome K fs i fuel s init fin o NE H L DO F)
    as (evs & n & r & sh & us & done & o' & W & R & E & P & _).
  destruct (run_calls _ _ _ _ _ _ _ _ _ _ R) as (pre & post & C & A & B).
  exists evs, n, pre, post. rewrite E, A. cbn [fst snd]. split; auto. split; auto.
  split; [symmetry; exact (pa_user _ _ _ _ _ _ _ _ _ _ P)|].
  intros v Hv. destruct r as [[]|x]; [|discriminate]. inversion Hv; subst. auto.
Qed.

(** The calls of a parse with both flags on: the two hooks are the first and the
    last. *)
Theorem hooks_first_last dname s evs n ki fi kf ff :
  parse_walk K i dname s true true evs n -> present i s ->
  find_attr K $"handler_initialize" = Some (AUser ki fi) ->
  find_attr K $"handler_finalize" = Some (AUser kf ff) ->
  exists l, calls K s evs =
    (ki, fi, s, hp_named s $"handler_initialize") :: l ++ [(kf, ff, s, hp_named s $"handler_finalize")].
Proof.
  intros W N EI EF. inversion W as [|evs0 n0 items evs1 n1 D IT WO]; subst; filed; [congruence|].
  exists (calls K s evs0 ++ calls K s (Enter s :: evs1)).
  match goal with |- calls K s ?l = _ =>
    replace l with ((Hook s $"handler_initialize" :: evs0) ++ (Enter s :: evs1) ++
                    [Hook s $"handler_finalize"; Leave s]) by reflexivity end.
  rewrite !calls_app. unfold calls at 1. cbn [flat_map call_of]. rewrite EI. cbn [app].
  f_equal. fold (calls K s evs0). rewrite <- app_assoc. f_equal. f_equal.
  unfold calls. cbn [flat_map call_of app]. now rewrite EF.
Qed.

(** ** C19 in a whole parse *)
Lemma run_app root lvl ps (a b : list ev) : forall sh us sh' us' done,
  run K root lvl ps (a ++ b) sh us = (Ok tt, sh', us', done) ->
  exists sh1 us1, run K root lvl ps a sh us = (Ok tt, sh1, us1, a) /\
    call_all (calls K root a) sh us = (sh1, us1) /\
    exists d, run K root lvl ps b sh1 us1 = (Ok tt, sh', us', d).
Proof.
  induction a as [|e a IH]; intros sh us sh' us' done R.
  - exists sh, us. cbn. eauto 6.
  - cbn [app run] in *. destruct (step K root lvl ps e sh us) as [[r1 sh1] us1] eqn:S.
    destruct r1 as [[]|x]; [|discriminate].
    destruct (run K root lvl ps (a ++ b) sh1 us1) as [[[r2 sh2] us2] d2] eqn:R2. inversion R; subst.
    destruct (IH _ _ _ _ _ R2) as (sh3 & us3 & E & C & d & E2). rewrite E.
    exists sh3, us3. split; auto. split; [|eauto].
    change (calls K root (e :: a)) with (call_of K root e ++ calls K root a). rewrite call_all_app.
    destruct (step_calls _ _ _ _ _ _ _ _ _ S) as [C1|[C1 _]]; [|contradiction]. now rewrite C1.
Qed.

Theorem handlers_returned_ok fuel s init fin (o : obj) v o' :
  has_file fs o i -> level_ok o ->
  parse_section_str K fs fuel s init fin o = (Ok v, o') ->
  forall pre t hp f post,
  (exists evs n, parse_walk K i (o_defname o) s init fin evs n /\
     calls K s evs = pre ++ (Decorated, f, t, hp) :: post) ->
  let '(sh, us) := call_all pre (k_empty K) (o_user o) in
  exists z, fst (fst (f t hp sh us)) = Ok (Some z) /\
    (z = 0%Z \/ ((z <= 10)%Z /\ (level_of o < 5)%Z)).
Proof.
  intros H [L _] E pre t hp f post (evs & n & W & C).
  destruct (parse_section_Ok K fs i _ _ _ _ _ _ _ H L E) as (_ & _ & evs' & n' & us & W' & R & _).
  destruct (parse_walk_unique K i _ _ _ _ _ _ _ _ W W') as [-> _].
  assert (SPL : exists a e b l1 l2, evs = a ++ e :: b /\ call_of K s e = l1 ++ (Decorated, f, t, hp) :: l2 /\
             pre = calls K s a ++ l1).
  { clear - C. revert pre C. induction evs as [|e evs IH]; intros pre C.
    - destruct pre; discriminate.
    - change (calls K s (e :: evs)) with (call_of K s e ++ calls K s evs) in C.
      assert (LE : call_of K s e = [] \/ exists x, call_of K s e = [x]).
      { destruct e; cbn; eauto. destruct (find_attr K name) as [[]|]; eauto. }
      destruct LE as [LE|(x & LE)]; rewrite LE in C; cbn [app] in C.
      + destruct (IH _ C) as (a & e' & b & l1 & l2 & -> & Q & ->).
        exists (e :: a), e', b, l1, l2. split; auto. split; auto.
        change (calls K s (e :: a)) with (call_of K s e ++ calls K s a). now rewrite LE.
      + destruct pre as [|y pre]; inversion C as [[A B]].
        * exists [], e, evs, [], []. rewrite LE, A. auto.
        * destruct (IH _ B) as (a & e' & b & l1 & l2 & -> & Q & ->).
          exists (e :: a), e', b, l1, l2. split; auto. split; auto.
          change (calls K s (e :: a)) with (call_of K s e ++ calls K s a). now rewrite LE, A. }
  destruct SPL as (a & e & b & l1 & l2 & -> & Q & ->).
  assert (l1 = []) as ->.
  { destruct l1; auto. exfalso. destruct e; cbn in Q; try discriminate.
    - inversion Q. destruct l1; discriminate.
    - destruct (find_attr K name) as [[]|]; try discriminate. inversion Q. destruct l1; discriminate. }
  rewrite app_nil_r. destruct (run_app _ _ _ _ _ _ _ _ _ _ R) as (sh1 & us1 & _ & CA & d & R2). rewrite CA.
  cbn [run] in R2. destruct (step K s (level_of o) (path_set_of o) e sh1 us1) as [[r1 sh2] us2] eqn:S.
  destruct r1 as [[]|x]; [|discriminate]. clear R2.
  assert (RH : exists sh2 us2, run_handler (level_of o) Decorated f t hp sh1 us1 = (Ok tt, sh2, us2)).
  { destruct e; cbn in Q; try discriminate.
    - inversion Q; subst. cbn [step] in S. destruct (ambiguity (level_of o) h); [|discriminate]. eauto.
    - cbn [step] in S. destruct (find_attr K name) as [[]|]; try discriminate. inversion Q; subst. eauto. }
  destruct RH as (sh3 & us3 & RH). unfold run_handler in RH.
  destruct (f t hp sh1 us1) as [[[rv|x] a1] b1]; [|discriminate]. cbn in *.
  inversion RH as [[RP E1 E2]]. unfold rval_policy in RP. destruct rv as [z|]; [|discriminate].
  exists z. split; auto. destruct (Z.eqb_spec z 0); auto. destruct (Z.ltb_spec 10 z); [discriminate|].
  destruct (Z.leb_spec 5 (level_of o)); [discriminate|]. auto.
Qed.

(** ** One-option sections: dispatch and return codes *)
Lemma one_option_walk dname s k v e :
  ini_items i s = Some [(k, Ok v)] -> meaning K s (k, Ok v) (MStep e) ->
  parse_walk K i dname s false false [Enter s; e; Leave s] 1.
Proof.
  intros IT M. apply (pw_section K i dname s false false [] 0 [(k, Ok v)] [e] 0); auto.
  econstructor; [exact M|constructor].
Qed.

Theorem dispatch_one fuel s k v w ps (o : obj) :
  s <> [] -> has_file fs o i -> level_ok o -> 1 <= fuel ->
  ini_items i s = Some [(k, Ok v)] -> shlex_split (strip_ws k) = Ok (w :: ps) -> op_word K w = true ->
  let key := strip_ws k in let val := clean_value v in
  let p := parse_section_str K fs fuel s false false o in
  let called name kind f :=
    let '(r, sh, us) := f s (Hp s (Some key, val) (undash w) ps val name) (k_empty K) (o_user o) in
    fst p = match r with
            | Err e => Err e
            | Ok rv => match kind with
                       | Decorated => match rval_policy (level_of o) rv with Ok _ => Ok sh | Err e => Err e end
                       | _ => Ok sh
                       end
            end /\ o_user (snd p) = us /\ options_of (snd p) s = options_of o s in
  match has_attr K (public_name (undash w)), has_attr K (private_name (undash w)) with
  | Some (AUser kind f), None => called (public_name (undash w)) kind f
  | None, Some (AUser kind f) => called (private_name (undash w)) kind f
  | Some (AUser kind f), Some _ =>
      if (3 <=? level_of o)%Z
      then fst p = Err AmbiguousHandlerError /\ o_user (snd p) = o_user o
      else called (public_name (undash w)) kind f
  | None, None =>
      fst p = Ok (k_empty K) /\ options_of (snd p) s = dset key val (options_of o s) /\
      o_user (snd p) = o_user o
  | _, _ => True
  end.
Proof.
  intros NE H L F IT SH OW key val p called.
  assert (GO : forall e, meaning K s (k, Ok v) (MStep e) ->
     let '(r, sh, us, done) := run K s (level_of o) (path_set_of o) [Enter s; e; Leave s] (k_empty K) (o_user o) in
     fst p = match r with Ok _ => Ok sh | Err x => Err x end /\ o_user (snd p) = us /\
     options_of (snd p) s = write_all (plains done) (options_of o s)).
  { intros e M. pose proof (one_option_walk (o_defname o) s k v e IT M) as W.
    assert (DO : default_ok K i (o_defname o) s false) by (intros X; discriminate).
    pose proof (parse_section_spec K fs i fuel s false false o _ _ NE H (proj1 L) W DO F) as X.
    destruct (run K s (level_of o) (path_set_of o) [Enter s; e; Leave s] (k_empty K) (o_user o)) as [[[r sh] us] done].
    destruct X as (o' & E & P & _). fold p in E. rewrite E. cbn [fst snd]. split; auto.
    split; [exact (pa_user _ _ _ _ _ _ _ _ _ _ P)|].
    rewrite !options_of_opts, (pa_data _ _ _ _ _ _ _ _ _ _ P), opts_data_after, str_eqb_refl. reflexivity. }
  assert (HB : forall name kind f amb, handler_of K (undash w) (Some (name, AUser kind f, amb)) ->
     (amb = true -> (level_of o < 3)%Z) -> called name kind f).
  { intros name kind f amb HO A. specialize (GO _ (proj2 (meaning_iff _ _ _ _) (c_user K s k v w ps name kind f amb SH OW HO))).
    cbn [run step] in GO. unfold ambiguity in GO. cbn [h_amb] in GO.
    assert (X : (amb && (3 <=? level_of o)%Z)%bool = false).
    { destruct amb; auto. specialize (A eq_refl). cbn. lia. }
    rewrite X in GO. unfold called. unfold run_handler, params_of in GO.
    cbn [h_op h_params h_name] in GO. fold key val in GO.
    destruct (f s (Hp s (Some key, val) (undash w) ps val name) (k_empty K) (o_user o)) as [[[rv|x] sh] us].
    - destruct kind; [destruct (rval_policy (level_of o) rv) as [[]|y]|..]; cbn in GO; exact GO.
    - cbn in GO. exact GO. }
  destruct (has_attr K (public_name (undash w))) as [[|kind f| |]|] eqn:PU;
  destruct (has_attr K (private_name (undash w))) as [pa|] eqn:PR; auto.
  - destruct (Z.leb_spec 3 (level_of o)) as [L3|L3].
    + specialize (GO _ (proj2 (meaning_iff _ _ _ _) (c_user K s k v w ps _ kind f true SH OW (ho_both K _ _ _ PU PR)))).
      cbn [run step] in GO. unfold ambiguity in GO. cbn [h_amb] in GO.
      replace (true && (3 <=? level_of o)%Z)%bool with true in GO by (symmetry; cbn; lia).
      cbn in GO. tauto.
    + eapply HB; [exact (ho_both K _ _ _ PU PR)|auto].
  - eapply HB; [exact (ho_public K _ _ PU PR)|discriminate].
  - destruct pa as [|kind f| |]; auto. eapply HB; [exact (ho_private K _ _ PU PR)|discriminate].
  - specialize (GO _ (proj2 (meaning_iff _ _ _ _) (c_plain K s k v w ps SH OW (ho_none K _ PU PR)))). cbn in GO. tauto.
Qed.

Theorem dispatch_shown fuel s k0 v0 key val w ps (o : obj) :
  s <> [] -> has_file fs o i -> level_ok o -> 1 <= fuel ->
  section_shows i s [(k0, Ok v0)] -> trimmed space k0 key -> cleaned v0 val ->
  words key (w :: ps) -> op_shaped (k_uniword K) w ->
  let p := parse_section_str K fs fuel s false false o in
  let called name kind f :=
    let '(r, sh, us) := f s (Hp s (Some key, val) (undash w) ps val name) (k_empty K) (o_user o) in
    fst p = match r with
            | Err e => Err e
            | Ok rv => match kind with
                       | Decorated => match rval_policy (level_of o) rv with Ok _ => Ok sh | Err e => Err e end
                       | _ => Ok sh
                       end
            end /\ o_user (snd p) = us /\ options_of (snd p) s = options_of o s in
  match has_attr K (public_name (undash w)), has_attr K (private_name (undash w)) with
  | Some (AUser kind f), None => called (public_name (undash w)) kind f
  | None, Some (AUser kind f) => called (private_name (undash w)) kind f
  | Some (AUser kind f), Some _ =>
      if (3 <=? level_of o)%Z
      then fst p = Err AmbiguousHandlerError /\ o_user (snd p) = o_user o
      else called (public_name (undash w)) kind f
  | None, None =>
      fst p = Ok (k_empty K) /\ options_of (snd p) s = dset key val (options_of o s) /\
      o_user (snd p) = o_user o
  | _, _ => True
  end.
Proof.
  intros NE H L F IT T C W O. apply shows_iff in IT. apply trimmed_iff in T. apply cleaned_iff in C. subst key val.
  apply shlex_words in W. apply op_word_iff in O. exact (dispatch_one fuel s k0 v0 w ps o NE H L F IT W O).
Qed.

(** ** C26 *)
Lemma balanced_app3 a b c : balanced a -> balanced b -> balanced c -> balanced (a ++ b ++ c).
Proof. intros. repeat apply bal_app; auto. Qed.

Lemma bal_pair n e : balanced [LHEntry n e; LHExit n e].
Proof. exact (bal_handler n e [] bal_nil). Qed.

Lemma records_item s item e : meaning K s item (MStep e) -> balanced (records K e).
Proof.
  intros M. inversion M; subst; cbn [records];
    try exact bal_nil.
  - exact (bal_app _ _ (bal_key _ _) (bal_pair _ _)).
  - exact (bal_app _ _ (bal_key _ _) (bal_app _ _ (bal_op _ _) (bal_pair _ _))).
  - change ([LKeyValue ?k ?v; LOperation ?a ?b] ++ ?l) with ([LKeyValue k v] ++ [LOperation a b] ++ l).
    apply balanced_app3; [apply bal_key|apply bal_op|]. destruct kind; try apply bal_nil. apply bal_pair.
Qed.

Lemma walk_balanced :
  (forall path s evs n, walk K i path s evs n -> ~ Exists is_cycle evs ->
     balanced (flat_map (records K) evs)) /\
  (forall path s items evs n, walk_options K i path s items evs n -> ~ Exists is_cycle evs ->
     balanced (flat_map (records K) evs)).
Proof.
  apply walk_both.
  - intros. cbn. constructor.
  - intros path s items evs n _ W IH NC. cbn [flat_map records app].
    rewrite flat_map_app. cbn [flat_map records app]. apply bal_section, IH.
    intros X. apply NC. apply Exists_cons_tl, Exists_app. now left.
  - intros. constructor.
  - intros path s item rest e evs n M W IH NC. cbn [flat_map]. apply bal_app.
    + eapply records_item; eauto.
    + apply IH. intros X. apply NC. now right.
  - intros path s item rest t h k v e1 n1 e2 n2 M _ W1 IH1 W2 IH2 NC.
    cbn [flat_map]. rewrite flat_map_app. cbn [flat_map records].
    match goal with |- balanced ((?o ++ [?x]) ++ ?a ++ [?y] ++ ?b) =>
      replace ((o ++ [x]) ++ a ++ [y] ++ b) with (o ++ (x :: a ++ [y]) ++ b)
        by (rewrite <- !app_assoc; cbn [app]; rewrite <- !app_assoc; reflexivity) end.
    apply balanced_app3.
    + exact (bal_app _ _ (bal_key _ _) (bal_op _ _)).
    + apply bal_handler, IH1. intros X. apply NC. apply Exists_cons_tl, Exists_app. now left.
    + apply IH2. intros X. apply NC. apply Exists_cons_tl, Exists_app. right. now right.
  - intros path s item rest t h k v evs n M _ W IH NC. exfalso. apply NC. left. exact I.
Qed.

Lemma count_app {A} (p : A -> bool) a b : count p (a ++ b) = count p a + count p b.
Proof. unfold count. now rewrite filter_app, app_length. Qed.

Definition surplus (l : list logent) : Prop :=
  count is_exit l = count is_entry l + count is_cycle_rec l.
Lemma surplus_app a b : surplus a -> surplus b -> surplus (a ++ b).
Proof. unfold surplus. rewrite !count_app. lia. Qed.

Lemma walk_surplus :
  (forall path s evs n, walk K i path s evs n -> surplus (flat_map (records K) evs)) /\
  (forall path s items evs n, walk_options K i path s items evs n -> surplus (flat_map (records K) evs)).
Proof.
  apply walk_both; intros; cbn [flat_map]; rewrite ?flat_map_app; try reflexivity.
  - unfold surplus in *. cbn [records]. rewrite !count_app. cbn. lia.
  - apply surplus_app; auto. match goal with M : meaning _ _ _ _ |- _ => inversion M; subst end; try reflexivity.
    destruct kind; reflexivity.
  - unfold surplus in *. cbn [flat_map records]. rewrite !count_app. unfold count in *. cbn. lia.
  - unfold surplus in *. cbn [records]. rewrite !count_app. unfold count in *. cbn. lia.
Qed.

Lemma hook_records t name : balanced (records K (Hook t name)) /\ surplus (records K (Hook t name)).
Proof.
  cbn [records]. destruct (find_attr K name) as [[|[]| |]|]; split; try reflexivity; try apply bal_nil.
  apply bal_pair.
Qed.

Lemma parse_walk_log dname s init fin evs n :
  parse_walk K i dname s init fin evs n ->
  surplus (flat_map (records K) evs) /\
  (~ Exists is_cycle evs -> balanced (flat_map (records K) evs)).
Proof.
  intros W.
  assert (D0 : forall evs0 n0, (if init then default_walk K i dname evs0 n0 else evs0 = [] /\ n0 = 0) ->
    surplus (flat_map (records K) evs0) /\ (~ Exists is_cycle evs0 -> balanced (flat_map (records K) evs0))).
  { intros e0 n0 D. destruct init; [|destruct D as [-> _]; split; [reflexivity|intros; constructor]].
    unfold default_walk in D. destruct (ini_has_section i dname).
    - split; [eapply (proj1 walk_surplus); eauto|eapply (proj1 walk_balanced); eauto].
    - destruct D as [-> _]. split; [reflexivity|intros; constructor]. }
  pose proof (hook_records s $"handler_initialize") as [HB HS].
  inversion W as [evs0 n0 D IT|evs0 n0 items evs1 n1 D IT WO]; subst; filed; destruct (D0 _ _ D) as [S0 B0].
  - rewrite flat_map_app. cbn [flat_map]. split.
    + apply surplus_app; [|reflexivity]. destruct init; [|reflexivity]. cbn [flat_map]. now apply surplus_app.
    + intros NC. apply bal_app; [|constructor]. destruct init; [|constructor]. cbn [flat_map].
      apply bal_app; auto. apply B0. intros X. apply NC. apply Exists_cons_tl, Exists_app. now left.
  - pose proof (hook_records s $"handler_finalize") as [FB FS].
    rewrite flat_map_app. cbn [flat_map]. rewrite !flat_map_app. split.
    + apply surplus_app; [destruct init; [|reflexivity]; cbn [flat_map]; now apply surplus_app|].
      pose proof (proj2 walk_surplus _ _ _ _ _ WO) as S1.
      assert (S2 : surplus (flat_map (records K) (if fin then [Hook s $"handler_finalize"] else []))).
      { destruct fin; [|reflexivity]. cbn [flat_map]. rewrite app_nil_r. exact FS. }
      unfold surplus in *. cbn [records flat_map]. rewrite !count_app. unfold count in *. cbn [filter is_exit is_entry is_cycle_rec length] in *. lia.
    + intros NC. apply bal_app.
      * destruct init; [|constructor]. cbn [flat_map]. apply bal_app; auto. apply B0.
        intros X. apply NC. apply Exists_app. left. now right.
      * cbn [records flat_map app].
        assert (S2 : balanced (flat_map (records K) (if fin then [Hook s $"handler_finalize"] else []))).
        { destruct fin; [|constructor]. cbn [flat_map]. rewrite app_nil_r. exact FB. }
        rewrite app_assoc. apply bal_section, bal_app; auto.
        eapply (proj2 walk_balanced); eauto. intros X. apply NC. apply Exists_app. right.
        apply Exists_cons_tl, Exists_app. now left.
Qed.

Theorem log_structure fuel s init fin (o : obj) v o' :
  has_file fs o i -> level_ok o ->
  parse_section_str K fs fuel s init fin o = (Ok v, o') ->
  ((o_debug o <= 0)%Z -> log_of o' = []) /\
  ((0 < o_debug o)%Z -> exists evs n, parse_walk K i (o_defname o) s init fin evs n /\
     log_of o' = flat_map (records K) evs) /\
  count is_exit (log_of o') = count is_entry (log_of o') + count is_cycle_rec (log_of o') /\
  (count is_cycle_rec (log_of o') = 0 -> balanced (log_of o')).
Proof.
  intros H [L _] E.
  destruct (parse_section_Ok K fs i _ _ _ _ _ _ _ H L E) as (_ & _ & evs & n & us & W & R & P).
  destruct (pa_log _ _ _ _ _ _ _ _ _ _ P) as (l & LG & LN). rewrite LN in LG by reflexivity.
  rewrite app_nil_r in LG.
  destruct (parse_walk_log _ _ _ _ _ _ W) as [SU BA].
  destruct (Z.ltb_spec 0 (o_debug o)) as [D|D]; rewrite LG.
  - split; [lia|]. split; [eauto|]. split; [exact SU|]. intros C0. apply BA.
    intros X. apply Exists_exists in X as (e & I & C). destruct e; try contradiction.
    assert (In (LCycle s0 (h_op h)) (flat_map (records K) evs)).
    { apply in_flat_map. eexists. split; [exact I|]. cbn. auto. }
    unfold count in C0. apply length_zero_iff_nil in C0.
    assert (Y : In (LCycle s0 (h_op h)) (filter is_cycle_rec (flat_map (records K) evs)))
      by (apply filter_In; auto). rewrite C0 in Y. destruct Y.
  - split; [auto|]. split; [lia|]. split; [reflexivity|]. intros; constructor.
Qed.

Theorem log_of_any_parse fuel s init fin (o : obj) :
  s <> [] -> has_file fs o i -> level_ok o -> default_ok K i (o_defname o) s init ->
  length (ini_sections i) + 3 <= fuel ->
  exists evs n, parse_walk K i (o_defname o) s init fin evs n /\
    log_of (snd (parse_section_str K fs fuel s init fin o)) =
    if (0 <? o_debug o)%Z
    then run_log K s (level_of o) (path_set_of o) evs (k_empty K) (o_user o) else [].
Proof.
  intros NE H [L _] DO F. destruct (parse_walk_exists K i (o_defname o) s init fin) as (evs & n & W & N).
  exists evs, n. split; auto. eapply parse_section_log; eauto. lia.
Qed.

(** ** C13 *)
Theorem failed_parse_cached fuel fuel' s init fin (o : obj) e o' :
  s <> [] -> has_file fs o i -> ini_has_section i s = true ->
  parse_section_str K fs fuel s init fin o = (Err e, o') ->
  fst (getitem K fs fuel' s o') =
    match section_of o' s with Some d => Ok d | None => Err KeyError end /\
  data_of (snd (getitem K fs fuel' s o')) = data_of o' /\
  o_user (snd (getitem K fs fuel' s o')) = o_user o'.
Proof.
  intros NE H HS E.
  pose proof (parse_section_any K fs fuel s init fin o) as X. rewrite E in X.
  destruct X as (es & D & C & _ & _).
  pose proof (parse_section_keeps_file K fs fuel s init fin o i H) as H'. rewrite E in H'. cbn [snd] in H'.
  assert (CH : str_mem s (checked_of o') = true).
  { rewrite C. destruct (str_eqb_spec s []) as [->|_]; [contradiction|]. apply str_mem_In, In_sadd. now left. }
  unfold getitem, has_section, data_has_section, bind, data_section, section_of, data_of.
  rewrite (get_cpd_ready fs i) by exact H'.
  rewrite HS. unfold get_edata, bind. cbn [o_edata set_cpd].
  unfold checked_of in CH. destruct (o_edata o') as [d|] eqn:ED; [|discriminate].
  unfold put_edata, modify, ret, raise. cbn. rewrite CH. cbn. rewrite ED. unfold dmem.
  destruct (dget s (d_data d)) eqn:G; cbn; rewrite ?ED; cbn; rewrite ?G; cbn [fst snd o_edata set_cpd o_user]; rewrite ?ED; auto.
Qed.

(** ** C38 *)
Theorem parse_argument_checks fuel init fin (o : obj) :
  level_ok o ->
  fst (parse_section K fs fuel None init fin o) = Err TypeError /\
  fst (parse_section K fs fuel (Some []) init fin o) = Err ValueError /\
  forall a, a = None \/ a = Some [] ->
    let o' := snd (parse_section K fs fuel a init fin o) in
    data_of o' = data_of o /\ checked_of o' = checked_of o /\ o_last o' = o_last o /\ o_user o' = o_user o.
Proof.
  intros [L _]. unfold parse_section.
  assert (EV : forall o1 : obj, o_ec o1 = o_ec o ->
     exists out, event $"CATASTROPHIC" TypeError o1 = (Err TypeError, add_out (map OutWarn out) o1)).
  { intros o1 EC. pose proof (event_raise_iff (o_ec o1) $"CATASTROPHIC" 0 TypeError true ltac:(constructor)) as X.
    unfold event. destruct (ec_event (o_ec o1) $"CATASTROPHIC" (XClass TypeError) true) as [r out].
    cbn in X. rewrite EC in X. unfold level_of in L. replace (0 <=? ec_level (o_ec o))%Z with true in X by lia.
    subst r. exists out. reflexivity. }
  destruct (EV (set_log None o) eq_refl) as (out & E).
  split; [|split].
  - unfold bind, modify. rewrite E. reflexivity.
  - reflexivity.
  - intros a [->| ->]; [|cbn; auto]. unfold bind, modify. rewrite E. cbn. auto.
Qed.

Theorem last_result fuel s init fin (o : obj) :
  let '(r, o') := parse_section_str K fs fuel s init fin o in
  o_last o' = match r with Ok v => Some v | Err _ => o_last o end.
Proof.
  destruct (str_eqb_spec s []) as [->|NE]; [reflexivity|].
  rewrite parse_section_start by auto.
  assert (C : conf (x_obj (snd (psr K fs fuel s s init fin (start K o s)))) = conf o).
  { change (conf o) with (conf (x_obj (start K o s))). destruct (file_or_not fs o) as [[j H]|[x N]].
    - apply (psr_conf K fs j). now apply start_ready.
    - assert (N' : no_file fs (x_obj (start K o s))).
      { exists x. rewrite <- N. now apply get_cpd_fst_ext. }
      now destruct (psr_no_file K fs fuel s init fin _ N') as (y & _ & B & C). }
  destruct (psr K fs fuel s s init fin (start K o s)) as [[u|e] c']; cbn in *; auto.
  unfold conf in C. congruence.
Qed.
End P.

(** C19: the return code of the handler of a one-option section. *)
Section Codes.
Context {Sh Us : Type} (K : pyclass Sh Us) (fs : str -> option str) (i : ini).
Lemma return_codes fuel s k0 v0 key val w ps (o : obj Sh Us) f rv sh us :
  s <> [] -> has_file fs o i -> level_ok o -> 1 <= fuel ->
  section_shows i s [(k0, Ok v0)] -> trimmed space k0 key -> cleaned v0 val ->
  words key (w :: ps) -> op_shaped (k_uniword K) w ->
  has_attr K (public_name (undash w)) = Some (AUser Decorated f) ->
  has_attr K (private_name (undash w)) = None ->
  f s (Hp s (Some key, val) (undash w) ps val (public_name (undash w))) (k_empty K) (o_user o) = (Ok rv, sh, us) ->
  let p := parse_section_str K fs fuel s false false o in
  fst p = match rv with
          | None => Err TypeError
          | Some z => if (z =? 0)%Z || ((z <=? 10)%Z && (level_of o <? 5)%Z) then Ok sh
                      else Err RuntimeError
          end /\ o_user (snd p) = us.
Proof.
  intros A B C D E T V F G P1 P2 R p.
  pose proof (dispatch_shown K fs i fuel s k0 v0 key val w ps o A B C D E T V F G) as Q.
  cbn zeta in Q. rewrite P1, P2, R in Q. destruct Q as (Q & U & _). split; [|exact U].
  unfold p. rewrite Q. destruct rv as [z|]; [|reflexivity]. unfold rval_policy.
  rewrite (Z.leb_antisym 10 z), (Z.leb_antisym (level_of o) 5).
  destruct (z =? 0)%Z; [reflexivity|]. destruct (Z.ltb_spec 10 z); [reflexivity|].
  destruct (level_of o <? 5)%Z; reflexivity.
Qed.
End Codes.

Lemma which_attributes {Sh Us} (K : pyclass Sh Us) n a :
  has_attr K n = Some a <->
  a <> ANone /\ (dget n (k_over K) = Some a \/
    dget n (k_over K) = None /\ (n = $"_handler_use" /\ a = AUse \/
      (n = $"handler_initialize" \/ n = $"handler_finalize") /\ a = AUser Decorated (fun _ _ sh us => (Ok (Some 0%Z), sh, us)))).
Proof.
  unfold has_attr, find_attr. destruct (dget n (k_over K)) as [b|] eqn:E.
  - split.
    + intros H. destruct b; try discriminate; injection H as <-; split; auto; discriminate.
    + intros (N & [H|(H & _)]); [|discriminate]. injection H as ->. destruct a; congruence.
  - unfold base_attrs. cbn [dget]. change noop_body with (fun (_ : str) (_ : hparams) (sh : Sh) (us : Us) => (Ok (Some 0%Z), sh, us)).
    destruct (str_eqb_spec n $"_handler_use") as [->|N1]; [|destruct (str_eqb_spec n $"handler_finalize") as [->|N2]; [|destruct (str_eqb_spec n $"handler_initialize") as [->|N3]]].
    + split; [intros [= <-]; split; [discriminate|auto]|]. intros (_ & [H|(_ & [(_ & ->)|([H|H] & _)])]); [discriminate|reflexivity|discriminate H..].
    + split; [intros [= <-]; split; [discriminate|auto 6]|]. intros (_ & [H|(_ & [(H & _)|(_ & ->)])]); [discriminate..|reflexivity].
    + split; [intros [= <-]; split; [discriminate|auto 6]|]. intros (_ & [H|(_ & [(H & _)|(_ & ->)])]); [discriminate..|reflexivity].
    + split; [discriminate|]. intros (_ & [H|(_ & [(H & _)|([H|H] & _)])]); congruence.
Qed.
