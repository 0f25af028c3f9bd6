(** * Malformed options end a parse with their own exception. *)
From Coq Require Import String NArith ZArith List Bool Lia Arith.
Import ListNotations.
From Verif Require Import PyBase PyFacts Shlex IniView IniRead ExcControl Debuggable Cpe
  SpecBase SpecShell SpecText SpecFile SpecShell ShellProofs FileProofs SpecWalk MeaningProofs SpecRun SpecParse SpecStop BaseProofs Refine RefineRoot RefineOk RunProofs Trace WalkProofs
  ParseProofs ParseProofs2 ParseProofs3 ShellProofs.

Section P.
Context {Sh Us : Type} (K : pyclass Sh Us) (fs : str -> option str) (i : ini).
Notation ev := (ev Sh Us).
Notation obj := (obj Sh Us).

Lemma stop_in dname s init fin evs n t r :
  parse_walk K i dname s init fin evs n -> ini_items i s <> None ->
  (In (Stop t r) evs <-> contributes K i dname s init t /\ item_of K i t (MStep (Stop t r))).
Proof.
  intros W N. rewrite (parse_walk_In K i _ _ _ _ _ _ _ W N) by (apply not_hook; discriminate).
  assert (EX : forall s, exists evs n, walk K i [] s evs n).
  { intros s0. destruct (parse_walk_exists K i dname s0 false false) as (e & m & W0 & _).
    destruct (ini_items i s0) eqn:E.
    - destruct (parse_walk_parts K i _ _ _ _ _ _ W0) as (? & ? & e1 & n1 & _ & W1 & _); [congruence|eauto].
    - exists [Missing s0], 1. constructor; auto. }
  unfold contributes. split.
  - intros [(e & m & W' & I)|(A & B & e & m & W' & I)];
    apply (walk_stop_iff K i _ _ _ _ _ W') in I as [R X]; auto.
  - intros [[R|(A & B & R)] X].
    + left. destruct (EX s) as (e & m & W'). exists e, m. split; auto. apply (walk_stop_iff K i _ _ _ _ _ W'); auto.
    + right. destruct (EX dname) as (e & m & W'). split; auto. split; auto.
      exists e, m. split; auto. apply (walk_stop_iff K i _ _ _ _ _ W'); auto.
Qed.

Lemma defect_of t k r st : meaning K t (k, r) (MStep (Stop t st)) -> defect K (k, r) (stop_exc st).
Proof.
  intros M. inversion M; subst; cbn [stop_exc];
    [apply d_value|eapply d_quotes|eapply d_blank|eapply d_use|eapply d_obj]; eauto.
Qed.

Lemma defect_stop t k r x : defect K (k, r) x ->
  exists st, meaning K t (k, r) (MStep (Stop t st)) /\ stop_exc st = x.
Proof.
  intros D. inversion D; subst.
  - eexists. split; [constructor|reflexivity].
  - eexists. split; [eapply m_key_err; [eassumption|now apply cleaned_iff|assumption]|reflexivity].
  - eexists. split; [eapply m_key_empty; [eassumption|now apply cleaned_iff|assumption]|reflexivity].
  - eexists. split; [eapply m_use_bad; [eassumption|now apply cleaned_iff|eassumption..]|reflexivity].
  - eexists. split; [eapply m_obj; [eassumption|now apply cleaned_iff|eassumption..]|reflexivity].
Qed.

Theorem defect_error fuel s init fin (o : obj) t items k r x :
  well_behaved K -> s <> [] -> has_file fs o i -> (0 <= level_of o < 5)%Z -> path_set_of o = true ->
  default_ok K i (o_defname o) s init -> length (ini_sections i) + 3 <= fuel ->
  (forall u, contributes K i (o_defname o) s init u -> present i u) ->
  contributes K i (o_defname o) s init t -> section_shows i t items -> In (k, r) items ->
  defect K (k, r) x ->
  (forall u its k' r' x', contributes K i (o_defname o) s init u -> section_shows i u its ->
     In (k', r') its -> defect K (k', r') x' -> x' = x) ->
  fst (parse_section_str K fs fuel s init fin o) = Err x.
Proof.
  intros WB NE H L PS DO F N CT HI IN D ALL. filed.
  destruct (parse_outcome K fs i fuel s init fin o NE H ltac:(split; lia) DO F)
    as (evs & n & rr & sh & us & done & o' & W & R & E & P & _). rewrite E. cbn [fst].
  assert (NS : ini_items i s <> None) by (apply present_iff, N; left; constructor).
  destruct (defect_stop t k r x D) as (st & M & SX).
  pose proof (proj2 (stop_in _ _ _ _ _ _ t st W NS) (conj CT (ex_intro _ items (ex_intro _ (k, r) (conj HI (conj IN M)))))) as IM.
  destruct (run_parse_wb K i _ _ _ _ _ _ (level_of o) (path_set_of o) (k_empty K) (o_user o) WB W)
    as (sh' & us' & [[FA R']|(pre & e & post & y & EE & FA & X & R')]);
  rewrite R' in R; inversion R; subst.
  - exfalso. rewrite Forall_forall in FA. specialize (FA _ IM). destruct st; cbn in FA; discriminate.
  - assert (IE : In e (done ++ e :: post)) by (apply in_or_app; right; now left).
    destruct (parse_walk_origin K i _ _ _ _ _ _ _ W IE) as [(nm & ->)|O]; [discriminate|].
    destruct e; cbn in X; try discriminate.
    + exfalso. apply (proj1 (present_iff i s0)); [apply N|]; [eapply contributes_of; [exact O|reflexivity]|].
      destruct O as [[_ O]|(_ & _ & _ & O)]; exact O.
    + rewrite PS in X. cbn in X. destruct (Z.ltb_spec (level_of o) 5); [discriminate|lia].
    + assert (Y : item_of K i s0 (MStep (Stop s0 r0))) by (destruct O as [[_ O]|(_ & _ & _ & O)]; exact O).
      destruct Y as (its & [k' r'] & HI' & IN' & M').
      pose proof (ALL s0 its k' r' _ ltac:(eapply contributes_of; [exact O|reflexivity]) (proj2 (shows_iff _ _ _) HI') IN' (defect_of _ _ _ _ M')) as <-.
      destruct r0; cbn in X |- *; congruence.
Qed.

(** A section is clean iff none of its options has a defect. *)
Theorem clean_no_defect t : clean_section K i t <->
  exists items, section_shows i t items /\ forall k r x, In (k, r) items -> ~ defect K (k, r) x.
Proof.
  split; intros (items & HI & H); exists items; split; auto.
  - intros k r x IN D. destruct (defect_stop t k r x D) as (st & M & _). exact (H _ _ IN M).
  - intros [k r] st IN M. exact (H _ _ _ IN (defect_of _ _ _ _ M)).
Qed.
End P.

(** ** Checking the hypotheses on a concrete file *)
Section Check.
Context {Sh Us : Type} (K : pyclass Sh Us) (i : ini).

Definition item_exc (item : str * res (option str)) : option exc :=
  match snd item with
  | Err e => Some e
  | Ok _ =>
      match shlex_split (strip_ws (fst item)) with
      | Err _ => Some ValueError
      | Ok [] => Some IndexError
      | Ok (w :: ps) =>
          if op_word K w then
            match (match has_attr K (public_name (undash w)) with
                   | Some a => Some a | None => has_attr K (private_name (undash w)) end), ps with
            | Some AUse, [] => Some IndexError
            | Some AObj, _ => Some TypeError
            | _, _ => None
            end
          else None
      end
  end.

Lemma defect_item_exc item x : defect K item x -> item_exc item = Some x.
Proof.
  intros D. inversion D as [|k0 k v T N|k0 k v T W|k0 k v w name amb T W O HO|k0 k v w ps name amb T W O HO]; subst;
    unfold item_exc; cbn [fst snd]; auto; apply trimmed_iff in T; subst k.
  - rewrite (proj1 (shlex_error _)); auto.
  - now rewrite (proj2 (shlex_words _ _) W).
  - rewrite (proj2 (shlex_words _ _) W), (proj2 (op_word_iff _ _) O). inversion HO; subst;
      repeat match goal with E : has_attr _ _ = _ |- _ => rewrite E end; auto.
  - rewrite (proj2 (shlex_words _ _) W), (proj2 (op_word_iff _ _) O). inversion HO; subst;
      repeat match goal with E : has_attr _ _ = _ |- _ => rewrite E end; auto.
Qed.

(** All defects of the sections [S] raise [x]. *)
Definition exc_eq_dec (x y : exc) : {x = y} + {x <> y}.
Proof. repeat decide equality. Defined.
Definition exc_eqb (x y : exc) : bool := if exc_eq_dec x y then true else false.
Lemma defects_check (S : list str) x :
  forallb (fun t => match ini_items i t with
     | Some items => forallb (fun it => match item_exc it with Some y => exc_eqb y x | None => true end) items
     | None => true end) S = true ->
  forall u its k r y, In u S -> section_shows i u its -> In (k, r) its -> defect K (k, r) y -> y = x.
Proof.
  intros C u its k r y IU HI IN D. filed. rewrite forallb_forall in C. specialize (C u IU). rewrite HI in C.
  rewrite forallb_forall in C. specialize (C _ IN). cbv beta in C. rewrite (defect_item_exc _ _ D) in C.
  unfold exc_eqb in C. destruct (exc_eq_dec y x); congruence.
Qed.
End Check.
