(** * The statements of C94. *)
From Coq Require Import String NArith ZArith List Bool Lia.
Import ListNotations.
From Verif Require Import PyBase PyFacts IniView IniRead ExcControl Cpe SpecText SpecFile FileProofs SpecWalk SpecRun SpecParse Errors Texts SpecTexts
  TextsProofs TextsProofs2 TextsProofs3.
Local Open Scope string_scope.
Local Open Scope list_scope.

Section S.
Context (Sh Us : Type).
Theorem same_run (K : pyclass Sh Us) fs cwd shown_files fuel s (o : obj Sh Us) :
  (forall init fin, forget (tparse_section_str K fs cwd shown_files fuel s init fin o) = parse_section_str K fs fuel s init fin o) /\
  forget (tgetitem K fs cwd shown_files fuel s o) = getitem K fs fuel s o /\
  forget (tdata_options K fs cwd shown_files fuel s o) = data_options K fs fuel s o /\
  (forall k, forget (thas_option K fs cwd shown_files fuel s k o) = has_option K fs fuel s k o) /\
  (forall k, forget (tdata_get K fs cwd shown_files fuel s k o) = data_get K fs fuel s k o).
Proof.
  refine (conj (fun init fin => er_parse K fs cwd shown_files fuel s init fin o) (conj _ (conj _ (conj _ _)))).
  - apply er_getitem.
  - apply er_options.
  - intros k. apply er_has_option.
  - intros k. apply er_get.
Qed.
Variables (K : pyclass Sh Us) (fs : str -> option str) (cwd : str) (shown_files : list str -> str) (fuel : nat) (s : str).
Theorem parse_answers init fin i fl (o : obj Sh Us) :
  s <> [] -> has_file fs o i -> o_files o = Some fl -> default_ok K i (o_defname o) s init ->
  answers_with K shown_files i fl (o_defname o) s init (fun _ _ => False) (tparse_section_str K fs cwd shown_files fuel s init fin o).
Proof.
  intros NE H F D. pose proof (parse_tells K fs cwd shown_files fuel s init fin i fl o NE H F D) as T. unfold answers_with.
  destruct (tparse_section_str K fs cwd shown_files fuel s init fin o) as [[[a|e [m|]] o'] w]; destruct T as (W & R); (split; [exact W|]); auto.
Qed.
Theorem get_answers k i fl (o : obj Sh Us) :
  s <> [] -> has_file fs o i -> o_files o = Some fl -> default_ok K i (o_defname o) s true ->
  answers_with K shown_files i fl (o_defname o) s true
    (fun e m => e = KeyError /\ (m = $"Missing section " ++ s ++ $"." \/ exists key, k = Some key /\ m = $"Missing section:option -> '" ++ s ++ $"': '" ++ key ++ $"'"))
    (tdata_get K fs cwd shown_files fuel s k o).
Proof. intros NE H F D. apply (get_tells K fs cwd shown_files fuel i fl (o_defname o) s NE D k o). split; auto. Qed.
Theorem has_option_answers k i fl (o : obj Sh Us) :
  s <> [] -> has_file fs o i -> o_files o = Some fl -> default_ok K i (o_defname o) s true ->
  answers_with K shown_files i fl (o_defname o) s true (fun _ _ => False) (thas_option K fs cwd shown_files fuel s k o).
Proof. intros NE H F D. apply (has_option_tells K fs cwd shown_files fuel i fl (o_defname o) s NE D k o). split; auto. Qed.
Theorem getitem_answers i fl (o : obj Sh Us) :
  s <> [] -> has_file fs o i -> o_files o = Some fl -> default_ok K i (o_defname o) s true ->
  answers_with K shown_files i fl (o_defname o) s true (fun e m => e = KeyError /\ (m = s \/ present i s /\ m = says_unreachable))
    (tgetitem K fs cwd shown_files fuel s o) /\
  match fst (fst (tgetitem K fs cwd shown_files fuel s o)) with EErr KeyError x => x = Some s \/ x = Some says_unreachable | _ => True end.
Proof.
  intros NE H F D. assert (P : po fs i fl (o_defname o) o) by (split; auto).
  exact (conj (getitem_tells K fs cwd shown_files fuel i fl (o_defname o) s NE D o P) (getitem_key K fs cwd shown_files fuel i fl (o_defname o) s NE D o P)).
Qed.
Theorem options_answers i fl (o : obj Sh Us) :
  s <> [] -> has_file fs o i -> o_files o = Some fl -> default_ok K i (o_defname o) s true ->
  answers_with K shown_files i fl (o_defname o) s true
    (fun e m => e = KeyError /\ (m = $"Section " ++ s ++ $" does not exist." \/ present i s /\ m = says_unreachable))
    (tdata_options K fs cwd shown_files fuel s o).
Proof. intros NE H F D. apply (options_tells K fs cwd shown_files fuel i fl (o_defname o) s NE D o). split; auto. Qed.
End S.
Theorem no_file (Sh Us : Type) fs cwd (o : obj Sh Us) fl1 p fl2 :
  o_cpd o = None -> o_files o = Some (fl1 ++ p :: fl2) -> (forall q, In q fl1 -> fs q <> None) -> fs p = None ->
  fst (fst (tget_cpd fs cwd o)) = EErr IOError (Some (says_no_file cwd p)).
Proof.
  intros C F A N. unfold tget_cpd. rewrite C. cbn [o_files set_cpd]. rewrite F.
  assert (M : first_missing fs (fl1 ++ p :: fl2) = Some p).
  { unfold first_missing. clear F. induction fl1 as [|q l IH]; cbn [app find].
    - unfold file_exists. now rewrite N.
    - unfold file_exists at 1. destruct (fs q) eqn:Q; [|destruct (A q (or_introl eq_refl) Q)]. cbn [negb]. apply IH. intros x J. apply A. now right. }
  destruct (fl1 ++ p :: fl2) as [|q l] eqn:E; [destruct fl1; discriminate|]. rewrite M. cbn [fst]. do 2 f_equal.
  unfold not_a_file, says_no_file. cbn [join]. rewrite <- ?app_assoc. cbn [app]. rewrite ?app_nil_r. reflexivity.
Qed.
