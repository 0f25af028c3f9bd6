(** * C80 and C81: what a parse depends on, and [use] as pasting.

    Statements and examples only. *)
From Coq Require Import String NArith ZArith List Bool.
Import ListNotations.
From Verif Require Import PyBase PyFacts Shlex IniView IniRead ExcControl Debuggable Cpe EnvVar SetEnv SpecFile FileProofs MeaningProofs SpecBase SpecWalk SpecRun
  SpecParse SpecApi SpecSetEnv SpecLoadRun SpecLocal RefineOk Samples ApiProofs ProgProofs4 SamplesApi LocalProofs PasteProofs LocalEnvProofs.
Local Open Scope string_scope.
Local Open Scope list_scope.

(** ** C80 *)

(** In two files that have the same text in the sections that a parse comes to, the
    parse of a section ends in the same way, with the same data, the same state of
    the subclass and the same log; the other sections, and the order of all of them,
    do not matter. *)
Theorem C80_only_reached_sections :
  forall (Sh Us : Type) (K : pyclass Sh Us) fs fs' i i' fuel fuel' s init fin (o o' : obj Sh Us),
    s <> [] -> has_file fs o i -> has_file fs' o' i' -> level_ok o ->
    length (ini_sections i) + 3 <= fuel -> length (ini_sections i') + 3 <= fuel' ->
    default_ok K i (o_defname o) s init -> agree_for K i i' (o_defname o) s init ->
    o_defname o' = o_defname o -> level_of o' = level_of o -> path_set_of o' = path_set_of o -> o_debug o' = o_debug o ->
    o_user o' = o_user o -> options_of o' s = options_of o s ->
    let '(r1, o1) := parse_section_str K fs fuel s init fin o in
    let '(r2, o2) := parse_section_str K fs' fuel' s init fin o' in
    r1 = r2 /\ o_user o1 = o_user o2 /\ options_of o1 s = options_of o2 s /\ log_of o1 = log_of o2.
Proof. exact (@parse_local). Qed.
Print Assumptions C80_only_reached_sections.

(** So do the answers of the accessors (C12 gives them from the expansion). *)
Theorem C80_expansion :
  forall (Sh Us : Type) (K : pyclass Sh Us) i i' dname s d,
    agree_for K i i' dname s true -> expansion K i dname s d -> expansion K i' dname s d.
Proof. exact (@expansion_local). Qed.
Print Assumptions C80_expansion.

(** And the actions of an environment. *)
Theorem C80_environment :
  forall uniword i i' s l,
    agree_for (SetEnvironment uniword) i i' $"DEFAULT" s true -> section_asks uniword i s l -> section_asks uniword i' s l.
Proof. exact asks_local. Qed.
Print Assumptions C80_environment.

Definition local1 : list string := ["[DEFAULT]"; "d : 0"; "[A]"; "use B"; "a : %(x)s"; "x : 1"; "[B]"; "b : 2"; "[X]"; "b : 3"]%string.
Definition local2 : list string := ["[B]"; "b : 2"; "[Y]"; "use A"; "use 'A"; "[A]"; "use B"; "a : %(x)s"; "x : 1"; "[DEFAULT]"; "d : 0"]%string.
Definition ini_in (l : list string) : ini := match fst (get_cpd (disk l) (fresh tt : obj unit unit)) with Ok i => i | Err _ => Ini [] [] [] end.
Example C80_ex :
  let o := fresh tt : obj unit unit in
  has_file (disk local1) o (ini_in local1) /\ has_file (disk local2) o (ini_in local2) /\ level_ok o /\
  agree_for base (ini_in local1) (ini_in local2) $"DEFAULT" $"A" true /\ default_ok base (ini_in local1) $"DEFAULT" $"A" true /\
  options_of (snd (parse_section_str base (disk local1) 9 $"A" true true o)) $"A" =
    [($"d", Some $"0"); ($"b", Some $"2"); ($"a", Some $"1"); ($"x", Some $"1")].
Proof.
  cbv zeta. split; [vm_compute; reflexivity|]. split; [vm_compute; reflexivity|]. split; [computed|]. split; [|split].
  - split; [vm_compute; reflexivity|]. split; [vm_compute; reflexivity|]. split; [|intros _; vm_compute; reflexivity].
    intros u H. assert (I : In u [$"DEFAULT"; $"A"; $"B"]).
    { destruct H as [H|(_ & _ & H)]; (eapply (reaches_closed base (ini_in local1) [$"DEFAULT"; $"A"; $"B"]); [vm_compute; reflexivity| |exact H]).
      - right. now left.
      - now left. }
    destruct I as [<-|[<-|[<-|[]]]]; vm_compute; reflexivity.
  - apply (default_ok_check _ _ [$"DEFAULT"]); vm_compute; reflexivity.
  - vm_compute. reflexivity.
Qed.

(** ** C81 *)

(** Writing the options of [b] into section [a] in the place of [use b] changes the
    data of no section, if [b] is not on a [use] cycle. *)
Theorem C81_use_is_pasting :
  forall (Sh Us : Type) (K : pyclass Sh Us) i i' a b dname s d,
    pasted K i i' a b -> ~ on_cycle K i b -> expansion K i dname s d <-> expansion K i' dname s d.
Proof. exact (@use_is_pasting). Qed.
Print Assumptions C81_use_is_pasting.

(** Nor how a parse ends and what the handlers do, if no operation has two handlers
    and the handlers do not look at the section an option is written in. *)
Theorem C81_parse :
  forall (Sh Us : Type) (K : pyclass Sh Us) fs fs' i i' a b fuel fuel' s init fin (o o' : obj Sh Us),
    pasted K i i' a b -> ~ on_cycle K i b -> unambiguous K -> calls_blind K i (o_defname o) s init ->
    s <> [] -> has_file fs o i -> has_file fs' o' i' -> level_ok o ->
    length (ini_sections i) + 3 <= fuel -> length (ini_sections i) + 3 <= fuel' ->
    default_ok K i (o_defname o) s init ->
    o_defname o' = o_defname o -> level_of o' = level_of o -> path_set_of o' = path_set_of o ->
    o_user o' = o_user o -> options_of o' s = options_of o s ->
    let '(r1, o1) := parse_section_str K fs fuel s init fin o in
    let '(r2, o2) := parse_section_str K fs' fuel' s init fin o' in
    r1 = r2 /\ o_user o1 = o_user o2 /\ options_of o1 s = options_of o2 s.
Proof. exact (@parse_pasted). Qed.
Print Assumptions C81_parse.

(** Nor the actions of an environment. *)
Theorem C81_environment :
  forall uniword i i' a b s l,
    pasted (SetEnvironment uniword) i i' a b -> ~ on_cycle (SetEnvironment uniword) i b ->
    section_asks uniword i s l <-> section_asks uniword i' s l.
Proof. exact asks_pasted. Qed.
Print Assumptions C81_environment.

(** [SetEnvironment] is such a class, for files without the option of finding 4. *)
Theorem C81_environment_class :
  forall uniword, unambiguous (SetEnvironment uniword) /\
    forall i dname s init, no_finalize_options i -> calls_blind (SetEnvironment uniword) i dname s init.
Proof. exact setenv_blind. Qed.
Print Assumptions C81_environment_class.

Definition paste1 : list string := ["[A]"; "x : 0"; "use B"; "y : 3"; "[B]"; "z : 1"; "use C"; "[C]"; "x : 2"; "use C"; "[D]"; "use A"; "y : 5"]%string.
Definition paste2 : list string := ["[A]"; "x : 0"; "z : 1"; "use C"; "y : 3"; "[B]"; "z : 1"; "use C"; "[C]"; "x : 2"; "use C"; "[D]"; "use A"; "y : 5"]%string.
Ltac other_sections f g :=
  let u := fresh in let N := fresh in let items := fresh in let E := fresh in
  intros u N items; rewrite !shows_iff; apply str_eqb_neq in N;
  enough (E : dget u (i_secs (ini_in f)) = dget u (i_secs (ini_in g))) by (unfold ini_items, own_options; rewrite E; reflexivity);
  vm_compute; vm_compute in N; rewrite N; reflexivity.
Ltac expanded f :=
  apply (expansion_check no_uni (disk f) _ 20 _ (fresh tt));
  [apply (all_parsable_check _ _ _ [$"DEFAULT"]); vm_compute; reflexivity
  |vm_compute; repeat constructor
  |constructor; [vm_compute; reflexivity|reflexivity|vm_compute; split; discriminate|left; reflexivity|reflexivity|reflexivity]
  |vm_compute; reflexivity|vm_compute; reflexivity].
Example C81_ex :
  pasted base (ini_in paste1) (ini_in paste2) $"A" $"B" /\ ~ on_cycle base (ini_in paste1) $"B" /\
  unambiguous base /\ calls_blind base (ini_in paste1) $"DEFAULT" $"D" true /\ default_ok base (ini_in paste1) $"DEFAULT" $"D" true /\
  has_file (disk paste1) (fresh tt : obj unit unit) (ini_in paste1) /\ has_file (disk paste2) (fresh tt : obj unit unit) (ini_in paste2) /\
  options_of (snd (parse_section_str base (disk paste2) 9 $"D" true true (fresh tt))) $"D" =
    [($"x", Some $"2"); ($"z", Some $"1"); ($"y", Some $"5")].
Proof.
  split; [|split; [|split; [|split; [|split]]]].
  - split; [vm_compute; reflexivity|]. split.
    + exists [($"x", Ok (Some $"0"))], ($"use B", Ok None), [($"y", Ok (Some $"3"))], [($"z", Ok (Some $"1")); ($"use C", Ok None)],
        (OpInfo $"use" [$"B"] (private_name $"use") false), $"use B", None.
      split; [apply shows_iff; vm_compute; reflexivity|]. split; [|split; apply shows_iff; vm_compute; reflexivity].
      apply meaning_iff, (c_use base $"A" $"use B" None $"use" $"B" []); [vm_compute; reflexivity..|].
      apply ho_private; vm_compute; reflexivity.
    + other_sections paste1 paste2.
  - intros (u & U & R). apply uses_targets in U.
    apply (reaches_closed base (ini_in paste1) [$"C"]) in R; [|vm_compute; reflexivity|exact U].
    destruct R as [R|[]]. discriminate R.
  - apply unambiguous_check. vm_compute. reflexivity.
  - apply calls_blind_all. constructor.
  - apply (default_ok_check _ _ [$"DEFAULT"]); vm_compute; reflexivity.
  - computed.
Qed.

(** The condition on cycles is needed: with [B] and [C] using each other, pasting [B]
    into [A] changes the order of the options. *)
Definition cyc1 : list string := ["[A]"; "use B"; "[B]"; "use C"; "b : 1"; "[C]"; "use B"; "c : 2"]%string.
Definition cyc2 : list string := ["[A]"; "use C"; "b : 1"; "[B]"; "use C"; "b : 1"; "[C]"; "use B"; "c : 2"]%string.
Theorem C81_on_cycle_refuted :
  ~ (forall (i i' : ini) a b s d, pasted base i i' a b -> expansion base i $"DEFAULT" s d <-> expansion base i' $"DEFAULT" s d).
Proof.
  intros H.
  assert (P : pasted base (ini_in cyc1) (ini_in cyc2) $"A" $"B").
  { split; [vm_compute; reflexivity|]. split.
    - exists [], ($"use B", Ok None), [], [($"use C", Ok None); ($"b", Ok (Some $"1"))],
        (OpInfo $"use" [$"B"] (private_name $"use") false), $"use B", None.
      split; [apply shows_iff; vm_compute; reflexivity|]. split; [|split; apply shows_iff; vm_compute; reflexivity].
      apply meaning_iff, (c_use base $"A" $"use B" None $"use" $"B" []); [vm_compute; reflexivity..|].
      apply ho_private; vm_compute; reflexivity.
    - other_sections cyc1 cyc2. }
  specialize (H _ _ _ _ $"A" [($"c", Some $"2"); ($"b", Some $"1")] P).
  assert (E2 : expansion base (ini_in cyc2) $"DEFAULT" $"A" [($"b", Some $"1"); ($"c", Some $"2")]) by expanded cyc2.
  assert (E1 : expansion base (ini_in cyc1) $"DEFAULT" $"A" [($"c", Some $"2"); ($"b", Some $"1")]) by expanded cyc1.
  apply H in E1. pose proof (expansion_unique _ _ _ _ _ _ E1 E2) as X. discriminate X.
Qed.
Print Assumptions C81_on_cycle_refuted.
