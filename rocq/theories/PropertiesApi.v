(** * C12, C28-C31, C35, C36: the accessors of the enhanced data.

    Statements and examples only. A history is a list of API calls, [after h o]
    the object after them, [answers lvl c r] the answers the file determines
    ([SpecApi.v]). *)
From Coq Require Import String NArith ZArith List Bool.
Import ListNotations.
From Verif Require Import PyBase PyFacts Shlex IniView IniRead ExcControl Cpe SpecWalk SpecRun SpecParse SpecApi
  RefineOk Samples SamplesApi ApiProofs2 ApiProofs4 ApiProofs5 ApiProofs6 ApiProofs7.

(** A file with a default section, a [use] cycle, and a nested [use]. *)
Definition file7 : list string :=
  ["[DEFAULT]"; "d : 0"; "x : 5";
   "[A]"; "x : 1"; "use B"; "t : 3";
   "[B]"; "y : 2"; "use A"; "use C";
   "[C]"; "n"; "v v : c"]%string.
(** A file without default section; [E] expands to nothing. *)
Definition file8 : list string :=
  ["[A]"; "a : 1"; "use B"; "[B]"; "b : 2"; "[E]"; "use F"; "[F]"]%string.
Definition ini7 : ini := match fst (get_cpd (disk file7) (fresh tt : obj unit unit)) with Ok i => i | Err _ => Ini [] [] [] end.
Definition ini8 : ini := match fst (get_cpd (disk file8) (fresh tt : obj unit unit)) with Ok i => i | Err _ => Ini [] [] [] end.

(** ** C12 *)

(** After any history of calls, each call gives an answer determined by the
    file and the current exception level. *)
Theorem C12_answers_from_file :
  forall (Sh Us : Type) (K : pyclass Sh Us) fs i dname fuel,
    well_behaved K -> length (ini_sections i) + 3 <= fuel -> all_parsable K i dname ->
    forall h c (o : obj Sh Us),
      opened K fs i dname o -> Forall (in_file K i dname) h -> in_file K i dname c ->
      answers K i dname (level_of (after K fs fuel h o)) c (fst (exec_op K fs fuel c (after K fs fuel h o))).
Proof. exact (@history_answers). Qed.
Print Assumptions C12_answers_from_file.

(** Two histories that end at the same level cannot be told apart. *)
Theorem C12_history_irrelevant :
  forall (Sh Us : Type) (K : pyclass Sh Us) fs i dname fuel,
    well_behaved K -> length (ini_sections i) + 3 <= fuel -> all_parsable K i dname ->
    forall h h' c (o : obj Sh Us),
      opened K fs i dname o ->
      Forall (in_file K i dname) h -> Forall (in_file K i dname) h' -> in_file K i dname c ->
      last_level h (level_of o) = last_level h' (level_of o) ->
      let r := fst (exec_op K fs fuel c (after K fs fuel h o)) in
      let r' := fst (exec_op K fs fuel c (after K fs fuel h' o)) in
      same_answer i c r r'.
Proof. exact (@history_irrelevant). Qed.
Print Assumptions C12_history_irrelevant.

Theorem C12_level_follows_assignments :
  forall (Sh Us : Type) (K : pyclass Sh Us) fs i dname fuel,
    well_behaved K -> length (ini_sections i) + 3 <= fuel -> all_parsable K i dname ->
    forall h (o : obj Sh Us),
      opened K fs i dname o -> Forall (in_file K i dname) h ->
      level_of (after K fs fuel h o) = last_level h (level_of o).
Proof. exact (@history_level). Qed.
Print Assumptions C12_level_follows_assignments.

Definition history7 : list op :=
  [OHasOption $"B" $"t"; OLen; OParse $"C"; OSections (PStr $"FORCE"); OLevel (-3); OGet $"A" (Some $"nope");
   OAssertSection $"A" true; OUnroll None true; OSections PBad].
Example C12_ex :
  all_parsable base ini7 $"DEFAULT" /\ opened base (disk file7) ini7 $"DEFAULT" (fresh tt) /\
  Forall (in_file base ini7 $"DEFAULT") history7 /\
  let o := after base (disk file7) 7 history7 (fresh tt) in
  level_of o = 0%Z /\
  fst (exec_op base (disk file7) 7 (OItem $"A") o) =
    Ok (RDict [($"d", Some $"0"); ($"x", Some $"1"); ($"y", Some $"2"); ($"n", None); ($"v v", Some $"c"); ($"t", Some $"3")]) /\
  fst (exec_op base (disk file7) 7 (OItem $"A") (fresh tt)) =
    fst (exec_op base (disk file7) 7 (OItem $"A") o).
Proof.
  split; [|split; [|split; [|computed]]].
  - apply (all_parsable_check _ _ _ [$"DEFAULT"]); vm_compute; reflexivity.
  - constructor; [computed|computed|computed|left; computed|computed|computed].
  - unfold history7. repeat apply Forall_cons; try apply Forall_nil; cbn [in_file]; try exact I;
      try (left; reflexivity); vm_compute; reflexivity.
Qed.

(** ** C28 *)
Theorem C28_assert_section_exact :
  forall (Sh Us : Type) (K : pyclass Sh Us) fs i fuel s b (o : obj Sh Us),
    well_behaved K -> has_file fs o i -> path_set_of o = true -> level_ok o ->
    (level_of o < 5)%Z \/ acyclic K i (o_defname o) s -> parsable K i (o_defname o) s ->
    length (ini_sections i) + 3 <= fuel -> o_edata o = None ->
    exists d, expansion K i (o_defname o) s d /\
      let r := fst (assert_section K fs fuel s b o) in
      match d with
      | [] => r = Ok None
      | _ => if b && (3 <=? level_of o)%Z then r = Err ValueError
             else exists m, r = Ok (Some m) /\
                    forall k, In k (dkeys d) -> exists x y, m = x ++ ($"|- '" ++ k ++ $"'") ++ y
      end.
Proof. exact (@assert_section_exact). Qed.
Print Assumptions C28_assert_section_exact.
Theorem C28_assert_section_any_history :
  forall (Sh Us : Type) (K : pyclass Sh Us) fs i fuel dname h s b (o : obj Sh Us),
    well_behaved K -> all_parsable K i dname -> length (ini_sections i) + 3 <= fuel ->
    opened K fs i dname o -> Forall (in_file K i dname) h -> ini_has_section i s = true ->
    exists d, expansion K i dname s d /\
      let r := fst (assert_section K fs fuel s b (after K fs fuel h o)) in
      match d with
      | [] => r = Ok None
      | _ => if b && (3 <=? last_level h (level_of o))%Z then r = Err ValueError
             else exists m, r = Ok (Some m) /\
                    forall k, In k (dkeys d) -> exists x y, m = x ++ ($"|- '" ++ k ++ $"'") ++ y
      end.
Proof. exact (@assert_section_history). Qed.
Print Assumptions C28_assert_section_any_history.
Example C28_ex : all_parsable base ini8 $"DEFAULT" /\
  let o := fresh tt : obj unit unit in
  fst (assert_section base (disk file8) 7 $"E" true o) = Ok None /\
  fst (assert_section base (disk file8) 7 $"A" true o) = Err ValueError /\
  fst (assert_section base (disk file8) 7 $"A" true (at_level 2 o)) <> Err ValueError /\
  fst (assert_section base (disk file8) 7 $"A" false o) =
    Ok (Some ($"Unhandled option found in section `A` or one of its dependent sections." ++ newline ++
              $"The following entries are unhandled:" ++ newline ++ $"|- 'a'" ++ newline ++ $"|- 'b'")).
Proof.
  split; [apply (all_parsable_check _ _ _ [$"DEFAULT"]); vm_compute; reflexivity|computed].
Qed.

(** ** C29 *)
Theorem C29_assert_file_exact :
  forall (Sh Us : Type) (K : pyclass Sh Us) fs i fuel dname h (o : obj Sh Us),
    well_behaved K -> all_parsable K i dname -> length (ini_sections i) + 3 <= fuel ->
    opened K fs i dname o -> Forall (in_file K i dname) h ->
    let r := fst (assert_file K fs fuel (after K fs fuel h o)) in
    ((forall s, ini_has_section i s = true -> expansion K i dname s []) <-> r = Ok 0%Z) /\
    ((exists s d, ini_has_section i s = true /\ expansion K i dname s d /\ d <> []) <->
       r = if (3 <=? last_level h (level_of o))%Z then Err ValueError else Ok 1%Z).
Proof. exact (@assert_file_history). Qed.
Print Assumptions C29_assert_file_exact.
Example C29_ex : let o := fresh tt : obj unit unit in
  fst (assert_file base (disk file8) 7 o) = Err ValueError /\
  fst (assert_file base (disk file8) 7 (at_level 2 o)) = Ok 1%Z /\
  fst (assert_file base (disk ["[E]"; "use F"; "[F]"]%string) 7 o) = Ok 0%Z.
Proof. computed. Qed.

(** ** C30 *)
Theorem C30_unroll_lists_expansion :
  forall (Sh Us : Type) (K : pyclass Sh Us) fs i fuel dname h section (b : bool) (o : obj Sh Us),
    well_behaved K -> all_parsable K i dname -> length (ini_sections i) + 3 <= fuel ->
    opened K fs i dname o -> Forall (in_file K i dname) h ->
    let delim := if b then $" : " else $":" in
    let r := fst (unroll_to_str K fs fuel section b false (after K fs fuel h o)) in
    match section with
    | None => exists l, map fst l = ini_sections i /\
        Forall (fun sd => expansion K i dname (fst sd) (snd sd)) l /\ r = Ok (strip_ws (unrolled delim l) ++ newline)
    | Some s => ini_has_section i s = true ->
        exists d, expansion K i dname s d /\ r = Ok (strip_ws (unrolled_section delim s d) ++ newline)
    end.
Proof. exact (@unroll_history). Qed.
Print Assumptions C30_unroll_lists_expansion.
Theorem C30_unknown_section :
  forall (Sh Us : Type) (K : pyclass Sh Us) fs fuel i s b (o : obj Sh Us),
    has_file fs o i -> ini_has_section i s = false -> section_of o s = None ->
    fst (unroll_to_str K fs fuel (Some s) b false o) = Err KeyError.
Proof. exact (@unroll_missing). Qed.
Print Assumptions C30_unknown_section.

(** With [use_base_class_parser] only the file list of the object matters: not
    its handlers, delimiters, default section name, level or data. *)
Theorem C30_base_class_parser :
  forall (Sh Us : Type) (K : pyclass Sh Us) fs fuel i section b fl (o : obj Sh Us),
    o_files o = Some fl -> has_file fs (set_files (Some fl) (new_obj tt) : obj unit unit) i ->
    all_parsable (base_class (k_uniword K)) i $"DEFAULT" ->
    match section with Some s => ini_has_section i s = true | None => True end ->
    length (ini_sections i) + 3 <= fuel ->
    exists t, fst (unroll_to_str K fs fuel section b true o) = Ok t /\
      answers (base_class (k_uniword K)) i $"DEFAULT" 0 (OUnroll section b) (Ok (RText t)).
Proof. exact (@unroll_base_text). Qed.
Print Assumptions C30_base_class_parser.
Theorem C30_base_class_parser_ignores_object :
  forall (Sh Us : Type) (K : pyclass Sh Us) fs fuel section b (o o' : obj Sh Us),
    o_files o = o_files o' ->
    fst (unroll_to_str K fs fuel section b true o) = fst (unroll_to_str K fs fuel section b true o').
Proof. exact (@unroll_base_only_files). Qed.
Print Assumptions C30_base_class_parser_ignores_object.
Example C30_ex :
  fst (unroll_to_str base (disk file8) 7 None false false (fresh tt)) =
    Ok ($"[A]" ++ newline ++ $"a:1" ++ newline ++ $"b:2" ++ newline ++ newline ++
        $"[B]" ++ newline ++ $"b:2" ++ newline ++ newline ++
        $"[E]" ++ newline ++ newline ++ $"[F]" ++ newline) /\
  fst (unroll_to_str base (disk file8) 7 (Some $"A") true true (fresh tt)) =
    Ok ($"[A]" ++ newline ++ $"a : 1" ++ newline ++ $"b : 2" ++ newline) /\
  fst (unroll_to_str base (disk file8) 7 (Some $"Z") true true (fresh tt)) = Err KeyError.
Proof. computed. Qed.

(** ** C31 *)
Theorem C31_level_restored_on_success_only :
  forall (Sh Us : Type) (K : pyclass Sh Us) fs fuel section b base (o : obj Sh Us),
    level_ok o ->
    let '(r, o') := unroll_to_str K fs fuel section b base o in
    if base then o_ec o' = o_ec o
    else match r with
         | Ok _ => level_of o' = level_of o
         | Err _ => level_of o' = 0%Z
         end.
Proof. exact (@unroll_level). Qed.
Print Assumptions C31_level_restored_on_success_only.
Example C31_ex : let o := fresh tt : obj unit unit in level_of o = 4%Z /\
  level_of (snd (unroll_to_str base (disk file8) 7 None true false o)) = 4%Z /\
  level_of (snd (unroll_to_str base (disk file8) 7 (Some $"Z") true false o)) = 0%Z.
Proof. computed. Qed.

(** ** C35 *)

(** A name that is not in the file: no history makes it appear, as long as the
    file has no default section or the name is never given to [parse_section],
    [get], [has_option] or the validation. *)
Theorem C35_sections_not_invented :
  forall (Sh Us : Type) (K : pyclass Sh Us) fs fuel i dname t,
    ini_has_section i t = false -> t <> i_defname i ->
    forall h (o : obj Sh Us),
      has_file fs o i -> o_defname o = dname -> o_files o <> None -> section_of o t = None ->
      ini_has_section i dname = false \/ forallb (fun c => negb (asks t c)) h = true ->
      let o' := after K fs fuel h o in
      fst (has_section K fs fuel t o') = Ok false /\ fst (getitem K fs fuel t o') = Err KeyError /\
      fst (data_items K fs fuel t o') = Err KeyError /\
      (forall b, fst (unroll_to_str K fs fuel (Some t) b false o') = Err KeyError) /\ section_of o' t = None.
Proof. exact (@never_invented). Qed.
Print Assumptions C35_sections_not_invented.

(** [get] always raises; [has_option] raises the first time and is [False] once
    a call has asked for the name. *)
Theorem C35_get_has_option :
  forall (Sh Us : Type) (K : pyclass Sh Us) fs fuel i dname t,
    ini_has_section i t = false -> t <> i_defname i ->
    forall h (o : obj Sh Us),
      well_behaved K -> t <> [] -> 0 < fuel ->
      has_file fs o i -> o_defname o = dname -> o_files o <> None -> section_of o t = None ->
      str_mem t (checked_of o) = false -> ini_has_section i dname = false ->
      let o' := after K fs fuel h o in
      (forall k, fst (data_get K fs fuel t k o') = Err KeyError) /\
      (forall k, fst (has_option K fs fuel t k o') = if existsb (asks t) h then Ok false else Err KeyError).
Proof. exact (@never_invented_get). Qed.
Print Assumptions C35_get_has_option.
Example C35_ex : let o := fresh tt : obj unit unit in let fs := disk file8 in
  ini_has_section ini8 $"Z" = false /\ has_file fs o ini8 /\ ini_has_section ini8 (o_defname o) = false /\
  fst (has_option base fs 7 $"Z" $"k" o) = Err KeyError /\
  fst (has_option base fs 7 $"Z" $"k" (after base fs 7 [OGet $"Z" None] o)) = Ok false /\
  fst (has_section base fs 7 $"Z" (after base fs 7 [OGet $"Z" None; OItems; OHasOption $"Z" $"k"] o)) = Ok false.
Proof. computed. Qed.

(** With a default section it does happen: a failed [get] of a name that is not
    in the file leaves the default section's options under that name. *)
Theorem C35_default_section_refuted :
  exists l t, let o := fresh tt : obj unit unit in let fs := disk l in
    fst (has_section base fs 9 t o) = Ok false /\
    let o' := snd (data_get base fs 9 t None o) in
    fst (data_get base fs 9 t None o) = Err KeyError /\
    fst (has_section base fs 9 t o') = Ok true /\
    fst (getitem base fs 9 t o') = Ok [($"d", Some $"0"); ($"x", Some $"5")].
Proof. exists file7, $"nowhere". cbv zeta. computed. Qed.
Print Assumptions C35_default_section_refuted.

(** ** C36 *)
Theorem C36_set_changes_one_option :
  forall (Sh Us : Type) (K : pyclass Sh Us) fs fuel s k v (o : obj Sh Us),
    let '(r, o1) := has_section K fs fuel s o in
    match r with
    | Err e => data_set_user K fs fuel s k v o = (Err e, o1)
    | Ok _ => exists o2, data_set_user K fs fuel s k v o = (Ok tt, o2) /\
        section_of o2 s = Some (dset k v (options_of o1 s)) /\
        (forall t, t <> s -> section_of o2 t = section_of o1 t) /\
        (forall t j, lookup o2 t j = if str_eqb t s && str_eqb j k then Some v else lookup o1 t j) /\
        checked_of o2 = checked_of o1 /\ conf o2 = conf o1 /\ o_cpd o2 = o_cpd o1
    end.
Proof. exact (@set_law). Qed.
Print Assumptions C36_set_changes_one_option.

(** A value written to a section of the file stays until the section is parsed
    explicitly again. *)
Theorem C36_set_then_read :
  forall (Sh Us : Type) (K : pyclass Sh Us) fs fuel i s k v h (o o2 : obj Sh Us),
    has_file fs o i -> ini_has_section i s = true ->
    data_set_user K fs fuel s k v o = (Ok tt, o2) -> forallb (fun c => negb (reparses s c)) h = true ->
    let o' := after K fs fuel h o2 in
    (exists d, fst (getitem K fs fuel s o') = Ok d /\ dget k d = Some v) /\
    fst (data_get K fs fuel s (Some k) o') = Ok (GotValue v) /\
    fst (has_option K fs fuel s k o') = Ok true.
Proof. exact (@set_then_read). Qed.
Print Assumptions C36_set_then_read.
Theorem C36_set_new_section :
  forall (Sh Us : Type) (K : pyclass Sh Us) fs fuel i s k v (o : obj Sh Us),
    has_file fs o i -> ini_has_section i s = false ->
    exists o2, data_set_user K fs fuel s k v o = (Ok tt, o2) /\
      section_of o2 s = Some (dset k v (options_of o s)) /\
      (forall t, t <> s -> section_of o2 t = section_of o t) /\
      fst (has_section K fs fuel s o2) = Ok true /\
      fst (getitem K fs fuel s o2) = Ok (dset k v (options_of o s)).
Proof. exact (@set_new_section). Qed.
Print Assumptions C36_set_new_section.
Theorem C36_add_section :
  forall (Sh Us : Type) s force (o : obj Sh Us),
    let '(r, o') := data_add_section s force o in
    r = Ok tt /\ section_of o' s = Some (if force then [] else options_of o s) /\
    (forall t, t <> s -> section_of o' t = section_of o t) /\
    checked_of o' = checked_of o /\ conf o' = conf o /\ o_cpd o' = o_cpd o.
Proof. exact (@add_section_law). Qed.
Print Assumptions C36_add_section.
Theorem C36_has_section_no_parse :
  forall (Sh Us : Type) s (o : obj Sh Us),
    let '(r, o') := has_section_no_parse s o in
    r = Ok (match section_of o s with Some _ => true | None => false end) /\
    data_of o' = data_of o /\ checked_of o' = checked_of o /\ conf o' = conf o /\ o_cpd o' = o_cpd o.
Proof. exact (@has_section_no_parse_law). Qed.
Print Assumptions C36_has_section_no_parse.
Example C36_ex : let o := fresh tt : obj unit unit in let fs := disk file8 in
  let p := data_set_user base fs 7 $"A" $"b" (Some $"new") o in
  fst p = Ok tt /\
  fst (getitem base fs 7 $"A" (after base fs 7 [OParseAll; OParse $"B"; OItems] (snd p))) =
    Ok [($"a", Some $"1"); ($"b", Some $"new")] /\
  fst (getitem base fs 7 $"B" (snd p)) = Ok [($"b", Some $"2")] /\
  fst (getitem base fs 7 $"A" (after base fs 7 [OParse $"A"] (snd p))) = Ok [($"a", Some $"1"); ($"b", Some $"2")].
Proof. computed. Qed.

(** [set] then [get] is not the identity: on a name that is not in the file the
    first [get] parses and raises, although [[]] returns the value. *)
Theorem C36_get_after_set_refuted :
  exists l s k v, let fs := disk l in
    let o' := snd (data_set_user base fs 9 s k v (fresh tt : obj unit unit)) in
    fst (getitem base fs 9 s o') = Ok [(k, v)] /\
    fst (data_get base fs 9 s (Some k) o') = Err KeyError /\
    fst (has_option base fs 9 s k o') = Err KeyError.
Proof. exists file8, $"New", $"k", (Some $"v"). cbv zeta. computed. Qed.
Print Assumptions C36_get_after_set_refuted.
