(** * Property C94: the texts of the exceptions and warnings of a parse are true. *)
From Coq Require Import String NArith ZArith List Bool.
Import ListNotations.
From Verif Require Import PyBase Shlex IniView IniRead ExcControl Debuggable Cpe Errors Texts SpecText SpecFile SpecShell SpecWalk SpecRun SpecParse SpecTexts
  Samples PropertiesLocal TextsProofs TextsProofs2 TextsProofs3 TextsProofs4.
Local Open Scope string_scope.
Local Open Scope list_scope.

(** With the texts forgotten, the runs are those of all other properties. *)
Theorem C94_same_run :
  forall (Sh Us : Type) (K : pyclass Sh Us) fs cwd shown_files fuel s (o : obj Sh Us),
  (forall init fin, forget (tparse_section_str K fs cwd shown_files fuel s init fin o) = parse_section_str K fs fuel s init fin o) /\
  forget (tgetitem K fs cwd shown_files fuel s o) = getitem K fs fuel s o /\
  forget (tdata_options K fs cwd shown_files fuel s o) = data_options K fs fuel s o /\
  (forall k, forget (thas_option K fs cwd shown_files fuel s k o) = has_option K fs fuel s k o) /\
  (forall k, forget (tdata_get K fs cwd shown_files fuel s k o) = data_get K fs fuel s k o).
Proof. exact (@same_run). Qed.
Print Assumptions C94_same_run.

(** Every warning that a parse prints, and the text of the exception that ends it,
    is true: the section that it calls missing is needed and not there, the two
    sections between which it reports a cycle are on one, and so on. An exception
    without such a text has another cause. *)
Theorem C94_parse :
  forall (Sh Us : Type) (K : pyclass Sh Us) fs cwd shown_files fuel s init fin i fl (o : obj Sh Us),
  s <> [] -> has_file fs o i -> o_files o = Some fl -> default_ok K i (o_defname o) s init ->
  answers_with K shown_files i fl (o_defname o) s init (fun _ _ => False) (tparse_section_str K fs cwd shown_files fuel s init fin o).
Proof. exact (@parse_answers). Qed.
Print Assumptions C94_parse.

(** The same holds of [get] and [has_option] of the view. *)
Theorem C94_get :
  forall (Sh Us : Type) (K : pyclass Sh Us) fs cwd shown_files fuel s k i fl (o : obj Sh Us),
  s <> [] -> has_file fs o i -> o_files o = Some fl -> default_ok K i (o_defname o) s true ->
  answers_with K shown_files i fl (o_defname o) s true
    (fun e m => e = KeyError /\ (m = $"Missing section " ++ s ++ $"." \/ exists key, k = Some key /\ m = $"Missing section:option -> '" ++ s ++ $"': '" ++ key ++ $"'"))
    (tdata_get K fs cwd shown_files fuel s k o).
Proof. exact (@get_answers). Qed.
Print Assumptions C94_get.

Theorem C94_has_option :
  forall (Sh Us : Type) (K : pyclass Sh Us) fs cwd shown_files fuel s k i fl (o : obj Sh Us),
  s <> [] -> has_file fs o i -> o_files o = Some fl -> default_ok K i (o_defname o) s true ->
  answers_with K shown_files i fl (o_defname o) s true (fun _ _ => False) (thas_option K fs cwd shown_files fuel s k o).
Proof. exact (@has_option_answers). Qed.
Print Assumptions C94_has_option.

(** [view[s]] and [options] say the same, except that they replace the text of every
    [KeyError] about a section of the file. *)
Theorem C94_getitem :
  forall (Sh Us : Type) (K : pyclass Sh Us) fs cwd shown_files fuel s i fl (o : obj Sh Us),
  s <> [] -> has_file fs o i -> o_files o = Some fl -> default_ok K i (o_defname o) s true ->
  answers_with K shown_files i fl (o_defname o) s true (fun e m => e = KeyError /\ (m = s \/ present i s /\ m = says_unreachable))
    (tgetitem K fs cwd shown_files fuel s o) /\
  match fst (fst (tgetitem K fs cwd shown_files fuel s o)) with EErr KeyError x => x = Some s \/ x = Some says_unreachable | _ => True end.
Proof. exact (@getitem_answers). Qed.
Print Assumptions C94_getitem.

Theorem C94_options :
  forall (Sh Us : Type) (K : pyclass Sh Us) fs cwd shown_files fuel s i fl (o : obj Sh Us),
  s <> [] -> has_file fs o i -> o_files o = Some fl -> default_ok K i (o_defname o) s true ->
  answers_with K shown_files i fl (o_defname o) s true
    (fun e m => e = KeyError /\ (m = $"Section " ++ s ++ $" does not exist." \/ present i s /\ m = says_unreachable))
    (tdata_options K fs cwd shown_files fuel s o).
Proof. exact (@options_answers). Qed.
Print Assumptions C94_options.

(** When a file is opened and not there, the first of these is named. *)
Theorem C94_no_file :
  forall (Sh Us : Type) fs cwd (o : obj Sh Us) fl1 p fl2,
  o_cpd o = None -> o_files o = Some (fl1 ++ p :: fl2) -> (forall q, In q fl1 -> fs q <> None) -> fs p = None ->
  fst (fst (tget_cpd fs cwd o)) = EErr IOError (Some (says_no_file cwd p)).
Proof. exact (@no_file). Qed.
Print Assumptions C94_no_file.

(** ** Examples *)
Definition cite (l : list str) : str := flat_map (fun p => p) l.
Definition sample_texts : list string := ["[A]"; "use B:"; "k: 1"; "[B]"; "use A:"; "note 7:"; "[C]"; "use D:"; "[D]"; "use E:"; "[G]"; "note 11:"].

Example C94_parse_case :
  let o := at_level 1 (fresh tt) in let i := ini_in sample_texts in
  has_file (disk sample_texts) o i /\ o_files o = Some [$"f.ini"] /\ default_ok note_class i (o_defname o) $"A" true /\
  (let '(r, _, w) := tparse_section_str note_class (disk sample_texts) $"/home" cite 9 $"A" true true o in
   (exists x, r = EOk x) /\
   w = [warning_lines [$"Detected a cycle in `use` dependencies in .ini file f.ini."; $"- cannot load [A] from [B]."];
        warning_lines [$"Handler `handler_note` returned 7"]]) /\
  (let '(r, _, w) := tparse_section_str note_class (disk sample_texts) $"/home" cite 9 $"G" true true o in
   r = EErr RuntimeError (Some $"Handler `handler_note` returned 11") /\ w = []) /\
  (let '(r, _, w) := tparse_section_str note_class (disk sample_texts) $"/home" cite 9 $"C" true true o in
   r = EErr KeyError (Some $"ERROR: No section named `E` was found in the configuration file f.ini.") /\ w = []) /\
  (let '(r, _, w) := tparse_section_str note_class (disk sample_texts) $"/home" cite 9 $"A" true true (at_level 5 o) in
   r = EErr ValueError (Some (says_cycle cite [$"f.ini"] $"A" $"B")) /\ w = []).
Proof.
  intros o i. split; [vm_compute; reflexivity|]. split; [reflexivity|]. split; [intros _ H; vm_compute in H; discriminate|].
  split; [vm_compute; split; [eexists; reflexivity|reflexivity]|]. split; [|split]; vm_compute; split; reflexivity.
Qed.

(** [get] names the section that is missing, [view[s]] and [options] do not. *)
Example C94_get_case :
  let o := at_level 0 (fresh tt) in
  fst (fst (tdata_get note_class (disk sample_texts) $"/home" cite 9 $"C" None o))
  = EErr KeyError (Some $"ERROR: No section named `E` was found in the configuration file f.ini.") /\
  fst (fst (tdata_get note_class (disk sample_texts) $"/home" cite 9 $"A" (Some $"z") o)) = EErr KeyError (Some $"Missing section:option -> 'A': 'z'") /\
  fst (fst (thas_option note_class (disk sample_texts) $"/home" cite 9 $"C" $"z" o))
  = EErr KeyError (Some $"ERROR: No section named `E` was found in the configuration file f.ini.") /\
  fst (fst (tgetitem note_class (disk sample_texts) $"/home" cite 9 $"Z" o)) = EErr KeyError (Some $"Z") /\
  fst (fst (tdata_options note_class (disk sample_texts) $"/home" cite 9 $"Z" o)) = EErr KeyError (Some $"Section Z does not exist.").
Proof. vm_compute. repeat split. Qed.

(** The text of the [KeyError] of [view[s]] does not name the missing section. *)
Theorem C94_getitem_names_missing_refuted :
  ~ (forall (Sh Us : Type) (K : pyclass Sh Us) fs cwd shown_files fuel s i fl (o : obj Sh Us) m,
     s <> [] -> has_file fs o i -> o_files o = Some fl -> default_ok K i (o_defname o) s true ->
     fst (fst (tgetitem K fs cwd shown_files fuel s o)) = EErr KeyError (Some m) ->
     m = s \/ exists t, contributes K i (o_defname o) s true t /\ ~ present i t /\ m = says_missing shown_files fl t).
Proof.
  intros H.
  destruct (H _ _ note_class (disk sample_texts) $"/home" cite 9 $"C" (ini_in sample_texts) [$"f.ini"] (fresh tt) says_unreachable) as [E|(t & _ & _ & E)].
  - discriminate.
  - vm_compute. reflexivity.
  - reflexivity.
  - intros _ X. vm_compute in X. discriminate.
  - vm_compute. reflexivity.
  - vm_compute in E. discriminate.
  - unfold says_missing in E. vm_compute in E. discriminate.
Qed.
Print Assumptions C94_getitem_names_missing_refuted.

(** An ambiguous handler, and a missing file. *)
Definition both_class : pyclass (list (list str)) unit :=
  PyClass [($"handler_note", AUser Decorated note_body); ($"_handler_note", AUser Decorated note_body)] [] no_uni.
Example C94_ambiguous_case :
  let text := $"Ambiguous handler name. Both `_handler_note` and `handler_note` exist but only one is allowed." in
  let run l := let '(r, _, w) := tparse_section_str both_class (disk sample_texts) $"/home" cite 9 $"B" true true (at_level l (fresh tt)) in
               (unsaid r, match r with EErr _ x => x | EOk _ => None end, w) in
  run 5%Z = (Err ValueError, Some (says_cycle cite [$"f.ini"] $"B" $"A"), []) /\
  (let '(r, t, w) := run 1%Z in (exists x, r = Ok x) /\ In (warning_lines [text]) w).
Proof. vm_compute. split; [reflexivity|]. split; [eexists; reflexivity|]. tauto. Qed.
Example C94_no_file_case :
  fst (fst (tget_cpd (disk sample_texts) $"/home" (set_files (Some [$"f.ini"; $"g.ini"; $"h.ini"]) (new_obj tt : obj unit unit))))
  = EErr IOError (Some (says_no_file $"/home" $"g.ini")).
Proof. vm_compute. reflexivity. Qed.
