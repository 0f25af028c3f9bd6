(** * C14, C15: assigning [inifilepath] and [configparser_delimiters].

    Statements and examples only. *)
From Coq Require Import String NArith ZArith List Bool.
Import ListNotations.
From Verif Require Import PyBase PyFacts Shlex IniView IniRead ExcControl Cpe SpecWalk SpecRun SpecParse SpecApi SpecReload
  RefineOk Samples SamplesApi ReloadProofs ReloadProofs2 ReloadProofs3.
Local Open Scope string_scope.
Local Open Scope list_scope.

(** ** C14 *)

(** A valid assignment on an object that had a path replaces the path, drops
    the raw data and the log, and changes nothing else. The next raw access
    shows what a new object on the new path shows. *)
Theorem C14_assignment :
  forall (Sh Us : Type) a ps old (o : obj Sh Us), paths_of a = Some ps -> o_files o = Some old ->
    exists o', set_inifilepath a o = (Ok tt, o') /\ o_files o' = Some ps /\ o_cpd o' = None /\ o_log o' = None /\
      o_edata o' = o_edata o /\ o_last o' = o_last o /\ o_delims o' = o_delims o /\ o_ec o' = o_ec o /\
      o_debug o' = o_debug o /\ o_defname o' = o_defname o /\ o_intname o' = o_intname o /\ o_user o' = o_user o /\
      o_out o' = o_out o /\
      forall fs, fst (get_cpd fs o') = fst (get_cpd fs (renewed (Some ps) (o_delims o) o)).
Proof. exact (@assignment). Qed.
Print Assumptions C14_assignment.

(** A section parsed before the assignment keeps its old options: [h] is the
    history before, [h'] the one after, on any file system. *)
Theorem C14_parsed_sections_stay :
  forall (Sh Us : Type) (K : pyclass Sh Us) fs i dname fuel h (o : obj Sh Us) s d a ps fs' j fuel' h' o1,
    well_behaved K -> length (ini_sections i) + 3 <= fuel -> all_parsable K i dname ->
    opened K fs i dname o -> Forall (in_file K i dname) h -> ini_has_section i s = true ->
    existsb (parses s) h = true -> expansion K i dname s d ->
    paths_of a = Some ps -> set_inifilepath a (after K fs fuel h o) = (Ok tt, o1) -> has_file fs' o1 j ->
    forallb (fun c => negb (reparses s c)) h' = true ->
    let o' := after K fs' fuel' h' o1 in
    fst (getitem K fs' fuel' s o') = Ok d /\ fst (data_get K fs' fuel' s None o') = Ok (GotSection d) /\
    (forall k, fst (has_option K fs' fuel' s k o') = Ok (dmem k d)) /\
    (forall k, fst (data_get K fs' fuel' s (Some k) o') =
       match dget k d with Some v => Ok (GotValue v) | None => Err KeyError end).
Proof. exact (@parsed_sections_stay). Qed.
Print Assumptions C14_parsed_sections_stay.

(** A section not parsed before the assignment follows the new file. *)
Theorem C14_other_sections_follow :
  forall (Sh Us : Type) (K : pyclass Sh Us) fs fuel h (o : obj Sh Us) s a ps fs' j fuel' h' c o1,
    well_behaved K -> o_edata o = None -> path_set_of o = true -> level_ok o -> forallb (spares s) h = true ->
    paths_of a = Some ps -> set_inifilepath a (after K fs fuel h o) = (Ok tt, o1) -> has_file fs' o1 j ->
    parsable K j (o_defname o) s -> length (ini_sections j) + 3 <= fuel' ->
    (level_of o1 < 5)%Z \/ acyclic K j (o_defname o) s ->
    Forall (allowed K j (o_defname o) s) h' -> names c = Some s ->
    let o' := after K fs' fuel' h' o1 in
    answers K j (o_defname o) (level_of o') c (fst (exec_op K fs' fuel' c o')).
Proof. exact (@other_sections_follow). Qed.
Print Assumptions C14_other_sections_follow.

(** An entry that is not a path: the entries before it have become the new
    path. An argument of the wrong type changes nothing. *)
Theorem C14_bad_assignment :
  forall (Sh Us : Type) a old (o : obj Sh Us), paths_of a = None -> o_files o = Some old -> level_ok o ->
    exists o', set_inifilepath a o = (Err TypeError, o') /\ o_edata o' = o_edata o /\
      match a with
      | FMany l => o_files o' = Some (leading_paths l) /\ o_cpd o' = None /\ o_log o' = None
      | _ => o_files o' = Some old /\ o_cpd o' = o_cpd o /\ o_log o' = o_log o
      end.
Proof. exact (@bad_assignment). Qed.
Print Assumptions C14_bad_assignment.

(** Two files with the same sections. *)
Definition two_files (p : str) : option str :=
  if str_eqb p $"f.ini" then Some (file_of ["[A]"; "x : 1"; "[B]"; "use A"; "y : 1"])
  else if str_eqb p $"g.ini" then Some (file_of ["[A]"; "x : 2"; "[B]"; "use A"; "y : 2"])
  else None.
Definition ini_f : ini := match fst (get_cpd two_files (fresh tt : obj unit unit)) with Ok i => i | Err _ => Ini [] [] [] end.
Definition moved : obj unit unit := snd (set_inifilepath (FOne $"g.ini") (after base two_files 7 [OKeys; OItem $"A"] (fresh tt))).
Definition ini_g : ini := match fst (get_cpd two_files moved) with Ok i => i | Err _ => Ini [] [] [] end.

Example C14_ex :
  all_parsable base ini_f $"DEFAULT" /\ opened base two_files ini_f $"DEFAULT" (fresh tt) /\
  Forall (in_file base ini_f $"DEFAULT") [OKeys; OItem $"A"] /\
  existsb (parses $"A") [OKeys; OItem $"A"] = true /\ forallb (spares $"B") [OKeys; OItem $"A"] = true /\
  has_file two_files moved ini_g /\ all_parsable base ini_g $"DEFAULT" /\
  Forall (allowed base ini_g $"DEFAULT" $"B") [OHasSection $"A"; OLevel 3] /\
  let o := after base two_files 7 [OHasSection $"A"; OLevel 3] moved in
  fst (exec_op base two_files 7 (OItem $"A") o) = Ok (RDict [($"x", Some $"1")]) /\
  fst (exec_op base two_files 7 (OItem $"B") o) = Ok (RDict [($"x", Some $"2"); ($"y", Some $"2")]).
Proof.
  split; [apply (all_parsable_check _ _ _ [$"DEFAULT"]); vm_compute; reflexivity|].
  split; [constructor; [computed|computed|computed|left; computed|computed|computed]|].
  split; [apply Forall_cons; [exact I|apply Forall_cons; [vm_compute; reflexivity|apply Forall_nil]]|].
  split; [computed|]. split; [computed|]. split; [computed|].
  split; [apply (all_parsable_check _ _ _ [$"DEFAULT"]); vm_compute; reflexivity|]. split.
  - apply Forall_cons; [right; split; [computed|exact I]|].
    apply Forall_cons; [right; split; [computed|left; reflexivity]|apply Forall_nil].
  - cbv zeta. computed.
Qed.

(** The claim needs that a path was set before: if the raw data of an object
    without path have been asked for, which raises, then the path assigned
    next is never read, and the object shows no section. *)
Theorem C14_first_assignment_refuted : exists fs p i (o o' : obj unit unit),
  let unset := new_obj tt : obj unit unit in
  get_cpd fs unset = (Err ValueError, o) /\ set_inifilepath (FOne p) o = (Ok tt, o') /\
  o_files o' = Some [p] /\ fst (get_cpd fs (renewed (Some [p]) (o_delims o) o)) = Ok i /\
  ini_sections i = [$"A"; $"B"] /\ fst (exec_op base fs 7 OKeys o') = Ok (RNames []).
Proof.
  exists two_files, $"f.ini", ini_f. do 2 eexists. cbv zeta.
  split; [vm_compute; reflexivity|]. split; [vm_compute; reflexivity|]. computed.
Qed.
Print Assumptions C14_first_assignment_refuted.

(** ** C15 *)

(** After the assignment, and after any further history [h], every call gives
    the answer it gives on a new object with the same path, settings and user
    state; what has been printed before stays printed. [o] is any object,
    whatever was done with it. *)
Theorem C15_reset :
  forall (Sh Us : Type) (K : pyclass Sh Us) ds (o o' : obj Sh Us) fs fuel h c,
    set_configparser_delimiters (Some ds) o = (Ok tt, o') ->
    let u := after K fs fuel h o' in
    let n := after K fs fuel h (renewed (o_files o) ds o) in
    fst (exec_op K fs fuel c u) = fst (exec_op K fs fuel c n) /\
    fst (get_cpd fs u) = fst (get_cpd fs n) /\ data_of u = data_of n /\ o_last u = o_last n /\ o_log u = o_log n /\
    o_user u = o_user n /\ o_files u = o_files n /\ o_delims u = o_delims n /\ o_ec u = o_ec n /\
    o_out u = (o_out o ++ o_out n)%list.
Proof. exact (@delimiters_reset). Qed.
Print Assumptions C15_reset.
(** The assignment is accepted whatever the delimiters are. *)
Theorem C15_accepted :
  forall (Sh Us : Type) ds (o : obj Sh Us), exists o',
    set_configparser_delimiters (Some ds) o = (Ok tt, o') /\ o_delims o' = ds.
Proof. exact (@delimiters_done). Qed.
Print Assumptions C15_accepted.
(** A value of the wrong type changes nothing. *)
Theorem C15_bad_value :
  forall (Sh Us : Type) (o : obj Sh Us), level_ok o ->
    exists out, set_configparser_delimiters None o = (Err TypeError, add_out out o).
Proof. exact (@delimiters_bad). Qed.
Print Assumptions C15_bad_value.

(** The data parsed with the old delimiters are gone. *)
Example C15_ex :
  let fs := disk ["[A]"; "x : 1 = 2"] in
  let o := after base fs 7 [OItem $"A"] (fresh tt : obj unit unit) in
  let o' := snd (set_configparser_delimiters (Some [$"="]) o) in
  fst (exec_op base fs 7 (OItem $"A") o) = Ok (RDict [($"x", Some $"1 = 2")]) /\
  o_last o <> None /\ o_log o <> None /\ o_last o' = None /\ o_log o' = None /\
  fst (exec_op base fs 7 (OItem $"A") o') = Ok (RDict [($"x : 1", Some $"2")]).
Proof.
  cbv zeta. split; [vm_compute; reflexivity|]. split; [vm_compute; discriminate|]. split; [vm_compute; discriminate|]. computed.
Qed.
