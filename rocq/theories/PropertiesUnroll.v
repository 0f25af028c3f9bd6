(** * C32: the unrolled text reads back to the same data.

    Statements and examples only. [plain_section] and [shows] are in
    [SpecUnroll.v]. *)
From Coq Require Import String NArith ZArith List Bool.
Import ListNotations.
From Verif Require Import PyBase PyFacts IniView IniRead ExcControl Cpe SpecWalk SpecRun SpecParse SpecApi SpecRead SpecFile
  SpecUnroll Samples SamplesApi SamplesUnroll UnrollProofs UnrollProofs2.
Local Open Scope string_scope.
Local Open Scope list_scope.

(** The text is written to a file of its own and read by another object of the
    same class; whatever was called before, on either object, both show the
    same data. *)
Theorem C32_round_trip :
  forall (Sh Us : Type) (K : pyclass Sh Us) fs i dname fuel delims dn h (b : bool) (o : obj Sh Us) t fs' fuel' p
      (o' : obj Sh Us) h' c,
    well_behaved K -> all_parsable K i dname -> NoDup (ini_sections i) ->
    length (ini_sections i) + 3 <= fuel -> length (ini_sections i) + 3 <= fuel' ->
    good_delims delims -> In $":" delims -> ~ In dn (ini_sections i) ->
    (forall s d, ini_has_section i s = true -> expansion K i dname s d -> plain_section delims (s, d)) ->
    opened K fs i dname o -> Forall (in_file K i dname) h ->
    fst (unroll_to_str K fs fuel None b false (after K fs fuel h o)) = Ok t ->
    fs' p = Some t -> o_files o' = Some [p] -> o_cpd o' = None -> o_edata o' = None ->
    o_delims o' = delims -> o_intname o' = dn -> o_defname o' = dname -> level_ok o' ->
    Forall (in_file K i dname) h' -> shows c -> in_file K i dname c ->
    fst (exec_op K fs' fuel' c (after K fs' fuel' h' o')) = fst (exec_op K fs fuel c (after K fs fuel h o)).
Proof. exact (@round_trip). Qed.
Print Assumptions C32_round_trip.

(** The same with [use_base_class_parser=True]: the text stands for the data the
    base class sees in the files of the object. *)
Theorem C32_base_class_parser :
  forall (Sh Us : Type) (K : pyclass Sh Us) (o0 : obj Sh Us) fs i fuel fl delims dn h (b : bool) t fs' fuel' p
      (o' : obj unit unit) h' c,
    let B := base_class (k_uniword K) in
    let o := set_files (Some fl) (new_obj tt) in
    all_parsable B i $"DEFAULT" -> NoDup (ini_sections i) ->
    length (ini_sections i) + 3 <= fuel -> length (ini_sections i) + 3 <= fuel' ->
    good_delims delims -> In $":" delims -> ~ In dn (ini_sections i) ->
    (forall s d, ini_has_section i s = true -> expansion B i $"DEFAULT" s d -> plain_section delims (s, d)) ->
    o_files o0 = Some fl -> has_file fs o i -> Forall (in_file B i $"DEFAULT") h ->
    fst (unroll_to_str K fs fuel None b true o0) = Ok t ->
    fs' p = Some t -> o_files o' = Some [p] -> o_cpd o' = None -> o_edata o' = None ->
    o_delims o' = delims -> o_intname o' = dn -> o_defname o' = $"DEFAULT" -> level_ok o' ->
    Forall (in_file B i $"DEFAULT") h' -> shows c -> in_file B i $"DEFAULT" c ->
    fst (exec_op B fs' fuel' c (after B fs' fuel' h' o')) = fst (exec_op B fs fuel c (after B fs fuel h o)).
Proof. exact (@base_round_trip). Qed.
Print Assumptions C32_base_class_parser.

(** The text read alone, without any object: the sections in order, each with
    its expansion. *)
Theorem C32_text_reads :
  forall delims dn l delim,
    good_delims delims -> In $":" delims -> delim = $" : " \/ delim = $":" ->
    Forall (plain_section delims) l -> NoDup (dkeys l) ->
    Forall (fun so => NoDup (dkeys (snd so))) l -> ~ In dn (dkeys l) ->
    read_file delims (strip_ws (unrolled delim l) ++ newline) (empty_ini dn) = (Ok tt, Ini l [] dn).
Proof. intros delims dn l delim A B C. exact (unrolled_reads delims dn A B delim C l). Qed.
Print Assumptions C32_text_reads.

Definition plain_file : list string :=
  ["[DEFAULT]"; "d : 0"; "[A]"; "x 'y z' = 1 = 2"; "use B"; "t = "; "[B]"; "y : a:b # c"; "use A"; "[C D]"].
Definition plain_ini : ini :=
  match fst (get_cpd (disk plain_file) (fresh tt : obj unit unit)) with Ok i => i | Err _ => Ini [] [] [] end.
Definition plain_text : str :=
  match fst (unroll_to_str base (disk plain_file) 7 None false false (fresh tt)) with Ok t => t | Err _ => [] end.
Definition written (p : str) : option str := if str_eqb p $"f.ini" then Some plain_text else None.
Example C32_ex :
  let delims := o_delims (fresh tt : obj unit unit) in
  plain_text = file_of ["[DEFAULT]"; "d:0"; ""; "[A]"; "d:0"; "x 'y z':1 = 2"; "y:a:b # c"; "t:"; "";
                        "[B]"; "d:0"; "y:a:b # c"; "x 'y z':1 = 2"; "t:"; ""; "[C D]"; "d:0"] /\
  all_parsable base plain_ini $"DEFAULT" /\ NoDup (ini_sections plain_ini) /\
  opened base (disk plain_file) plain_ini $"DEFAULT" (fresh tt : obj unit unit) /\
  good_delims delims /\ In $":" delims /\ ~ In (o_intname (fresh tt : obj unit unit)) (ini_sections plain_ini) /\
  (forall s d, ini_has_section plain_ini s = true -> expansion base plain_ini $"DEFAULT" s d -> plain_section delims (s, d)) /\
  fst (exec_op base written 7 (OItem $"A") (fresh tt)) =
    Ok (RDict [($"d", Some $"0"); ($"x 'y z'", Some $"1 = 2"); ($"y", Some $"a:b # c"); ($"t", Some [])]) /\
  fst (exec_op base (disk plain_file) 7 (OItem $"A") (fresh tt)) = fst (exec_op base written 7 (OItem $"A") (fresh tt)).
Proof.
  assert (AP : all_parsable base plain_ini $"DEFAULT")
    by (apply (all_parsable_check _ _ _ [$"DEFAULT"]); vm_compute; reflexivity).
  assert (O : opened base (disk plain_file) plain_ini $"DEFAULT" (fresh tt : obj unit unit))
    by (constructor; [computed|computed|computed|left; computed|computed|computed]).
  cbv zeta. split; [vm_compute; reflexivity|]. split; [exact AP|]. split.
  - vm_compute. repeat (apply NoDup_cons; [intros X; repeat (destruct X as [X|X]; [discriminate X|]); exact X|]).
    apply NoDup_nil.
  - split; [exact O|]. split; [|split; [|split; [|split]]].
    + split; [discriminate|]. apply Forall_cons; [eexists; split; reflexivity|].
      apply Forall_cons; [eexists; split; reflexivity|]. apply Forall_nil.
    + vm_compute. tauto.
    + vm_compute. intros X. repeat (destruct X as [X|X]; [discriminate X|]). exact X.
    + apply (all_plain_check base (disk plain_file) plain_ini $"DEFAULT" 7 _ (fresh tt : obj unit unit)
        (base_well_behaved _) AP); [vm_compute; repeat constructor|exact O|vm_compute; reflexivity].
    + computed.
Qed.

(** ** Data that do not survive *)

(** What an object shows after its text has been written and read again. *)
Definition again (l : list string) (s : str) : res answer :=
  match fst (unroll_to_str base (disk l) 50 None false false (fresh tt : obj unit unit)) with
  | Ok t => fst (exec_op base (fun p => if str_eqb p $"f.ini" then Some t else None) 50 (OItem s) (fresh tt : obj unit unit))
  | Err e => Err e
  end.
Definition first (l : list string) (s : str) : res answer :=
  fst (exec_op base (disk l) 50 (OItem s) (fresh tt : obj unit unit)).

(** A missing value becomes an empty one. *)
Theorem C32_missing_value_refuted : exists l s,
  first l s = Ok (RDict [($"k", None)]) /\ again l s = Ok (RDict [($"k", Some [])]).
Proof. exists ["[A]"; "k"], $"A". computed. Qed.
Print Assumptions C32_missing_value_refuted.
(** The second line of a value becomes an option. *)
Theorem C32_second_line_refuted : exists l s,
  first l s = Ok (RDict [($"k", Some ($"a" ++ newline ++ $"b"))]) /\
  again l s = Ok (RDict [($"k", Some $"a"); ($"b", None)]).
Proof. exists ["[A]"; "k = a"; "  b"], $"A". computed. Qed.
Print Assumptions C32_second_line_refuted.
(** Blanks protected by quotes are lost. *)
Theorem C32_quoted_blanks_refuted : exists l s,
  first l s = Ok (RDict [($"k", Some $" a ")]) /\ again l s = Ok (RDict [($"k", Some $"a")]).
Proof. exists ["[A]"; "k = "" a """], $"A". computed. Qed.
Print Assumptions C32_quoted_blanks_refuted.
(** A percent sign is not escaped again: reading the text fails, or gives
    another value. *)
Theorem C32_percent_refuted : exists l l' s,
  (exists d, first l s = Ok (RDict d)) /\ (exists e, again l s = Err e) /\
  first l' s = Ok (RDict [($"k", Some $"%(j)s"); ($"j", Some $"1")]) /\
  again l' s = Ok (RDict [($"k", Some $"1"); ($"j", Some $"1")]).
Proof.
  exists ["[A]"; "k = 50%%"], ["[A]"; "k = %%(j)s"; "j = 1"], $"A".
  split; [eexists; vm_compute; reflexivity|]. split; [eexists; vm_compute; reflexivity|]. computed.
Qed.
Print Assumptions C32_percent_refuted.
(** The colon is written whatever the delimiters of the object are: an object
    whose only delimiter is "=" cannot read its own text. *)
Theorem C32_delimiter_refuted : exists l s t,
  let o := set_delims [$"="] (fresh tt : obj unit unit) in
  fst (exec_op base (disk l) 50 (OItem s) o) = Ok (RDict [($"k", Some $"1")]) /\
  fst (unroll_to_str base (disk l) 50 None false false o) = Ok t /\
  fst (exec_op base (fun p => if str_eqb p $"f.ini" then Some t else None) 50 (OItem s) o) = Ok (RDict [($"k:1", None)]).
Proof. exists ["[A]"; "k = 1"], $"A", ($"[A]" ++ newline ++ $"k:1" ++ newline). cbv zeta. computed. Qed.
Print Assumptions C32_delimiter_refuted.
