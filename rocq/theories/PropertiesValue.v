(** * C34: values.

    Statements and examples only. [trimmed] and [cleaned] are in [SpecText.v];
    [expands], [fails], [value_is], [own_section], [scope] and [section_shows] in
    [SpecFile.v]; [raw_option] in [SpecValue.v]. *)
From Coq Require Import String NArith ZArith List Bool.
Import ListNotations.
From Verif Require Import PyBase PyFacts IniView IniRead ExcControl Cpe SpecText SpecFile FileProofs SpecWalk SpecRun SpecParse SpecValue
  Refine Samples ValueProofs.
Local Open Scope string_scope.
Local Open Scope list_scope.

(** Every stored value comes from an option [k0] of a contributing section [t]:
    the key without the blanks around it, and the text with its references
    replaced, then without the blanks and then without the double quotes at its
    ends; a missing value stays missing. *)
Theorem C34_stored_value : forall Sh Us (K : pyclass Sh Us) fs i fuel s init fin (o : obj Sh Us) v o' k w,
  has_file fs o i -> level_ok o -> options_of o s = [] ->
  parse_section_str K fs fuel s init fin o = (Ok v, o') ->
  dget k (options_of o' s) = Some w ->
  exists t own k0 raw v0, contributes K i (o_defname o) s init t /\ own_section i t own /\
    raw_option i own k0 raw /\ trimmed space k0 k /\
    value_is (scope i own) raw (Ok v0) /\ cleaned v0 w.
Proof. intros Sh Us K fs i. exact (stored_value K fs i). Qed.
Print Assumptions C34_stored_value.

Definition values_file : list string :=
  ["[A]"; "plain = a b  "; "quoted = "" x y """; "none"; "half = 50%%"; "ref = <%(plain)s|%(half)s>"; "use B";
   "[B]"; "both = ""%(q)s"""; "q =  ""in"" "; "empty ="].
Example C34_stored_value_ex :
  let o := snd (parse_section_str base (disk values_file) 50 $"A" true true (fresh tt : obj unit unit)) in
  let shown k := dget k (options_of o $"A") in
  has_file (disk values_file) (fresh tt : obj unit unit)
    (match get_cpd (disk values_file) (fresh tt : obj unit unit) with (Ok i, _) => i | _ => Ini [] [] [] end) /\
  (exists v, fst (parse_section_str base (disk values_file) 50 $"A" true true (fresh tt : obj unit unit)) = Ok v) /\
  shown $"plain" = Some (Some $"a b") /\
  shown $"quoted" = Some (Some $" x y ") /\
  shown $"none" = Some None /\
  shown $"half" = Some (Some $"50%") /\
  shown $"ref" = Some (Some $"<a b|50%>") /\
  shown $"both" = Some (Some $"in") /\
  shown $"empty" = Some (Some $"").
Proof.
  cbv zeta. split.
  - unfold has_file. vm_compute. reflexivity.
  - split; [eexists; vm_compute; reflexivity|computed].
Qed.

(** The blanks. *)
Theorem C34_blanks : forall c, is_space c = true <-> space c.
Proof. exact space_iff. Qed.
Print Assumptions C34_blanks.

(** The two strippings do what [trimmed] says, and [trimmed] determines its result. *)
Theorem C34_strip : forall x y, trimmed space x y <-> strip_ws x = y.
Proof. exact trimmed_iff. Qed.
Print Assumptions C34_strip.
Theorem C34_normalisation : forall v w, cleaned v w <-> clean_value v = w.
Proof. exact cleaned_iff. Qed.
Print Assumptions C34_normalisation.
Example C34_normalisation_ex :
  cleaned (Some $"  ""x """"  ") (Some $"x ") /\ space 32%N /\ space 9%N /\ space 10%N /\ ~ space 34%N.
Proof.
  split; [now apply cleaned_iff|]. unfold space. cbn [In]. repeat split; auto 12. intros H.
  repeat destruct H as [H|H]; try discriminate H. exact H.
Qed.

(** Interpolation succeeds exactly as [expands] says. *)
Theorem C34_interpolation : forall look d s t, interp_some look d s = Ok t <-> expands look d s t.
Proof. exact interp_expands. Qed.
Print Assumptions C34_interpolation.
Theorem C34_interpolation_unique : forall look d s t t', expands look d s t -> expands look d s t' -> t = t'.
Proof. exact expands_unique. Qed.
Print Assumptions C34_interpolation_unique.
(** Text without a percent sign stands for itself, and every text is what its
    escaped form stands for. *)
Theorem C34_plain_text : forall look d s, ~ In percent s -> expands look (S d) s s.
Proof. exact expands_plain. Qed.
Print Assumptions C34_plain_text.
Theorem C34_percent_round_trip : forall look d s, expands look (S d) (escape_percent s) s.
Proof. exact expands_escaped. Qed.
Print Assumptions C34_percent_round_trip.
(** It fails with the error of the leftmost fault, as [fails] says. *)
Theorem C34_interpolation_error : forall look d s e, interp_some look d s = Err e <-> fails look d s e.
Proof. exact interp_fails. Qed.
Print Assumptions C34_interpolation_error.
Theorem C34_interpolation_errors : forall look d s e, fails look d s e ->
  e = InterpolationSyntaxError \/ e = InterpolationMissingOptionError \/ e = InterpolationDepthError \/ e = TypeError.
Proof. exact fails_errors. Qed.
Print Assumptions C34_interpolation_errors.
Example C34_interpolation_ex :
  let look k := if str_eqb k $"a" then Some (Some $"A%%") else if str_eqb k $"b" then Some (Some $"<%(a)s>")
                else if str_eqb k $"loop" then Some (Some $"%(loop)s") else if str_eqb k $"none" then Some None else None in
  expands look 10 $"x%(b)s%%y" $"x<A%>%y" /\
  escape_percent $"50% (a)%" = $"50%% (a)%%" /\
  fails look 10 $"100%" InterpolationSyntaxError /\
  fails look 10 $"%(zz)s 100%" InterpolationMissingOptionError /\
  fails look 10 $"%(loop)s" InterpolationDepthError /\
  fails look 10 $"%(none)s" TypeError.
Proof.
  cbv zeta. split; [apply interp_expands; vm_compute; reflexivity|]. split; [computed|].
  repeat split; apply interp_fails; vm_compute; reflexivity.
Qed.

(** What the file shows under a name: [section_shows] says it, and it is a
    function of the file. *)
Theorem C34_section : forall i s items, section_shows i s items <-> ini_items i s = Some items.
Proof. exact shows_iff. Qed.
Print Assumptions C34_section.
Theorem C34_section_present : forall i s, present i s <-> exists items, section_shows i s items.
Proof. exact present_shows. Qed.
Print Assumptions C34_section_present.
Example C34_section_ex :
  let i := Ini [($"A", [($"x", Some $"1%(z)s"); ($"y", None)])] [($"x", Some $"9"); ($"z", Some $"3"); ($"w", Some $"%(q)s")] $"D" in
  section_shows i $"A" [($"x", Ok (Some $"13")); ($"y", Ok None); ($"z", Ok (Some $"3")); ($"w", Err InterpolationMissingOptionError)] /\
  present i $"D" /\ ~ present i $"B".
Proof.
  cbv zeta. split; [now apply shows_iff|]. split; [apply present_iff; discriminate|now apply absent_iff].
Qed.

(** The values of a section depend on its own options and on those of the
    parser's default section only. *)
Theorem C34_scope : forall i j t items, (forall own, own_section i t own <-> own_section j t own) -> i_defs i = i_defs j ->
  (section_shows i t items <-> section_shows j t items).
Proof. exact shows_local. Qed.
Print Assumptions C34_scope.
(** So a reference to an option of a section that is only used fails. *)
Example C34_scope_ex :
  let d := disk ["[A]"; "use B"; "y = %(x)s"; "[B]"; "x = 1"] in
  fst (parse_section_str base d 50 $"A" true true (fresh tt : obj unit unit)) = Err InterpolationMissingOptionError.
Proof. cbv zeta. vm_compute. reflexivity. Qed.
(** A reference means the section's own option, not the default of that name. *)
Example C34_own_first_ex :
  let d := disk ["[A]"; "x = own"; "y = %(x)s %(z)s"; "[CONFIGPARSERENHANCED_COMMON]"; "x = default"; "z = 3"] in
  option_map (dget $"y") (section_of (snd (parse_section_str base d 50 $"A" true true (fresh tt : obj unit unit))) $"A") =
    Some (Some (Some $"own 3")).
Proof. cbv zeta. vm_compute. reflexivity. Qed.
