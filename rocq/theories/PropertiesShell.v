(** * C27 and C39: option keys as shell words, and malformed options.

    Statements and examples only. The grammar [words] is in [SpecShell.v], the
    list of defects in [SpecStop.v]. *)
From Coq Require Import String NArith ZArith List Bool.
Import ListNotations.
From Verif Require Import PyBase PyFacts Shlex IniView IniRead ExcControl Cpe SpecText SpecFile SpecShell FileProofs SpecWalk MeaningProofs SpecRun SpecParse
  SpecStop RefineOk Samples ShellProofs StopProofs.

(** ** C27 *)

(** The tokeniser accepts exactly the texts of the grammar, with their words. *)
Theorem C27_grammar : forall s l, shlex_split s = Ok l <-> words s l.
Proof. exact shlex_words. Qed.
Print Assumptions C27_grammar.
Theorem C27_unique_reading : forall s l l', words s l -> words s l' -> l = l'.
Proof. exact words_unique. Qed.
Print Assumptions C27_unique_reading.
(** Every other text is a [ValueError]. *)
Theorem C27_error : forall s, (forall l, ~ words s l) <-> shlex_split s = Err ValueError.
Proof. exact shlex_error. Qed.
Print Assumptions C27_error.

Example C27_grammar_ex :
  words $"use  a'b c'""d\""e"" \ f" [$"use"; $"ab cd""e"; $" f"] /\
  shlex_split $"a 'b c" = Err ValueError.
Proof. split; [apply shlex_words|]; reflexivity. Qed.

(** Quoting each word and joining with blanks is undone. *)
Theorem C27_round_trip : forall l, shlex_split (join blank_sep (map quoted l)) = Ok l.
Proof. exact quote_round_trip. Qed.
Print Assumptions C27_round_trip.
Example C27_round_trip_ex : join blank_sep (map quoted [$"use"; $"it's"; $""]) = $"'use' 'it'""'""'s' ''".
Proof. reflexivity. Qed.

(** Text without quotes and backslashes is cut at runs of blanks. *)
Theorem C27_unquoted : forall l (seps : list str),
  length seps = length l ->
  Forall (fun w => w <> [] /\ Forall ordinary w) l ->
  Forall (fun b => b <> [] /\ Forall blank b) seps ->
  shlex_split (concat (map (fun p => fst p ++ snd p) (combine l seps))) = Ok l.
Proof. exact unquoted_split. Qed.
Print Assumptions C27_unquoted.
Example C27_unquoted_ex :
  concat (map (fun p => fst p ++ snd p) (combine [$"use"; $"B-2"] [$"   "; $" "])) = $"use   B-2 " /\
  shlex_split $"use   B-2 " = Ok [$"use"; $"B-2"].
Proof. split; reflexivity. Qed.

Theorem C27_trailing_backslash : forall s, ~ In squote s -> ~ In dquote s -> ~ In backslash s ->
  shlex_split (s ++ [backslash]) = Err ValueError.
Proof. exact trailing_backslash. Qed.
Print Assumptions C27_trailing_backslash.
Theorem C27_unclosed_quote : forall s q a, q = squote \/ q = dquote ->
  ~ In squote s -> ~ In dquote s -> ~ In backslash s -> ~ In q a -> ~ In backslash a ->
  shlex_split (s ++ q :: a) = Err ValueError.
Proof. exact unclosed_quote. Qed.
Print Assumptions C27_unclosed_quote.

(** A key with a character that is not blank has a first word. *)
Theorem C27_never_empty : forall s c, In c s -> ~ blank c -> shlex_split s <> Ok [].
Proof. exact no_empty_split. Qed.
Print Assumptions C27_never_empty.

(** ** C39 *)

(** A parse that meets malformed options, all calling for the same exception,
    raises that exception. *)
Theorem C39_malformed_option_raises :
  forall (Sh Us : Type) (K : pyclass Sh Us) fs i fuel s init fin (o : obj Sh Us) t items k r x,
    well_behaved K -> s <> [] -> has_file fs o i -> (0 <= level_of o < 5)%Z -> path_set_of o = true ->
    default_ok K i (o_defname o) s init -> length (ini_sections i) + 3 <= fuel ->
    (forall u, contributes K i (o_defname o) s init u -> present i u) ->
    contributes K i (o_defname o) s init t -> section_shows i t items -> In (k, r) items ->
    defect K (k, r) x ->
    (forall u its k' r' x', contributes K i (o_defname o) s init u -> section_shows i u its ->
       In (k', r') its -> defect K (k', r') x' -> x' = x) ->
    fst (parse_section_str K fs fuel s init fin o) = Err x.
Proof. exact (@defect_error). Qed.
Print Assumptions C39_malformed_option_raises.

(** The hypothesis [clean_section] of C12 and others means: no malformed option. *)
Theorem C39_clean_means_no_defect :
  forall (Sh Us : Type) (K : pyclass Sh Us) i t, clean_section K i t <->
    exists items, section_shows i t items /\ forall k r x, In (k, r) items -> ~ defect K (k, r) x.
Proof. exact (@clean_no_defect). Qed.
Print Assumptions C39_clean_means_no_defect.

Definition file39 (bad : string) : list string :=
  ["[A]"; "a : 1"; "use B"; "[B]"; "b : 2"; bad; "[C]"; "c : 3"]%string.
Definition ini39 (bad : string) : ini :=
  match fst (get_cpd (disk (file39 bad)) (fresh tt : obj unit unit)) with Ok i => i | Err _ => Ini [] [] [] end.

Example C39_ex_quotes :
  fst (parse_section_str base (disk (file39 "it's : 1")) 9 $"A" true true (fresh tt)) = Err ValueError.
Proof.
  apply (C39_malformed_option_raises unit unit base (disk (file39 "it's : 1")) (ini39 "it's : 1")
           9 $"A" true true (fresh tt) $"B" [($"b", Ok (Some $"2")); ($"it's", Ok (Some $"1"))] $"it's" (Ok (Some $"1")) ValueError).
  - apply base_well_behaved.
  - discriminate.
  - computed.
  - vm_compute. split; [discriminate|reflexivity].
  - reflexivity.
  - intros _ X. vm_compute in X. discriminate.
  - vm_compute. auto.
  - intros u [R|(_ & X & _)]; [|vm_compute in X; discriminate].
    apply (reaches_closed _ _ [$"A"; $"B"]) in R; [|computed|now left].
    destruct R as [<-|[<-|[]]]; apply present_iff; vm_compute; discriminate.
  - left. apply (reach_step _ _ _ $"B"); [|constructor].
    exists [($"a", Ok (Some $"1")); ($"use B", Ok None)], ($"use B", Ok None).
    exists (OpInfo $"use" [$"B"] $"_handler_use" false), $"use B", None.
    split; [apply shows_iff; computed|]. split; [right; now left|].
    apply meaning_iff, (c_use base $"A" $"use B" None $"use" $"B" [] $"_handler_use" false); try reflexivity.
    apply (ho_private base $"use"); reflexivity.
  - apply shows_iff. computed.
  - right; now left.
  - apply d_quotes with (k := $"it's"); [apply trimmed_iff; reflexivity|]. apply shlex_error. reflexivity.
  - intros u its k' r' x' [R|(_ & X & _)]; [|vm_compute in X; discriminate].
    apply (reaches_closed _ _ [$"A"; $"B"]) in R; [|computed|now left].
    apply (defects_check base (ini39 "it's : 1") [$"A"; $"B"]); [computed|exact R].
Qed.
(** The other kinds, and the section the bad option is not part of. *)
Example C39_ex_kinds :
  fst (parse_section_str base (disk (file39 "use : 1")) 9 $"A" true true (fresh tt)) = Err IndexError /\
  fst (parse_section_str base (disk (file39 "v : %(nope)s")) 9 $"A" true true (fresh tt)) = Err InterpolationMissingOptionError /\
  fst (parse_section_str base (disk (file39 "v : 5%")) 9 $"A" true true (fresh tt)) = Err InterpolationSyntaxError /\
  fst (parse_section_str (PyClass [($"handler_obj", AObj)] tt no_uni : pyclass unit unit) (disk (file39 "obj : 1")) 9 $"A" true true (fresh tt)) = Err TypeError /\
  fst (parse_section_str base (disk (file39 "v : 5%")) 9 $"C" true true (fresh tt)) = Ok tt.
Proof. computed. Qed.
