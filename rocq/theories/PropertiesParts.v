(** * Property C93: where the sections stand does not matter. *)
From Coq Require Import String NArith ZArith List Bool Lia Permutation.
Import ListNotations.
From Verif Require Import PyBase Shlex IniView IniRead ExcControl Cpe SpecRead SpecWalk SpecRun SpecParse SpecApi SpecParts
  Samples SamplesApi ReadProofs3 PartsProofs PartsProofs2 PartsProofs3.
Local Open Scope string_scope.
Local Open Scope list_scope.

(** A readable text may be cut before any section header, with the blank lines and
    comments before it, and the pieces be put into files: the list of these files
    is read as the one file was. *)
Theorem C93_split :
  forall delims dn first rest ts t i,
  Forall begins_section rest -> Forall2 lines_of ts (first :: rest) -> lines_of t (concat (first :: rest)) ->
  reads delims dn t i -> read_files delims ts (empty_ini dn) = (Ok tt, i).
Proof. exact parts_split. Qed.
Print Assumptions C93_split.

(** The same for objects, one with the file and one with the list of files. *)
Theorem C93_split_access :
  forall (Sh Us : Type) fs fs' (o o' : obj Sh Us) p fl first rest t ts i,
  o_cpd o = None -> o_cpd o' = None -> o_delims o' = o_delims o -> o_intname o' = o_intname o ->
  o_files o = Some [p] -> fs p = Some t -> o_files o' = Some fl -> texts_of fs' fl ts ->
  Forall begins_section rest -> Forall2 lines_of ts (first :: rest) -> lines_of t (concat (first :: rest)) ->
  has_file fs o i -> has_file fs' o' i.
Proof. exact (@split_access). Qed.
Print Assumptions C93_split_access.

(** Texts that begin with a section and have no section and no default option in
    common: the text that consists of all their lines is readable, its content is
    theirs one after the other, and that is what the list of the files gives. *)
Theorem C93_join :
  forall delims dn parts ns,
  Forall2 (part_reads delims dn) parts ns -> Forall begins_section parts -> apart ns ->
  (forall t, lines_of t (concat parts) -> reads delims dn t (joined dn ns)) /\
  (forall ts, Forall2 lines_of ts parts -> read_files delims ts (empty_ini dn) = (Ok tt, joined dn ns)).
Proof. exact parts_files. Qed.
Print Assumptions C93_join.

(** Such parts may be put into any order: the same sections with the same options;
    the same defaults, in the same order too unless they stand in several parts. *)
Theorem C93_moved :
  forall delims dn parts parts' ns t t',
  Forall2 (part_reads delims dn) parts ns -> Forall begins_section parts -> apart ns -> Permutation parts parts' ->
  lines_of t (concat parts) -> lines_of t' (concat parts') ->
  exists i i', reads delims dn t i /\ reads delims dn t' i' /\ Permutation (i_secs i) (i_secs i') /\ Permutation (i_defs i) (i_defs i') /\
    NoDup (ini_sections i) /\ i_defname i = dn /\ i_defname i' = dn /\
    (forall d, (forall m, In m ns -> i_defs m = [] \/ i_defs m = d) -> i_defs i = i_defs i').
Proof. exact parts_moved. Qed.
Print Assumptions C93_moved.

(** With the sections in another order every history of calls ends with the same
    answer to the same call, except to the calls that list the sections. *)
Theorem C93_answers :
  forall (Sh Us : Type) (K : pyclass Sh Us) fs fs' i i' dname fuel fuel' (o o' : obj Sh Us) h h' c,
  well_behaved K -> length (ini_sections i) + 3 <= fuel -> length (ini_sections i) + 3 <= fuel' ->
  shuffled i i' -> all_parsable K i dname -> opened K fs i dname o -> opened K fs' i' dname o' ->
  Forall (in_file K i dname) h -> Forall (in_file K i dname) h' -> in_file K i dname c -> orderless c ->
  last_level h (level_of o) = last_level h' (level_of o') ->
  same_answer i c (fst (exec_op K fs fuel c (after K fs fuel h o))) (fst (exec_op K fs' fuel' c (after K fs' fuel' h' o'))).
Proof. exact (@shuffled_histories). Qed.
Print Assumptions C93_answers.

(** And a parse with any handlers: the same result or error, the same effects of the
    handlers, the same options and the same loginfo. *)
Theorem C93_parse :
  forall (Sh Us : Type) (K : pyclass Sh Us) fs fs' i i' fuel fuel' s init fin (o o' : obj Sh Us),
  s <> [] -> has_file fs o i -> has_file fs' o' i' -> shuffled i i' -> level_ok o ->
  length (ini_sections i) + 3 <= fuel -> length (ini_sections i) + 3 <= fuel' ->
  default_ok K i (o_defname o) s init ->
  o_defname o' = o_defname o -> level_of o' = level_of o -> path_set_of o' = path_set_of o -> o_debug o' = o_debug o ->
  o_user o' = o_user o -> options_of o' s = options_of o s ->
  let '(r1, o1) := parse_section_str K fs fuel s init fin o in
  let '(r2, o2) := parse_section_str K fs' fuel' s init fin o' in
  r1 = r2 /\ o_user o1 = o_user o2 /\ options_of o1 s = options_of o2 s /\ log_of o1 = log_of o2.
Proof. exact (@shuffled_parse). Qed.
Print Assumptions C93_parse.

(** Three parts: the defaults, a section that uses the next, that section. *)
Definition internal : str := $"CONFIGPARSERENHANCED_COMMON".
Definition part0 : list str := [$"[CONFIGPARSERENHANCED_COMMON]"; $"d = 0"].
Definition part1 : list str := [$"# first"; $"[A]"; $"use B"; $"x = 1"; $""].
Definition part2 : list str := [$"[B]"; $"y = 2"; $"  3"].
Definition content0 : ini := Ini [] [($"d", Some $"0")] internal.
Definition content1 : ini := Ini [($"A", [($"use B", None); ($"x", Some $"1")])] [] internal.
Definition content2 : ini := Ini [($"B", [($"y", Some ($"2" ++ newline ++ $"3"))])] [] internal.
Definition eqdelims : list str := [[61%N]].

Ltac its_lines := apply lines_text_of; repeat constructor; vm_compute; intuition discriminate.
Ltac a_part := eexists; split; [its_lines|vm_compute; reflexivity].
Ltac a_header s := apply (bs_header s); split; [discriminate|exists []; split; [reflexivity|intros []]].
Example C93_ex_parts :
  Forall2 (part_reads eqdelims internal) [part0; part1; part2] [content0; content1; content2] /\
  Forall begins_section [part0; part1; part2] /\ apart [content0; content1; content2] /\
  Permutation [part0; part1; part2] [part2; part0; part1] /\
  (forall m, In m [content0; content1; content2] -> i_defs m = [] \/ i_defs m = i_defs content0) /\
  SpecRead.lines_of (SpecRead.text_of (concat [part2; part0; part1])) (concat [part2; part0; part1]).
Proof.
  split; [|split; [|split; [|split; [|split]]]].
  - constructor; [a_part|]. constructor; [a_part|]. constructor; [a_part|]. constructor.
  - constructor; [a_header internal|]. constructor; [|constructor; [a_header $"B"|constructor]].
    apply bs_filler; [right; exists [], 35%N, $" first"; auto|a_header $"A"].
  - split; vm_compute; repeat constructor; cbn; intuition discriminate.
  - apply Permutation_sym. change [part2; part0; part1] with ([part2] ++ [part0; part1]). apply (Permutation_app_comm [part2] [part0; part1]).
  - intros m [<-|[<-|[<-|[]]]]; auto.
  - its_lines.
Qed.

(** The file with these parts, and the file with the last part first. *)
Definition parts_file (p : str) : option str := if str_eqb p $"f.ini" then Some (SpecRead.text_of (concat [part0; part1; part2])) else None.
Definition moved_file (p : str) : option str := if str_eqb p $"f.ini" then Some (SpecRead.text_of (concat [part2; part0; part1])) else None.
Definition parts_ini : ini := joined internal [content0; content1; content2].
Definition moved_ini : ini := joined internal [content2; content0; content1].
Example C93_ex_answers :
  let o := fresh tt : obj unit unit in
  shuffled parts_ini moved_ini /\ all_parsable base parts_ini $"DEFAULT" /\
  opened base parts_file parts_ini $"DEFAULT" o /\ opened base moved_file moved_ini $"DEFAULT" o /\
  fst (exec_op base parts_file 9 (OItem $"A") o)
    = Ok (RDict [($"y", Some ($"2" ++ newline ++ $"3")); ($"d", Some $"0"); ($"x", Some $"1")]) /\
  fst (exec_op base moved_file 9 (OItem $"A") o) = fst (exec_op base parts_file 9 (OItem $"A") o) /\
  fst (exec_op base parts_file 9 OKeys o) <> fst (exec_op base moved_file 9 OKeys o).
Proof.
  split; [|split; [|split; [|split; [|split; [|split]]]]].
  - split; [apply perm_swap|]. split; [vm_compute; repeat constructor; cbn; intuition discriminate|split; reflexivity].
  - apply (all_parsable_check _ _ _ [$"DEFAULT"]); vm_compute; reflexivity.
  - constructor; [computed|computed|computed|left; computed|computed|computed].
  - constructor; [computed|computed|computed|left; computed|computed|computed].
  - computed.
  - computed.
  - vm_compute. discriminate.
Qed.

(** What does matter.

    The piece must begin with its section: an option without header is an error. *)
Definition content_of (ls : list str) : ini := snd (read_file eqdelims (SpecRead.text_of ls) (empty_ini internal)).
Theorem C93_cut_anywhere_refuted :
  ~ (forall la lb i, reads eqdelims internal (SpecRead.text_of (la ++ lb)) i ->
       fst (read_files eqdelims [SpecRead.text_of la; SpecRead.text_of lb] (empty_ini internal)) = Ok tt).
Proof. intros H. specialize (H [$"[A]"; $"x = 1"] [$"y = 2"] (content_of [$"[A]"; $"x = 1"; $"y = 2"]) ltac:(vm_compute; reflexivity)). vm_compute in H. discriminate. Qed.
Print Assumptions C93_cut_anywhere_refuted.

(** An indented header after an option is a line of the option's value; at the
    beginning of a file of its own it is a header. *)
Theorem C93_indented_header_refuted :
  ~ (forall la s ls i, reads eqdelims internal (SpecRead.text_of (la ++ ($" [" ++ s ++ $"]") :: ls)) i ->
       forall j, read_files eqdelims [SpecRead.text_of la; SpecRead.text_of (($" [" ++ s ++ $"]") :: ls)] (empty_ini internal) = (Ok tt, j) -> j = i).
Proof. intros H. 
  specialize (H [$"[A]"; $"x = 1"] $"B" [$"y = 2"] (content_of [$"[A]"; $"x = 1"; $" [B]"; $"y = 2"]) ltac:(vm_compute; reflexivity)
    (content_of [$"[A]"; $"x = 1"; $"[B]"; $"y = 2"]) ltac:(vm_compute; reflexivity)). vm_compute in H. discriminate.
 Qed.
Print Assumptions C93_indented_header_refuted.

(** Files with a common section can be read one after the other; the file with all
    the lines cannot be read. *)
Theorem C93_common_section_refuted :
  ~ (forall la lb, begins_section la -> begins_section lb ->
       fst (read_files eqdelims [SpecRead.text_of la; SpecRead.text_of lb] (empty_ini internal)) = Ok tt ->
       fst (read_file eqdelims (SpecRead.text_of (la ++ lb)) (empty_ini internal)) = Ok tt).
Proof.
  intros H. assert (A : forall x, begins_section [$"[A]"; x]) by (intros x; a_header $"A").
  specialize (H [$"[A]"; $"x = 1"] [$"[A]"; $"y = 2"] (A _) (A _) ltac:(vm_compute; reflexivity)). vm_compute in H. discriminate.
Qed.
Print Assumptions C93_common_section_refuted.

(** Defaults in two parts: their order is the order of the options of every section. *)
Theorem C93_default_order_refuted :
  ~ (forall la lb i i', begins_section la -> begins_section lb ->
       reads eqdelims internal (SpecRead.text_of (la ++ lb)) i -> reads eqdelims internal (SpecRead.text_of (lb ++ la)) i' ->
       forall fs fs' s (o : obj unit unit), has_file fs o i -> has_file fs' o i' ->
       fst (getitem base fs 9 s o) = fst (getitem base fs' 9 s o)).
Proof.
  intros H. set (la := [$"[CONFIGPARSERENHANCED_COMMON]"; $"x = 1"]). set (lb := [$"[CONFIGPARSERENHANCED_COMMON]"; $"y = 2"; $"[A]"]).
  assert (A : begins_section la) by a_header internal. assert (B : begins_section lb) by a_header internal.
  specialize (H la lb (content_of (la ++ lb)) (content_of (lb ++ la)) A B ltac:(vm_compute; reflexivity) ltac:(vm_compute; reflexivity) (fun _ => Some (SpecRead.text_of (la ++ lb))) (fun _ => Some (SpecRead.text_of (lb ++ la)))
    $"A" (fresh tt) ltac:(vm_compute; reflexivity) ltac:(vm_compute; reflexivity)). vm_compute in H. discriminate.
Qed.
Print Assumptions C93_default_order_refuted.
