(** * C16, C33 and C40: reading the file(s).

    Statements and examples only. Vocabulary in [SpecRead.v]: [lines_of] cuts a
    text into lines, [header_line] and [option_line] say what a line is,
    [merge_ini] puts one file over the others, [file_layout] describes the
    usual layout of a file; [get_cpd] is the model of [configparserdata] and
    [read_file] of reading one file with [configparser]. *)
From Coq Require Import String NArith ZArith List Bool.
Import ListNotations.
From Verif Require Import PyBase PyFacts IniView IniRead ExcControl Cpe SpecWalk SpecRun SpecParse SpecRead Samples
  ReadProofs2 ReadProofs3 ReadProofs4 ReadProofs5 ReadProofs6.
Local Open Scope string_scope.
Local Open Scope list_scope.

(** ** C33 *)

(** The lines of a text: the division used by the reader is the specified one. *)
Theorem C33_lines : forall t ls, lines_of t ls <-> text_lines t = ls.
Proof. exact lines_iff. Qed.
Print Assumptions C33_lines.
Example C33_lines_ex :
  lines_of (($"a" ++ [13%N; 10%N]) ++ (($"" ++ [13%N]) ++ ($"b" ++ [10%N]) ++ $"c")) [$"a"; $""; $"b"; $"c"].
Proof. apply lines_iff. reflexivity. Qed.

(** Reading a list of files: the sections are those of the files in order of
    first appearance; the value of each option is that of the last file which
    has it. *)
Theorem C33_later_files_override : forall Sh Us fs (o : obj Sh Us) i o1,
  o_cpd o = None -> get_cpd fs o = (Ok i, o1) ->
  exists fl ts ns, o_files o = Some fl /\ texts_of fs fl ts /\ Forall2 (reads (o_delims o) (o_intname o)) ts ns /\
    ini_sections i = first_keys (flat_map ini_sections ns) /\
    (forall s k, raw_value i s k = last_some (fun n => raw_value n s k) ns) /\
    (forall s, dkeys (options_in s (i_secs i)) = first_keys (flat_map (fun n => dkeys (options_in s (i_secs n))) ns)) /\
    (forall k, dget k (i_defs i) = last_some (fun n => dget k (i_defs n)) ns) /\
    dkeys (i_defs i) = first_keys (flat_map (fun n => dkeys (i_defs n)) ns).
Proof. intros Sh Us fs. exact (raw_access fs). Qed.
Print Assumptions C33_later_files_override.

(** A list of files is readable iff each of them is readable alone; otherwise
    the error is that of the first unreadable one. *)
Theorem C33_each_file_alone : forall Sh Us fs (o : obj Sh Us) fl ts,
  o_cpd o = None -> o_files o = Some fl -> fl <> [] -> texts_of fs fl ts ->
  ((exists i, fst (get_cpd fs o) = Ok i) <->
   Forall (fun t => fst (read_file (o_delims o) t (empty_ini (o_intname o))) = Ok tt) ts).
Proof. intros Sh Us fs. exact (access_ok fs). Qed.
Print Assumptions C33_each_file_alone.
Theorem C33_first_error : forall Sh Us fs (o : obj Sh Us) fl ts1 t ts2 e,
  o_cpd o = None -> o_files o = Some fl -> texts_of fs fl (ts1 ++ t :: ts2) ->
  Forall (fun t => fst (read_file (o_delims o) t (empty_ini (o_intname o))) = Ok tt) ts1 ->
  fst (read_file (o_delims o) t (empty_ini (o_intname o))) = Err e ->
  fst (get_cpd fs o) = Err e.
Proof. intros Sh Us fs. exact (access_error fs). Qed.
Print Assumptions C33_first_error.

Definition two_files (p : str) : option str :=
  if str_eqb p $"a.ini" then Some (file_of ["[A]"; "x = 1"; "y = 2"; "[B]"; "z"])
  else if str_eqb p $"b.ini" then Some (file_of ["[C]"; "[A]"; "y : 3"; "w = 4"])
  else None.
Example C33_later_files_override_ex :
  let o : obj unit unit := set_files (Some [$"a.ini"; $"b.ini"]) (new_obj tt) in
  o_cpd o = None /\
  fst (get_cpd two_files o) = Ok (Ini
    [($"A", [($"x", Some $"1"); ($"y", Some $"3"); ($"w", Some $"4")]); ($"B", [($"z", None)]); ($"C", [])]
    [] $"CONFIGPARSERENHANCED_COMMON").
Proof. cbv zeta. split; vm_compute; reflexivity. Qed.

(** A repeated section in one file is never accepted; the error is
    [DuplicateSectionError] unless an earlier line is in error. *)
Theorem C33_duplicate_section : forall delims dn t pre h1 mid h2 post s,
  s <> dn -> header_line s h1 -> header_line s h2 -> lines_of t (pre ++ h1 :: mid ++ h2 :: post) ->
  (exists e, fst (read_file delims t (empty_ini dn)) = Err e) /\
  (forall t', lines_of t' (pre ++ h1 :: mid) -> runs (fst (read_file delims t' (empty_ini dn))) ->
     fst (read_file delims t (empty_ini dn)) = Err DuplicateSectionError).
Proof. exact duplicate_section. Qed.
Print Assumptions C33_duplicate_section.
(** The same for an option repeated in one section (no header in between). *)
Theorem C33_duplicate_option : forall delims dn t pre o1 mid o2 post k v1 v2,
  good_delims delims -> plain_key delims k -> option_line delims k v1 o1 -> option_line delims k v2 o2 ->
  Forall (fun l => ~ bracket_line l) mid ->
  lines_of t (pre ++ o1 :: mid ++ o2 :: post) ->
  (exists e, fst (read_file delims t (empty_ini dn)) = Err e) /\
  (forall t', lines_of t' (pre ++ o1 :: mid) -> runs (fst (read_file delims t' (empty_ini dn))) ->
     fst (read_file delims t (empty_ini dn)) = Err DuplicateOptionError).
Proof. exact duplicate_option. Qed.
Print Assumptions C33_duplicate_option.

Example C33_duplicate_option_ex :
  let delims := [$":"; $"="] in
  good_delims delims /\ plain_key delims $"use B" /\
  option_line delims $"use B" (Some $" 1") $"use B = 1" /\ option_line delims $"use B" None $"use B  " /\
  ~ bracket_line $"x = [1]" /\
  lines_of (file_of ["[A]"; "use B = 1"; "x = [1]"; "use B  "; "[C]"])
    ([$"[A]"] ++ $"use B = 1" :: [$"x = [1]"] ++ $"use B  " :: [$"[C]"]) /\
  runs (fst (read_file delims (file_of ["[A]"; "use B = 1"; "x = [1]"]) (empty_ini $"D"))) /\
  fst (read_file delims (file_of ["[A]"; "use B = 1"; "x = [1]"; "use B  "; "[C]"]) (empty_ini $"D"))
    = Err DuplicateOptionError.
Proof.
  cbv zeta. split; [|split; [|split; [|split; [|split; [|split; [|split]]]]]].
  - split; [discriminate|]. repeat apply Forall_cons; [eexists; split; reflexivity..|apply Forall_nil].
  - split; [discriminate|]. split; [split; reflexivity|]. split.
    + repeat apply Forall_cons; [intros [X|[X|[]]]; discriminate X..|apply Forall_nil].
    + intros [X|[X|[X|[]]]]; discriminate X.
  - exact (ol_value [$":"; $"="] $"use B" $" " 61%N $" 1" eq_refl (or_intror (or_introl eq_refl))).
  - exact (ol_key [$":"; $"="] $"use B" $"  " eq_refl).
  - intros (b & l' & E & B). destruct b as [|c b]; [discriminate E|]. cbn in E. inversion E as [[X Y]]. subst c. discriminate B.
  - apply lines_iff. reflexivity.
  - left. vm_compute. reflexivity.
  - vm_compute. reflexivity.
Qed.
Example C33_duplicate_section_ex :
  header_line $"A" $"[A]" /\ header_line $"A" $"[A] # again" /\
  lines_of (file_of ["[A]"; "x"; "[A] # again"; "y"]) ([] ++ $"[A]" :: [$"x"] ++ $"[A] # again" :: [$"y"]) /\
  fst (read_file [$":"] (file_of ["[A]"; "x"; "[A] # again"; "y"]) (empty_ini $"D")) = Err DuplicateSectionError.
Proof.
  split; [|split; [|split]].
  - split; [discriminate|]. exists []. split; [reflexivity|intros []].
  - split; [discriminate|]. exists $" # again". split; [reflexivity|]. vm_compute. intuition discriminate.
  - apply lines_iff. reflexivity.
  - vm_compute. reflexivity.
Qed.

(** ** C16 *)

(** The first access, completely: it returns the merged files, or raises; after
    a duplicate option the data is unset, after any other error it is what had
    been read. *)
Theorem C16_first_access : forall Sh Us fs (o : obj Sh Us), o_cpd o = None ->
  match get_cpd fs o with
  | (Ok i, o1) => loading fs o i /\ o_cpd o1 = Some i
  | (Err e, o1) => exists i, failing fs o e i /\
      o_cpd o1 = (if match e with DuplicateOptionError => true | _ => false end then None else Some i) /\
      o_files o1 = o_files o /\ o_delims o1 = o_delims o /\ o_intname o1 = o_intname o
  end.
Proof. intros Sh Us fs. exact (first_access fs). Qed.
Print Assumptions C16_first_access.
(** The access after a failing one. *)
Theorem C16_sticky : forall Sh Us fs (o : obj Sh Us) e o1, o_cpd o = None -> get_cpd fs o = (Err e, o1) ->
  (e = DuplicateOptionError -> fst (get_cpd fs o1) = Err DuplicateOptionError) /\
  (e <> DuplicateOptionError -> exists i, failing fs o e i /\ get_cpd fs o1 = (Ok i, o1)).
Proof. intros Sh Us fs. exact (load_errors fs). Qed.
Print Assumptions C16_sticky.
(** An unset path or a missing file: the error, and the empty data afterwards. *)
Theorem C16_missing_file : forall Sh Us fs (o : obj Sh Us), o_cpd o = None ->
  (o_files o = None \/ o_files o = Some [] \/ (exists fl p, o_files o = Some fl /\ In p fl /\ fs p = None)) ->
  exists o1, get_cpd fs o = (Err (match o_files o with None | Some [] => ValueError | _ => IOError end), o1) /\
    get_cpd fs o1 = (Ok (empty_ini (o_intname o)), o1) /\ ini_sections (empty_ini (o_intname o)) = [].
Proof. intros Sh Us fs. exact (missing_sticky fs). Qed.
Print Assumptions C16_missing_file.
(** The data of the file in error is that of the lines before the failing one. *)
Theorem C16_partial_data : forall delims dn t e n,
  read_file delims t (empty_ini dn) = (Err e, n) -> e <> ParsingError ->
  exists l1 l l2 r, lines_of t (l1 ++ l :: l2) /\ runs r /\
    read_file delims (text_of l1) (empty_ini dn) = (r, n) /\
    fst (read_file delims (text_of (l1 ++ [l])) (empty_ini dn)) = Err e.
Proof. exact failed_read. Qed.
Print Assumptions C16_partial_data.

Example C16_sticky_ex :
  let first l := get_cpd (disk l) (fresh tt : obj unit unit) in
  let next l := fst (get_cpd (disk l) (snd (first l))) in
  let d := $"CONFIGPARSERENHANCED_COMMON" in
  (* duplicate option *)
  fst (first ["[A]"; "x = 1"; "x = 2"]) = Err DuplicateOptionError /\
  next ["[A]"; "x = 1"; "x = 2"] = Err DuplicateOptionError /\
  (* duplicate section *)
  fst (first ["[A]"; "x = 1"; "[B]"; "y = 2"; "[A]"; "z"]) = Err DuplicateSectionError /\
  next ["[A]"; "x = 1"; "[B]"; "y = 2"; "[A]"; "z"]
    = Ok (Ini [($"A", [($"x", Some $"1")]); ($"B", [($"y", Some $"2")])] [] d) /\
  (* missing header *)
  fst (first ["x = 1"; "[A]"]) = Err MissingSectionHeaderError /\
  next ["x = 1"; "[A]"] = Ok (Ini [] [] d) /\
  (* empty key *)
  fst (first ["[A]"; "= 1"; "y = 2"]) = Err ParsingError /\
  next ["[A]"; "= 1"; "y = 2"] = Ok (Ini [($"A", [($"", Some $"1"); ($"y", Some $"2")])] [] d) /\
  (* missing file *)
  (let o := snd (get_cpd (fun _ => None) (fresh tt : obj unit unit)) in
   fst (get_cpd (fun _ => None) (fresh tt : obj unit unit)) = Err IOError /\
   fst (get_cpd (fun _ => None) o) = Ok (Ini [] [] d)).
Proof. cbv zeta. computed. Qed.

(** ** C40 *)

(** A file in the usual layout (headers, options with values on one or more
    lines, options without value, comments, blank lines) reads as written,
    whatever the line ends, the blanks around the delimiter and the delimiter
    used. *)
Theorem C40_layout_read : forall delims dn, good_delims delims -> forall t ls d,
  lines_of t ls -> file_layout delims d ls ->
  NoDup (dkeys d) -> Forall (fun so => NoDup (dkeys (snd so))) d -> ~ In dn (dkeys d) ->
  read_file delims t (empty_ini dn) = (Ok tt, Ini d [] dn).
Proof. exact layout_read. Qed.
Print Assumptions C40_layout_read.

Example C40_layout_read_ex :
  let delims := [$":"; $"="] in
  let d := [($"A", [($"use B", None); ($"x", Some ($"1" ++ newline ++ newline ++ $"2 = 3"))]); ($"B", [])] in
  let ls := [$"# top"; $"[A]"; $""; $"use B"; $"; note"; $"x : 1 "; $"  # inner"; $""; $"   2 = 3"; $"[B] tail"] in
  file_layout delims d ls /\ NoDup (dkeys d) /\
  read_file delims (text_of ls) (empty_ini $"D") = (Ok tt, Ini d [] $"D").
Proof.
  cbv zeta.
  assert (C : forall b x, forallb is_space b = true -> comment_line (b ++ 35%N :: x)).
  { intros b x B. exists b, 35%N, x. auto. }
  assert (PK : forall k, k = $"use B" \/ k = $"x" -> plain_key [$":"; $"="] k).
  { intros k H. split; [destruct H as [->| ->]; discriminate|]. split; [destruct H as [->| ->]; split; reflexivity|]. split.
    - destruct H as [->| ->]; repeat apply Forall_cons; try apply Forall_nil; intros [X|[X|[]]]; discriminate X.
    - destruct H as [->| ->]; intros [X|[X|[X|[]]]]; discriminate X. }
  split; [|split].
  - exists [$"# top"]. eexists. split; [reflexivity|]. split.
    { apply Forall_cons; [|apply Forall_nil]. right. exact (C [] $" top" eq_refl). }
    refine (sb_cons _ $"A" _ _ $"[A]" [$""] ([$"use B"; $"; note"] ++ [$"x : 1 "; $"  # inner"; $""; $"   2 = 3"] ++ [])
              [$"[B] tail"] _ _ _ _).
    + split; [discriminate|]. exists []. split; [reflexivity|intros []].
    + apply Forall_cons; [|apply Forall_nil]. left. reflexivity.
    + apply osb_cons; [|apply osb_cons; [|apply osb_nil]].
      * apply ob_none; [apply PK; auto|exact (ol_key [$":"; $"="] $"use B" [] eq_refl)|].
        apply Forall_cons; [|apply Forall_nil]. right. exists [], 59%N, $" note". auto.
      * refine (ob_value [$":"; $"="] $"x" $" 1 " $"x : 1 " _ [[]; $"2 = 3"] _ _ _); [apply PK; auto| |].
        -- exact (ol_value [$":"; $"="] $"x" $" " 58%N $" 1 " eq_refl (or_introl eq_refl)).
        -- apply more_comment; [exact (C $"  " $" inner" eq_refl)|]. apply more_blank; [reflexivity|].
           refine (more_text $"   " $"2 = 3" [] [] [] _ _ _ _ _ _ more_nil); try reflexivity; try discriminate.
           ++ split; reflexivity.
           ++ intros [X|[X|[]]]; discriminate X.
    + refine (sb_cons _ $"B" [] [] $"[B] tail" [] [] [] _ _ _ _).
      * split; [discriminate|]. exists $" tail". split; [reflexivity|]. vm_compute. intuition discriminate.
      * apply Forall_nil.
      * apply osb_nil.
      * apply sb_nil.
  - apply NoDup_cons; [intros [X|[]]; discriminate X|]. apply NoDup_cons; [intros []|apply NoDup_nil].
  - vm_compute. reflexivity.
Qed.
