(** * Property C91: what does not matter in the text of a file. *)
From Coq Require Import String NArith List Bool Lia.
Import ListNotations.
From Verif Require Import PyBase Shlex IniView IniRead ExcControl Cpe SpecRead SpecApi SpecLevels SpecLayout
  Samples ReadProofs3 LayoutProofs LayoutProofs2.
Local Open Scope string_scope.
Local Open Scope list_scope.

(** Comment lines, blank lines not inside a value, blanks at the end of lines, the
    width of the indentation and the kind of line ends: two texts that differ in
    these only are read alike, with whatever delimiters, after whatever other
    files, errors and what has been read before an error included. *)
Theorem C91_layout :
  forall t t', same_text t t' -> forall delims i, read_file delims t i = read_file delims t' i.
Proof. exact same_text_read. Qed.
Print Assumptions C91_layout.

(** The same lines, whatever ends them. *)
Theorem C91_line_ends :
  forall t t' ls, lines_of t ls -> lines_of t' ls -> forall delims i, read_file delims t i = read_file delims t' i.
Proof. exact same_lines_read. Qed.
Print Assumptions C91_line_ends.

(** With files that differ so, every history of calls gets the same replies from an
    object of any class, prints the same and leaves the same object. *)
Theorem C91_answers :
  forall (Sh Us : Type) (K : pyclass Sh Us) fs fs', same_files fs fs' ->
  forall fuel h (o : obj Sh Us), replies K fs fuel h o = replies K fs' fuel h o.
Proof. exact (@ext_replies). Qed.
Print Assumptions C91_answers.

(** A file, and the file after an editor: a comment at the top and inside a value,
    blanks at an end, a blank line before a section, the second line of a value
    indented less, everything indented by one, line ends CR LF. *)
Definition tidy_file : list str := [$"[A]"; $"x = 1"; $"    2"; $"y"; $"[B]"; $"use A"].
Definition untidy_file : list str :=
  [$"# the A"; $" [A]"; $" x = 1  "; $"; more"; $"   2"; $" y"; $" "; $" [B]"; $" use A"].
Definition crlf (ls : list str) : str := flat_map (fun l => l ++ [13%N; 10%N]) ls.
Definition files_with (t : str) (p : str) : option str := if str_eqb p $"f.ini" then Some t else None.

Example C91_ex_same : same_files (files_with (SpecRead.text_of tidy_file)) (files_with (crlf untidy_file)).
Proof.
  intros p. unfold files_with. destruct (str_eqb p $"f.ini"); [|exact I].
  exists tidy_file, untidy_file. split; [|split].
  - apply lines_text_of. repeat constructor; intros [X|X]; repeat destruct X as [X|X]; discriminate || contradiction.
  - unfold untidy_file, crlf. cbn [flat_map].
    repeat (rewrite <- app_assoc; cbn [app]; apply lo_crlf; [split; vm_compute; intuition discriminate|]). constructor.
  - set (spaced := [$"[A]"; $"x = 1"; $"    2"; $"y"; $" "; $"[B]"; $"use A"]).
    set (narrow := [$"[A]"; $"x = 1"; $"  2"; $"y"; $" "; $"[B]"; $"use A"]).
    set (shifted := [$" [A]"; $" x = 1"; $"   2"; $" y"; $" "; $" [B]"; $" use A"]).
    assert (C : forall c x, c = 35%N \/ c = 59%N -> comment_line (c :: x)) by (intros c x H; exists [], c, x; auto).
    apply sl_trans with spaced.
    { apply (sl_blank [$"[A]"; $"x = 1"; $"    2"; $"y"] $" " [$"[B]"; $"use A"]); [reflexivity|].
      apply (sa_line 91%N $"B]"); [reflexivity|]. intros (b & c & x & E & W & H). destruct b as [|d b].
      - injection E as <- _. destruct H; discriminate.
      - injection E as <- _. discriminate. }
    apply sl_trans with narrow.
    { apply sl_sym, (sl_indent (fun n => 2 * n)); [intros; lia|]. repeat apply Forall2_cons; try apply Forall2_nil.
      all: first [apply ri_filler; now left | now apply (ri_line _ [] []) | now apply (ri_line _ (repeat 32%N 2) (repeat 32%N 4))]. }
    apply sl_trans with shifted.
    { apply (sl_indent S); [intros; lia|]. repeat apply Forall2_cons; try apply Forall2_nil.
      all: first [apply ri_filler; now left | now apply (ri_line _ [] [32%N]) | now apply (ri_line _ (repeat 32%N 2) (repeat 32%N 3))]. }
    eapply sl_trans; [apply (sl_comment [] $"# the A"), C; now left|].
    eapply sl_trans; [apply (sl_comment [$"# the A"; $" [A]"; $" x = 1"] $"; more"), C; now right|].
    apply (sl_end [$"# the A"; $" [A]"] $" x = 1" $"  "). reflexivity.
Qed.
Example C91_ex_answers :
  let h := [CApi (OItem $"B"); CApi (OGet $"A" (Some $"x")); CApi OAssertFile] in
  let o := fresh tt : obj unit unit in
  fst (replies base (files_with (crlf untidy_file)) 9 h o)
  = [Ok (ReplyApi (RDict [($"x", Some ($"1" ++ newline ++ $"2")); ($"y", None)]));
     Ok (ReplyApi (RValue (Some ($"1" ++ newline ++ $"2")))); Err ValueError] /\
  SpecRead.text_of tidy_file <> crlf untidy_file.
Proof. vm_compute. split; [reflexivity|discriminate]. Qed.

(** What does matter.

    A comment after a value on the same line belongs to the value. *)
Theorem C91_inline_comment_refuted :
  ~ (forall delims k v c i, In [61%N] delims ->
       read_file delims (SpecRead.text_of [$"[A]"; k ++ $" = " ++ v ++ $" # " ++ c]) i
       = read_file delims (SpecRead.text_of [$"[A]"; k ++ $" = " ++ v]) i).
Proof.
  intros H. specialize (H [$"="] $"x" $"1" $"one" (Ini [] [] $"DEFAULT") (or_introl eq_refl)). vm_compute in H. discriminate.
Qed.
Print Assumptions C91_inline_comment_refuted.

(** A blank line inside a value is part of it. *)
Theorem C91_blank_line_refuted :
  ~ (forall delims a b i, read_file delims (SpecRead.text_of (a ++ [] :: b)) i = read_file delims (SpecRead.text_of (a ++ b)) i).
Proof.
  intros H. specialize (H [$"="] [$"[A]"; $"x = 1"] [$"  2"] (Ini [] [] $"DEFAULT")). vm_compute in H. discriminate.
Qed.
Print Assumptions C91_blank_line_refuted.

(** Indenting one option more than the one before it makes it part of that one's
    value. *)
Theorem C91_indented_option_refuted :
  ~ (forall delims a l b i, read_file delims (SpecRead.text_of (a ++ (32%N :: l) :: b)) i = read_file delims (SpecRead.text_of (a ++ l :: b)) i).
Proof.
  intros H. specialize (H [$"="] [$"[A]"; $"x = 1"] $"y = 2" [] (Ini [] [] $"DEFAULT")). vm_compute in H. discriminate.
Qed.
Print Assumptions C91_indented_option_refuted.
