(** * What the checks of a file report. *)
From Coq Require Import String NArith ZArith List Bool.
Import ListNotations.
From Verif Require Import PyBase IniView Cpe SpecMessages.
Local Open Scope string_scope.
Local Open Scope list_scope.

(** The lines about a section: its name, and one line for every entry. *)
Definition entry_line (x : str) : str := $"|- '" ++ x ++ $"'".
Definition section_lines (s : str) (keys : list str) : list str :=
  [$"Unhandled option found in section `" ++ s ++ $"` or one of its dependent sections.";
   $"The following entries are unhandled:"] ++ map entry_line keys.
(** The lines about the operations and the files. *)
Definition operation_lines (ops : list str) : list str := $"Valid operations are:" :: map entry_line ops.
Definition file_lines (files : list str) : list str :=
  $"This configuration was loaded from the file(s):" :: map (fun f => $"|- " ++ f) files.
(** A text of these lines; the last one has no line feed. *)
Definition text_of (lines : list str) (t : str) : Prop := t ++ newline = ended lines.

(** The texts printed by an object so far, without warnings. *)
Definition said {Sh Us} (o : obj Sh Us) : list str :=
  flat_map (fun x => match x with OutText t => [t] | OutWarn _ => [] end) (o_out o).

(** One report for every section with options that are not handled, in this order. *)
Inductive reports : list (str * dict (option str)) -> list str -> Prop :=
| re_nil : reports [] []
| re_clean s l r : reports l r -> reports ((s, []) :: l) r
| re_bad s d l t r : d <> [] -> text_of (section_lines s (dkeys d)) t -> reports l r -> reports ((s, d) :: l) (t :: r).
