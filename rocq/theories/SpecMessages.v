(** * What a message looks like: lines in a box. *)
From Coq Require Import String NArith List Bool Sorted Permutation.
Import ListNotations.
From Verif Require Import PyBase SpecText SpecKeyword SpecFlags.
Local Open Scope string_scope.
Local Open Scope list_scope.

(** ** Lines *)

(** The characters that end a line ([str.splitlines] in Python 3.11). *)
Definition breaks (c : pychar) : Prop := In c [10; 11; 12; 13; 28; 29; 30; 133; 8232; 8233]%N.
Definition unbroken (s : str) : Prop := Forall (fun c => ~ breaks c) s.
(** What ends a line before this rest of the text: one character, or carriage
    return and line feed. *)
Inductive line_break : str -> str -> Prop :=
| lb_one c s : breaks c -> (forall s', c = 13%N -> s <> 10%N :: s') -> line_break [c] s
| lb_two s : line_break [13; 10]%N s.
(** The lines of a text; the last one may have no end. *)
Inductive lines_of : str -> list str -> Prop :=
| lo_none : lines_of [] []
| lo_last l : l <> [] -> unbroken l -> lines_of l [l]
| lo_line l b s ls : unbroken l -> line_break b s -> lines_of s ls -> lines_of (l ++ b ++ s) (l :: ls).

(** ** The box *)

(** [t] is [s] without the white space at its end. *)
Definition end_trimmed (s t : str) : Prop := exists w, s = t ++ w /\ Forall space w /\ not_first space (rev t).
Definition rule : str := $"+" ++ repeat 61%N 78 ++ $"+".
Definition ended (l : list str) : str := concat (map (fun s => s ++ newline) l).
(** The text is an empty line, a rule, these lines without white space at their
    ends, and a rule. *)
Definition boxed (lines : list str) (text : str) : Prop :=
  exists shown, Forall2 end_trimmed lines shown /\ text = ended ([] :: rule :: shown ++ [rule]).
(** The lines of the heading of a message, and a further line. *)
Definition heading_lines (kind : str) (ls : list str) : list str :=
  match ls with
  | [] => []
  | l :: ls => ($"|   " ++ kind ++ $":  " ++ l) :: map (fun l => $"|           " ++ l) ls
  end.
Definition more_line (l : str) : str := $"|   " ++ l.

(** ** Lists *)
Definition item_line (item : str) : str := $"|     - " ++ item.

(** The same strings, in the order of their code points. *)
Definition in_order (l l' : list str) : Prop := Permutation l l' /\ StronglySorted before l'.

(** An environment with its aliases. *)
Definition alias_line (a : str) : str := $"|         - " ++ a.
Definition env_block (name : str) (aliases : list str) : list str :=
  item_line name :: match aliases with [] => [] | _ => $"|       * Aliases:" :: map alias_line aliases end.
Definition envs_listing (system file : str) (blocks : list (list str)) : list str :=
  [$"|   INFO:  Please select one of the following."; $"|   "; $"|   - Supported Environments for '" ++ system ++ $"':"] ++
  concat blocks ++
  [$"|   "; $"|   See `" ++ file ++ $"` for details on the available environments."; $"|   ";
   $"|   To force-load an environment see the guidance in the `--help` output."; $"|   "].

(** A flag with its options: the first one is the default. *)
Definition flag_block (name : str) (many : bool) (options : list str) : list str :=
  [item_line name;
   $"|       * Option" ++ (match options with [] => [] | _ => $"s" end) ++ $" (" ++ (if many then select_many else select_one) ++ $"):"] ++
  match options with [] => [] | o :: os => alias_line (o ++ $" (default)") :: map alias_line os end.
Definition flags_listing (file : str) (T : list row) : list str :=
  [$"|   INFO:  Please select one of the following."; $"|   "; $"|   - Supported Flags Are:"] ++
  flat_map (fun r => flag_block (fst r) (fst (snd r)) (snd (snd r))) T ++
  [$"|   "; $"|   See " ++ file ++ $" for details."].

Definition configs_listing (file : str) (configs : list str) : list str :=
  [$"|   INFO:  Please select one of the following complete configurations from"; $"|           " ++ file; $"|           "] ++
  map item_line configs ++ [$"|   "].
