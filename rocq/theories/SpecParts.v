(** * Texts in parts: which parts can be put into files of their own or moved. *)
From Coq Require Import String NArith List Bool Permutation.
Import ListNotations.
From Verif Require Import PyBase IniView IniRead Cpe SpecRead SpecApi.
Local Open Scope list_scope.

(** After blank lines and comments the lines begin with a section header. *)
Inductive begins_section : list str -> Prop :=
| bs_header s l ls : header_line s l -> begins_section (l :: ls)
| bs_filler l ls : filler l -> begins_section ls -> begins_section (l :: ls).

(** The contents one after the other. *)
Definition joined (dn : str) (ns : list ini) : ini := Ini (flat_map i_secs ns) (flat_map i_defs ns) dn.
(** No section is in two of them, no default value is in two of them. *)
Definition apart (ns : list ini) : Prop :=
  NoDup (flat_map ini_sections ns) /\ NoDup (flat_map (fun n => dkeys (i_defs n)) ns).

(** The lines [part] alone are the text of a file with content [n]. *)
Definition part_reads (delims : list str) (dn : str) (part : list str) (n : ini) : Prop :=
  exists t, lines_of t part /\ reads delims dn t n.

(** The call does not list the sections in the order of the file. *)
Definition orderless (c : op) : Prop :=
  match c with OSections _ | OKeys | OUnroll None _ => False | _ => True end.

(** The same sections with the same text in any order, and the same defaults. *)
Definition shuffled (i i' : ini) : Prop :=
  Permutation (i_secs i) (i_secs i') /\ NoDup (ini_sections i) /\ i_defs i = i_defs i' /\ i_defname i = i_defname i'.
