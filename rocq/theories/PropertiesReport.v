(** * C78: what the checks of a file report.

    Statements and examples only. *)
From Coq Require Import String NArith ZArith List Bool.
Import ListNotations.
From Verif Require Import PyBase PyFacts Shlex IniView IniRead ExcControl Cpe SpecWalk SpecRun SpecParse SpecApi SpecMessages SpecReport
  RefineOk Samples SamplesApi ReportProofs PropertiesApi.
Local Open Scope string_scope.
Local Open Scope list_scope.

(** The check of a section, after any history, prints nothing; its answer names
    exactly the options that no handler took, in their order, and, if asked to
    raise, the operations and the files. *)
Theorem C78_section_report :
  forall (Sh Us : Type) (K : pyclass Sh Us) fs i dname fuel,
    well_behaved K -> length (ini_sections i) + 3 <= fuel -> all_parsable K i dname ->
    forall h s b (o : obj Sh Us) files,
    opened K fs i dname o -> Forall (in_file K i dname) h -> o_files o = Some files -> files <> [] ->
    ini_has_section i s = true ->
    exists d ops, expansion K i dname s d /\ fst (get_known_operations K fs (after K fs fuel h o)) = Ok ops /\
      let o1 := after K fs fuel h o in let '(r, o2) := assert_section K fs fuel s b o1 in
      said o2 = said o1 /\
      match d with
      | [] => r = Ok None
      | _ => if b then
               if (3 <=? last_level h (level_of o))%Z then r = Err ValueError
               else exists m, r = Ok (Some m) /\
                 end_trimmed (ended (section_lines s (dkeys d) ++ operation_lines ops ++ file_lines files)) m
             else exists m, r = Ok (Some m) /\ text_of (section_lines s (dkeys d)) m
      end.
Proof. exact (@section_report). Qed.
Print Assumptions C78_section_report.

(** The check of the file prints one such report for every section that has such
    options, in the order of the file, and then the operations and the files; or
    nothing. *)
Theorem C78_file_report :
  forall (Sh Us : Type) (K : pyclass Sh Us) fs i dname fuel,
    well_behaved K -> length (ini_sections i) + 3 <= fuel -> all_parsable K i dname ->
    forall h (o : obj Sh Us) files,
    opened K fs i dname o -> Forall (in_file K i dname) h -> o_files o = Some files -> files <> [] ->
    exists sd ts ops, map fst sd = ini_sections i /\ Forall (fun x => expansion K i dname (fst x) (snd x)) sd /\ reports sd ts /\
      fst (get_known_operations K fs (after K fs fuel h o)) = Ok ops /\
      let o1 := after K fs fuel h o in let '(r, o2) := assert_file K fs fuel o1 in
      match ts with
      | [] => r = Ok 0%Z /\ said o2 = said o1
      | _ => r = (if (3 <=? last_level h (level_of o))%Z then Err ValueError else Ok 1%Z) /\
             exists t, text_of (operation_lines ops ++ file_lines files) t /\ said o2 = said o1 ++ ts ++ [t]
      end.
Proof. exact (@file_report). Qed.
Print Assumptions C78_file_report.

(** A report settles the section and the options. *)
Theorem C78_report_tells :
  forall s s' (l l' : list str) t, ~ In 10%N s -> ~ In 10%N s' ->
    Forall (fun k => ~ In 10%N k) l -> Forall (fun k => ~ In 10%N k) l' ->
    text_of (section_lines s l) t -> text_of (section_lines s' l') t -> s = s' /\ l = l'.
Proof. exact report_determines. Qed.
Print Assumptions C78_report_tells.

Definition file9 : list string :=
  ["[A]"; "a : 1"; "use B"; "[E]"; "use F"; "[B]"; "b c : 2"; "[F]"]%string.
Definition ini9 : ini := match fst (get_cpd (disk file9) (fresh tt : obj unit unit)) with Ok i => i | Err _ => Ini [] [] [] end.
Example C78_ex :
  let o := at_level 2 (fresh tt : obj unit unit) in
  all_parsable base ini9 $"DEFAULT" /\ opened base (disk file9) ini9 $"DEFAULT" o /\ (exists f, o_files o = Some f /\ f <> []) /\
  fst (assert_file base (disk file9) 7 o) = Ok 1%Z /\
  (exists f, said (snd (assert_file base (disk file9) 7 o)) =
    [$"Unhandled option found in section `A` or one of its dependent sections." ++ newline ++
       $"The following entries are unhandled:" ++ newline ++ $"|- 'a'" ++ newline ++ $"|- 'b c'";
     $"Unhandled option found in section `B` or one of its dependent sections." ++ newline ++
       $"The following entries are unhandled:" ++ newline ++ $"|- 'b c'";
     $"Valid operations are:" ++ newline ++ $"|- 'use'" ++ newline ++
       $"This configuration was loaded from the file(s):" ++ newline ++ $"|- " ++ f]) /\
  said (snd (assert_file base (disk ["[E]"; "use F"; "[F]"]%string) 7 o)) = [].
Proof.
  split; [apply (all_parsable_check _ _ _ [$"DEFAULT"]); vm_compute; reflexivity|].
  split; [constructor; [computed|computed|computed|left; computed|computed|computed]|].
  split; [eexists; split; [reflexivity|discriminate]|]. split; [vm_compute; reflexivity|].
  split; [eexists; vm_compute; reflexivity|vm_compute; reflexivity].
Qed.
