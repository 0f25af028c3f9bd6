(** * C82: how often handlers are called.

    Statements and examples only. *)
From Coq Require Import String NArith ZArith List Bool.
Import ListNotations.
From Verif Require Import PyBase PyFacts Shlex IniView IniRead ExcControl Debuggable Cpe SpecFile SpecBase SpecWalk SpecRun
  SpecParse SpecRead FileProofs RefineRoot SpecCost Samples CostProofs.
Local Open Scope string_scope.
Local Open Scope list_scope.

(** If no section shows more than [m] options, a parse asks for at most
    [2 * m ^ (sections + 1) + 2] handler calls ([calls] is what C20 says is done). *)
Theorem C82_at_most :
  forall (Sh Us : Type) (K : pyclass Sh Us) i m,
    (forall u items, section_shows i u items -> length items <= m) ->
    forall dname s init fin evs n, parse_walk K i dname s init fin evs n ->
      length (calls K s evs) <= 2 * m ^ (length (ini_sections i) + 1) + 2.
Proof. exact (@calls_bounded). Qed.
Print Assumptions C82_at_most.

(** A file of [3 * n + 2] lines that leads to [2 ^ n] calls of one handler, for every
    [n]; no section of it has more than two options. *)
Theorem C82_exponential :
  forall n, length (tower n) = 3 * n + 2 /\
    forall uniword fs p fuel, fs p = Some (text_of (tower n)) -> n + 4 <= fuel ->
      exists o', parse_section_str (count_class uniword) fs fuel (name n) true true (set_files (Some [p]) (new_obj 0%N)) = (Ok tt, o') /\
        o_user o' = (2 ^ N.of_nat n)%N.
Proof. exact tower_both. Qed.
Print Assumptions C82_exponential.

Example C82_ex :
  tower 2 = [$"[aaa]"; $"use aa"; $"use aa again"; $"[aa]"; $"use a"; $"use a again"; $"[a]"; $"note"] /\
  o_user (snd (parse_section_str (count_class no_uni) (fun _ => Some (text_of (tower 2))) 6 $"aaa" true true
    (set_files (Some [$"f"]) (new_obj 0%N)))) = 4%N.
Proof. split; vm_compute; reflexivity. Qed.
Example C82_ex_bound : exists i evs n,
  has_file (fun _ => Some (text_of (tower 2))) (set_files (Some [$"f"]) (new_obj 0%N) : obj unit N) i /\
  (forall u items, section_shows i u items -> length items <= 2) /\
  parse_walk (count_class no_uni) i $"DEFAULT" $"aaa" true true evs n /\ length (ini_sections i) = 3.
Proof.
  exists (tower_ini 2). destruct (parse_walk_exists (count_class no_uni) (tower_ini 2) $"DEFAULT" $"aaa" true true) as (evs & n & W & _).
  exists evs, n. split; [vm_compute; reflexivity|]. split; [|split; [exact W|reflexivity]].
  intros u items H. apply shows_iff in H. unfold ini_items, own_options in H. cbn [i_defname tower_ini i_secs] in H.
  destruct (str_eqb u _); [injection H as <-; repeat constructor|].
  cbn [tower_secs dget] in H. repeat (destruct (str_eqb u _); [injection H as <-; repeat constructor|]). discriminate.
Qed.
