(** * C79: parsing the default section itself.

    Statements and examples only. *)
From Coq Require Import String NArith ZArith List Bool.
Import ListNotations.
From Verif Require Import PyBase PyFacts Shlex IniView IniRead ExcControl Debuggable Cpe SpecBase SpecWalk SpecRun SpecParse
  RefineRoot RefineOk Samples DefaultProofs.
Local Open Scope string_scope.
Local Open Scope list_scope.

(** A successful parse of the default section calls the handlers of its options
    twice over if it initializes, once if not, between the two hooks; the data of
    the section is that of one pass. *)
Theorem C79_default_section :
  forall (Sh Us : Type) (K : pyclass Sh Us) fs i fuel init fin (o : obj Sh Us) v o',
    o_defname o <> [] -> has_file fs o i -> level_ok o -> ini_has_section i (o_defname o) = true ->
    length (ini_sections i) + 3 <= fuel ->
    parse_section_str K fs fuel (o_defname o) init fin o = (Ok v, o') ->
    exists w n, walk K i [] (o_defname o) w n /\
      let once := calls K (o_defname o) w in
      let hook (b : bool) name := if b then calls K (o_defname o) [Hook (o_defname o) name] else [] in
      call_all (hook init $"handler_initialize" ++ (if init then once else []) ++ once ++ hook fin $"handler_finalize")
        (k_empty K) (o_user o) = (v, o_user o') /\
      section_of o' (o_defname o) = Some (write_all (plains w) (options_of o (o_defname o))).
Proof. exact (@default_once_and_twice). Qed.
Print Assumptions C79_default_section.

Definition default_file : list string := ["[DEFAULT]"; "note 0 first"; "key : v"; "use B"; "[B]"; "note 0 last : w"]%string.
Example C79_ex :
  let o := fresh tt in let p b := parse_section_str note_class (disk default_file) 9 $"DEFAULT" b true o in
  o_defname o = $"DEFAULT" /\ level_ok o /\
  (exists i, has_file (disk default_file) o i /\ ini_has_section i $"DEFAULT" = true /\ length (ini_sections i) = 2) /\
  fst (p false) = Ok [[$"DEFAULT"; $"0"; $"first"]; [$"B"; $"0"; $"last"]] /\
  fst (p true) = Ok [[$"DEFAULT"; $"0"; $"first"]; [$"B"; $"0"; $"last"]; [$"DEFAULT"; $"0"; $"first"]; [$"B"; $"0"; $"last"]] /\
  section_of (snd (p true)) $"DEFAULT" = Some [($"key", Some $"v")] /\ section_of (snd (p false)) $"DEFAULT" = Some [($"key", Some $"v")].
Proof.
  cbv zeta. split; [reflexivity|]. split; [computed|]. split; [eexists; split; [vm_compute; reflexivity|split; reflexivity]|].
  repeat split; vm_compute; reflexivity.
Qed.

(** So the handlers of the options of the default section are not called once. *)
Theorem C79_once_refuted :
  ~ forall (Sh Us : Type) (K : pyclass Sh Us) fs i fuel (o : obj Sh Us) v o',
      o_defname o <> [] -> has_file fs o i -> level_ok o -> ini_has_section i (o_defname o) = true ->
      length (ini_sections i) + 3 <= fuel ->
      parse_section_str K fs fuel (o_defname o) true false o = (Ok v, o') ->
      (forall kind f s hp sh us, find_attr K $"handler_initialize" = Some (AUser kind f) ->
         exists r, f s hp sh us = (r, sh, us)) ->
      exists w n, walk K i [] (o_defname o) w n /\ call_all (calls K (o_defname o) w) (k_empty K) (o_user o) = (v, o_user o').
Proof.
  intros H.
  destruct (parse_section_str note_class (disk default_file) 9 (o_defname (fresh tt : obj (list (list str)) unit)) true false (fresh tt)) as [[v|x] o'] eqn:E;
    [|vm_compute in E; discriminate].
  destruct (parse_section_str note_class (disk default_file) 9 (o_defname (fresh tt : obj (list (list str)) unit)) false false (fresh tt)) as [[v1|x] o1] eqn:E1;
    [|vm_compute in E1; discriminate].
  assert (NQ : length v <> length v1).
  { apply (f_equal fst) in E, E1. cbn [fst] in E, E1. vm_compute in E, E1. injection E as <-. injection E1 as <-. discriminate. }
  destruct (get_cpd (disk default_file) (fresh tt : obj (list (list str)) unit)) as [[i|x] oo] eqn:HF; [|vm_compute in HF; discriminate].
  assert (IE : has_file (disk default_file) (fresh tt : obj (list (list str)) unit) i).
  { unfold has_file. now rewrite HF. }
  assert (HS : ini_has_section i (o_defname (fresh tt : obj (list (list str)) unit)) = true /\ length (ini_sections i) + 3 <= 9).
  { apply (f_equal fst) in HF. cbn [fst] in HF. vm_compute in HF. injection HF as <-. vm_compute. split; [reflexivity|repeat constructor]. }
  destruct HS as [HS HL].
  assert (NE : o_defname (fresh tt : obj (list (list str)) unit) <> []) by (vm_compute; discriminate).
  assert (L : level_ok (fresh tt : obj (list (list str)) unit)) by computed.
  assert (NI : forall kind f s hp sh us, find_attr note_class $"handler_initialize" = Some (AUser kind f) ->
            exists r, f s hp sh us = (r, sh, us)).
  { intros kind f s hp sh us Q. vm_compute in Q. injection Q as _ <-. eexists. reflexivity. }
  set (o := fresh tt : obj (list (list str)) unit) in *. clearbody o.
  specialize (H _ _ note_class (disk default_file) i 9 o v o').
  destruct (H NE IE L HS HL E NI) as (w & n & W & C).
  destruct (default_once_and_twice note_class (disk default_file) i 9 false false o v1 o1 NE IE L HS HL E1)
    as (w1 & n1 & W1 & C1 & _).
  destruct (proj1 (walk_unique note_class i) _ _ _ _ W _ _ W1) as [-> _].
  cbn [app] in C1. rewrite app_nil_r in C1. rewrite C in C1. apply (f_equal fst) in C1. cbn [fst] in C1. now rewrite C1 in NQ.
Qed.
Print Assumptions C79_once_refuted.
