(** * Property C95: the names of the sections do not matter. *)
From Coq Require Import String NArith ZArith List Bool.
Import ListNotations.
From Verif Require Import PyBase PyFacts Shlex IniView IniRead ExcControl Cpe SpecFile SpecWalk SpecRun SpecParse SpecApi EnvVar SetEnv SpecSetEnv SpecLoadRun SpecRename
  Samples SamplesApi RenameProofs RenameProofs2 PropertiesLocal.
Local Open Scope string_scope.
Local Open Scope list_scope.

(** The options of a section do not depend on what the sections are called. *)
Theorem C95_expansion :
  forall (Sh Us : Type) (K : pyclass Sh Us) rho i i', renamed_file K rho i i' ->
  forall dname s d, expansion K i dname s d <-> expansion K i' (rho dname) (rho s) d.
Proof. exact (@expansion_renamed). Qed.
Print Assumptions C95_expansion.

(** Nor does how a parse ends, with any handlers that do not look at the names. *)
Theorem C95_parse :
  forall (Sh Us : Type) (K : pyclass Sh Us) rho i i', renamed_file K rho i i' -> class_follows K rho ->
  forall fs fs' fuel fuel' s init fin (o o' : obj Sh Us),
  s <> [] -> has_file fs o i -> has_file fs' o' i' -> level_ok o ->
  length (ini_sections i) + 3 <= fuel -> length (ini_sections i') + 3 <= fuel' ->
  default_ok K i (o_defname o) s init ->
  o_defname o' = rho (o_defname o) -> level_of o' = level_of o -> path_set_of o' = path_set_of o ->
  o_user o' = o_user o -> options_of o' (rho s) = options_of o s ->
  let '(r1, o1) := parse_section_str K fs fuel s init fin o in
  let '(r2, o2) := parse_section_str K fs' fuel' (rho s) init fin o' in
  r1 = r2 /\ o_user o1 = o_user o2 /\ options_of o1 s = options_of o2 (rho s).
Proof. exact (@parse_names). Qed.
Print Assumptions C95_parse.

(** After any histories, a question about a section of the one file has the answer of
    that about its namesake in the other. *)
Theorem C95_answers :
  forall (Sh Us : Type) (K : pyclass Sh Us) rho i i', renamed_file K rho i i' ->
  forall fs fs' dname fuel fuel' (o o' : obj Sh Us) h h' c c',
  well_behaved K -> length (ini_sections i) + 3 <= fuel -> length (ini_sections i') + 3 <= fuel' ->
  all_parsable K i dname -> opened K fs i dname o -> opened K fs' i' (rho dname) o' ->
  Forall (in_file K i dname) h -> Forall (in_file K i' (rho dname)) h' -> call_renamed rho c c' -> in_file K i dname c ->
  fst (exec_op K fs fuel c (after K fs fuel h o)) = fst (exec_op K fs' fuel' c' (after K fs' fuel' h' o')).
Proof. exact (@histories_renamed). Qed.
Print Assumptions C95_answers.

(** The second file can be parsed as the first can. *)
Theorem C95_parsable :
  forall (Sh Us : Type) (K : pyclass Sh Us) rho i i', renamed_file K rho i i' ->
  forall dname, all_parsable K i dname -> all_parsable K i' (rho dname).
Proof. exact (@parsable_renamed). Qed.
Print Assumptions C95_parsable.

(** Nor do the actions of an environment. *)
Theorem C95_environment :
  forall uniword rho i i' s l, renamed_file (SetEnvironment uniword) rho i i' -> rho $"DEFAULT" = $"DEFAULT" ->
  section_asks uniword i s l <-> section_asks uniword i' (rho s) l.
Proof. exact asks_renamed. Qed.
Print Assumptions C95_environment.

(** ** Examples *)
Definition swap (s : str) : str := if str_eqb s $"A" then $"debug build" else if str_eqb s $"debug build" then $"A" else s.
Lemma swap_swap s : swap (swap s) = s.
Proof.
  unfold swap at 2. destruct (str_eqb_spec s $"A") as [->|N]; [reflexivity|]. destruct (str_eqb_spec s $"debug build") as [->|M]; [reflexivity|].
  unfold swap. apply str_eqb_neq in N, M. now rewrite N, M.
Qed.
Lemma swap_inj a b : swap a = swap b -> a = b.
Proof. intros E. now rewrite <- (swap_swap a), E, swap_swap. Qed.
Lemma swap_empty s : swap s = [] -> s = [].
Proof. intros E. rewrite <- (swap_swap s), E. reflexivity. Qed.
Definition names1 : list string := ["[DEFAULT]"; "d: 0"; "[A]"; "use B: 7"; "k: 1"; "[B]"; "use A:"; "x y: 2"; "[C]"; "use B"; "use A: 1"].
Definition names2 : list string := ["[DEFAULT]"; "d: 0"; "[debug build]"; "use B:"; "k: 1"; "[B]"; "use 'debug build' again: 8"; "x y: 2"; "[C]"; "use B"; "use ""debug build"":"].
Example C95_ex :
  renamed_file base swap (ini_in names1) (ini_in names2) /\ renamed_file (SetEnvironment no_uni) swap (ini_in names1) (ini_in names2) /\
  class_follows base swap /\ all_parsable base (ini_in names1) $"DEFAULT" /\
  opened base (disk names1) (ini_in names1) $"DEFAULT" (fresh tt) /\ opened base (disk names2) (ini_in names2) (swap $"DEFAULT") (fresh tt) /\
  in_file base (ini_in names1) $"DEFAULT" (OItem $"A") /\ call_renamed swap (OItem $"A") (OItem $"debug build") /\
  fst (exec_op base (disk names2) 9 (OItem $"debug build") (fresh tt)) = Ok (RDict [($"d", Some $"0"); ($"x y", Some $"2"); ($"k", Some $"1")]).
Proof.
  split; [apply renamed_check; [exact swap_inj|exact swap_empty|vm_compute; reflexivity..]|].
  split; [apply renamed_check; [exact swap_inj|exact swap_empty|vm_compute; reflexivity..]|].
  split; [intros name kind f E; apply base_attr in E as [(_ & E)|(_ & E)]; [discriminate|]; inversion E; subst; intros s hp sh us; reflexivity|].
  split; [apply (all_parsable_check _ _ _ [$"DEFAULT"]); vm_compute; reflexivity|].
  split; [constructor; [vm_compute; reflexivity|reflexivity|vm_compute; split; discriminate|left; reflexivity|reflexivity|reflexivity]|].
  split; [constructor; [vm_compute; reflexivity|reflexivity|vm_compute; split; discriminate|left; reflexivity|reflexivity|reflexivity]|].
  split; [vm_compute; reflexivity|]. split; [constructor|]. vm_compute. reflexivity.
Qed.

(** A handler that writes down the section it is called for tells the files apart. *)
Definition names3 : list string := ["[A]"; "note 1:"].
Definition names4 : list string := ["[debug build]"; "note 1:"].
Theorem C95_parse_any_handlers_refuted :
  ~ (forall (Sh Us : Type) (K : pyclass Sh Us) rho i i', renamed_file K rho i i' ->
     forall fs fs' fuel s (o o' : obj Sh Us),
     s <> [] -> has_file fs o i -> has_file fs' o' i' -> level_ok o -> length (ini_sections i) + 3 <= fuel -> length (ini_sections i') + 3 <= fuel ->
     default_ok K i (o_defname o) s true -> o_defname o' = rho (o_defname o) -> level_of o' = level_of o -> path_set_of o' = path_set_of o ->
     o_user o' = o_user o -> options_of o' (rho s) = options_of o s ->
     fst (parse_section_str K fs fuel s true true o) = fst (parse_section_str K fs' fuel (rho s) true true o')).
Proof.
  intros H.
  assert (R : renamed_file note_class swap (ini_in names3) (ini_in names4)) by (apply renamed_check; [exact swap_inj|exact swap_empty|vm_compute; reflexivity..]).
  specialize (H _ _ note_class swap _ _ R (disk names3) (disk names4) 9 $"A" (fresh tt) (fresh tt)).
  assert (E : Ok [[$"A"; $"1"]] = Ok [[$"debug build"; $"1"]] :> res (list (list str))).
  { refine (eq_trans (eq_trans _ (H _ _ _ _ _ _ _ _ _ _ _ _)) _).
    - vm_compute. reflexivity.
    - discriminate.
    - vm_compute. reflexivity.
    - vm_compute. reflexivity.
    - vm_compute. split; discriminate.
    - vm_compute. repeat constructor.
    - vm_compute. repeat constructor.
    - intros _ X. vm_compute in X. discriminate.
    - vm_compute. reflexivity.
    - reflexivity.
    - reflexivity.
    - reflexivity.
    - reflexivity.
    - vm_compute. reflexivity. }
  discriminate.
Qed.
Print Assumptions C95_parse_any_handlers_refuted.
