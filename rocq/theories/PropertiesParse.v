(** * C01-C11, C13, C17, C19, C20, C26, C38: parsing a section.

    Statements and examples only. [has_file fs o i]: reading the object's
    [configparserdata] gives [i]. [parse_walk K i dname s init fin evs n]
    ([SpecWalk.v]): [evs] is the depth-first expansion of section [s]. *)
From Coq Require Import String NArith ZArith List Bool.
Import ListNotations.
From Verif Require Import PyBase PyFacts Shlex IniView IniRead ExcControl Cpe SpecText SpecFile SpecShell ShellProofs FileProofs
  SpecWalk MeaningProofs SpecRun SpecParse
  Samples ParseProofs ParseProofs2 ParseProofs3 ParseProofs4.

(** A file with nested and repeated [use], and a default section. *)
Definition file1 : list string :=
  ["[DEFAULT]"; "d : 0"; "x : from-default";
   "[A]"; "x : 1"; "y : ""quoted"""; "use B"; "t : 3";
   "[B]"; "x : 2"; "z :"; "use C arg";
   "[C]"; "w w : c"; "y : 9"]%string.
(** A file with [use] cycles. *)
Definition file2 : list string :=
  ["[A]"; "a : 1"; "use B"; "b : after";
   "[B]"; "b : 2"; "use A"; "use B"; "use C";
   "[C]"; "c : 3"]%string.
Definition read_of {Sh Us} (l : list string) (o : obj Sh Us) : ini :=
  match fst (get_cpd (disk l) o) with Ok i => i | Err _ => Ini [] [] [] end.

(** ** C01 *)

(** A successful parse of [s] writes the unhandled options of the depth-first
    expansion, in order, into the data of [s]. *)
Theorem C01_use_is_inclusion :
  forall (Sh Us : Type) (K : pyclass Sh Us) fs i fuel s init fin (o : obj Sh Us) v o',
    has_file fs o i -> level_ok o ->
    parse_section_str K fs fuel s init fin o = (Ok v, o') ->
    exists evs n, parse_walk K i (o_defname o) s init fin evs n /\
      section_of o' s = Some (write_all (plains evs) (options_of o s)).
Proof. exact (@use_is_inclusion). Qed.
Print Assumptions C01_use_is_inclusion.
Example C01_ex : let p := parse_section_str base (disk file1) 20 $"A" true true (fresh tt) in
  has_file (disk file1) (fresh tt : obj unit unit) (read_of file1 (fresh tt : obj unit unit)) /\ level_ok (fresh tt : obj unit unit) /\ fst p = Ok tt /\
  section_of (snd p) $"A" =
    Some [($"d", Some $"0"); ($"x", Some $"2"); ($"y", Some $"9"); ($"z", Some $"");
          ($"w w", Some $"c"); ($"t", Some $"3")].
Proof. computed. Qed.

(** ** C02 *)
Theorem C02_last_value_first_position :
  forall (Sh Us : Type) (K : pyclass Sh Us) fs i fuel s init fin (o : obj Sh Us) v o' evs n,
    has_file fs o i -> level_ok o ->
    parse_section_str K fs fuel s init fin o = (Ok v, o') ->
    parse_walk K i (o_defname o) s init fin evs n ->
    (forall k, dget k (options_of o' s) =
       match last_value k (plains evs) with
       | Some x => Some x
       | None => dget k (options_of o s)
       end) /\
    dkeys (options_of o' s) =
      dkeys (options_of o s) ++
      filter (fun k => negb (str_mem k (dkeys (options_of o s)))) (first_keys (map fst (plains evs))).
Proof. exact (@last_wins). Qed.
Print Assumptions C02_last_value_first_position.

(** With [options_of o s = []] in [C01_ex]: [x] is met in the default section,
    in [A] and in [B]; it keeps the first place and gets the last value. *)
Example C02_ex : last_value $"x" [($"x", Some $"1"); ($"y", None); ($"x", Some $"2")] = Some (Some $"2") /\
  first_keys [$"x"; $"y"; $"x"; $"z"] = [$"x"; $"y"; $"z"].
Proof. computed. Qed.

(** ** C03 *)
Theorem C03_closure_contributes :
  forall (Sh Us : Type) (K : pyclass Sh Us) fs i fuel s init fin (o : obj Sh Us) v o',
    has_file fs o i -> level_ok o -> options_of o s = [] ->
    parse_section_str K fs fuel s init fin o = (Ok v, o') ->
    forall k, In k (dkeys (options_of o' s)) <->
      exists t, contributes K i (o_defname o) s init t /\ has_plain K i t k.
Proof. exact (@closure_contributes). Qed.
Print Assumptions C03_closure_contributes.
Example C03_ex : let p := parse_section_str base (disk file1) 20 $"B" false true (fresh tt) in
  options_of (fresh tt : obj unit unit) $"B" = [] /\ fst p = Ok tt /\
  dkeys (options_of (snd p) $"B") = [$"x"; $"z"; $"w w"; $"y"].
Proof. computed. Qed.

(** ** C04 *)

(** Whatever the outcome, no parse writes a key whose operation has a handler;
    with C03 this says that exactly the unhandled keys are written. *)
Theorem C04_handled_never_written :
  forall (Sh Us : Type) (K : pyclass Sh Us) fs fuel s init fin (o : obj Sh Us) k,
    handled_key K k ->
    forall t, dget k (options_of (snd (parse_section_str K fs fuel s init fin o)) t) =
              dget k (options_of o t).
Proof. exact (@handled_never_written). Qed.
Print Assumptions C04_handled_never_written.
Example C04_ex : handled_key base $"use ""B C"" tail" /\ handled_key note_class $"note" /\
  ~ handled_key base $"note" /\ ~ handled_key base $"User".
Proof.
  split; [|split].
  - exists $"use", [$"B C"; $"tail"]. split; [now apply shlex_words|]. split; [now apply (op_word_iff base)|]. right. discriminate.
  - exists $"note", []. split; [now apply shlex_words|]. split; [now apply (op_word_iff note_class)|]. left. discriminate.
  - split; intros (w & ps & A & B & C); apply shlex_words in A; vm_compute in A; inversion A; subst;
    vm_compute in C; destruct C as [C|C]; now apply C.
Qed.

(** ** C05 *)

(** One unit of fuel is one nested section. Three more than the number of
    sections are enough, whatever the [use] graph. *)
Theorem C05_depth_bounded_by_sections :
  forall (Sh Us : Type) (K : pyclass Sh Us) fs i f f' s init fin (o : obj Sh Us),
    s <> [] -> has_file fs o i -> level_ok o -> default_ok K i (o_defname o) s init ->
    length (ini_sections i) + 3 <= f -> length (ini_sections i) + 3 <= f' ->
    parse_section_str K fs f s init fin o = parse_section_str K fs f' s init fin o.
Proof. exact (@fuel_irrelevant). Qed.
Print Assumptions C05_depth_bounded_by_sections.

Theorem C05_no_recursion_error :
  forall (Sh Us : Type) (K : pyclass Sh Us) fs i fuel s init fin (o : obj Sh Us),
    s <> [] -> has_file fs o i -> level_ok o -> default_ok K i (o_defname o) s init ->
    no_recursion_handlers K -> length (ini_sections i) + 3 <= fuel ->
    fst (parse_section_str K fs fuel s init fin o) <> Err RecursionError.
Proof. exact (@no_recursion_error). Qed.
Print Assumptions C05_no_recursion_error.
Example C05_ex : let i := read_of file2 (fresh tt : obj unit unit) in
  has_file (disk file2) (fresh tt : obj unit unit) i /\ default_ok base i $"DEFAULT" $"A" true /\
  length (ini_sections i) = 3 /\ no_recursion_handlers base /\
  fst (parse_section_str base (disk file2) 6 $"A" true true (fresh tt)) = Ok tt /\
  fst (parse_section_str base (disk file2) 1 $"A" true true (fresh tt)) = Err RecursionError.
Proof.
  split; [computed|]. split; [|split; [computed|split; [|computed]]].
  - intros _ E. vm_compute in E. discriminate.
  - intros name kind f E s hp sh us. apply base_attr in E as [[_ E]|[_ E]]; inversion E. discriminate.
Qed.

(** ** C06 *)
Theorem C06_default_to_root_never_returns :
  forall (Sh Us : Type) (K : pyclass Sh Us) fs i fuel s fin (o : obj Sh Us),
    has_file fs o i -> level_ok o -> ini_has_section i (o_defname o) = true ->
    o_defname o <> s -> reaches K i (o_defname o) s ->
    forall v, fst (parse_section_str K fs fuel s true fin o) <> Ok v.
Proof. exact (@default_to_root_fails). Qed.
Print Assumptions C06_default_to_root_never_returns.

(** [use root] in the default section, after nothing but plain options:
    unbounded recursion. *)
Theorem C06_default_uses_root_recurses :
  forall (Sh Us : Type) (K : pyclass Sh Us) fs i D root,
    well_behaved K -> D <> root -> ini_has_section i D = true ->
    forall pre post item h k v,
    section_shows i D (pre ++ item :: post) ->
    (forall it, In it pre -> exists w k v, meaning K D it (MStep (SpecWalk.Plain D w k v))) ->
    meaning K D item (MUse root h k v) ->
    forall fuel fin (o : obj Sh Us),
    root <> [] -> has_file fs o i -> level_ok o -> o_defname o = D ->
    fst (parse_section_str K fs fuel root true fin o) = Err RecursionError.
Proof. exact (@default_uses_root_loops). Qed.
Print Assumptions C06_default_uses_root_recurses.
Definition file3 : list string := ["[DEFAULT]"; "d : 0"; "use A"; "[A]"; "x : 1"]%string.
Example C06_ex : let i := read_of file3 (fresh tt : obj unit unit) in
  ini_has_section i $"DEFAULT" = true /\
  fst (parse_section_str base (disk file3) 40 $"A" true true (fresh tt)) = Err RecursionError /\
  exists h k v,
    section_shows i $"DEFAULT" ([($"d", Ok (Some $"0"))] ++ ($"use A", Ok None) :: []) /\
    meaning base $"DEFAULT" ($"d", Ok (Some $"0"))
      (MStep (SpecWalk.Plain $"DEFAULT" (Some ($"d", [])) $"d" (Some $"0"))) /\
    meaning base $"DEFAULT" ($"use A", Ok None) (MUse $"A" h k v).
Proof.
  split; [reflexivity|]. split; [vm_compute; reflexivity|]. do 3 eexists.
  split; [apply shows_iff; reflexivity|]. split.
  - apply meaning_iff, (c_plain base $"DEFAULT" $"d" (Some $"0") $"d" []); [reflexivity..|]. apply ho_none; reflexivity.
  - apply meaning_iff, (c_use base $"DEFAULT" $"use A" None $"use" $"A" [] $"_handler_use" false); [reflexivity..|].
    apply (ho_private base $"use" AUse); reflexivity.
Qed.

(** ** C07 *)
Theorem C07_cycles_reported_exactly :
  forall (Sh Us : Type) (K : pyclass Sh Us) fs i fuel s init fin (o : obj Sh Us),
    well_behaved K -> s <> [] -> has_file fs o i -> level_ok o -> path_set_of o = true ->
    default_ok K i (o_defname o) s init -> length (ini_sections i) + 3 <= fuel ->
    (forall t, contributes K i (o_defname o) s init t -> clean_section K i t) ->
    let cyclic := exists t, contributes K i (o_defname o) s init t /\ on_cycle K i t in
    (level_of o = 5%Z -> cyclic ->
       fst (parse_section_str K fs fuel s init fin o) = Err ValueError) /\
    ((level_of o < 5)%Z \/ ~ cyclic ->
       exists v, fst (parse_section_str K fs fuel s init fin o) = Ok v).
Proof. exact (@cycle_policy). Qed.
Print Assumptions C07_cycles_reported_exactly.

Theorem C07_base_class_is_well_behaved : forall u, well_behaved (base_class u).
Proof. exact base_well_behaved. Qed.
Print Assumptions C07_base_class_is_well_behaved.
Example C07_ex : let i := read_of file2 (fresh tt : obj unit unit) in
  let p l := parse_section_str base (disk file2) 9 $"A" true true (at_level l (fresh tt)) in
  (forall t, contributes base i $"DEFAULT" $"A" true t -> clean_section base i t) /\
  on_cycle base i $"B" /\ fst (p 5%Z) = Err ValueError /\ fst (p 4%Z) = Ok tt /\
  section_of (snd (p 4%Z)) $"A" = Some [($"a", Some $"1"); ($"b", Some $"after"); ($"c", Some $"3")].
Proof.
  split; [|split; [|computed]].
  - intros t [R|(_ & E & _)]; [|vm_compute in E; discriminate].
    apply (reaches_closed base _ [$"A"; $"B"; $"C"]) in R; [|vm_compute; reflexivity|now left].
    destruct R as [<-|[<-|[<-|[]]]]; apply clean_check; vm_compute; reflexivity.
  - exists $"B". split; [|constructor].
    do 2 eexists. exists (OpInfo $"use" [$"B"] $"_handler_use" false), $"use B", None.
    split; [apply shows_iff; vm_compute; reflexivity|]. split; [right; right; left; reflexivity|].
    apply meaning_iff, (c_use base $"B" $"use B" None $"use" $"B" [] $"_handler_use" false); [reflexivity..|].
    apply (ho_private base $"use" AUse); reflexivity.
Qed.

(** ** C08 *)
Theorem C08_missing_target_keyerror :
  forall (Sh Us : Type) (K : pyclass Sh Us) fs i fuel s init fin (o : obj Sh Us) t,
    well_behaved K -> s <> [] -> has_file fs o i -> (0 <= level_of o < 5)%Z -> path_set_of o = true ->
    default_ok K i (o_defname o) s init -> length (ini_sections i) + 3 <= fuel ->
    present i s ->
    contributes K i (o_defname o) s init t -> ~ present i t ->
    (forall u, contributes K i (o_defname o) s init u -> ~ present i u \/ clean_section K i u) ->
    exists o' evs n pre u post, parse_section_str K fs fuel s init fin o = (Err KeyError, o') /\
      parse_walk K i (o_defname o) s init fin evs n /\
      evs = pre ++ Missing u :: post /\ (forall x, ~ In (Missing x) pre) /\
      options_of o' s = write_all (plains pre) (options_of o s) /\ o_last o' = o_last o.
Proof. exact (@missing_keyerror). Qed.
Print Assumptions C08_missing_target_keyerror.
Definition file4 : list string :=
  ["[A]"; "a : 1"; "use B"; "z : 9"; "[B]"; "b : 2"; "use nowhere"; "c : 3"]%string.
Example C08_ex : let i := read_of file4 (fresh tt : obj unit unit) in
  let p := parse_section_str base (disk file4) 9 $"A" true true (fresh tt) in
  present i $"A" /\ ~ present i $"nowhere" /\
  (forall u, contributes base i $"DEFAULT" $"A" true u -> ~ present i u \/ clean_section base i u) /\
  fst p = Err KeyError /\ section_of (snd p) $"A" = Some [($"a", Some $"1"); ($"b", Some $"2")].
Proof.
  split; [apply present_iff; vm_compute; discriminate|]. split; [now apply absent_iff|]. split; [|computed].
  intros t [R|(_ & E & _)]; [|vm_compute in E; discriminate].
  apply (reaches_closed base _ [$"A"; $"B"; $"nowhere"]) in R; [|vm_compute; reflexivity|now left].
  destruct R as [<-|[<-|[<-|[]]]]; [right|right|left; now apply absent_iff]; apply clean_check; vm_compute; reflexivity.
Qed.

(** The requested section itself is missing: the default section has been read
    into it before the [KeyError]. *)
Theorem C08_missing_section_keyerror :
  forall (Sh Us : Type) (K : pyclass Sh Us) fs i fuel s init fin (o : obj Sh Us),
    well_behaved K -> s <> [] -> has_file fs o i -> (0 <= level_of o < 5)%Z -> path_set_of o = true ->
    default_ok K i (o_defname o) s init -> length (ini_sections i) + 3 <= fuel ->
    ~ present i s ->
    (forall u, contributes K i (o_defname o) s init u -> u <> s -> clean_section K i u) ->
    exists o' evs0 n0, parse_section_str K fs fuel s init fin o = (Err KeyError, o') /\
      (if init then default_walk K i (o_defname o) evs0 n0 else evs0 = [] /\ n0 = 0) /\
      options_of o' s = write_all (plains evs0) (options_of o s) /\ o_last o' = o_last o.
Proof. exact (@missing_root). Qed.
Print Assumptions C08_missing_section_keyerror.
Example C08_root_ex : let i := read_of file1 (fresh tt : obj unit unit) in
  let p := parse_section_str base (disk file1) 9 $"nowhere" true true (fresh tt) in
  default_ok base i $"DEFAULT" $"nowhere" true /\ fst p = Err KeyError /\
  section_of (snd p) $"nowhere" = Some [($"d", Some $"0"); ($"x", Some $"from-default")].
Proof.
  split; [|computed].
  apply (default_ok_check _ _ [$"DEFAULT"]); vm_compute; reflexivity.
Qed.

(** ** C09 *)
Theorem C09_default_first_then_overridden :
  forall (Sh Us : Type) (K : pyclass Sh Us) fs i fuel s fin (o : obj Sh Us) v o',
    has_file fs o i -> level_ok o -> ini_has_section i (o_defname o) = true ->
    parse_section_str K fs fuel s true fin o = (Ok v, o') ->
    exists evs0 n0 evs1 n1,
      walk K i [] (o_defname o) evs0 n0 /\ walk K i [] s evs1 n1 /\
      section_of o' s = Some (write_all (plains evs1) (write_all (plains evs0) (options_of o s))) /\
      forall k, dget k (options_of o' s) =
        match last_value k (plains evs1) with
        | Some x => Some x
        | None => match last_value k (plains evs0) with
                  | Some x => Some x
                  | None => dget k (options_of o s)
                  end
        end.
Proof. exact (@default_first). Qed.
Print Assumptions C09_default_first_then_overridden.

Theorem C09_no_default :
  forall (Sh Us : Type) (K : pyclass Sh Us) fs i fuel s init fin (o : obj Sh Us) v o',
    has_file fs o i -> level_ok o -> (init = false \/ ini_has_section i (o_defname o) = false) ->
    parse_section_str K fs fuel s init fin o = (Ok v, o') ->
    exists evs1 n1, walk K i [] s evs1 n1 /\
      section_of o' s = Some (write_all (plains evs1) (options_of o s)).
Proof. exact (@no_default). Qed.
Print Assumptions C09_no_default.
Example C09_ex : let p b := parse_section_str base (disk file1) 9 $"C" b true (fresh tt) in
  section_of (snd (p true)) $"C" =
    Some [($"d", Some $"0"); ($"x", Some $"from-default"); ($"w w", Some $"c"); ($"y", Some $"9")] /\
  section_of (snd (p false)) $"C" = Some [($"w w", Some $"c"); ($"y", Some $"9")].
Proof. computed. Qed.

(** ** C10 *)
Theorem C10_other_sections_untouched :
  forall (Sh Us : Type) (K : pyclass Sh Us) fs fuel s init fin (o : obj Sh Us) t,
    t <> s ->
    let o' := snd (parse_section_str K fs fuel s init fin o) in
    section_of o' t = section_of o t \/ (section_of o t = None /\ section_of o' t = Some []).
Proof. exact (@others_untouched). Qed.
Print Assumptions C10_other_sections_untouched.
Example C10_ex : let o' := snd (parse_section_str base (disk file1) 9 $"A" true true (fresh tt)) in
  map fst (data_of o') = [$"DEFAULT"; $"A"; $"B"; $"C"] /\ section_of o' $"B" = Some [].
Proof. computed. Qed.

(** ** C11 *)
Theorem C11_reparse_idempotent :
  forall (Sh Us : Type) (K : pyclass Sh Us) fs i fuel fuel' s init fin (o : obj Sh Us) v o1 v' o2,
    has_file fs o i -> level_ok o ->
    parse_section_str K fs fuel s init fin o = (Ok v, o1) ->
    parse_section_str K fs fuel' s init fin o1 = (Ok v', o2) ->
    data_of o2 = data_of o1 /\ checked_of o2 = checked_of o1.
Proof. exact (@parse_twice). Qed.
Print Assumptions C11_reparse_idempotent.

Theorem C11_reparse_succeeds :
  forall (Sh Us : Type) (K : pyclass Sh Us) fs i fuel fuel' s init fin (o : obj Sh Us) v o1,
    well_behaved K -> has_file fs o i -> level_ok o -> length (ini_sections i) + 3 <= fuel' ->
    parse_section_str K fs fuel s init fin o = (Ok v, o1) ->
    exists v' o2, parse_section_str K fs fuel' s init fin o1 = (Ok v', o2) /\ data_of o2 = data_of o1.
Proof. exact (@parse_again_ok). Qed.
Print Assumptions C11_reparse_succeeds.

Example C11_ex : let p1 := parse_section_str base (disk file2) 9 $"A" true true (fresh tt) in
  let p2 := parse_section_str base (disk file2) 9 $"A" true true (snd p1) in
  fst p1 = Ok tt /\ fst p2 = Ok tt /\ data_of (snd p2) = data_of (snd p1) /\
  section_of (snd p1) $"A" = Some [($"a", Some $"1"); ($"b", Some $"after"); ($"c", Some $"3")].
Proof. computed. Qed.

(** ** C13 *)

(** After a parse that raised, an access returns what the failed parse left, and
    raises only if the section was never entered. *)
Theorem C13_failed_parse_is_cached :
  forall (Sh Us : Type) (K : pyclass Sh Us) fs i fuel fuel' s init fin (o : obj Sh Us) e o',
    s <> [] -> has_file fs o i -> ini_has_section i s = true ->
    parse_section_str K fs fuel s init fin o = (Err e, o') ->
    fst (getitem K fs fuel' s o') =
      match section_of o' s with Some d => Ok d | None => Err KeyError end /\
    data_of (snd (getitem K fs fuel' s o')) = data_of o' /\
    o_user (snd (getitem K fs fuel' s o')) = o_user o'.
Proof. exact (@failed_parse_cached). Qed.
Print Assumptions C13_failed_parse_is_cached.
Example C13_ex : let p := parse_section_str base (disk file4) 9 $"A" true true (fresh tt) in
  fst p = Err KeyError /\
  fst (getitem base (disk file4) 9 $"A" (snd p)) = Ok [($"a", Some $"1"); ($"b", Some $"2")].
Proof. computed. Qed.

(** ** C17 *)

(** A section with one option whose first word is an operation. *)
Theorem C17_dispatch :
  forall (Sh Us : Type) (K : pyclass Sh Us) fs i fuel s k0 v0 key val w ps (o : obj Sh Us),
    s <> [] -> has_file fs o i -> level_ok o -> 1 <= fuel ->
    section_shows i s [(k0, Ok v0)] -> trimmed space k0 key -> cleaned v0 val ->
    words key (w :: ps) -> op_shaped (k_uniword K) w ->
    let p := parse_section_str K fs fuel s false false o in
    let called name kind f :=
      let '(r, sh, us) := f s (Hp s (Some key, val) (undash w) ps val name) (k_empty K) (o_user o) in
      fst p = match r with
              | Err e => Err e
              | Ok rv => match kind with
                         | Decorated =>
                             match rval_policy (level_of o) rv with Ok _ => Ok sh | Err e => Err e end
                         | _ => Ok sh
                         end
              end /\ o_user (snd p) = us /\ options_of (snd p) s = options_of o s in
    match has_attr K (public_name (undash w)), has_attr K (private_name (undash w)) with
    | Some (AUser kind f), None => called (public_name (undash w)) kind f
    | None, Some (AUser kind f) => called (private_name (undash w)) kind f
    | Some (AUser kind f), Some _ =>
        if (3 <=? level_of o)%Z
        then fst p = Err AmbiguousHandlerError /\ o_user (snd p) = o_user o
        else called (public_name (undash w)) kind f
    | None, None =>
        fst p = Ok (k_empty K) /\ options_of (snd p) s = dset key val (options_of o s) /\
        o_user (snd p) = o_user o
    | _, _ => True
    end.
Proof. exact (@dispatch_shown). Qed.
Print Assumptions C17_dispatch.
(** The handlers are those of the subclass, then those of the base class. *)
Theorem C17_which_handlers :
  forall (Sh Us : Type) (K : pyclass Sh Us) n a,
    has_attr K n = Some a <->
    a <> ANone /\ (dget n (k_over K) = Some a \/
      dget n (k_over K) = None /\ (n = $"_handler_use" /\ a = AUse \/
        (n = $"handler_initialize" \/ n = $"handler_finalize") /\ a = AUser Decorated (fun _ _ sh us => (Ok (Some 0%Z), sh, us)))).
Proof. exact (@which_attributes). Qed.
Print Assumptions C17_which_handlers.
Definition file5 : list string := ["[A]"; "do-it now : x"]%string.
Definition both_class : pyclass (list (list str)) unit :=
  PyClass [($"handler_do_it", AUser Decorated note_body);
           ($"_handler_do_it", AUser Decorated (fun s hp sh us => (Ok (Some 0%Z), [[$"private"]], us)))] [] no_uni.
Example C17_ex :
  let p l := parse_section_str both_class (disk file5) 9 $"A" false false (at_level l (fresh tt)) in
  fst (p 2%Z) = Ok [[$"A"; $"now"]] /\ fst (p 3%Z) = Err AmbiguousHandlerError.
Proof. computed. Qed.

(** ** C19 *)
Theorem C19_return_codes :
  forall (Sh Us : Type) (K : pyclass Sh Us) fs i fuel s k0 v0 key val w ps (o : obj Sh Us) f rv sh us,
    s <> [] -> has_file fs o i -> level_ok o -> 1 <= fuel ->
    section_shows i s [(k0, Ok v0)] -> trimmed space k0 key -> cleaned v0 val ->
    words key (w :: ps) -> op_shaped (k_uniword K) w ->
    has_attr K (public_name (undash w)) = Some (AUser Decorated f) ->
    has_attr K (private_name (undash w)) = None ->
    f s (Hp s (Some key, val) (undash w) ps val (public_name (undash w)))
      (k_empty K) (o_user o) = (Ok rv, sh, us) ->
    let p := parse_section_str K fs fuel s false false o in
    fst p = match rv with
            | None => Err TypeError
            | Some z => if (z =? 0)%Z || ((z <=? 10)%Z && (level_of o <? 5)%Z) then Ok sh
                        else Err RuntimeError
            end /\ o_user (snd p) = us.
Proof. exact (@return_codes). Qed.
Print Assumptions C19_return_codes.

(** A parse that returned: every decorated handler call of the expansion
    returned 0, or at most 10 below level 5. *)
Theorem C19_successful_parse_codes :
  forall (Sh Us : Type) (K : pyclass Sh Us) fs i fuel s init fin (o : obj Sh Us) v o',
    has_file fs o i -> level_ok o ->
    parse_section_str K fs fuel s init fin o = (Ok v, o') ->
    forall pre t hp f post,
      (exists evs n, parse_walk K i (o_defname o) s init fin evs n /\
                     calls K s evs = pre ++ (Decorated, f, t, hp) :: post) ->
      let '(sh, us) := call_all pre (k_empty K) (o_user o) in
      exists z, fst (fst (f t hp sh us)) = Ok (Some z) /\
        (z = 0 \/ z <= 10 /\ level_of o < 5)%Z.
Proof. exact (@handlers_returned_ok). Qed.
Print Assumptions C19_successful_parse_codes.
Definition file6 (n : string) : list string :=
  ["[A]"; "note 0 first"; "use B"; "note 0 last : v"; "[B]"; String.append "note " n]%string.
Example C19_ex :
  let p n l := fst (parse_section_str note_class (disk (file6 n)) 9 $"A" true true (at_level l (fresh tt))) in
  p "0"%string 5%Z = Ok [[$"A"; $"0"; $"first"]; [$"B"; $"0"]; [$"A"; $"0"; $"last"]] /\
  p "7"%string 5%Z = Err RuntimeError /\
  p "7"%string 4%Z = Ok [[$"A"; $"0"; $"first"]; [$"B"; $"7"]; [$"A"; $"0"; $"last"]] /\
  p "11"%string 0%Z = Err RuntimeError.
Proof. computed. Qed.

(** ** C20 *)
Theorem C20_handlers_in_order :
  forall (Sh Us : Type) (K : pyclass Sh Us) fs i fuel s init fin (o : obj Sh Us),
    s <> [] -> has_file fs o i -> level_ok o -> default_ok K i (o_defname o) s init ->
    length (ini_sections i) + 3 <= fuel ->
    exists evs n pre post,
      parse_walk K i (o_defname o) s init fin evs n /\
      calls K s evs = pre ++ post /\
      snd (call_all pre (k_empty K) (o_user o)) = o_user (snd (parse_section_str K fs fuel s init fin o)) /\
      (forall v, fst (parse_section_str K fs fuel s init fin o) = Ok v ->
         post = [] /\ fst (call_all pre (k_empty K) (o_user o)) = v).
Proof. exact (@handler_calls). Qed.
Print Assumptions C20_handlers_in_order.

Theorem C20_initialize_first_finalize_last :
  forall (Sh Us : Type) (K : pyclass Sh Us) i dname s evs n ki fi kf ff,
    parse_walk K i dname s true true evs n -> present i s ->
    find_attr K $"handler_initialize" = Some (AUser ki fi) ->
    find_attr K $"handler_finalize" = Some (AUser kf ff) ->
    exists l, calls K s evs =
      (ki, fi, s, hp_named s $"handler_initialize") :: l ++ [(kf, ff, s, hp_named s $"handler_finalize")].
Proof. exact (@hooks_first_last). Qed.
Print Assumptions C20_initialize_first_finalize_last.
(** The handlers write a trace of their names and sections. *)
Definition trace_body : hbody (list (list str)) (list str) := fun s hp sh us =>
  (Ok (Some 0%Z), sh ++ [[hp_root hp; s; hp_name hp]], us ++ [s]).
Definition trace_class : pyclass (list (list str)) (list str) :=
  PyClass [($"handler_initialize", AUser Decorated trace_body); ($"handler_note", AUser Cpe.Plain trace_body);
           ($"handler_finalize", AUser Decorated trace_body)] [] no_uni.
Example C20_ex :
  let p := parse_section_str trace_class (disk (file6 "0")) 9 $"A" true true (fresh [$"us"]) in
  fst p = Ok [[$"A"; $"A"; $"handler_initialize"]; [$"A"; $"A"; $"handler_note"];
              [$"A"; $"B"; $"handler_note"]; [$"A"; $"A"; $"handler_note"];
              [$"A"; $"A"; $"handler_finalize"]] /\
  o_user (snd p) = [$"us"; $"A"; $"A"; $"B"; $"A"; $"A"].
Proof. computed. Qed.

(** ** C26 *)
Theorem C26_log_structure :
  forall (Sh Us : Type) (K : pyclass Sh Us) fs i fuel s init fin (o : obj Sh Us) v o',
    has_file fs o i -> level_ok o ->
    parse_section_str K fs fuel s init fin o = (Ok v, o') ->
    ((o_debug o <= 0)%Z -> log_of o' = []) /\
    ((0 < o_debug o)%Z -> exists evs n, parse_walk K i (o_defname o) s init fin evs n /\
                          log_of o' = flat_map (records K) evs) /\
    count is_exit (log_of o') = count is_entry (log_of o') + count is_cycle_rec (log_of o') /\
    (count is_cycle_rec (log_of o') = 0 -> balanced (log_of o')).
Proof. exact (@log_structure). Qed.
Print Assumptions C26_log_structure.
Example C26_ex :
  let p f := parse_section_str base (disk f) 9 $"A" true true (set_debug 1%Z (at_level 4%Z (fresh tt))) in
  fst (p file1) = Ok tt /\ fst (p file2) = Ok tt /\
  length (log_of (snd (p file1))) = 56 /\ count is_cycle_rec (log_of (snd (p file1))) = 0 /\
  count is_cycle_rec (log_of (snd (p file2))) = 2.
Proof. computed. Qed.

(** Any parse, also one that raised: its log is that of the steps of the
    expansion up to the one that raised; [left_by] ([SpecRun.v]) says what that
    step leaves. *)
Theorem C26_log_of_any_parse :
  forall (Sh Us : Type) (K : pyclass Sh Us) fs i fuel s init fin (o : obj Sh Us),
    s <> [] -> has_file fs o i -> level_ok o -> default_ok K i (o_defname o) s init ->
    length (ini_sections i) + 3 <= fuel ->
    exists evs n, parse_walk K i (o_defname o) s init fin evs n /\
      log_of (snd (parse_section_str K fs fuel s init fin o)) =
      if (0 <? o_debug o)%Z
      then run_log K s (level_of o) (path_set_of o) evs (k_empty K) (o_user o) else [].
Proof. exact (@log_of_any_parse). Qed.
Print Assumptions C26_log_of_any_parse.
(** A refused return code is logged as a completed handler, an exception of the
    handler is not. *)
Example C26_any_ex :
  let log f := log_of (snd (parse_section_str note_class (disk f) 9 $"B" false false
                              (set_debug 1%Z (fresh tt)))) in
  log ["[B]"; "note 11"]%string =
    [LSecEntry $"B"; LKeyValue $"note 11" None; LOperation $"note" [$"11"];
     LHEntry $"handler_note" (Some $"note 11", None); LHExit $"handler_note" (Some $"note 11", None)] /\
  log ["[B]"; "use B B"; "use ""B"]%string =
    [LSecEntry $"B"; LKeyValue $"use B B" None; LOperation $"use" [$"B"; $"B"];
     LHEntry $"_handler_use" (Some $"use B B", None); LCycle $"B" $"use";
     LHExit $"_handler_use" (Some $"use B B", None); LHExit $"_handler_use" (Some $"use B B", None);
     LKeyValue $"use ""B" None].
Proof. computed. Qed.

(** ** C38 *)
Theorem C38_argument_checks :
  forall (Sh Us : Type) (K : pyclass Sh Us) fs fuel init fin (o : obj Sh Us),
    level_ok o ->
    fst (parse_section K fs fuel None init fin o) = Err TypeError /\
    fst (parse_section K fs fuel (Some []) init fin o) = Err ValueError /\
    (forall a, a = None \/ a = Some [] ->
       let o' := snd (parse_section K fs fuel a init fin o) in
       data_of o' = data_of o /\ checked_of o' = checked_of o /\
       o_last o' = o_last o /\ o_user o' = o_user o).
Proof. exact (@parse_argument_checks). Qed.
Print Assumptions C38_argument_checks.

Theorem C38_last_result :
  forall (Sh Us : Type) (K : pyclass Sh Us) fs fuel s init fin (o : obj Sh Us),
    let '(r, o') := parse_section_str K fs fuel s init fin o in
    o_last o' = match r with Ok v => Some v | Err _ => o_last o end.
Proof. exact (@last_result). Qed.
Print Assumptions C38_last_result.
Example C38_ex : level_ok (fresh tt : obj unit unit) /\
  o_last (snd (parse_section_str note_class (disk (file6 "0")) 9 $"B" true true (fresh tt))) =
    Some [[$"B"; $"0"]].
Proof. computed. Qed.
