(** * Properties C51-C55: lists of values in a file, and the options a build name
    selects. *)
From Coq Require Import String NArith ZArith List Bool Sorted.
Import ListNotations.
From Verif Require Import PyBase SpecText EnvVar Regex Shlex IniView IniRead ExcControl Cpe SpecWalk SpecRun SpecParse SpecApi
  Samples SamplesApi Keyword KeywordFile SpecKeyword SpecFlags KeywordText RegexProofs KeywordProofs KeywordFileProofs FlagsProofs FlagsProofs2 FlagsProofs3.
Local Open Scope string_scope.
Local Open Scope list_scope.

Definition conf_of (l : list (str * dict (option str))) (s : str) : res (dict (option str)) :=
  match dget s l with Some d => Ok d | None => Err KeyError end.

(** ** C51 *)

(** A text lists one sequence of values. *)
Theorem C51_lists_one : forall text l l', lists text l -> lists text l' -> l = l'.
Proof. exact lists_det. Qed.
Print Assumptions C51_lists_one.

(** [get_values_for_section_key] returns the values listed in the text, if they
    may stand there, and exits otherwise. *)
Theorem C51_values_are_listed :
  forall conf section key d v,
    conf section = Ok d -> dget key d = Some v -> tidy_text (text_of v) ->
    exists l, lists (text_of v) l /\
      ((acceptable d l /\ get_values conf section key = Ok l) \/
       (~ acceptable d l /\ get_values conf section key = Err SystemExit)).
Proof. exact get_values_tidy. Qed.
Print Assumptions C51_values_are_listed.

(** Whatever the text, the values returned are acceptable, and they are the
    listed ones and perhaps an empty one. *)
Theorem C51_returned_values_acceptable :
  forall conf section key d v l,
    conf section = Ok d -> dget key d = Some v -> get_values conf section key = Ok l ->
    lists (text_of v) (filter (fun x => negb (empty_str x)) l) /\ acceptable d l.
Proof. exact get_values_ok. Qed.
Print Assumptions C51_returned_values_acceptable.

(** In a text as [configparser] stores it, without [^], there is one value per
    line. *)
Theorem C51_one_per_line :
  forall text lines, ~ In 94%N text -> stripped_lines text -> cut_at 10%N text lines ->
    tidy_text text /\ text_pieces text (map before_hash lines).
Proof. exact one_per_line_text. Qed.
Print Assumptions C51_one_per_line.

Theorem C51_missing_key :
  forall conf section key,
    (forall e, conf section = Err e -> get_values conf section key = Err e) /\
    (forall d, conf section = Ok d -> dget key d = None -> get_values conf section key = Err KeyError).
Proof. exact get_values_missing. Qed.
Print Assumptions C51_missing_key.

(** On a file that can be parsed the answers are those of the expansion of the
    section, whatever was called on the object before. *)
Theorem C51_from_file :
  forall (Sh Us : Type) (K : pyclass Sh Us) fs i dname fuel,
    well_behaved K -> length (ini_sections i) + 3 <= fuel -> all_parsable K i dname ->
    forall section d, ini_has_section i section = true -> expansion K i dname section d ->
    forall h (o : obj Sh Us), opened K fs i dname o -> Forall (in_file K i dname) h ->
      (forall key, fst (get_values_on K fs fuel section key (after K fs fuel h o))
                   = get_values (fun _ => Ok d) section key) /\
      (forall value, fst (get_key_on K fs fuel section value (after K fs fuel h o))
                     = get_key (fun _ => Ok d) section value).
Proof. exact (@keyword_from_file). Qed.
Print Assumptions C51_from_file.

(** A circumflex ends a value: one line can give two. *)
Theorem C51_one_value_per_line_refuted :
  exists conf d section key text,
    conf section = Ok d /\ dget key d = Some (Some text) /\ ~ In 10%N text /\
    get_values conf section key = Ok [$"clang"; $"12"].
Proof.
  exists (conf_of [($"s", [($"k", Some $"clang^12")])]), [($"k", Some $"clang^12")], $"s", $"k", $"clang^12".
  repeat split; try reflexivity. cbn. intros H. repeat (destruct H as [H|H]; [discriminate|]). exact H.
Qed.
Print Assumptions C51_one_value_per_line_refuted.

(** Between two circumflexes there can be an empty value. *)
Theorem C51_values_not_empty_refuted :
  exists conf d section key text l,
    conf section = Ok d /\ dget key d = Some (Some text) /\
    get_values conf section key = Ok l /\ In [] l.
Proof.
  exists (conf_of [($"s", [($"k", Some $"a ^ ^ b")])]), [($"k", Some $"a ^ ^ b")], $"s", $"k", $"a ^ ^ b".
  exists [$"a"; []; $"b"]. repeat split; try reflexivity. right. now left.
Qed.
Print Assumptions C51_values_not_empty_refuted.

Definition machine_file : list string :=
  ["[machine]";
   "intel-18.0.5:";
   "    intel-18   # the usual one";
   "    # not used: intel-17";
   "    intel";
   "intel-19.0.4:";
   "    intel-19";
   "    latest#new";
   "gnu"].
Definition machine_text : str := newline ++ $"intel-18   # the usual one" ++ newline ++ $"intel".
Example C51_ex :
  fst (get_values_on base (disk machine_file) 20 $"machine" $"intel-18.0.5" (fresh tt)) = Ok [$"intel-18"; $"intel"] /\
  fst (get_values_on base (disk machine_file) 20 $"machine" $"intel-19.0.4" (fresh tt)) = Ok [$"intel-19"; $"latest"] /\
  fst (get_values_on base (disk machine_file) 20 $"machine" $"gnu" (fresh tt)) = Ok [] /\
  fst (get_key_on base (disk machine_file) 20 $"machine" $"latest" (fresh tt)) = Ok $"intel-19.0.4" /\
  lists machine_text [$"intel-18"; $"intel"] /\
  get_values (conf_of [($"s", [($"a b", None); ($"k", Some $"a b")])]) $"s" $"k" = Err SystemExit.
Proof. repeat split; try apply lists_iff; vm_compute; reflexivity. Qed.
Example C51_ex_tidy : tidy_text machine_text.
Proof.
  apply stripped_tidy.
  - vm_compute. intros H. repeat (destruct H as [H|H]; [discriminate|]). exact H.
  - apply stripped_iff. intros l I. vm_compute in I. repeat (destruct I as [<-|I]; [vm_compute; reflexivity|]). destruct I.
Qed.

(** ** C52 *)

(** [get_key_for_section_value] returns the last key that lists the value, and
    exits when there is none. *)
Theorem C52_last_key_listing_value :
  forall conf section value d,
    conf section = Ok d ->
    (forall k, In k (dkeys d) -> exists l, get_values conf section k = Ok l) ->
    (exists a k b l, dkeys d = a ++ k :: b /\ get_values conf section k = Ok l /\ In value l /\
       (forall k' l', In k' b -> get_values conf section k' = Ok l' -> ~ In value l') /\
       get_key conf section value = Ok k) \/
    ((forall k l, In k (dkeys d) -> get_values conf section k = Ok l -> ~ In value l) /\
       get_key conf section value = Err SystemExit).
Proof. exact get_key_spec. Qed.
Print Assumptions C52_last_key_listing_value.

(** It fails when the values of any key of the section are not acceptable, even
    if they are not asked for. *)
Theorem C52_checks_every_key :
  forall conf section value d k,
    conf section = Ok d -> In k (dkeys d) ->
    (forall l, get_values conf section k <> Ok l) -> exists e, get_key conf section value = Err e.
Proof. exact get_key_unlisted. Qed.
Print Assumptions C52_checks_every_key.

Example C52_ex :
  let conf := conf_of [($"m", [($"i18", Some $"intel"); ($"i19", Some $"intel"); ($"g", None)])] in
  get_key conf $"m" $"intel" = Ok $"i19" /\ get_key conf $"m" $"gnu" = Err SystemExit /\
  get_key (conf_of [($"m", [($"i18", Some $"intel"); ($"g", Some $"a b")])]) $"m" $"intel" = Err SystemExit.
Proof. repeat split; vm_compute; reflexivity. Qed.

(** ** C53 *)

(** The options selected by a build name, and when selecting fails. *)
Theorem C53_selected_options :
  forall conf T, describes conf T -> valid_table T ->
  forall build p, new_ckp conf build = Ok p ->
    (exists d, fst (selected_options conf p) = Ok d /\ selects_all build T d /\ ~ conflict build T) \/
    (fst (selected_options conf p) = Err ValueError /\ conflict build T).
Proof. exact flags_selected. Qed.
Print Assumptions C53_selected_options.

(** Only which options are words of the build name matters: not their order, nor
    how often they occur, nor other words. *)
Theorem C53_only_named_options_matter :
  forall conf T, describes conf T -> valid_table T ->
  forall b1 b2 p1 p2, new_ckp conf b1 = Ok p1 -> new_ckp conf b2 = Ok p2 ->
    (forall o, In o (flat_map options_of T) -> (named b1 o <-> named b2 o)) ->
    fst (selected_options conf p1) = fst (selected_options conf p2) /\
    fst (selected_options_str conf p1) = fst (selected_options_str conf p2).
Proof. exact flags_named. Qed.
Print Assumptions C53_only_named_options_matter.

(** An option listed for two flags stops the program, whatever the build name. *)
Theorem C53_shared_option_exits :
  forall conf T, describes conf T ->
  forall build p, new_ckp conf build = Ok p -> ~ NoDup (flat_map options_of T) ->
    fst (selected_options conf p) = Err SystemExit.
Proof. exact flags_overlap. Qed.
Print Assumptions C53_shared_option_exits.

(** The first option of each flag is its default. *)
Theorem C53_default_options :
  forall conf T, describes conf T -> valid_table T ->
  forall build p x, new_ckp conf build = Ok p ->
    exists b, fst (is_default_option conf x p) = Ok b /\
      (b = true <-> exists f many opts, In (f, (many, x :: opts)) T).
Proof. exact flags_default. Qed.
Print Assumptions C53_default_options.

(** The first flag without a type, without values, or whose values cannot be had
    stops the selection. *)
Theorem C53_untyped_flag :
  forall conf build p d pre f post,
    new_ckp conf build = Ok p -> conf $"configure-flags" = Ok d -> dkeys d = pre ++ f :: post ->
    (forall g, In g pre -> exists t opts, get_values conf $"configure-flags" g = Ok (t :: opts) /\ (t = select_one \/ t = select_many)) ->
    (forall e, get_values conf $"configure-flags" f = Err e -> fst (selected_options conf p) = Err e) /\
    (get_values conf $"configure-flags" f = Ok [] -> fst (selected_options conf p) = Err IndexError) /\
    (forall t opts, get_values conf $"configure-flags" f = Ok (t :: opts) -> t <> select_one -> t <> select_many ->
       fst (selected_options conf p) = Err ValueError).
Proof. exact flags_untyped. Qed.
Print Assumptions C53_untyped_flag.

(** So does a flag with a type and no options, unless there is a conflict before. *)
Theorem C53_empty_flag :
  forall conf T, describes conf T -> forall build p T1 f many T2, new_ckp conf build = Ok p ->
    T = T1 ++ (f, (many, [])) :: T2 -> NoDup (flat_map options_of T) -> (forall r, In r T1 -> options_of r <> []) ->
    (~ conflict build T1 -> fst (selected_options conf p) = Err IndexError) /\
    (conflict build T1 -> fst (selected_options conf p) = Err ValueError).
Proof. exact flags_empty. Qed.
Print Assumptions C53_empty_flag.

Definition lines (l : list string) : option str := Some (join newline (map lit l)).
Definition flags1 : dict (option str) :=
  [($"build-type", lines [""; "SELECT_ONE"; "debug  # slow"; "release"]);
   ($"lib-type", lines ["SELECT_ONE"; "static"; "shared"]);
   ($"tpls", lines ["SELECT_MANY # any of these"; "no-tpl"; "mpi"; "cuda"; "blas"])].
Definition conf1 := conf_of [($"configure-flags", flags1)].
Definition table1 : list row :=
  [($"build-type", (false, [$"debug"; $"release"]));
   ($"lib-type", (false, [$"static"; $"shared"]));
   ($"tpls", (true, [$"no-tpl"; $"mpi"; $"cuda"; $"blas"]))].
Definition selected_in (build : string) : res (dict selection) :=
  match new_ckp conf1 (lit build) with Ok p => fst (selected_options conf1 p) | Err e => Err e end.
Example C53_ex_table : describes conf1 table1 /\ valid_table table1 /\ word_options table1.
Proof.
  split; [split|split].
  - exists flags1. split; reflexivity.
  - intros f many opts I. repeat (destruct I as [[= <- <- <-]|I]; [vm_compute; reflexivity|]). destruct I.
  - split; [|split].
    + apply has_duplicates_NoDup. vm_compute. reflexivity.
    + intros r I. repeat (destruct I as [<-|I]; [discriminate|]). destruct I.
    + apply has_duplicates_NoDup. vm_compute. reflexivity.
  - intros o I. repeat (destruct I as [<-|I];
      [split; [discriminate|vm_compute; intros H; repeat (destruct H as [H|H]; [discriminate|]); exact H]|]).
    destruct I.
Qed.
Example C53_ex :
  selected_in "machine_gnu_mpi_shared_cuda_mpi" =
    Ok [($"build-type", One $"debug"); ($"lib-type", One $"shared"); ($"tpls", Many [$"cuda"; $"mpi"])] /\
  selected_in "release_debug" = Err ValueError /\
  selected_in "" = Ok [($"build-type", One $"debug"); ($"lib-type", One $"static"); ($"tpls", One $"no-tpl")].
Proof. repeat split; vm_compute; reflexivity. Qed.

Definition confd (l : list string) := conf_of [($"configure-flags", [($"build-type", lines ["SELECT_ONE"; "debug"]); ($"x", lines l)])].
Definition selectedd (l : list string) : res (dict selection) :=
  match new_ckp (confd l) $"gnu" with Ok p => fst (selected_options (confd l) p) | Err e => Err e end.
Example C53_ex_defects :
  get_values (confd ["static"]) $"configure-flags" $"x" = Ok [$"static"] /\ selectedd ["static"] = Err ValueError /\
  get_values (confd [""]) $"configure-flags" $"x" = Ok [] /\ selectedd [""] = Err IndexError /\
  describes (confd ["SELECT_MANY"]) [($"build-type", (false, [$"debug"])); ($"x", (true, []))] /\ selectedd ["SELECT_MANY"] = Err IndexError.
Proof.
  do 4 (split; [vm_compute; reflexivity|]). split; [split|vm_compute; reflexivity].
  - eexists. split; reflexivity.
  - intros f many opts I. repeat (destruct I as [[= <- <- <-]|I]; [vm_compute; reflexivity|]). destruct I.
Qed.

(** ** C54 *)

(** [selected_options_str] names the selection: a build name made of any prefix
    that contains no option and of this text selects the same options, and has
    the same text again. *)
Theorem C54_canonical_name :
  forall conf T, describes conf T -> valid_table T ->
  forall build p text pre p',
    word_options T ->
    new_ckp conf build = Ok p -> fst (selected_options_str conf p) = Ok text ->
    (forall o, In o (flat_map options_of T) -> ~ named pre o) ->
    new_ckp conf (pre ++ text) = Ok p' ->
    fst (selected_options conf p') = fst (selected_options conf p) /\
    fst (selected_options_str conf p') = Ok text.
Proof. exact flags_canonical. Qed.
Print Assumptions C54_canonical_name.

(** The check of the values lets [SELECT_MANY] pass as an option; the name of a
    selection can then select something else. *)
Theorem C54_any_options_refuted :
  exists conf T build p text p',
    describes conf T /\ valid_table T /\
    new_ckp conf build = Ok p /\ fst (selected_options_str conf p) = Ok text /\
    new_ckp conf text = Ok p' /\
    fst (selected_options conf p') <> fst (selected_options conf p).
Proof.
  exists (conf_of [($"configure-flags", [($"f", lines ["SELECT_ONE"; "SELECT_MANY"; "MANY"])])]).
  exists [($"f", (false, [$"SELECT_MANY"; $"MANY"]))], $"x".
  do 3 eexists. split; [|split; [|split; [|split; [|split]]]].
  - split; [eexists; split; reflexivity|]. intros f many opts [[= <- <- <-]|[]]. vm_compute. reflexivity.
  - split; [|split].
    + repeat constructor. intros [].
    + intros r [<-|[]]. discriminate.
    + apply has_duplicates_NoDup. vm_compute. reflexivity.
  - vm_compute. reflexivity.
  - vm_compute. reflexivity.
  - vm_compute. reflexivity.
  - vm_compute. discriminate.
Qed.
Print Assumptions C54_any_options_refuted.

Definition string_in (build : string) : res str :=
  match new_ckp conf1 (lit build) with Ok p => fst (selected_options_str conf1 p) | Err e => Err e end.
Example C54_ex :
  string_in "machine_gnu_mpi_shared_cuda_mpi" = Ok $"_debug_shared_cuda_mpi" /\
  string_in "other-machine_debug_shared_cuda_mpi" = Ok $"_debug_shared_cuda_mpi".
Proof. repeat split; vm_compute; reflexivity. Qed.

(** ** C55 *)

(** Whatever was read and whichever names were assigned before, the answers are
    those of a new parser for the name assigned last. *)
Theorem C55_reads_follow_build_name :
  forall conf build p h o p',
    new_ckp conf build = Ok p -> new_ckp conf (last_name h build) = Ok p' ->
    fst (kexec conf o (kafter conf h p)) = fst (kexec conf o p').
Proof. exact flags_history. Qed.
Print Assumptions C55_reads_follow_build_name.

Example C55_ex :
  match new_ckp conf1 $"release" with
  | Ok p =>
      let p1 := kafter conf1 [KString; KSelected; KName $"debug_release"; KString; KDefault $"mpi"; KName $"mpi"] p in
      fst (kexec conf1 KString p) = Ok (AStr $"_release_static_no-tpl") /\
      fst (kexec conf1 KString p1) = Ok (AStr $"_debug_static_mpi") /\
      fst (kexec conf1 KString (kafter conf1 [KName $"debug_release"] p)) = Err ValueError
  | Err _ => False
  end.
Proof. vm_compute. repeat split; reflexivity. Qed.
