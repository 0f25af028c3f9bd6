(** * What the messages of the errors say. *)
From Coq Require Import String NArith List Bool.
Import ListNotations.
From Verif Require Import PyBase EnvVar Regex Keyword DetSys EnvKeyword LoadEnv Errors SpecKeyword SpecFlags SpecSystem SpecMessages SpecLoadEnv.
Local Open Scope string_scope.
Local Open Scope list_scope.

(** Without the text. *)
Definition without_text {A} (r : eres A) : res A := match r with EOk a => Ok a | EErr e _ => Err e end.

(** [list(set(l))]: the elements of the list, each once, in some order. *)
Definition set_order (f : list str -> list str) : Prop :=
  forall l, NoDup (f l) /\ forall x, In x (f l) <-> In x l.

(** The strings that occur more than once. *)
Definition repeated (l items : list str) : Prop :=
  NoDup items /\ forall x, In x items <-> exists a b c, l = a ++ x :: b ++ x :: c.

(** The error shows these lines in a box. *)
Definition says {A} (r : eres A) (e : exc) (lines : list str) : Prop :=
  exists t, r = EErr e (Some t) /\ boxed lines t.
Definition error_text (heading extras : list str) : list str :=
  heading_lines $"ERROR" heading ++ map more_line extras.
Definition error_list (heading items extras : list str) : list str :=
  heading_lines $"ERROR" heading ++ map item_line items ++ map more_line extras.

(** ** Values *)
Definition two_words (v : str) : Prop := (In 32%N v \/ In 95%N v) /\ v <> select_one /\ v <> select_many.
Definition delimiter_heading (bad : list str) : str :=
  match bad with
  | [_] => $"The following value contains whitespace or the delimiter '_': "
  | _ => $"The following values contain whitespace or the delimiter '_': "
  end.
(** What is reported about the values of a key. *)
Inductive value_report (file section key : str) (d : dict (option str)) (l : list str) : list str -> Prop :=
| vr_twice items :
    repeated l items -> items <> [] ->
    value_report file section key d l
      (error_list [$"Values for '" ++ file ++ $"'['" ++ section ++ $"']['" ++ key ++ $"'] contains duplicates: "] items [])
| vr_delimiter bad :
    NoDup l -> kept two_words l bad -> bad <> [] ->
    value_report file section key d l (error_list [delimiter_heading bad] bad [])
| vr_key bad :
    NoDup l -> kept two_words l [] -> kept (fun v => In v (dkeys d)) l bad -> bad <> [] ->
    value_report file section key d l (error_list [$"Value found for '" ++ section ++ $"' that matches a key:"] bad []).

Definition flag_type_report (file flag : str) : list str :=
  error_text [$"The options for the '" ++ flag ++ $"' flag must begin with either";
              $"'SELECT_ONE' or 'SELECT_MANY'.  For example:"]
             [[]; $"    " ++ flag ++ $":  SELECT_ONE"; $"      option_1"; $"      option_2"; [];
              $"Please modify your config file accordingly:"; $"  '" ++ file ++ $"'."].

(** ** Options *)

(** The words are as in the code: [it] for several options. *)
Definition options_twice_report (file : str) (items : list str) : list str :=
  error_list [$"The following options appear for multiple flags in"; $"'" ++ file ++ $"':"] items
    (match items with
     | [_] => [$"Please change this to be unique for each flag"; $"in which they appear."]
     | _ => [$"Please change these to be unique for each flag"; $"in which it appears."]
     end).
(** The first flag with one choice that is named with two options, and these. *)
Definition first_conflict (build : str) (T : list row) (flag : str) (chosen : list str) : Prop :=
  exists T1 options T2, T = T1 ++ (flag, (false, options)) :: T2 /\ ~ conflict build T1 /\
    kept (named build) options chosen /\ 2 <= length chosen.
Definition conflict_report (flag : str) (chosen : list str) : list str :=
  error_list [$"Multiple options found in build name for SELECT_ONE flag '" ++ flag ++ $"':"] chosen [].

(** ** Environments and systems *)
Definition aliases_twice_report (system : str) (items : list str) : list str :=
  error_list [$"Aliases for '" ++ system ++ $"' contains duplicates:"] items [].
Definition no_environment_report (system build file : str) (blocks : list (list str)) : list str :=
  error_text [$"Unable to find alias or environment name for system '" ++ system ++ $"' in"; $"build name '" ++ build ++ $"'."]
    [[]; $"- Supported Environments for '" ++ system ++ $"':"] ++
  concat blocks ++
  map more_line [[]; $"See `" ++ file ++ $"` for details on the available environments."; [];
    $"To force-load an environment see the guidance in the `--help` output."; []].
Definition two_systems_report (names : list str) : list str :=
  error_list [$"Cannot specify more than one system name in the build name"; $"You specified"] names [].
Definition unknown_system_text (hostname file : str) : str :=
  $"Unable to find valid system name in the build name or for the hostname '" ++ hostname ++ $"' in '" ++ file ++
  $"'. Double-check that any system name in the build name is only surrounded by an underscore '_'.".
Definition other_system_text (hostname found file asked : str) : str :=
  $"Hostname '" ++ hostname ++ $"' matched to system '" ++ found ++ $"' in '" ++ file ++
  $"', but you specified '" ++ asked ++ $"' in the build name.  If you want to force the use of '" ++
  asked ++ $"', add the --force flag.".

(** ** Sections *)
Section Sections.
Variable other_re : str -> str -> res bool.
Variable systems : list (str * list str).
Variable hostname : str.
Variable envs flags : str -> res (dict (option str)).

(** The sections that do not have the canonical name, with this name. *)
Inductive wrong_names : list str -> list (str * str) -> Prop :=
| wn_none : wrong_names [] []
| wn_upper s l bad : upper s = s -> wrong_names l bad -> wrong_names (s :: l) bad
| wn_right s l bad : upper s <> s -> config_name other_re systems hostname envs flags s true s ->
    wrong_names l bad -> wrong_names (s :: l) bad
| wn_wrong s c l bad : upper s <> s -> config_name other_re systems hostname envs flags s true c -> c <> s ->
    wrong_names l bad -> wrong_names (s :: l) ((s, c) :: bad).
End Sections.

Definition pair_lines (sc : str * str) : list str := [$"-  " ++ fst sc; $"-> " ++ snd sc; []].
Definition sections_report (flags_name specs_name : str) (bad : list (str * str)) : list str :=
  error_text
    ([$"The following section(s) in your config-specs.ini file";
      $"should be formatted in the following manner to include only valid";
      $"options and to match the order of supported flags/options in";
      $"'" ++ flags_name ++ $"':"; [];
      $"-  {current_section_name}"; $"-> {formatted_section_name}"; []] ++
     flat_map pair_lines bad)
    [$"Please correct these sections in '" ++ specs_name ++ $"'."].
(** A message in a message. *)
Definition nested_report (specs_name : str) (inner : list str) : list str :=
  error_text ([$"When validating sections in"; $"`" ++ specs_name ++ $"`,"; $"the following error was encountered:";
               []; rule] ++ inner ++ [rule]) [].

(** The sections with the names that are asked for. *)
Inductive corrected (bad : list (str * str)) : list str -> list str -> Prop :=
| co_none : corrected bad [] []
| co_same s l l' : ~ In s (map fst bad) -> corrected bad l l' -> corrected bad (s :: l) (s :: l')
| co_new s c l l' : In (s, c) bad -> corrected bad l l' -> corrected bad (s :: l) (c :: l').
