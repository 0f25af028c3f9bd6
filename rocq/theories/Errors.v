(** * The texts of the errors of [KeywordParser.py], [config_keyword_parser.py],
    [EnvKeywordParser.py], [DetermineSystem.py], [load_env.py] and [gen_config.py].

    The same methods as in [Keyword.v], [EnvKeyword.v], [DetSys.v] and [LoadEnv.v],
    transcribed with the text that is given to [sys.exit] or to the exception. An
    exception that Python itself raises has no text here. *)
From Coq Require Import String NArith List Bool Arith.
Import ListNotations.
From Verif Require Import PyBase EnvVar Regex Keyword DetSys EnvKeyword LoadEnv Messages.
Local Open Scope string_scope.
Local Open Scope list_scope.

Inductive eres (A : Type) := EOk (a : A) | EErr (e : exc) (text : option str).
Arguments EOk {A}. Arguments EErr {A}.
Definition ebind {A B} (r : eres A) (k : A -> eres B) : eres B :=
  match r with EOk a => k a | EErr e t => EErr e t end.
(** Without text. *)
Definition silent {A} (r : res A) : eres A := match r with Ok a => EOk a | Err e => EErr e None end.
Definition fails {A} (e : exc) (text : str) : eres A := EErr e (Some text).

(** With a state. *)
Definition EM (S A : Type) : Type := S -> eres A * S.
Definition mbind {S A B} (m : EM S A) (k : A -> EM S B) : EM S B :=
  fun s => match m s with (EOk a, s') => k a s' | (EErr e t, s') => (EErr e t, s') end.
Definition mret {S A} (a : A) : EM S A := fun s => (EOk a, s).
Definition mget {S} : EM S S := fun s => (EOk s, s).
Definition mof {S A} (r : eres A) : EM S A := fun s => (r, s).
Definition quiet {S A} (m : SM S A) : EM S A := fun s => let (r, s') := m s in (silent r, s').
Declare Scope em_scope.
Notation "x <-- m ; k" := (mbind m (fun x => k)) (at level 100, m at next level, right associativity) : em_scope.
Notation "m ;;; k" := (mbind m (fun _ => k)) (at level 100, right associativity) : em_scope.
Notation "x <~~ m ; k" := (ebind m (fun x => k)) (at level 100, m at next level, right associativity) : em_scope.
Local Open Scope em_scope.

Definition ERROR : str := $"ERROR".

Section Errors.
(** [list(set(l))]: the order of a set is not known. *)
Variable set_list : list str -> list str.

(** ** [KeywordParser] *)
Section Keyword.
(** [config_filename] as text, and [self.config[section]]. *)
Variable file : str.
Variable conf : str -> res (dict (option str)).

(** KeywordParser.py 105, config_keyword_parser.py 163, EnvKeywordParser.py 178. *)
Definition duplicates (l : list str) : list str := filter (fun x => Nat.ltb 1 (count x l)) (set_list l).

(** [get_values_for_section_key], 30-82, with [assert_values_are_unique],
    [assert_values_do_not_contain_whitespace_or_delimiter] and
    [assert_no_value_is_equal_to_a_key_name], 84-178. *)
Definition e_get_values (section key : str) : eres (list str) :=
  d <~~ silent (conf section) ;
  match dget key d with
  | None => EErr KeyError None
  | Some v =>
      let l := values_list (match v with Some s => s | None => [] end) in
      match duplicates l with
      | (_ :: _) as bad =>
          fails SystemExit (get_msg_for_list
            ($"Values for '" ++ file ++ $"'['" ++ section ++ $"']['" ++ key ++ $"'] contains duplicates: ") bad ERROR [])
      | [] =>
          match filter bad_value l with
          | (_ :: _) as bad =>
              let es := if Nat.ltb 1 (length bad) then $"es" else $"e" in
              let s := if Nat.eqb (length bad) 1 then $"s" else [] in
              fails SystemExit (get_msg_for_list
                ($"The following valu" ++ es ++ $" contain" ++ s ++ $" whitespace or the delimiter '_': ") bad ERROR [])
          | [] =>
              match filter (fun x => str_mem x (dkeys d)) l with
              | (_ :: _) as bad =>
                  fails SystemExit (get_msg_for_list ($"Value found for '" ++ section ++ $"' that matches a key:") bad ERROR [])
              | [] => EOk l
              end
          end
      end
  end.

(** [get_key_for_section_value], 202-214. *)
Fixpoint e_find_key (section value : str) (keys : list str) (found : option str) : eres (option str) :=
  match keys with
  | [] => EOk found
  | k :: keys' =>
      l <~~ e_get_values section k ;
      e_find_key section value keys' (if str_mem value l then Some k else found)
  end.
Definition e_get_key (section value : str) : eres str :=
  d <~~ silent (conf section) ;
  m <~~ e_find_key section value (dkeys d) None ;
  match m with
  | Some k => EOk k
  | None => fails SystemExit (get_formatted_msg
              ($"Unable to find value '" ++ value ++ $"' in values for '" ++ section ++ $"'." ++ newline) ERROR [])
  end.

(** ** [ConfigKeywordParser] *)

(** [get_options_and_flag_type_for_flag], 120-146. *)
Definition e_flag_options (flag : str) : eres (list str * str) :=
  l <~~ e_get_values flags_section flag ;
  match l with
  | [] => EErr IndexError None
  | t :: o =>
      if str_mem t [$"SELECT_ONE"; $"SELECT_MANY"] then EOk (o, t)
      else fails ValueError (get_formatted_msg
             ($"The options for the '" ++ flag ++ $"' flag must begin with either" ++ newline ++
              $"'SELECT_ONE' or 'SELECT_MANY'.  For example:") ERROR
             (newline ++ $"    " ++ flag ++ $":  SELECT_ONE" ++ newline ++
              $"      option_1" ++ newline ++ $"      option_2" ++ newline ++
              newline ++ $"Please modify your config file accordingly:" ++ newline ++
              $"  '" ++ file ++ $"'."))
  end.

(** The loop of [parse_selected_options], 94-116. *)
Definition e_select (words : list str) (flag : str) : eres selection :=
  ot <~~ e_flag_options flag ;
  let (options, flag_type) := ot in
  let chosen := filter (fun o => str_mem o words) options in
  if str_eqb flag_type $"SELECT_ONE" && Nat.ltb 1 (length chosen)
  then fails ValueError (get_msg_for_list
         ($"Multiple options found in build name for SELECT_ONE flag '" ++ flag ++ $"':") chosen ERROR [])
  else if str_eqb flag_type $"SELECT_MANY" && Nat.ltb 1 (length chosen) then EOk (Many (sorted chosen))
  else match chosen with
       | o :: _ => EOk (One o)
       | [] => match options with o :: _ => EOk (One o) | [] => EErr IndexError None end
       end.
Fixpoint e_select_all (words : list str) (flags : list str) (acc : dict selection) : eres (dict selection) :=
  match flags with
  | [] => EOk acc
  | f :: flags' => s <~~ e_select words f ; e_select_all words flags' (dset f s acc)
  end.

(** [get_options_list_for_all_flags], 179-190. *)
Fixpoint e_all_options (flags : list str) : eres (list str) :=
  match flags with
  | [] => EOk []
  | f :: flags' => ot <~~ e_flag_options f ; l <~~ e_all_options flags' ; EOk (fst ot ++ l)
  end.
Definition e_options_list : EM ckp (list str) :=
  p <-- mget ;
  match c_options p with
  | Some l => mret l
  | None =>
      l <-- mof (e_all_options (c_flags p)) ;
      quiet (modify (fun p => Ckp (c_build p) (c_flags p) (c_selected p) (c_string p) (Some l) (c_defaults p))) ;;;
      mret l
  end.

(** [assert_options_are_unique_across_all_flags], 161-177. *)
Definition e_assert_unique (l : list str) : eres unit :=
  match duplicates l with
  | [] => EOk tt
  | (_ :: _) as bad =>
      let many := Nat.ltb 1 (length bad) in
      let these := if many then $"these" else $"this" in
      let it := if many then $"it" else $"they" in
      let s := if many then $"s" else [] in
      fails SystemExit (get_msg_for_list
        ($"The following options appear for multiple flags in" ++ newline ++ $"'" ++ file ++ $"':") bad ERROR
        ($"Please change " ++ these ++ $" to be unique for each flag" ++ newline ++
         $"in which " ++ it ++ $" appear" ++ s ++ $"."))
  end.

(** [parse_selected_options], 91-118. *)
Definition e_parse_selected_options : EM ckp unit :=
  p <-- mget ;
  match c_selected p with
  | Some _ => mret tt
  | None =>
      l <-- e_options_list ;
      mof (e_assert_unique l) ;;;
      d <-- mof (e_select_all (split_on 95%N (c_build p)) (c_flags p) []) ;
      quiet (modify (fun p => Ckp (c_build p) (c_flags p) (Some d) (c_string p) (c_options p) (c_defaults p)))
  end.

(** [selected_options], 62-67, and [selected_options_str], 47-60. *)
Definition e_selected_options : EM ckp (dict selection) :=
  e_parse_selected_options ;;;
  p <-- mget ;
  match c_selected p with Some d => mret d | None => mof (EErr AttributeError None) end.
Definition e_selected_options_str : EM ckp str :=
  p <-- mget ;
  match c_string p with
  | Some s => mret s
  | None =>
      d <-- e_selected_options ;
      let s := flat_map (fun kv => selection_str (snd kv)) d in
      quiet (modify (fun p => Ckp (c_build p) (c_flags p) (c_selected p) (Some s) (c_options p) (c_defaults p))) ;;;
      mret s
  end.
End Keyword.

Variable other_re : str -> str -> res bool.
Variable systems : list (str * list str).
Variable hostname : str.

(** ** [EnvKeywordParser]; [envs_file] is [str(self.config_filename)], [envs_rel] its
    path from the current directory *)
Variable envs_file envs_rel : str.
Variable envs : str -> res (dict (option str)).

(** [get_aliases], 146-152, with [assert_alias_list_values_are_unique], 178-186. *)
Fixpoint e_all_values (system : str) (keys : list str) : eres (list str) :=
  match keys with
  | [] => EOk []
  | k :: keys' => l <~~ e_get_values envs_file envs system k ; l' <~~ e_all_values system keys' ; EOk (l ++ l')
  end.
Definition e_get_aliases (system : str) : eres (list str) :=
  d <~~ silent (envs system) ;
  l <~~ e_all_values system (dkeys d) ;
  match duplicates l with
  | [] => EOk l
  | (_ :: _) as bad =>
      fails SystemExit (get_msg_for_list ($"Aliases for '" ++ system ++ $"' contains duplicates:") bad ERROR [])
  end.
(** [__init__], 41-48. *)
Definition e_new_ekp (build system : str) : eres ekp :=
  d <~~ silent (envs system) ;
  l <~~ e_get_aliases system ;
  EOk (Ekp build system (by_length (dkeys d)) (by_length l) None).

(** [qualified_env_name], 88-130. *)
Definition e_matched_env (p : ekp) : eres str :=
  n <~~ silent (first_in other_re (e_names p) (e_build p)) ;
  match n with
  | Some n => EOk n
  | None =>
      a <~~ silent (first_in other_re (e_aliases p) (e_build p)) ;
      match a with
      | Some a => e_get_key envs_file envs (e_system p) a
      | None =>
          match supported_envs_msg envs envs_rel
                  ($"Unable to find alias or environment name for system '" ++ e_system p ++ $"' in" ++ newline ++
                   $"build name '" ++ e_build p ++ $"'.") ERROR p with
          | Ok msg => fails SystemExit msg
          | Err e => EErr e None
          end
      end
  end.
Definition e_qualified_env_name : EM ekp str :=
  p <-- mget ;
  match e_qualified p with
  | Some q => mret q
  | None =>
      n <-- mof (e_matched_env p) ;
      let q := e_system p ++ [95%N] ++ n in
      quiet (modify (fun p => Ekp (e_build p) (e_system p) (e_names p) (e_aliases p) (Some q))) ;;;
      mret q
  end.

(** ** [DetermineSystem]; the two texts that are cut into lines by [textwrap.fill],
    with ([true]) and without breaking at hyphens *)
Variable fill : bool -> str -> str.
Variable systems_file : str.

(** [get_sys_name_from_build_name], 141-154. *)
Definition e_sys_from_build (build : str) : eres (option str) :=
  let options := split_on 95%N (lower build) in
  match filter (fun s => str_mem s options) (sys_names systems) with
  | [] => EOk None
  | [s] => EOk (Some s)
  | bad => fails SystemExit (get_msg_for_list
             ($"Cannot specify more than one system name in the build name" ++ newline ++ $"You specified") bad ERROR [])
  end.

(** [determine_system], 52-95. *)
Definition e_determine_system : EM detsys unit :=
  p <-- mget ;
  match d_name p with
  | Some _ => mret tt
  | None =>
      h <-- mof (silent (sys_from_hostname other_re systems hostname)) ;
      quiet (set_name h) ;;;
      b <-- mof (e_sys_from_build (d_build p)) ;
      match h, b with
      | None, None =>
          mof (fails SystemExit (get_formatted_msg (fill false
            ($"Unable to find valid system name in the build name or for the hostname '" ++ hostname ++ $"' in '" ++
             systems_file ++ $"'. Double-check that any system name in the build name is only surrounded by an underscore '_'."))
            ERROR []))
      | _, None => mret tt
      | _, Some n =>
          quiet (set_name (Some n)) ;;;
          if negb (match h with Some m => str_eqb m n | None => false end) && negb (d_force p)
          then mof (fails SystemExit (get_formatted_msg (fill true
                 ($"Hostname '" ++ hostname ++ $"' matched to system '" ++ (match h with Some m => m | None => $"None" end) ++ $"' in '" ++
                  systems_file ++ $"', but you specified '" ++ n ++ $"' in the build name.  If you want to force the use of '" ++
                  n ++ $"', add the --force flag.")) ERROR []))
          else mret tt
      end
  end.
Definition e_system_name : EM detsys (option str) :=
  e_determine_system ;;;
  p <-- mget ;
  match d_name p with Some n => mret n | None => mof (EErr AttributeError None) end.

(** ** [LoadEnv]: [system_name], 157-166; [load_env_keyword_parser], 175-177;
    [parsed_env_name], 202-207 *)
Definition e_le_system_name : EM loadenv str :=
  p <-- mget ;
  match l_system p with
  | Some s => mret s
  | None =>
      n <-- mof (fst (e_system_name (new_detsys (l_build p) (l_force p)))) ;
      match n with
      | Some s =>
          quiet (modify (fun p => LoadEnv (l_build p) (l_force p) (Some s) (l_parsed p) (l_stripped p) (l_ekp p))) ;;;
          mret s
      | None => mof (EErr TypeError None)
      end
  end.
Definition e_le_load_ekp : EM loadenv ekp :=
  p <-- mget ;
  s <-- e_le_system_name ;
  k <-- mof (e_new_ekp (l_build p) s) ;
  quiet (modify (fun p => LoadEnv (l_build p) (l_force p) (l_system p) (l_parsed p) (l_stripped p) (Some k))) ;;;
  mret k.
Definition e_le_ekp : EM loadenv ekp :=
  p <-- mget ;
  match l_ekp p with Some k => mret k | None => e_le_load_ekp end.
Definition e_le_parsed_env_name : EM loadenv str :=
  p <-- mget ;
  match l_parsed p with
  | Some n => mret n
  | None =>
      k <-- e_le_ekp ;
      let (r, k') := e_qualified_env_name k in
      quiet (modify (fun p => LoadEnv (l_build p) (l_force p) (l_system p) (l_parsed p) (l_stripped p) (Some k'))) ;;;
      n <-- mof r ;
      quiet (modify (fun p => LoadEnv (l_build p) (l_force p) (l_system p) (Some n) (l_stripped p) (l_ekp p))) ;;;
      mret n
  end.

(** ** [GenConfig]; [flags_file] is [str(...)] of the path of
    [supported-config-flags.ini], [flags_name] and [specs_name] are the names of that
    file and of [config-specs.ini] *)
Variable flags_file flags_name specs_name : str.
Variable flags : str -> res (dict (option str)).
Variable specs : list str.

Definition e_on_ckp {A} (m : EM ckp A) : EM genconfig A := fun p =>
  match g_ckp p with
  | Some k => let (r, k') := m k in
              (r, GenConfig (g_build p) (g_force p) (Some k') (g_le p) (g_config p) (g_valid p))
  | None => (EErr AttributeError None, p)
  end.
Definition e_on_le {A} (m : EM loadenv A) : EM genconfig A := fun p =>
  match g_le p with
  | Some k => let (r, k') := m k in
              (r, GenConfig (g_build p) (g_force p) (g_ckp p) (Some k') (g_config p) (g_valid p))
  | None => (EErr AttributeError None, p)
  end.

(** [complete_config], 162-175. *)
Definition e_complete_config : EM genconfig str :=
  p <-- mget ;
  match g_config p with
  | Some c => mret c
  | None =>
      quiet (load_ckp flags) ;;;
      quiet load_le ;;;
      n <-- e_on_le e_le_parsed_env_name ;
      s <-- e_on_ckp (e_selected_options_str flags_file flags) ;
      let c := n ++ s in
      quiet (modify (fun p => GenConfig (g_build p) (g_force p) (g_ckp p) (g_le p) (Some c) (g_valid p))) ;;;
      mret c
  end.

(** [except ValueError as e: raise ValueError(...)], 200-206. *)
Definition e_wrap {S A} (m : EM S A) : EM S A := fun s =>
  match m s with
  | (EErr ValueError t, s') =>
      (EErr ValueError (match t with
                        | Some e => Some (get_formatted_msg
                                      ($"When validating sections in" ++ newline ++ $"`" ++ specs_name ++ $"`," ++ newline ++
                                       $"the following error was encountered:" ++ newline ++ e) ERROR [])
                        | None => None
                        end), s')
  | r => r
  end.
(** The loop of [validate_config_specs_ini], 190-214. *)
Fixpoint e_check_sections (l : list str) : EM genconfig (list (str * str)) :=
  match l with
  | [] => mret []
  | s :: l' =>
      if str_eqb (upper s) s then e_check_sections l'
      else
        quiet (on_le (le_set_build s)) ;;;
        quiet (on_ckp (set_build_name s)) ;;;
        o <-- e_wrap (e_on_ckp (e_selected_options_str flags_file flags)) ;
        n <-- e_on_le e_le_parsed_env_name ;
        rest <-- e_check_sections l' ;
        mret (if str_eqb (n ++ o) s then rest else (s, n ++ o) :: rest)
  end.
(** The message, 216-231. *)
Fixpoint pairs_loop (l : list (str * str)) (acc : str) : str :=
  match l with
  | [] => acc
  | (s, c) :: l' => pairs_loop l' (acc ++ $"-  " ++ s ++ newline ++ $"-> " ++ c ++ newline ++ newline)
  end.
Definition invalid_sections_msg (bad : list (str * str)) : str :=
  let err_msg :=
    $"The following section(s) in your config-specs.ini file" ++ newline ++
    $"should be formatted in the following manner to include only valid" ++ newline ++
    $"options and to match the order of supported flags/options in" ++ newline ++
    $"'" ++ flags_name ++ $"':" ++ newline ++ newline ++
    $"-  {current_section_name}" ++ newline ++ $"-> {formatted_section_name}" ++ newline ++ newline in
  get_formatted_msg (pairs_loop bad err_msg) ERROR ($"Please correct these sections in '" ++ specs_name ++ $"'.").
(** [validate_config_specs_ini], 178-236. *)
Definition e_validate : EM genconfig unit :=
  quiet (load_ckp flags) ;;;
  quiet load_le ;;;
  quiet (on_le (le_set_force true)) ;;;
  bad <-- e_check_sections specs ;
  match bad with
  | _ :: _ => mof (fails ValueError (invalid_sections_msg bad))
  | [] =>
      p <-- mget ;
      quiet (on_le (le_set_build (g_build p))) ;;;
      quiet (on_le (le_set_force (g_force p))) ;;;
      quiet (on_ckp (set_build_name (g_build p))) ;;;
      quiet (modify (fun p => GenConfig (g_build p) (g_force p) (g_ckp p) (g_le p) (g_config p) true))
  end.
End Errors.
