(** * The objects of the programs on their files: [ConfigKeywordParser],
    [DetermineSystem], [EnvKeywordParser], [LoadEnv], [GenConfig].

    In [Keyword.v], [DetSys.v], [EnvKeyword.v] and [LoadEnv.v] a file is a table.
    Here each object has its own [ConfigParserEnhanced] object for the file, as in
    the code, and every lookup is a call on that object, which may read the file,
    parse a section, or find it in the data.

    Line numbers refer to [wip/keywordparser/keywordparser/KeywordParser.py] (KP),
    [wip/genconfig/src/config_keyword_parser.py] (CK),
    [wip/determinesystem/determinesystem/DetermineSystem.py] (DS),
    [wip/loadenv/loadenv/EnvKeywordParser.py] (EK), [wip/loadenv/load_env.py] (LE)
    and [wip/genconfig/gen_config.py] (GC). Messages are not modelled. A loop over
    [keys()] goes through the keys there are at its start. *)
From Coq Require Import String NArith ZArith List Bool Arith.
Import ListNotations.
From Verif Require Import PyBase EnvVar Regex Shlex IniView IniRead ExcControl Cpe Keyword KeywordFile DetSys EnvKeyword LoadEnv
  TopLevel.
Local Open Scope sm_scope.

Section Objects.
(** As in [TopLevel.v]. *)
Variable uniword : pychar -> bool.
Variable fs : str -> option str.
Variable fuel : nat.
(** As in [DetSys.v]. *)
Variable other_re : str -> str -> res bool.
Variable hostname : str.
Notation K := (base_class uniword).
Notation cpe := (obj unit unit).

(** An object with the parser of its file; a call on the parser, a step of the
    object itself. *)
Definition on_file {X A} (m : SM cpe A) : SM (cpe * X) A := fun p =>
  let (r, o) := m (fst p) in (r, (o, snd p)).
Definition on_object {X A} (m : SM X A) : SM (cpe * X) A := fun p =>
  let (r, x) := m (snd p) in (r, (fst p, x)).

(** ** [ConfigKeywordParser] *)

(** [__init__], CK 40-45, with [config], KP 21-28. *)
Definition f_new_ckp (file build : str) : res (cpe * ckp) :=
  let (r, o) := getitem K fs fuel flags_section (open_ini file) in
  match r with
  | Ok d => Ok (o, Ckp build (dkeys d) None None None None)
  | Err e => Err e
  end.

(** [get_options_and_flag_type_for_flag], CK 120-146. *)
Definition f_flag_options (flag : str) : SM cpe (list str * str) :=
  l <- get_values_on K fs fuel flags_section flag ;;
  match l with
  | [] => raise IndexError
  | t :: o => if str_mem t [$"SELECT_ONE"; $"SELECT_MANY"] then ret (o, t) else raise ValueError
  end.

(** The loop of [parse_selected_options], CK 97-116. *)
Definition f_select (words : list str) (flag : str) : SM cpe selection :=
  ot <- f_flag_options flag ;;
  let (options, flag_type) := ot in
  let chosen := filter (fun o => str_mem o words) options in
  if str_eqb flag_type $"SELECT_ONE" && Nat.ltb 1 (length chosen) then raise ValueError
  else if str_eqb flag_type $"SELECT_MANY" && Nat.ltb 1 (length chosen) then ret (Many (sorted chosen))
  else match chosen with
       | o :: _ => ret (One o)
       | [] => match options with o :: _ => ret (One o) | [] => raise IndexError end
       end.
Fixpoint f_select_all (words : list str) (flags : list str) (acc : dict selection) : SM cpe (dict selection) :=
  match flags with
  | [] => ret acc
  | f :: flags' => s <- f_select words f ;; f_select_all words flags' (dset f s acc)
  end.

(** [get_options_list_for_all_flags], CK 179-190. *)
Fixpoint f_all_options (flags : list str) : SM cpe (list str) :=
  match flags with
  | [] => ret []
  | f :: flags' => ot <- f_flag_options f ;; l <- f_all_options flags' ;; ret (fst ot ++ l)
  end.
Definition f_options_list : SM (cpe * ckp) (list str) :=
  p <- on_object get ;;
  match c_options p with
  | Some l => ret l
  | None =>
      l <- on_file (f_all_options (c_flags p)) ;;
      on_object (modify (fun p => Ckp (c_build p) (c_flags p) (c_selected p) (c_string p) (Some l) (c_defaults p))) ;;
      ret l
  end.

(** [parse_selected_options], CK 91-118, with
    [assert_options_are_unique_across_all_flags], CK 161-177. *)
Definition f_parse_selected_options : SM (cpe * ckp) unit :=
  p <- on_object get ;;
  match c_selected p with
  | Some _ => ret tt
  | None =>
      l <- f_options_list ;;
      if has_duplicates l then raise SystemExit
      else
        d <- on_file (f_select_all (split_on 95%N (c_build p)) (c_flags p) []) ;;
        on_object (modify (fun p => Ckp (c_build p) (c_flags p) (Some d) (c_string p) (c_options p) (c_defaults p)))
  end.

(** [selected_options], CK 62-67. *)
Definition f_selected_options : SM (cpe * ckp) (dict selection) :=
  f_parse_selected_options ;;
  p <- on_object get ;;
  match c_selected p with Some d => ret d | None => raise AttributeError end.

(** [selected_options_str], CK 47-60. *)
Definition f_selected_options_str : SM (cpe * ckp) str :=
  p <- on_object get ;;
  match c_string p with
  | Some s => ret s
  | None =>
      d <- f_selected_options ;;
      let s := flat_map (fun kv => selection_str (snd kv)) d in
      on_object (modify (fun p => Ckp (c_build p) (c_flags p) (c_selected p) (Some s) (c_options p) (c_defaults p))) ;;
      ret s
  end.

(** [is_default_option], CK 148-159. *)
Fixpoint f_default_options (flags : list str) : SM cpe (list str) :=
  match flags with
  | [] => ret []
  | f :: flags' =>
      ot <- f_flag_options f ;;
      match fst ot with
      | [] => raise IndexError
      | o :: _ => l <- f_default_options flags' ;; ret (o :: l)
      end
  end.
Definition f_is_default_option (option : str) : SM (cpe * ckp) bool :=
  p <- on_object get ;;
  match c_defaults p with
  | Some l => ret (str_mem option l)
  | None =>
      l <- on_file (f_default_options (c_flags p)) ;;
      on_object (modify (fun p => Ckp (c_build p) (c_flags p) (c_selected p) (c_string p) (c_options p) (Some l))) ;;
      ret (str_mem option l)
  end.

(** [build_name] setter, CK 196-204. *)
Definition f_set_build_name (build : str) : SM (cpe * ckp) unit := on_object (set_build_name build).

(** ** [DetermineSystem] *)

(** [__init__], DS 26-33, 170-173. *)
Definition f_new_detsys (file build : str) (force : bool) : cpe * detsys := (open_ini file, new_detsys build force).

(** [supported_sys_names], DS 156-163: the list is made anew each time, because
    [hasattr] asks for another name. *)
Definition f_sys_names : SM cpe (list str) :=
  l <- data_sections K fs fuel (PBool false) ;;
  ret (filter (fun s => negb (str_eqb s $"DEFAULT")) l).

(** [get_sys_name_from_hostname], DS 109-128. *)
Fixpoint f_first_system (l : list str) : SM cpe (option str) :=
  match l with
  | [] => ret None
  | s :: l' =>
      d <- getitem K fs fuel s ;;
      b <- of_res (any_matches other_re hostname (dkeys d)) ;;
      if b then ret (Some s) else f_first_system l'
  end.
Definition f_sys_from_hostname : SM cpe (option str) := l <- f_sys_names ;; f_first_system l.

(** [get_sys_name_from_build_name], DS 141-154. *)
Definition f_sys_from_build (build : str) : SM cpe (option str) :=
  l <- f_sys_names ;;
  match filter (fun s => str_mem s (split_on 95%N (lower build))) l with
  | [] => ret None
  | [s] => ret (Some s)
  | _ => raise SystemExit
  end.

(** [determine_system], DS 52-95. *)
Definition f_determine_system : SM (cpe * detsys) unit :=
  p <- on_object get ;;
  match d_name p with
  | Some _ => ret tt
  | None =>
      h <- on_file f_sys_from_hostname ;;
      on_object (set_name h) ;;
      b <- on_file (f_sys_from_build (d_build p)) ;;
      match h, b with
      | None, None => raise SystemExit
      | _, None => ret tt
      | _, Some n =>
          on_object (set_name (Some n)) ;;
          if negb (match h with Some m => str_eqb m n | None => false end) && negb (d_force p)
          then raise SystemExit else ret tt
      end
  end.

(** [system_name], DS 40-43. *)
Definition f_system_name : SM (cpe * detsys) (option str) :=
  f_determine_system ;;
  p <- on_object get ;;
  match d_name p with Some n => ret n | None => raise AttributeError end.

(** ** [EnvKeywordParser] *)

(** [get_aliases], EK 146-152. *)
Fixpoint f_all_values (system : str) (keys : list str) : SM cpe (list str) :=
  match keys with
  | [] => ret []
  | k :: keys' => l <- get_values_on K fs fuel system k ;; l' <- f_all_values system keys' ;; ret (l ++ l')
  end.
Definition f_get_aliases (system : str) : SM cpe (list str) :=
  d <- getitem K fs fuel system ;;
  l <- f_all_values system (dkeys d) ;;
  if has_duplicates l then raise SystemExit else ret l.

(** [__init__], EK 41-48. *)
Definition f_new_ekp (file build system : str) : res (cpe * ekp) :=
  let (r, o) := (d <- getitem K fs fuel system ;;
                 l <- f_get_aliases system ;;
                 ret (Ekp build system (by_length (dkeys d)) (by_length l) None)) (open_ini file) in
  match r with Ok k => Ok (o, k) | Err e => Err e end.

(** [qualified_env_name], EK 88-130. *)
Definition f_matched_env (p : ekp) : SM cpe str :=
  n <- of_res (first_in other_re (e_names p) (e_build p)) ;;
  match n with
  | Some n => ret n
  | None =>
      a <- of_res (first_in other_re (e_aliases p) (e_build p)) ;;
      match a with
      | Some a => get_key_on K fs fuel (e_system p) a
      | None => raise SystemExit
      end
  end.
Definition f_qualified_env_name : SM (cpe * ekp) str :=
  p <- on_object get ;;
  match e_qualified p with
  | Some q => ret q
  | None =>
      n <- on_file (f_matched_env p) ;;
      let q := e_system p ++ [95%N] ++ n in
      on_object (modify (fun p => Ekp (e_build p) (e_system p) (e_names p) (e_aliases p) (Some q))) ;;
      ret q
  end.

(** ** [LoadEnv]: the names

    The parser beside the object is that of its [env_keyword_parser], if it has
    one. *)
Variable systems_file envs_file : str.
Definition f_new_loadenv (build : str) (force : bool) : cpe * loadenv := (open_ini envs_file, new_loadenv build force).

(** [build_name] setter, LE 137-149; [args.force = ...]. *)
Definition f_le_set_build (build : str) : SM (cpe * loadenv) unit := on_object (le_set_build build).
Definition f_le_set_force (force : bool) : SM (cpe * loadenv) unit := on_object (le_set_force force).

(** [system_name], LE 157-166: a new [DetermineSystem] object is asked. *)
Definition f_le_system_name : SM (cpe * loadenv) str :=
  p <- on_object get ;;
  match l_system p with
  | Some s => ret s
  | None =>
      n <- of_res (fst (f_system_name (f_new_detsys systems_file (l_build p) (l_force p)))) ;;
      match n with
      | Some s =>
          on_object (modify (fun p =>
            LoadEnv (l_build p) (l_force p) (Some s) (l_parsed p) (l_stripped p) (l_ekp p))) ;;
          ret s
      | None => raise TypeError
      end
  end.

(** [load_env_keyword_parser], LE 175-177. *)
Definition set_ekp (k : option ekp) (p : loadenv) : loadenv :=
  LoadEnv (l_build p) (l_force p) (l_system p) (l_parsed p) (l_stripped p) k.
Definition f_le_load_ekp : SM (cpe * loadenv) ekp :=
  p <- on_object get ;;
  s <- f_le_system_name ;;
  k <- of_res (f_new_ekp envs_file (l_build p) s) ;;
  modify (fun p => (fst k, set_ekp (Some (snd k)) (snd p))) ;;
  ret (snd k).
Definition f_le_ekp : SM (cpe * loadenv) ekp :=
  p <- on_object get ;;
  match l_ekp p with Some k => ret k | None => f_le_load_ekp end.

(** [parsed_env_name], LE 202-207. *)
Definition on_ekp {A} (k : ekp) (m : SM (cpe * ekp) A) : SM (cpe * loadenv) A := fun p =>
  let (r, q) := m (fst p, k) in (r, (fst q, set_ekp (Some (snd q)) (snd p))).
Definition f_le_parsed_env_name : SM (cpe * loadenv) str :=
  p <- on_object get ;;
  match l_parsed p with
  | Some n => ret n
  | None =>
      k <- f_le_ekp ;;
      n <- on_ekp k f_qualified_env_name ;;
      on_object (modify (fun p => LoadEnv (l_build p) (l_force p) (l_system p) (Some n) (l_stripped p) (l_ekp p))) ;;
      ret n
  end.

(** [env_stripped_build_name], LE 291-314; line 311 asks the [DetermineSystem]
    object once for every word. *)
Fixpoint f_not_systems (l : list str) : SM cpe (list str) :=
  match l with
  | [] => ret []
  | w :: l' =>
      names <- f_sys_names ;;
      rest <- f_not_systems l' ;;
      ret (if str_mem w names then rest else w :: rest)
  end.
Definition f_le_stripped : SM (cpe * loadenv) str :=
  p <- on_object get ;;
  match l_stripped p with
  | Some n => ret n
  | None =>
      k <- f_le_ekp ;;
      let l := split_on 95%N (l_build p) in
      let l := filter (fun w => negb (str_mem w (e_names k))) l in
      let l := filter (fun w => negb (str_mem w (e_aliases k))) l in
      l <- of_res (fst (f_not_systems l (open_ini systems_file))) ;;
      let n := join [95%N] l in
      on_object (modify (fun p => LoadEnv (l_build p) (l_force p) (l_system p) (l_parsed p) (Some n) (l_ekp p))) ;;
      ret n
  end.

(** ** [GenConfig]

    The names of the sections of [config-specs.ini] are a parameter as in
    [LoadEnv.v]; in [FilePrograms.v] they are read from the file. *)
Variable flags_file : str.
Variable specs : list str.

(** The object with the parsers of its [config_keyword_parser] and of the
    [env_keyword_parser] of its [load_env], if there are any. *)
Record fgen := FGen { fg_flags : cpe; fg_envs : cpe; fg : genconfig }.
Definition f_new_genconfig (build : str) (force : bool) : fgen :=
  FGen (open_ini flags_file) (open_ini envs_file) (new_genconfig build force).
Definition on_gen {A} (m : SM genconfig A) : SM fgen A := fun p =>
  let (r, g) := m (fg p) in (r, FGen (fg_flags p) (fg_envs p) g).

(** [load_config_keyword_parser], GC 244-248, and [load_load_env], GC 266-267. *)
Definition f_load_ckp : SM fgen unit :=
  p <- on_gen get ;;
  match g_ckp p with
  | Some _ => ret tt
  | None =>
      k <- of_res (f_new_ckp flags_file (g_build p)) ;;
      modify (fun p => FGen (fst k) (fg_envs p)
        (GenConfig (g_build (fg p)) (g_force (fg p)) (Some (snd k)) (g_le (fg p)) (g_config (fg p)) (g_valid (fg p))))
  end.
Definition f_load_le : SM fgen unit := on_gen load_le.

(** A call on one of the two objects. *)
Definition f_on_ckp {A} (m : SM (cpe * ckp) A) : SM fgen A := fun p =>
  match g_ckp (fg p) with
  | Some k =>
      let (r, q) := m (fg_flags p, k) in
      (r, FGen (fst q) (fg_envs p)
            (GenConfig (g_build (fg p)) (g_force (fg p)) (Some (snd q)) (g_le (fg p)) (g_config (fg p)) (g_valid (fg p))))
  | None => (Err AttributeError, p)
  end.
Definition f_on_le {A} (m : SM (cpe * loadenv) A) : SM fgen A := fun p =>
  match g_le (fg p) with
  | Some k =>
      let (r, q) := m (fg_envs p, k) in
      (r, FGen (fg_flags p) (fst q)
            (GenConfig (g_build (fg p)) (g_force (fg p)) (g_ckp (fg p)) (Some (snd q)) (g_config (fg p)) (g_valid (fg p))))
  | None => (Err AttributeError, p)
  end.

(** [complete_config], GC 162-175. *)
Definition f_complete_config : SM fgen str :=
  p <- on_gen get ;;
  match g_config p with
  | Some c => ret c
  | None =>
      f_load_ckp ;;
      f_load_le ;;
      n <- f_on_le f_le_parsed_env_name ;;
      s <- f_on_ckp f_selected_options_str ;;
      let c := n ++ s in
      on_gen (modify (fun p => GenConfig (g_build p) (g_force p) (g_ckp p) (g_le p) (Some c) (g_valid p))) ;;
      ret c
  end.

(** The loop of [validate_config_specs_ini], GC 190-214. *)
Fixpoint f_check_sections (l : list str) : SM fgen (list (str * str)) :=
  match l with
  | [] => ret []
  | s :: l' =>
      if str_eqb (upper s) s then f_check_sections l'
      else
        f_on_le (f_le_set_build s) ;;
        f_on_ckp (f_set_build_name s) ;;
        o <- f_on_ckp f_selected_options_str ;;
        n <- f_on_le f_le_parsed_env_name ;;
        rest <- f_check_sections l' ;;
        ret (if str_eqb (n ++ o) s then rest else (s, n ++ o) :: rest)
  end.

(** [validate_config_specs_ini], GC 178-236. *)
Definition f_validate : SM fgen unit :=
  f_load_ckp ;;
  f_load_le ;;
  f_on_le (f_le_set_force true) ;;
  bad <- f_check_sections specs ;;
  match bad with
  | _ :: _ => raise ValueError
  | [] =>
      p <- on_gen get ;;
      f_on_le (f_le_set_build (g_build p)) ;;
      f_on_le (f_le_set_force (g_force p)) ;;
      f_on_ckp (f_set_build_name (g_build p)) ;;
      on_gen (modify (fun p => GenConfig (g_build p) (g_force p) (g_ckp p) (g_le p) (g_config p) true))
  end.

(** [generated_config_flags_str], GC 54-65, as in [LoadEnv.v]. *)
Variable gen : str -> res (list str).
Definition f_generated_flags : SM fgen (list str) :=
  p <- on_gen get ;;
  (if g_valid p then ret tt else f_validate) ;;
  c <- f_complete_config ;;
  of_res (gen c).

(** [list_configs], GC 139-148: what is listed. *)
Definition f_list_configs : SM fgen (list str) :=
  f_load_le ;;
  n <- f_on_le f_le_system_name ;;
  ret (filter (starts_with n) specs).
End Objects.
