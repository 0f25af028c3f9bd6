(** * The command lines of [wip/loadenv/load_env.py] and [wip/genconfig/gen_config.py].

    [argparse] of Python 3.11, as far as these two programs use it: options that
    store a constant, options with one value, [--help], and one positional argument
    with [nargs="?"] and the default [""]. Names of functions and methods are those
    of [argparse.py]; line numbers refer to the programs. Messages are not
    modelled. Positions in the command line are kept as the rest of the line. *)
From Coq Require Import String NArith List Bool.
Import ListNotations.
From Verif Require Import PyBase.

(** [action="store_true"] and ["store_false"]; ["store"] with
    [type=lambda p: Path(p).resolve()]; the help. *)
Inductive kind := KFlag (v : bool) | KStore | KHelp.
Record opt := Opt { o_strings : list str; o_dest : str; o_kind : kind }.
(** Values in the namespace; [VList] only if several words were given for [nargs="?"]. *)
Inductive aval := VBool (b : bool) | VNone | VPath (p : str) | VStr (s : str) | VList (l : list str).
Definition namespace := dict aval.
(** [parser.error] ends the program with status 2, the help with 0. *)
Inductive outcome (A : Type) := Done (a : A) | Exit (n : N) | Stuck.
Arguments Done {A}. Arguments Exit {A}. Arguments Stuck {A}.
Definition obind {A B} (m : outcome A) (k : A -> outcome B) : outcome B :=
  match m with Done a => k a | Exit n => Exit n | Stuck => Stuck end.

(** [s.partition("=")]: the text before the first ["="], and after it if there is one. *)
Fixpoint partition_eq (s : str) : str * option str :=
  match s with
  | [] => ([], None)
  | c :: r => if N.eqb c 61 then ([], Some r) else let (a, b) := partition_eq r in (c :: a, b)
  end.

(** The kind of an argument in [_parse_known_args]: an option with its tuple, a
    word, or the first ["--"]. *)
Definition tuple := (option opt * str * option str * option str)%type.
Inductive cls := CO (t : tuple) | CA | CDash.

Section Parser.
(** [\d] outside ASCII. *)
Variable uni_digit : pychar -> bool.
(** [Path(p).resolve()]. *)
Variable resolve : str -> str.
(** The options in the order in which they were added; the positional argument. *)
Variable options : list opt.
Variable positional : str.

(** [self._option_string_actions]. *)
Definition option_strings : dict opt := flat_map (fun o => map (fun s => (s, o)) (o_strings o)) options.

(** [_negative_number_matcher]: [^-\d+$|^-\d*\.\d+$]. *)
Definition digit (c : pychar) : bool := (N.leb 48 c && N.leb c 57) || (N.ltb 127 c && uni_digit c).
Definition but_newline (s : str) : str := match rev s with c :: r => if N.eqb c 10 then rev r else s | [] => s end.
Definition some_digits (s : str) : bool := match s with [] => false | _ => forallb digit s end.
Fixpoint point_digits (s : str) : bool :=
  match s with
  | [] => false
  | c :: r => if N.eqb c 46 then some_digits r else digit c && point_digits r
  end.
Definition negative_number (s : str) : bool :=
  match s with
  | c :: r => N.eqb c 45 && (some_digits (but_newline r) || point_digits (but_newline r))
  | [] => false
  end.
Definition has_negative_number_optionals : bool := existsb (fun p => negative_number (fst p)) option_strings.

(** [_get_option_tuples]; the text begins with ["-"] and has two characters. *)
Definition get_option_tuples (w : str) : list tuple :=
  if N.eqb (nth 1 w 0%N) 45 then
    let (pre, e) := partition_eq w in
    flat_map (fun p => if starts_with pre (fst p)
                       then [(Some (snd p), fst p, match e with Some _ => Some $"=" | None => None end, e)] else [])
      option_strings
  else
    flat_map (fun p => if str_eqb (fst p) (firstn 2 w) then [(Some (snd p), fst p, Some [], Some (skipn 2 w))]
                       else if starts_with w (fst p) then [(Some (snd p), fst p, None, None)] else [])
      option_strings.

(** [_parse_optional]; [None] for a word. *)
Definition parse_optional (w : str) : outcome (option tuple) :=
  match w with
  | [] => Done None
  | c :: r =>
      if negb (N.eqb c 45) then Done None else
      match dget w option_strings with
      | Some o => Done (Some (Some o, w, None, None))
      | None =>
          match r with
          | [] => Done None
          | _ =>
              let (n, e) := partition_eq w in
              match (match e with Some _ => dget n option_strings | None => None end) with
              | Some o => Done (Some (Some o, n, Some $"=", e))
              | None =>
                  match get_option_tuples w with
                  | _ :: _ :: _ => Exit 2%N
                  | [t] => Done (Some t)
                  | [] =>
                      if negative_number w && negb has_negative_number_optionals then Done None
                      else if char_mem 32%N w then Done None
                      else Done (Some (None, w, None, None))
                  end
              end
          end
      end
  end.

(** [_parse_known_args]: the pattern. *)
Fixpoint classify (args : list str) : outcome (list (str * cls)) :=
  match args with
  | [] => Done []
  | w :: rest =>
      if str_eqb w $"--" then Done ((w, CDash) :: map (fun x => (x, CA)) rest)
      else obind (parse_optional w) (fun t => obind (classify rest) (fun l =>
             Done ((w, match t with Some t => CO t | None => CA end) :: l)))
  end.

(** [take_action] for an option. *)
Definition take_action (o : opt) (arg : option str) (ns : namespace) : outcome namespace :=
  match o_kind o with
  | KFlag v => Done (dset (o_dest o) (VBool v) ns)
  | KStore => match arg with Some a => Done (dset (o_dest o) (VPath (resolve a)) ns) | None => Stuck end
  | KHelp => Exit 0%N
  end.
Fixpoint take_actions (l : list (opt * option str)) (ns : namespace) : outcome namespace :=
  match l with
  | [] => Done ns
  | (o, a) :: l => obind (take_action o a ns) (take_actions l)
  end.
Definition takes_value (o : opt) : bool := match o_kind o with KStore => true | _ => false end.

(** The loop of [consume_optional] while there is an explicit argument: the
    actions, the text that is no option, and the option that is left without an
    explicit argument. *)
Fixpoint explicit_loop (o : opt) (option_string : str) (sep explicit : str) {struct explicit} :
    outcome (list (opt * option str) * list str * option opt) :=
  if takes_value o then Done ([(o, Some explicit)], [], None) else
  match explicit with
  | c :: r =>
      if negb (N.eqb (nth 1 option_string 0%N) 45) then
        if negb (str_eqb sep []) || N.eqb c 45 then Exit 2%N else
        let option_string' := [nth 0 option_string 0%N; c] in
        match dget option_string' option_strings with
        | Some o' =>
            obind (match r with
                   | [] => Done ([], [], Some o')
                   | d :: r' => if N.eqb d 61 then explicit_loop o' option_string' $"=" r'
                                else explicit_loop o' option_string' [] r
                   end)
              (fun x => Done ((o, None) :: fst (fst x), snd (fst x), snd x))
        | None => Done ([(o, None)], [nth 0 option_string 0%N :: explicit], None)
        end
      else Exit 2%N
  | [] => Exit 2%N
  end.

(** [consume_optional]: the rest of the line, the extras and the namespace after it. *)
Definition consume_optional (w : str) (t : tuple) (rest : list (str * cls)) (extras : list str) (ns : namespace) :
    outcome (list (str * cls) * list str * namespace) :=
  let '(action, option_string, sep, explicit) := t in
  match action with
  | None => Done (rest, extras ++ [w], ns)
  | Some o =>
      obind (match explicit with
             | Some e => explicit_loop o option_string (match sep with Some s => s | None => [] end) e
             | None => Done ([], [], Some o)
             end) (fun x =>
      let '(l, more, last) := x in
      match last with
      | None => obind (take_actions l ns) (fun ns => Done (rest, extras ++ more, ns))
      | Some o =>
          if takes_value o then
            match rest with
            | (v, CA) :: rest => obind (take_actions (l ++ [(o, Some v)]) ns) (fun ns => Done (rest, extras ++ more, ns))
            | _ => Exit 2%N
            end
          else obind (take_actions (l ++ [(o, None)]) ns) (fun ns => Done (rest, extras ++ more, ns))
      end)
  end.

(** The number of arguments that the pattern for [nargs="?"] matches: dashes, a
    word, dashes, where each may be missing. *)
Fixpoint dashes (l : list (str * cls)) : nat := match l with (_, CDash) :: l => S (dashes l) | _ => 0 end.
Definition match_optional (l : list (str * cls)) : nat :=
  let n := dashes l in
  match skipn n l with
  | (_, CA) :: r => n + S (dashes r)
  | r => n + dashes r
  end.
(** [arg_strings.remove("--")] *)
Fixpoint remove_dashes (l : list str) : list str :=
  match l with
  | [] => []
  | w :: l => if str_eqb w $"--" then l else w :: remove_dashes l
  end.
(** [_get_values] for the positional argument. *)
Definition positional_value (l : list str) : aval :=
  match remove_dashes l with
  | [] => VStr []
  | [w] => VStr w
  | l => VList l
  end.
(** [consume_positionals]; [left]: whether the positional argument is still left. *)
Definition consume_positionals (rest : list (str * cls)) (left : bool) (ns : namespace) : list (str * cls) * namespace :=
  if left then
    (skipn (match_optional rest) rest, dset positional (positional_value (map fst (firstn (match_optional rest) rest))) ns)
  else (rest, ns).

Definition is_option (p : str * cls) : bool := match snd p with CO _ => true | _ => false end.
Fixpoint before_option (l : list (str * cls)) : list str * list (str * cls) :=
  match l with
  | [] => ([], [])
  | p :: r => if is_option p then ([], l) else let (a, b) := before_option r in (fst p :: a, b)
  end.

(** The loop of [_parse_known_args] and what follows it: the namespace and the
    extras. [Stuck] when the fuel is used up. *)
Fixpoint parse_loop (fuel : nat) (rest : list (str * cls)) (left : bool) (extras : list str) (ns : namespace) :
    outcome (namespace * list str) :=
  match fuel with
  | 0 => Stuck
  | S fuel =>
      if negb (existsb is_option rest) then
        let (rest, ns) := consume_positionals rest left ns in
        Done (ns, extras ++ map fst rest)
      else
        let optional left ns :=
          match before_option rest with
          | (strings, (w, CO t) :: rest) =>
              obind (consume_optional w t rest (extras ++ strings) ns) (fun x =>
                let '(rest, extras, ns) := x in parse_loop fuel rest left extras ns)
          | _ => Stuck
          end in
        match rest with
        | (_, CO _) :: _ => optional left ns
        | _ =>
            let (rest', ns') := consume_positionals rest left ns in
            if Nat.ltb (length rest') (length rest) then parse_loop fuel rest' false extras ns'
            else optional false ns'
        end
  end.

(** The defaults: [parse_known_args]. *)
Definition default_of (o : opt) : list (str * aval) :=
  match o_kind o with
  | KFlag _ => [(o_dest o, VBool false)]
  | KStore => [(o_dest o, VNone)]
  | KHelp => []
  end.
Definition defaults : namespace := (positional, VStr []) :: flat_map default_of options.

(** [parse_args] *)
Definition parse_args (args : list str) : outcome namespace :=
  obind (classify args) (fun l =>
  obind (parse_loop (S (length l)) l true [] defaults) (fun x =>
    match snd x with [] => Done (fst x) | _ => Exit 2%N end)).
End Parser.

(** [add_help=True] *)
Definition help_option : opt := Opt [$"-h"; $"--help"] $"help" KHelp.

(** [LoadEnv.__parser], load_env.py 419-520. *)
Definition load_options : list opt :=
  [help_option;
   Opt [$"-l"; $"--list-envs"] $"list_envs" (KFlag true);
   Opt [$"-o"; $"--output"] $"output" KStore;
   Opt [$"-f"; $"--force"] $"force" (KFlag true);
   Opt [$"--supported-systems"] $"supported_systems_file" KStore;
   Opt [$"--supported-envs"] $"supported_envs_file" KStore;
   Opt [$"--environment-specs"] $"environment_specs_file" KStore;
   Opt [$"--ci-mode"] $"do_not_use_this_ci_mode_argument_in_load_env_python_code" (KFlag false);
   Opt [$"--load-matching-env-location"] $"load_matching_env_location" KStore].
Definition load_parse (uni_digit : pychar -> bool) (resolve : str -> str) (args : list str) : outcome namespace :=
  parse_args uni_digit resolve load_options $"build_name" args.

(** [GenConfig.__parser], gen_config.py 418-496. *)
Definition gen_options : list opt :=
  [help_option;
   Opt [$"-l"; $"--list-configs"] $"list_configs" (KFlag true);
   Opt [$"--list-config-flags"] $"list_config_flags" (KFlag true);
   Opt [$"--cmake-fragment"] $"cmake_fragment" KStore;
   Opt [$"-f"; $"--force"] $"force" (KFlag true);
   Opt [$"-y"; $"--yes"] $"yes" (KFlag true);
   Opt [$"--ci-mode"] $"ci_mode" (KFlag true);
   Opt [$"--save-load-env-args"] $"save_load_env_args" KStore;
   Opt [$"--supported-config-flags"] $"supported_config_flags_file" KStore;
   Opt [$"--config-specs"] $"config_specs_file" KStore;
   Opt [$"--supported-systems"] $"supported_systems_file" KStore;
   Opt [$"--supported-envs"] $"supported_envs_file" KStore;
   Opt [$"--environment-specs"] $"environment_specs_file" KStore].
Definition gen_parse (uni_digit : pychar -> bool) (resolve : str -> str) (args : list str) : outcome namespace :=
  parse_args uni_digit resolve gen_options $"build_name" args.
