(** * Messages: [wip/keywordparser/keywordparser/FormattedMsg.py], and the lists that
    [load_env.py --list-envs], [gen_config.py --list-configs] and
    [gen_config.py --list-config-flags] print. *)
From Coq Require Import String NArith List Bool Arith.
Import ListNotations.
From Verif Require Import PyBase EnvVar Regex Keyword DetSys EnvKeyword LoadEnv.
Local Open Scope sm_scope.

(** ** [str.splitlines()] (CPython [_PyUnicode_IsLinebreak]); [cur] is the line so far,
    reversed *)
Definition line_end (c : pychar) : bool := existsb (N.eqb c) [10; 11; 12; 13; 28; 29; 30; 133; 8232; 8233]%N.
Fixpoint splitlines_from (cur s : str) : list str :=
  match s with
  | [] => if empty_str cur then [] else [rev cur]
  | c :: s' =>
      if line_end c then
        rev cur :: match s' with
                   | d :: s'' => if N.eqb c 13 && N.eqb d 10 then splitlines_from [] s'' else splitlines_from [] s'
                   | [] => []
                   end
      else splitlines_from (c :: cur) s'
  end.
Definition splitlines (s : str) : list str := splitlines_from [] s.

(** ** [re.sub(r, repl, s)] for a [repl] without references (CPython [pattern_subx]) *)
Fixpoint sub_from (total n : nat) (must : bool) (r : re) (repl s : str) : str :=
  match n with
  | O => s
  | S n' =>
      match match_at total must r s with
      | Some (s', _) => repl ++ sub_from total n' (Nat.eqb (length s') (length s)) r repl s'
      | None => match s with [] => [] | c :: t => c :: sub_from total n' false r repl t end
      end
  end.
Definition re_sub (r : re) (repl s : str) : str := sub_from (length s) (2 * length s + 2) false r repl s.

(** ** [FormattedMsg] *)

(** [\s+\n], 31. *)
Definition trailing_re : re := RSeq (RSet is_space) (RSeq (RStar true (RSet is_space)) (is_char 10%N)).

(** The two loops of [get_formatted_msg], 23-29. *)
Fixpoint msg_loop (kind : str) (idx : nat) (lines : list str) (msg : str) : str :=
  match lines with
  | [] => msg
  | line :: lines' =>
      msg_loop kind (S idx) lines'
        (match idx with
         | O => $"|   " ++ kind ++ $":  " ++ line ++ newline
         | S _ => msg ++ $"|           " ++ line ++ newline
         end)
  end.
Fixpoint extras_loop (extras : list str) (msg : str) : str :=
  match extras with
  | [] => msg
  | extra :: extras' => extras_loop extras' (msg ++ $"|   " ++ extra ++ newline)
  end.
(** [get_formatted_msg], 23-33. *)
Definition get_formatted_msg (msg kind extras : str) : str :=
  let msg := msg_loop kind 0 (splitlines msg) msg in
  let msg := extras_loop (splitlines extras) msg in
  let msg := newline ++ $"+" ++ repeat 61%N 78 ++ $"+" ++ newline ++ msg ++ $"+" ++ repeat 61%N 78 ++ $"+" ++ newline in
  re_sub trailing_re newline msg.

(** [get_msg_for_list], 58-63. *)
Fixpoint items_loop (items : list str) (acc : str) : str :=
  match items with
  | [] => acc
  | item :: items' => items_loop items' (acc ++ $"  - " ++ item ++ newline)
  end.
Definition get_msg_for_list (msg : str) (item_list : list str) (kind extras : str) : str :=
  get_formatted_msg msg kind (items_loop item_list [] ++ extras).

(** ** [EnvKeywordParser.get_msg_showing_supported_environments], 214-233; [rel] is
    [os.path.relpath(self.config_filename, ".")] *)
Section Envs.
Variable envs : str -> res (dict (option str)).
Fixpoint aliases_loop (aliases : list str) (acc : str) : str :=
  match aliases with
  | [] => acc
  | a :: aliases' => aliases_loop aliases' (acc ++ $"      - " ++ a ++ newline)
  end.
Fixpoint envs_loop (system : str) (names : list str) (acc : str) : res str :=
  match names with
  | [] => Ok acc
  | n :: names' =>
      l <~ get_values envs system n ;
      let aliases := sorted l in
      let acc := acc ++ $"  - " ++ n ++ newline in
      let acc := acc ++ (if Nat.ltb 0 (length aliases) then $"    * Aliases:" ++ newline else []) in
      envs_loop system names' (aliases_loop aliases acc)
  end.
Definition supported_envs_msg (rel msg kind : str) (p : ekp) : res str :=
  extras <~ envs_loop (e_system p) (sorted (e_names p))
              (newline ++ $"- Supported Environments for '" ++ e_system p ++ $"':" ++ newline) ;
  let extras := extras ++ newline ++ $"See `" ++ rel ++ $"` for details on the available environments." ++ newline in
  let extras := extras ++ newline in
  let extras := extras ++ $"To force-load an environment see the guidance in the `--help` output." ++ newline in
  let extras := extras ++ newline in
  Ok (get_formatted_msg msg kind extras).
End Envs.

(** ** [ConfigKeywordParser.get_msg_showing_supported_flags], 234-249; [file] is
    [str(self.config_filename)] *)
Section Flags.
Variable flags : str -> res (dict (option str)).
Fixpoint options_loop (idx : nat) (options : list str) (acc : str) : str :=
  match options with
  | [] => acc
  | o :: options' =>
      options_loop (S idx) options'
        (acc ++ $"      - " ++ o ++ (match idx with O => $" (default)" | S _ => [] end) ++ newline)
  end.
Fixpoint flags_loop (names : list str) (acc : str) : res str :=
  match names with
  | [] => Ok acc
  | f :: names' =>
      ot <~ flag_options flags f ;
      let (options, flag_type) := ot in
      let acc := acc ++ $"  - " ++ f ++ newline in
      let s := if Nat.ltb 0 (length options) then $"s" else [] in
      let acc := acc ++ $"    * Option" ++ s ++ $" (" ++ flag_type ++ $"):" ++ newline in
      flags_loop names' (options_loop 0 options acc)
  end.
Definition supported_flags_msg (file msg kind : str) (p : ckp) : res str :=
  extras <~ flags_loop (c_flags p) (newline ++ $"- Supported Flags Are:" ++ newline) ;
  let extras := extras ++ newline ++ $"See " ++ file ++ $" for details." in
  Ok (get_formatted_msg msg kind extras).
End Flags.

(** ** What the programs print *)
Section Lists.
Variable other_re : str -> str -> res bool.
Variable systems : list (str * list str).
Variable hostname : str.
Variable envs flags : str -> res (dict (option str)).
Variable specs : list str.

(** [LoadEnv.list_envs], load_env.py 188-192. *)
Definition list_envs_text (rel : str) : SM loadenv str :=
  k <- le_ekp other_re systems hostname envs ;;
  of_res (supported_envs_msg envs rel $"Please select one of the following." $"INFO" k).
(** [GenConfig.list_config_flags], gen_config.py 121-128. *)
Definition list_flags_text (file : str) : SM genconfig str :=
  load_ckp flags ;;
  p <- get ;;
  match g_ckp p with
  | Some k => of_res (supported_flags_msg flags file $"Please select one of the following." $"INFO" k)
  | None => raise AttributeError
  end.
(** [GenConfig.list_configs], gen_config.py 139-153; [file] is
    [str(self.args.config_specs_file)]. *)
Definition list_configs_text (file : str) : SM genconfig str :=
  l <- list_configs other_re systems hostname specs ;;
  ret (get_msg_for_list ($"Please select one of the following complete configurations from" ++ newline ++ file ++ newline ++ newline)
         l $"INFO" newline).
End Lists.
