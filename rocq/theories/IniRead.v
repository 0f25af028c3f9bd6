(** * The reader: [ConfigParser.read] / [RawConfigParser._read] of Python 3.11,
    with the options the repository passes ([allow_no_value=True],
    [optionxform=str], [strict=True], [empty_lines_in_values=True], comment
    prefixes ['#'] and [';'], no inline comments).
    Called by [ConfigParserEnhanced.py:283]. *)
From Coq Require Import String NArith Arith List Bool.
Import ListNotations.
From Verif Require Import PyBase IniView.

(** ** Text to lines *)

(** Universal newlines of [open(..., 'r')]: CR LF and CR become LF. *)
Fixpoint translate_newlines (s : str) : str :=
  match s with
  | [] => []
  | c :: s' =>
      if N.eqb c 13 then
        match s' with
        | d :: s'' => if N.eqb d 10 then 10%N :: translate_newlines s''
                      else 10%N :: translate_newlines s'
        | [] => [10%N]
        end
      else c :: translate_newlines s'
  end.

(** Iterating over a text file; the line terminator is dropped since the reader
    strips each line before looking at it. A final empty line does not exist. *)
Fixpoint split_lines_aux (cur : str) (s : str) : list str :=
  match s with
  | [] => match cur with [] => [] | _ => [rev cur] end
  | c :: s' => if N.eqb c 10 then rev cur :: split_lines_aux [] s'
               else split_lines_aux (c :: cur) s'
  end.
Definition text_lines (s : str) : list str := split_lines_aux [] (translate_newlines s).

(** ** Regular expressions *)

(** [SECTCRE = \[(?P<header>.+)\]] with [match] on the stripped line: greedy, so
    the header runs to the last [']'] and must be non-empty.
    [last_bracket s] is the text before the last [']'] of [s]. *)
Fixpoint last_bracket (s : str) : option str :=
  match s with
  | [] => None
  | c :: s' => match last_bracket s' with
               | Some h => Some (c :: h)
               | None => if N.eqb c 93 then Some [] else None
               end
  end.
Definition sectcre (line : str) : option str :=
  match line with
  | b :: s' => if N.eqb b 91 then
                 match last_bracket s' with
                 | Some (c :: h) => Some (c :: h)
                 | _ => None
                 end
               else None
  | [] => None
  end.

(** [_OPT_NV_TMPL] ([configparser.py] line 585): a lazy [option] group, white
    space, then optionally one of the delimiters, white space and the [value]
    group, then the end of the line.
    [match_delim] tries the alternatives in order and returns what follows;
    [opt_at] tries, for one length of [option], the run of white space from its
    longest to its shortest; [optcre] takes the shortest [option]. *)
Fixpoint match_delim (delims : list str) (s : str) : option str :=
  match delims with
  | [] => None
  | d :: ds => if starts_with d s then Some (skipn (length d) s) else match_delim ds s
  end.

(** For no delimiters at all the joined pattern is empty and matches
    everywhere. *)
Definition match_vi (delims : list str) (s : str) : option str :=
  match delims with
  | [] => Some s
  | _ => match_delim delims s
  end.

(** Result: [None] no match; [Some None] match without value;
    [Some (Some v)] match with value [v]. *)
Fixpoint opt_at (delims : list str) (s : str) : option (option str) :=
  let here :=
    match match_vi delims s with
    | Some r => Some (Some (lstrip_ws r))
    | None => match s with [] => Some None | _ => None end
    end in
  match s with
  | c :: s' => if is_space c
               then match opt_at delims s' with
                    | Some r => Some r
                    | None => here
                    end
               else here
  | [] => here
  end.

Fixpoint optcre (delims : list str) (s : str) : option (str * option str) :=
  match opt_at delims s with
  | Some v => Some ([], v)
  | None =>
      match s with
      | [] => None
      | c :: s' => match optcre delims s' with
                   | Some (o, v) => Some (c :: o, v)
                   | None => None
                   end
      end
  end.

(** Index of the first non-blank character ([NONSPACECRE.search]). *)
Fixpoint indent (s : str) : nat :=
  match s with
  | [] => 0
  | c :: s' => if is_space c then S (indent s') else 0
  end.

(** ** The reading loop *)

(** A value under construction: a list of lines, or [None]; values of earlier
    files are already joined strings. *)
Inductive rval := RNone | RStr (s : str) | RLines (ls : list str).
Definition ropts := dict rval.

Inductive cursect := CurNone | CurDefaults | CurSec (n : str).

Record rstate := RState {
  r_secs : dict ropts;
  r_defs : ropts;
  r_cur : cursect;
  r_sectname : str;
  r_optname : option str;
  r_indent : nat;
  r_err : bool;                       (** [e is not None] *)
  r_addsec : list str;                (** [elements_added]: section names *)
  r_addopt : list (str * str)         (** [elements_added]: pairs *)
}.

Definition cur_opts (r : rstate) : ropts :=
  match r_cur r with
  | CurNone => []
  | CurDefaults => r_defs r
  | CurSec n => match dget n (r_secs r) with Some o => o | None => [] end
  end.

Definition set_cur_opts (r : rstate) (o : ropts) : rstate :=
  match r_cur r with
  | CurNone => r
  | CurDefaults => RState (r_secs r) o (r_cur r) (r_sectname r) (r_optname r)
                          (r_indent r) (r_err r) (r_addsec r) (r_addopt r)
  | CurSec n => RState (dset n o (r_secs r)) (r_defs r) (r_cur r) (r_sectname r)
                       (r_optname r) (r_indent r) (r_err r) (r_addsec r) (r_addopt r)
  end.

Definition pair_mem (a b : str) (l : list (str * str)) : bool :=
  existsb (fun p => str_eqb a (fst p) && str_eqb b (snd p)) l.

(** [optname] is truthy. *)
Definition opt_active (o : option str) : option str :=
  match o with Some (c :: k) => Some (c :: k) | _ => None end.

Definition cur_is_none (c : cursect) : bool :=
  match c with CurNone => true | _ => false end.

(** One line. [Err] is an exception raised on the spot; the state reached so far
    is kept ([finally: self._join_multiline_values()]). *)
Definition read_line (delims : list str) (defname : str) (line : str) (r : rstate)
  : res unit * rstate :=
  let stripped := strip_ws line in
  let comment := starts_with $"#" stripped || starts_with $";" stripped in
  let value := if comment then [] else stripped in
  match value with
  | [] =>
      (* empty line or comment *)
      if comment then (Ok tt, r)
      else if cur_is_none (r_cur r) then (Ok tt, r)
      else match opt_active (r_optname r) with
           | None => (Ok tt, r)
           | Some k =>
               match dget k (cur_opts r) with
               | Some (RLines ls) => (Ok tt, set_cur_opts r (dset k (RLines (ls ++ [[]])) (cur_opts r)))
               | Some RNone => (Ok tt, r)
               | Some (RStr _) => (Err AttributeError, r)   (* unreachable *)
               | None => (Err KeyError, r)                  (* unreachable *)
               end
           end
  | _ :: _ =>
      let cur_indent := indent line in
      match (if cur_is_none (r_cur r) then None
             else if r_indent r <? cur_indent then opt_active (r_optname r) else None) with
      | Some k =>
          (* continuation line *)
          match dget k (cur_opts r) with
          | Some (RLines ls) => (Ok tt, set_cur_opts r (dset k (RLines (ls ++ [value])) (cur_opts r)))
          | Some RNone => (Err AttributeError, r)           (* None.append *)
          | Some (RStr _) => (Err AttributeError, r)        (* unreachable *)
          | None => (Err KeyError, r)                       (* unreachable *)
          end
      | None =>
          let r1 := RState (r_secs r) (r_defs r) (r_cur r) (r_sectname r) (r_optname r)
                           cur_indent (r_err r) (r_addsec r) (r_addopt r) in
          match sectcre value with
          | Some name =>
              if dmem name (r_secs r1) then
                if str_mem name (r_addsec r1) then (Err DuplicateSectionError,
                  RState (r_secs r1) (r_defs r1) (r_cur r1) name (r_optname r1)
                         (r_indent r1) (r_err r1) (r_addsec r1) (r_addopt r1))
                else (Ok tt, RState (r_secs r1) (r_defs r1) (CurSec name) name None
                                    (r_indent r1) (r_err r1) (sadd name (r_addsec r1)) (r_addopt r1))
              else if str_eqb name defname then
                (Ok tt, RState (r_secs r1) (r_defs r1) CurDefaults name None
                               (r_indent r1) (r_err r1) (r_addsec r1) (r_addopt r1))
              else
                (Ok tt, RState (dset name [] (r_secs r1)) (r_defs r1) (CurSec name) name None
                               (r_indent r1) (r_err r1) (sadd name (r_addsec r1)) (r_addopt r1))
          | None =>
              if cur_is_none (r_cur r1) then (Err MissingSectionHeaderError, r1)
              else
                match optcre delims value with
                | None => (Ok tt, RState (r_secs r1) (r_defs r1) (r_cur r1) (r_sectname r1)
                                         (r_optname r1) (r_indent r1) true (r_addsec r1) (r_addopt r1))
                | Some (opt, val) =>
                    let err := match opt with [] => true | _ => r_err r1 end in
                    let opt' := rstrip_ws opt in
                    let r2 := RState (r_secs r1) (r_defs r1) (r_cur r1) (r_sectname r1)
                                     (Some opt') (r_indent r1) err (r_addsec r1) (r_addopt r1) in
                    if pair_mem (r_sectname r1) opt' (r_addopt r1)
                    then (Err DuplicateOptionError, r2)
                    else
                      let r3 := RState (r_secs r2) (r_defs r2) (r_cur r2) (r_sectname r2)
                                       (r_optname r2) (r_indent r2) (r_err r2) (r_addsec r2)
                                       ((r_sectname r2, opt') :: r_addopt r2) in
                      let v := match val with
                               | Some s => RLines [strip_ws s]
                               | None => RNone
                               end in
                      (Ok tt, set_cur_opts r3 (dset opt' v (cur_opts r3)))
                end
          end
      end
  end.

Fixpoint read_lines (delims : list str) (defname : str) (ls : list str) (r : rstate)
  : res unit * rstate :=
  match ls with
  | [] => (Ok tt, r)
  | l :: ls' => match read_line delims defname l r with
                | (Ok _, r') => read_lines delims defname ls' r'
                | (Err e, r') => (Err e, r')
                end
  end.

(** [_join_multiline_values]: ['\n'.join(val).rstrip()]. *)
Definition join_rval (v : rval) : option str :=
  match v with
  | RNone => None
  | RStr s => Some s
  | RLines ls => Some (rstrip_ws (join newline ls))
  end.
Definition join_opts (o : ropts) : options := map (fun kv => (fst kv, join_rval (snd kv))) o.

Definition to_rval (v : option str) : rval :=
  match v with None => RNone | Some s => RStr s end.
Definition to_ropts (o : options) : ropts := map (fun kv => (fst kv, to_rval (snd kv))) o.

(** [_read] of one file into an existing parser. *)
Definition read_file (delims : list str) (text : str) (i : ini) : res unit * ini :=
  let r0 := RState (map (fun so => (fst so, to_ropts (snd so))) (i_secs i))
                   (to_ropts (i_defs i)) CurNone [] None 0 false [] [] in
  let (out, r) := read_lines delims (i_defname i) (text_lines text) r0 in
  let i' := Ini (map (fun so => (fst so, join_opts (snd so))) (r_secs r))
                (join_opts (r_defs r)) (i_defname i) in
  match out with
  | Err e => (Err e, i')
  | Ok _ => (if r_err r then Err ParsingError else Ok tt, i')
  end.

(** [read(filenames)]: the files in order, stopping at the first exception. *)
Fixpoint read_files (delims : list str) (texts : list str) (i : ini) : res unit * ini :=
  match texts with
  | [] => (Ok tt, i)
  | t :: ts => match read_file delims t i with
               | (Ok _, i') => read_files delims ts i'
               | (Err e, i') => (Err e, i')
               end
  end.
