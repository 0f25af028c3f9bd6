(** * The view [ConfigParserEnhanced] has of a loaded [configparser.ConfigParser].

    Python 3.11 [configparser.py]: [has_section], [__getitem__], [options],
    [SectionProxy.items] (from [Mapping]) and [BasicInterpolation].
    The parser is created by [ConfigParserEnhanced.py:246-253] with
    [allow_no_value=True], [optionxform = str] and
    [default_section = _internal_default_section_name]. *)
From Coq Require Import String NArith List Bool.
Import ListNotations.
From Verif Require Import PyBase.

(** Loaded data: [_sections], [_defaults], [default_section].
    A value is [None] for an option without delimiter. *)
Definition options := dict (option str).
Record ini := Ini {
  i_secs : dict options;
  i_defs : options;
  i_defname : str
}.

(** [RawConfigParser.sections()] / [has_section]: the default section is not
    included. *)
Definition ini_sections (i : ini) : list str := dkeys (i_secs i).
Definition ini_has_section (i : ini) (s : str) : bool := dmem s (i_secs i).

(** [_unify_values]: the section's own options, then the defaults
    ([ChainMap(vars, sectiondict, self._defaults)]). *)
Definition ini_lookup (i : ini) (own : options) (k : str) : option (option str) :=
  match dget k own with
  | Some v => Some v
  | None => dget k (i_defs i)
  end.

(** ** [BasicInterpolation._interpolate_some] *)

(** [rest.find("%")] then slicing: the text before the first ['%'] and the rest
    starting at it. *)
Fixpoint split_percent (s : str) : str * str :=
  match s with
  | [] => ([], [])
  | c :: s' => if N.eqb c 37 then ([], s)
               else let (a, b) := split_percent s' in (c :: a, b)
  end.

(** The body of [_KEYCRE = %\(([^)]+)\)s] after ["%("]: the name up to the first
    [')'], which must be non-empty and followed by ['s']. *)
Fixpoint take_name (s : str) : option (str * str) :=
  match s with
  | [] => None
  | c :: s' => if N.eqb c 41 then Some ([], s')
               else match take_name s' with
                    | Some (n, r) => Some (c :: n, r)
                    | None => None
                    end
  end.
Definition keycre (s : str) : option (str * str) :=
  match take_name s with
  | Some (c :: n, t :: r) => if N.eqb t 115 then Some (c :: n, r) else None
  | _ => None
  end.

(** The [while rest] loop; each round shortens [rest], so [fuel] (the length of
    the text) does not run out. [rec] is the recursive call at the next depth. *)
Fixpoint interp_loop (look : str -> option (option str)) (rec : str -> res str)
  (fuel : nat) (rest : str) : res str :=
  match fuel with
  | O => Err RecursionError      (* model only: never reached *)
  | S fuel' =>
      match rest with
      | [] => Ok []
      | _ =>
          let (pre, rest1) := split_percent rest in
          let continue (piece : str) (r : str) :=
            match interp_loop look rec fuel' r with
            | Ok tl => Ok (pre ++ piece ++ tl)
            | Err e => Err e
            end in
          match rest1 with
          | [] => Ok pre
          | [_] => Err InterpolationSyntaxError
          | _ :: c :: r =>
              if N.eqb c 37 then continue [37%N] r
              else if N.eqb c 40 then
                match keycre r with
                | None => Err InterpolationSyntaxError
                | Some (var, r') =>
                    match look var with
                    | None => Err InterpolationMissingOptionError
                    | Some None => Err TypeError   (* "%" in None *)
                    | Some (Some v) =>
                        if char_mem 37%N v then
                          match rec v with
                          | Ok v' => continue v' r'
                          | Err e => Err e
                          end
                        else continue v r'
                    end
                end
              else Err InterpolationSyntaxError
          end
      end
  end.

(** [depth] counts down from [MAX_INTERPOLATION_DEPTH] = 10. *)
Fixpoint interp_some (look : str -> option (option str)) (depth : nat) (rest : str) : res str :=
  match depth with
  | O => Err InterpolationDepthError
  | S depth' => interp_loop look (interp_some look depth') (S (length rest)) rest
  end.

Definition max_interpolation_depth : nat := 10.

(** [RawConfigParser.get]: [None] is returned as is, other values are
    interpolated. *)
Definition ini_get (i : ini) (own : options) (v : option str) : res (option str) :=
  match v with
  | None => Ok None
  | Some s => match interp_some (ini_lookup i own) max_interpolation_depth s with
              | Ok s' => Ok (Some s')
              | Err e => Err e
              end
  end.

(** [configparserdata[section].items()]: keys are the section's own followed by
    the defaults it does not have ([options()]); each value is computed when the
    iteration reaches it, so a failing interpolation is a per-item result.
    [None] is the [KeyError] of [configparserdata[section]]; the default section
    itself can be indexed. *)
Definition own_options (i : ini) (s : str) : option options :=
  if str_eqb s (i_defname i) then Some []
  else dget s (i_secs i).

Definition section_raw (i : ini) (own : options) : options :=
  own ++ filter (fun kv => negb (dmem (fst kv) own)) (i_defs i).

Definition ini_items (i : ini) (s : str) : option (list (str * res (option str))) :=
  match own_options i s with
  | None => None
  | Some own => Some (map (fun kv => (fst kv, ini_get i own (snd kv))) (section_raw i own))
  end.
