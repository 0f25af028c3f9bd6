(** * [wip/keywordparser/keywordparser/KeywordParser.py] and
    [wip/genconfig/src/config_keyword_parser.py].

    Messages are not modelled. [self.config[section]] is a function [conf] of the
    section: by C12 every lookup in a file that can be parsed gives the same
    answer, whatever was looked up before. *)
From Coq Require Import String NArith List Bool Arith.
Import ListNotations.
From Verif Require Import PyBase EnvVar Regex.
Local Open Scope sm_scope.

(** [sys.exit(msg)] *)
Definition SystemExit : exc := UserExc 1%N.

Definition rbind {A B} (m : res A) (k : A -> res B) : res B :=
  match m with Ok a => k a | Err e => Err e end.
Notation "x <~ m ; k" := (rbind m (fun x => k)) (at level 61, m at next level, right associativity).

(** ** [KeywordParser] *)

(** The expression of [get_values_for_section_key], 46: any number of comments
    (white space, as little as possible, a [#] with the rest of its line and the
    line ends after it), then the value, as the group: no [#], [^] or line end.
    (The [^] inside the brackets is one of the excluded characters.) *)
Definition comment_re : re :=
  RSeq (RStar false (RSet is_space))
    (RSeq (is_char 35%N) (RSeq (RStar true (RSet (fun c => negb (N.eqb c 10)))) (RStar true (is_char 10%N)))).
Definition value_char (c : pychar) : bool := negb (existsb (N.eqb c) [35; 94; 10]%N).
Definition values_re : re :=
  RSeq (RStar true comment_re) (RGroup (RStar true (RSet value_char))).

(** Lines 45-47 and 76. *)
Definition values_list (text : str) : list str :=
  map strip_ws (filter (fun v => negb (empty_str v)) (findall values_re text)).

(** [values_list.count(x)]; [duplicates], 105 and [config_keyword_parser.py] 163:
    only whether there are any matters. *)
Definition count (x : str) (l : list str) : nat := length (filter (str_eqb x) l).
Definition has_duplicates (l : list str) : bool := existsb (fun x => Nat.ltb 1 (count x l)) l.

(** [assert_values_do_not_contain_whitespace_or_delimiter], 129-132. *)
Definition bad_value (v : str) : bool :=
  (char_mem 32%N v || char_mem 95%N v) && negb (str_mem v [$"SELECT_ONE"; $"SELECT_MANY"]).

Section Keyword.
(** [self.config[section]] *)
Variable conf : str -> res (dict (option str)).

(** [get_values_for_section_key], 30-82, with the three checks (84-178). *)
Definition get_values (section key : str) : res (list str) :=
  d <~ conf section ;
  match dget key d with
  | None => Err KeyError
  | Some v =>
      let l := values_list (match v with Some s => s | None => [] end) in
      if has_duplicates l then Err SystemExit
      else if existsb bad_value l then Err SystemExit
      else if existsb (fun x => str_mem x (dkeys d)) l then Err SystemExit
      else Ok l
  end.

(** [get_key_for_section_value], 202-214: the loop, then the check. *)
Fixpoint find_key (section value : str) (keys : list str) (found : option str) : res (option str) :=
  match keys with
  | [] => Ok found
  | k :: keys' =>
      l <~ get_values section k ;
      find_key section value keys' (if str_mem value l then Some k else found)
  end.
Definition get_key (section value : str) : res str :=
  d <~ conf section ;
  m <~ find_key section value (dkeys d) None ;
  match m with Some k => Ok k | None => Err SystemExit end.

(** ** [ConfigKeywordParser] *)
Definition flags_section : str := $"configure-flags".

Inductive selection := One (o : str) | Many (l : list str).

(** The object; the attributes that [hasattr] asks for are options. *)
Record ckp := Ckp {
  c_build : str;                              (** [_build_name] *)
  c_flags : list str;                         (** [flag_names] *)
  c_selected : option (dict selection);       (** [_selected_options] *)
  c_string : option str;                      (** [_selected_options_str] *)
  c_options : option (list str);              (** [_options_list] *)
  c_defaults : option (list str)              (** [_default_options] *)
}.

(** [__init__], 40-45. *)
Definition new_ckp (build : str) : res ckp :=
  d <~ conf flags_section ;
  Ok (Ckp build (dkeys d) None None None None).

(** [get_options_and_flag_type_for_flag], 120-146. *)
Definition flag_options (flag : str) : res (list str * str) :=
  l <~ get_values flags_section flag ;
  match l with
  | [] => Err IndexError
  | t :: o => if str_mem t [$"SELECT_ONE"; $"SELECT_MANY"] then Ok (o, t) else Err ValueError
  end.

(** [sorted] on strings (by code points). *)
Fixpoint str_leb (a b : str) : bool :=
  match a, b with
  | [], _ => true
  | _ :: _, [] => false
  | x :: a', y :: b' => if N.eqb x y then str_leb a' b' else N.ltb x y
  end.
Fixpoint insert_str (x : str) (l : list str) : list str :=
  match l with
  | [] => [x]
  | y :: l' => if str_leb x y then x :: l else y :: insert_str x l'
  end.
Definition sorted (l : list str) : list str := fold_right insert_str [] l.

(** The loop of [parse_selected_options], 94-116. *)
Definition select (words : list str) (flag : str) : res selection :=
  ot <~ flag_options flag ;
  let (options, flag_type) := ot in
  let chosen := filter (fun o => str_mem o words) options in
  if str_eqb flag_type $"SELECT_ONE" && Nat.ltb 1 (length chosen) then Err ValueError
  else if str_eqb flag_type $"SELECT_MANY" && Nat.ltb 1 (length chosen) then Ok (Many (sorted chosen))
  else match chosen with
       | o :: _ => Ok (One o)
       | [] => match options with o :: _ => Ok (One o) | [] => Err IndexError end
       end.
Fixpoint select_all (words : list str) (flags : list str) (acc : dict selection) : res (dict selection) :=
  match flags with
  | [] => Ok acc
  | f :: flags' => s <~ select words f ; select_all words flags' (dset f s acc)
  end.

(** [get_options_list_for_all_flags], 179-190. *)
Fixpoint all_options (flags : list str) : res (list str) :=
  match flags with
  | [] => Ok []
  | f :: flags' => ot <~ flag_options f ; l <~ all_options flags' ; Ok (fst ot ++ l)
  end.
Definition options_list : SM ckp (list str) :=
  p <- get ;;
  match c_options p with
  | Some l => ret l
  | None =>
      l <- of_res (all_options (c_flags p)) ;;
      modify (fun p => Ckp (c_build p) (c_flags p) (c_selected p) (c_string p) (Some l) (c_defaults p)) ;;
      ret l
  end.

(** [parse_selected_options], 91-118, with
    [assert_options_are_unique_across_all_flags], 161-177. *)
Definition parse_selected_options : SM ckp unit :=
  p <- get ;;
  match c_selected p with
  | Some _ => ret tt
  | None =>
      l <- options_list ;;
      if has_duplicates l then raise SystemExit
      else
        d <- of_res (select_all (split_on 95%N (c_build p)) (c_flags p) []) ;;
        modify (fun p => Ckp (c_build p) (c_flags p) (Some d) (c_string p) (c_options p) (c_defaults p))
  end.

(** [selected_options], 62-67. *)
Definition selected_options : SM ckp (dict selection) :=
  parse_selected_options ;;
  p <- get ;;
  match c_selected p with Some d => ret d | None => raise AttributeError end.

(** [selected_options_str], 47-60. *)
Definition selection_str (s : selection) : str :=
  match s with
  | One o => [95%N] ++ o
  | Many l => flat_map (fun o => [95%N] ++ o) l
  end.
Definition selected_options_str : SM ckp str :=
  p <- get ;;
  match c_string p with
  | Some s => ret s
  | None =>
      d <- selected_options ;;
      let s := flat_map (fun kv => selection_str (snd kv)) d in
      modify (fun p => Ckp (c_build p) (c_flags p) (c_selected p) (Some s) (c_options p) (c_defaults p)) ;;
      ret s
  end.

(** [is_default_option], 148-159. *)
Fixpoint default_options (flags : list str) : res (list str) :=
  match flags with
  | [] => Ok []
  | f :: flags' =>
      ot <~ flag_options f ;
      match fst ot with
      | [] => Err IndexError
      | o :: _ => l <~ default_options flags' ; Ok (o :: l)
      end
  end.
Definition is_default_option (option : str) : SM ckp bool :=
  p <- get ;;
  match c_defaults p with
  | Some l => ret (str_mem option l)
  | None =>
      l <- of_res (default_options (c_flags p)) ;;
      modify (fun p => Ckp (c_build p) (c_flags p) (c_selected p) (c_string p) (c_options p) (Some l)) ;;
      ret (str_mem option l)
  end.

(** [build_name] setter, 196-204. *)
Definition set_build_name (build : str) : SM ckp unit :=
  modify (fun p => Ckp build (c_flags p) None None (c_options p) (c_defaults p)).
End Keyword.
