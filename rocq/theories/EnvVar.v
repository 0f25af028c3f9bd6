(** * [wip/setenvironment/src/setenvironment/SetEnvironment.py], lines 42-227:
    the free functions that work on [os.environ].

    Line numbers refer to that file unless another one is named. *)
From Coq Require Import String NArith ZArith List Bool.
Import ListNotations.
From Verif Require Import PyBase.
Local Open Scope sm_scope.

(** [os.environ]: a mapping of strings. The encoding of names and values to
    bytes is not modelled. *)
Definition environ := dict str.

(** [del d[k]] for a present key; [d] otherwise. *)
Definition ddel {A} (k : str) (d : dict A) : dict A :=
  filter (fun kv => negb (str_eqb k (fst kv))) d.

(** [os.environ[k] = v]: CPython [os.putenv] rejects a name with ["="] and
    embedded null characters ([ValueError]); the C function [setenv] rejects an
    empty name ([OSError]). *)
Definition env_assign (k v : str) : SM environ unit := fun e =>
  if char_mem 61%N k || char_mem 0%N k || char_mem 0%N v then (Err ValueError, e)
  else match k with
       | [] => (Err IOError, e)
       | _ => (Ok tt, dset k v e)
       end.

(** ** [os.path.expandvars] (CPython 3.11 [posixpath.py]):
    the regular expression [\$(\w+|\{[^}]*\})] in ASCII mode. *)
Definition ascii_word (c : pychar) : bool :=
  ((48 <=? c) && (c <=? 57) || (65 <=? c) && (c <=? 90) ||
   (97 <=? c) && (c <=? 122) || (c =? 95))%N.
Fixpoint word_run (s : str) : str :=
  match s with
  | c :: s' => if ascii_word c then c :: word_run s' else []
  | [] => []
  end.
(** The text before the first ["}"], if there is one. *)
Fixpoint upto_brace (s : str) : option str :=
  match s with
  | [] => None
  | c :: s' => if N.eqb c 125%N then Some [] else option_map (cons c) (upto_brace s')
  end.
(** The reference at the start of the text after a ["$"]: the name and the
    number of characters it takes. *)
Definition reference (s : str) : option (str * nat) :=
  match s with
  | [] => None
  | c :: s' =>
      if ascii_word c then Some (word_run s, length (word_run s))
      else if N.eqb c 123%N then
        match upto_brace s' with
        | Some name => Some (name, 2 + length name)
        | None => None
        end
      else None
  end.
(** One pass from left to right; [skip] counts the characters of a reference
    that has been dealt with. A reference to a variable that is not set stays. *)
Fixpoint expand_from (e : environ) (skip : nat) (s : str) : str :=
  match s with
  | [] => []
  | c :: s' =>
      match skip with
      | S n => expand_from e n s'
      | O =>
          if N.eqb c 36%N then
            match reference s' with
            | Some (name, n) =>
                match dget name e with
                | Some v => v ++ expand_from e n s'
                | None => (c :: firstn n s') ++ expand_from e n s'
                end
            | None => c :: expand_from e 0 s'
            end
          else c :: expand_from e 0 s'
      end
  end.
Definition expandvars (e : environ) (s : str) : str := expand_from e 0 s.

(** [s.replace(sub, "")]: non-overlapping occurrences from the left; nothing
    happens for an empty [sub]. *)
Fixpoint erase_from (sub : str) (skip : nat) (s : str) : str :=
  match s with
  | [] => []
  | c :: s' =>
      match skip with
      | S n => erase_from sub n s'
      | O => if starts_with sub s then erase_from sub (pred (length sub)) s'
             else c :: erase_from sub 0 s'
      end
  end.
Definition erase (sub s : str) : str :=
  match sub with [] => s | _ => erase_from sub 0 s end.

(** [s.split(sep)] for a one-character separator. *)
Fixpoint split_on (sep : pychar) (s : str) : list str :=
  match s with
  | [] => [[]]
  | c :: s' =>
      if N.eqb c sep then [] :: split_on sep s'
      else match split_on sep s' with
           | w :: l => (c :: w) :: l
           | [] => [[c]]                                   (* not reachable *)
           end
  end.

(** [os.pathsep] on POSIX systems. *)
Definition pathsep : pychar := 58%N.

Definition empty_str (s : str) : bool := match s with [] => true | _ => false end.

Section Functions.
(** [envvar_find_in_path] (120-147) depends on the file system and on [PATH]:
    the path of an executable, or [None] ([FileNotFoundError]). *)
Variable which : environ -> str -> option str.

(** [envvar_set], 65-75 (arguments of the right types). *)
Definition envvar_set (name value : str) (allow_empty : bool) : SM environ Z :=
  if negb allow_empty && empty_str value then raise ValueError
  else env_assign name value ;; ret 0%Z.

(** [envvar_set_if_empty], 105-116. *)
Definition envvar_set_if_empty (name value : str) (allow_empty : bool) : SM environ Z :=
  if negb allow_empty && empty_str value then raise ValueError
  else
    e <- get ;;
    (match dget name e with
     | None | Some [] => env_assign name value
     | Some _ => ret tt
     end) ;;
    ret 0%Z.

(** [envvar_op], 173-227. *)
Definition envvar_op (op name value : str) (allow_empty : bool) : SM environ Z :=
  if negb allow_empty && empty_str value then raise ValueError
  else
    e <- get ;;
    let old := match dget name e with Some v => [v] | None => [] end in
    let value := if char_mem 36%N value then expandvars e value else value in
    if str_eqb op $"set" then envvar_set name value allow_empty
    else if str_eqb op $"set_if_empty" then envvar_set_if_empty name value allow_empty
    else if str_eqb op $"append" then
      envvar_set name (join [pathsep] (old ++ [value])) allow_empty
    else if str_eqb op $"prepend" then
      envvar_set name (join [pathsep] ([value] ++ old)) allow_empty
    else if str_eqb op $"unset" then
      (match old with
       | [] => ret tt
       | _ => modify (ddel name)
       end) ;; ret 0%Z
    else if str_eqb op $"remove_substr" then
      match old with
      | [] => ret 0%Z
      | v :: _ => envvar_set name (erase value v) allow_empty
      end
    else if str_eqb op $"remove_path_entry" then
      match old with
      | [] => ret 0%Z
      | v :: _ =>
          envvar_set name
            (join [pathsep] (filter (fun x => negb (str_eqb x value)) (split_on pathsep v)))
            allow_empty
      end
    else if str_eqb op $"find_in_path" then
      envvar_set name (match which e value with Some p => p | None => [] end) allow_empty
    else if str_eqb op $"assert_not_empty" then
      match old with
      | [] | [[]] => raise ValueError
      | _ => ret 0%Z
      end
    else raise ValueError.
End Functions.
