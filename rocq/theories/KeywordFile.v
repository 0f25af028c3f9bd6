(** * [KeywordParser] on a file: [self.config] is the
    [configparserenhanceddata] of an object for the file. *)
From Coq Require Import String NArith ZArith List Bool.
Import ListNotations.
From Verif Require Import PyBase EnvVar Regex Shlex IniView IniRead ExcControl Cpe Keyword.
Local Open Scope sm_scope.

Section File.
Context {Sh Us : Type} (K : pyclass Sh Us) (fs : str -> option str) (fuel : nat).
Notation obj := (obj Sh Us).

(** [self.config[section][key]] *)
Definition option_on (section key : str) : SM obj (option str) :=
  d <- getitem K fs fuel section ;;
  match dget key d with Some v => ret v | None => raise KeyError end.

(** [KeywordParser.get_values_for_section_key], 30-82; the section is looked up
    once or twice for the value (41-43) and once for the keys (168). *)
Definition get_values_on (section key : str) : SM obj (list str) :=
  v <- option_on section key ;;
  text <- match v with
          | None => ret []
          | Some _ => w <- option_on section key ;;
                      ret (match w with Some s => s | None => [] end)
          end ;;
  let l := values_list text in
  if has_duplicates l then raise SystemExit
  else if existsb bad_value l then raise SystemExit
  else
    d <- getitem K fs fuel section ;;
    if existsb (fun x => str_mem x (dkeys d)) l then raise SystemExit else ret l.

(** [KeywordParser.get_key_for_section_value], 202-214. *)
Fixpoint find_key_on (section value : str) (keys : list str) (found : option str) : SM obj (option str) :=
  match keys with
  | [] => ret found
  | k :: keys' =>
      l <- get_values_on section k ;;
      find_key_on section value keys' (if str_mem value l then Some k else found)
  end.
Definition get_key_on (section value : str) : SM obj str :=
  d <- getitem K fs fuel section ;;
  m <- find_key_on section value (dkeys d) None ;;
  match m with Some k => ret k | None => raise SystemExit end.
End File.
