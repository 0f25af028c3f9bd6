(** * [wip/loadenv/loadenv/EnvKeywordParser.py].

    What is printed is in [Messages.v]. [conf] is as in
    [Keyword.v]. *)
From Coq Require Import String NArith List Bool Arith.
Import ListNotations.
From Verif Require Import PyBase EnvVar Regex Keyword DetSys.
Local Open Scope sm_scope.

(** [sorted(l, key=len, reverse=True)], 47-48: longest first, stable. *)
Fixpoint insert_len (x : str) (l : list str) : list str :=
  match l with
  | [] => [x]
  | y :: l' => if Nat.leb (length y) (length x) then x :: l else y :: insert_len x l'
  end.
Definition by_length (l : list str) : list str := fold_right insert_len [] l.

(** The expression of 93 and 107 for a name: the start or an underscore, the
    name (not escaped), the end or an underscore. *)
Definition name_re (name : str) : re :=
  RSeq (ROr RBol (is_char 95%N)) (RSeq (atoms name) (ROr REol (is_char 95%N))).

Section EnvKeyword.
Variable other_re : str -> str -> res bool.
Variable conf : str -> res (dict (option str)).

Definition name_in (name build : str) : res bool :=
  if simple name then Ok (search (name_re name) build)
  else other_re ($"(?:^|_)" ++ name ++ $"(?:$|_)") build.

Record ekp := Ekp {
  e_build : str;
  e_system : str;
  e_names : list str;               (** [env_names] *)
  e_aliases : list str;             (** [aliases] *)
  e_qualified : option str          (** [_qualified_env_name] *)
}.

(** [get_aliases], 146-152. *)
Fixpoint all_values (system : str) (keys : list str) : res (list str) :=
  match keys with
  | [] => Ok []
  | k :: keys' => l <~ get_values conf system k ; l' <~ all_values system keys' ; Ok (l ++ l')
  end.
Definition get_aliases (system : str) : res (list str) :=
  d <~ conf system ;
  l <~ all_values system (dkeys d) ;
  if has_duplicates l then Err SystemExit else Ok l.

(** [__init__], 41-48. *)
Definition new_ekp (build system : str) : res ekp :=
  d <~ conf system ;
  l <~ get_aliases system ;
  Ok (Ekp build system (by_length (dkeys d)) (by_length l) None).

(** The loops 89-100 and 103-113. *)
Fixpoint first_in (names : list str) (build : str) : res (option str) :=
  match names with
  | [] => Ok None
  | n :: names' => b <~ name_in n build ; if b then Ok (Some n) else first_in names' build
  end.

(** [qualified_env_name], 88-130. *)
Definition matched_env (p : ekp) : res str :=
  n <~ first_in (e_names p) (e_build p) ;
  match n with
  | Some n => Ok n
  | None =>
      a <~ first_in (e_aliases p) (e_build p) ;
      match a with
      | Some a => get_key conf (e_system p) a
      | None => Err SystemExit
      end
  end.
Definition qualified_env_name : SM ekp str :=
  p <- get ;;
  match e_qualified p with
  | Some q => ret q
  | None =>
      n <- of_res (matched_env p) ;;
      let q := e_system p ++ [95%N] ++ n in
      modify (fun p => Ekp (e_build p) (e_system p) (e_names p) (e_aliases p) (Some q)) ;;
      ret q
  end.
End EnvKeyword.
