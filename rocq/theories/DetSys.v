(** * [wip/determinesystem/determinesystem/DetermineSystem.py].

    Messages and what is printed are not modelled. The file of supported systems
    is the list of its sections, each with its keys: what [sections()] and
    [keys()] of [configparserenhanceddata] answer on a file that can be parsed
    (C12). The host name is a parameter. *)
From Coq Require Import String NArith List Bool Arith.
Import ListNotations.
From Verif Require Import PyBase EnvVar Regex Keyword.
Local Open Scope sm_scope.

(** ** Keys as regular expressions *)

(** Expressions made of ordinary characters and dots, each perhaps with a star. *)
Definition atom (c : pychar) : re :=
  if N.eqb c 46 then RSet (fun x => negb (N.eqb x 10)) else is_char c.
Fixpoint atoms (s : str) : re :=
  match s with
  | [] => REps
  | c :: s1 =>
      match s1 with
      | d :: s2 => if N.eqb d 42 then RSeq (RStar true (atom c)) (atoms s2) else RSeq (atom c) (atoms s1)
      | [] => RSeq (atom c) (atoms s1)
      end
  end.
Definition ordinary (c : pychar) : bool := N.eqb c 46 || negb (char_mem c special).
Fixpoint simple (s : str) : bool :=
  match s with
  | [] => true
  | c :: s1 =>
      ordinary c &&
      match s1 with
      | d :: s2 => if N.eqb d 42 then simple s2 else simple s1
      | [] => simple s1
      end
  end.

(** [([^#^\s]* )(?:\s*#.* )?] (without the blanks), 118. *)
Definition host_key_re : re :=
  RSeq (RGroup (RStar true (RSet (fun c => negb (existsb (N.eqb c) [35; 94]%N || is_space c)))))
    (ROr (RSeq (RStar true (RSet is_space))
            (RSeq (is_char 35%N) (RStar true (RSet (fun c => negb (N.eqb c 10)))))) REps).
Definition host_key (key : str) : str := hd [] (findall host_key_re key).

Section DetSys.
(** [re.search(p, s) is not None], or [re.findall(p, s) != []], for other
    expressions; it raises if [p] is malformed. *)
Variable other_re : str -> str -> res bool.
Definition host_matches (key host : str) : res bool :=
  if simple key then Ok (search (atoms key) host) else other_re key host.

Variable systems : list (str * list str).
Variable hostname : str.

(** [supported_sys_names], 156-163. *)
Definition sys_names : list str := filter (fun s => negb (str_eqb s $"DEFAULT")) (map fst systems).

(** Lines 118-125: all keys of a system are tried. *)
Fixpoint any_matches (keys : list str) : res bool :=
  match keys with
  | [] => Ok false
  | k :: keys' =>
      b <~ host_matches (host_key k) hostname ;
      b' <~ any_matches keys' ;
      Ok (b || b')
  end.

(** [get_sys_name_from_hostname], 109-128. *)
Fixpoint first_system (l : list (str * list str)) : res (option str) :=
  match l with
  | [] => Ok None
  | (name, keys) :: l' =>
      if str_eqb name $"DEFAULT" then first_system l'
      else
        b <~ any_matches keys ;
        if b then Ok (Some name) else first_system l'
  end.
Definition sys_from_hostname : res (option str) := first_system systems.

(** [get_sys_name_from_build_name], 141-154. *)
Definition sys_from_build (build : str) : res (option str) :=
  let options := split_on 95%N (lower build) in
  match filter (fun s => str_mem s options) sys_names with
  | [] => Ok None
  | [s] => Ok (Some s)
  | _ => Err SystemExit
  end.

(** The object: [build_name], [force_build_name], [_system_name] (which may be
    unset, or [None]). *)
Record detsys := DetSys { d_build : str; d_force : bool; d_name : option (option str) }.
Definition new_detsys (build : str) (force : bool) : detsys := DetSys build force None.
Definition set_name (n : option str) : SM detsys unit :=
  modify (fun p => DetSys (d_build p) (d_force p) (Some n)).

(** [determine_system], 52-95. *)
Definition determine_system : SM detsys unit :=
  p <- get ;;
  match d_name p with
  | Some _ => ret tt
  | None =>
      h <- of_res sys_from_hostname ;;
      set_name h ;;
      b <- of_res (sys_from_build (d_build p)) ;;
      match h, b with
      | None, None => raise SystemExit
      | _, None => ret tt
      | _, Some n =>
          set_name (Some n) ;;
          if negb (match h with Some m => str_eqb m n | None => false end) && negb (d_force p)
          then raise SystemExit else ret tt
      end
  end.

(** [system_name], 40-43. *)
Definition system_name : SM detsys (option str) :=
  determine_system ;;
  p <- get ;;
  match d_name p with Some n => ret n | None => raise AttributeError end.
End DetSys.
