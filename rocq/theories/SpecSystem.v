(** * Which system and which environment a build name means. *)
From Coq Require Import String NArith List Bool.
Import ListNotations.
From Verif Require Import PyBase EnvVar Regex Keyword DetSys EnvKeyword SpecKeyword SpecFlags.

(** ** Keys and names as regular expressions

    [like key v]: [v] is matched by [key], where a dot stands for any character
    and a star for any number of the character before it. *)
Definition fits (c x : pychar) : Prop := (c = 46%N /\ x <> 10%N) \/ (c <> 46%N /\ x = c).
Definition ordinary_char (c : pychar) : Prop := ~ In c $"^$*+?{}[]\|()".
Inductive like : str -> str -> Prop :=
| like_nil : like [] []
| like_one c x key v : ordinary_char c -> fits c x -> like key v -> like (c :: key) (x :: v)
| like_stop c key v : ordinary_char c -> like key v -> like (c :: 42%N :: key) v
| like_more c x key v : ordinary_char c -> fits c x -> like (c :: 42%N :: key) v -> like (c :: 42%N :: key) (x :: v).

(** Such expressions. *)
Inductive plain : str -> Prop :=
| plain_nil : plain []
| plain_one c key : ordinary_char c -> plain key -> plain (c :: key)
| plain_star c key : ordinary_char c -> plain key -> plain (c :: 42%N :: key).

Section System.
(** Other expressions: what [re] says. *)
Variable other_re : str -> str -> res bool.

(** ** Systems *)

(** A key names a host if a part of the host name is like it. *)
Definition part_of (key host : str) : Prop :=
  exists pre v post, host = pre ++ v ++ post /\ like key v.
Definition found_in (key host : str) : Prop :=
  (plain key /\ part_of key host) \/ (~ plain key /\ other_re key host = Ok true).

(** The part of a key in the file that counts. *)
Fixpoint key_word (s : str) : str :=
  match s with
  | [] => []
  | c :: s' => if N.eqb c 35 || N.eqb c 94 || is_space c then [] else c :: key_word s'
  end.

Definition names_host (keys : list str) (host : str) : Prop :=
  exists k, In k keys /\ found_in (key_word k) host.
(** Every key is an expression [re] can read. *)
Definition readable_keys (systems : list (str * list str)) (host : str) : Prop :=
  forall name keys k, In (name, keys) systems -> In k keys ->
    plain (key_word k) \/ exists b, other_re (key_word k) host = Ok b.

(** The system of the host: the first in the file with a key that names the
    host. *)
Definition host_system (systems : list (str * list str)) (host : str) (r : option str) : Prop :=
  match r with
  | Some name =>
      exists a keys b, systems = a ++ (name, keys) :: b /\ name <> $"DEFAULT" /\ names_host keys host /\
        forall n ks, In (n, ks) a -> n = $"DEFAULT" \/ ~ names_host ks host
  | None => forall n ks, In (n, ks) systems -> n = $"DEFAULT" \/ ~ names_host ks host
  end.

(** A system is named in a build name. *)
Definition names_system (systems : list (str * list str)) (build name : str) : Prop :=
  In name (map fst systems) /\ name <> $"DEFAULT" /\ named (lower build) name.

(** The decision. *)
Inductive system_of (systems : list (str * list str)) (host build : str) (force : bool) : res (option str) -> Prop :=
| sys_two n m :
    names_system systems build n -> names_system systems build m -> n <> m ->
    system_of systems host build force (Err SystemExit)
| sys_unknown :
    host_system systems host None -> (forall n, ~ names_system systems build n) ->
    system_of systems host build force (Err SystemExit)
| sys_host h :
    host_system systems host (Some h) ->
    (forall n, names_system systems build n -> n = h) ->
    system_of systems host build force (Ok (Some h))
| sys_other h n :
    host_system systems host h -> h <> Some n ->
    names_system systems build n -> (forall m, names_system systems build m -> m = n) ->
    system_of systems host build force (if force then Ok (Some n) else Err SystemExit).

(** ** Environments *)

(** A name appears in a build name: something like it stands between
    underscores or the ends (the end may be followed by a line end). *)
Definition stands_in (name build : str) : Prop :=
  exists pre v post, build = pre ++ v ++ post /\ like name v /\
    (pre = [] \/ exists p, pre = p ++ [95%N]) /\
    (post = [] \/ post = [10%N] \/ exists q, post = 95%N :: q).

Definition delimited (name : str) : str := $"(?:^|_)" ++ name ++ $"(?:$|_)".
Definition appears (name build : str) : Prop :=
  (plain name /\ stands_in name build) \/ (~ plain name /\ other_re (delimited name) build = Ok true).
Definition readable_names (names : list str) (build : str) : Prop :=
  forall n, In n names -> plain n \/ exists b, other_re (delimited n) build = Ok b.

(** The longest of the names that appear; of several, the first. *)
Definition longest (names : list str) (build : str) (r : option str) : Prop :=
  match r with
  | Some n =>
      exists a b, names = a ++ n :: b /\ appears n build /\
        (forall m, In m a -> appears m build -> length m < length n) /\
        (forall m, In m b -> appears m build -> length m <= length n)
  | None => forall m, In m names -> ~ appears m build
  end.

(** The environments of a system: the names with their aliases, in file order. *)
Definition env_table : Type := list (str * list str).
Definition env_describes (conf : str -> res (dict (option str))) (system : str) (E : env_table) : Prop :=
  (exists d, conf system = Ok d /\ dkeys d = map fst E) /\
  forall n l, In (n, l) E -> get_values conf system n = Ok l.
Definition valid_envs (E : env_table) : Prop :=
  NoDup (map fst E) /\ NoDup (flat_map snd E).

(** The environment a build name means. *)
Inductive env_of (E : env_table) (build : str) : res str -> Prop :=
| env_name n : longest (map fst E) build (Some n) -> env_of E build (Ok n)
| env_alias a n l :
    longest (map fst E) build None -> longest (flat_map snd E) build (Some a) ->
    In (n, l) E -> In a l -> env_of E build (Ok n)
| env_none :
    longest (map fst E) build None -> longest (flat_map snd E) build None ->
    env_of E build (Err SystemExit).
End System.

(** The qualified name. *)
Definition qualified (system : str) (r : res str) : res str :=
  match r with Ok n => Ok (system ++ [95%N] ++ n) | Err e => Err e end.
