(** * Build names with the same words. *)
From Coq Require Import String NArith List Bool.
Import ListNotations.
From Verif Require Import PyBase EnvVar Regex Keyword DetSys EnvKeyword LoadEnv SpecKeyword SpecFlags SpecSystem SpecLoadEnv.

(** The same words, in any order and however often each. *)
Definition same_words (b b' : str) : Prop := forall w, named b w <-> named b' w.
Definition same_answer (r r' : res str) : Prop :=
  match r, r' with
  | Ok b, Ok b' => same_words b b'
  | Err e, Err e' => e = e'
  | _, _ => False
  end.

(** ** The words that mean something *)

(** The names and the aliases of the environments of every system. *)
Definition env_word (envs : str -> res (dict (option str))) (n : str) : Prop :=
  exists s E, env_describes envs s E /\ (In n (map fst E) \/ In n (flat_map snd E)).
(** The values of the flags. *)
Definition option_word (flags : str -> res (dict (option str))) (o : str) : Prop :=
  exists f l, get_values flags $"configure-flags" f = Ok l /\ In o l.

(** The same systems are named. *)
Definition same_systems (systems : list (str * list str)) (b b' : str) : Prop :=
  forall n, names_system systems b n <-> names_system systems b' n.
(** The environments can be read as expressions, and the same of them appear. *)
Definition same_envs (other_re : str -> str -> res bool) (envs : str -> res (dict (option str))) (b b' : str) : Prop :=
  forall n, env_word envs n ->
    readable_names other_re [n] b /\ readable_names other_re [n] b' /\
    (appears other_re n b <-> appears other_re n b').
(** The same options are named. *)
Definition same_options (flags : str -> res (dict (option str))) (b b' : str) : Prop :=
  forall o, option_word flags o -> (named b o <-> named b' o).

(** Files whose names of environments are words without special characters. *)
Definition literal_envs (envs : str -> res (dict (option str))) : Prop :=
  forall n, env_word envs n -> literal_name n /\ ~ In 95%N n.
