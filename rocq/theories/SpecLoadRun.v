(** * Terms of the statements about loading an environment. *)
From Coq Require Import String NArith ZArith List Bool.
Import ListNotations.
From Verif Require Import PyBase IniView IniRead ExcControl Cpe EnvVar SetEnv SpecText SpecFile SpecShell SpecWalk SpecApi SpecSetEnv.

(** No option is called [finalize]. *)
Definition no_finalize_options (i : ini) : Prop :=
  forall s items k0 k v w ps, section_shows i s items -> In (k0, v) items ->
    trimmed space k0 k -> words k (w :: ps) -> undash w <> $"finalize".

(** The actions that section [s] of the file asks for. *)
Definition section_asks (uniword : pychar -> bool) (i : ini) (s : str) (l : list action) : Prop :=
  exists evs n, parse_walk (SetEnvironment uniword) i $"DEFAULT" s true true evs n /\ remain (requests evs) l.

(** Every option of the file, in every section, is an operation. *)
Definition all_operations (uniword : pychar -> bool) (i : ini) : Prop :=
  forall s, ini_has_section i s = true -> expansion (SetEnvironment uniword) i $"DEFAULT" s [].

(** The commands of the script for the environment [n]: one line for each action
    ([lines]), and the name. *)
Definition commands (lines n : str) : str :=
  banner ++ lines ++ newline ++ newline ++ $"export LOADED_ENV_NAME=" ++ n.
