(** * Vocabulary of the property about the top-level files: what a path text
    denotes, and which file a value of a top-level file names. *)
From Coq Require Import String NArith ZArith List Bool.
Import ListNotations.
From Verif Require Import PyBase Shlex IniView IniRead ExcControl Cpe SpecWalk SpecRun SpecParse SpecApi TopLevel.

(** ** Paths *)

(** A text begins with a slash. *)
Definition slashed (s : str) : Prop := exists s', s = 47%N :: s'.

(** The root of a path text: nothing, one slash, or two if there are exactly two
    (POSIX gives two slashes a meaning of their own). *)
Inductive path_root : str -> str -> Prop :=
| pr_relative s : ~ slashed s -> path_root s []
| pr_one s : ~ slashed s -> path_root (47%N :: s) $"/"
| pr_two s : ~ slashed s -> path_root (47%N :: 47%N :: s) $"//"
| pr_more s : path_root (47%N :: 47%N :: 47%N :: s) $"/".

(** The names between the slashes; ["."] is no name. *)
Inductive path_names : str -> list str -> Prop :=
| pn_end : path_names [] []
| pn_slash s l : path_names s l -> path_names (47%N :: s) l
| pn_dot s l : s = [] \/ slashed s -> path_names s l -> path_names ($"." ++ s) l
| pn_name w s l : w <> [] -> w <> $"." -> ~ In 47%N w -> s = [] \/ slashed s ->
    path_names s l -> path_names (w ++ s) (w :: l).

Definition denotes (s : str) (p : path) : Prop := path_root s (p_root p) /\ path_names s (p_names p).

(** The file a value of the top-level file [ini] names: an absolute value that
    path, any other one a path below the directory of [ini]. *)
Inductive located (ini v : str) : path -> Prop :=
| loc_absolute p : slashed v -> denotes v p -> located ini v p
| loc_relative root names file l : ~ slashed v ->
    denotes ini (Path root (names ++ [file])) -> denotes v (Path [] l) ->
    located ini v (Path root (names ++ l)).

(** ** Contents *)

(** Option [k] has a value, and it is not empty. *)
Definition value_of (d : dict (option str)) (k v : str) : Prop := dget k d = Some (Some v) /\ v <> [].

(** [d'] is [d] with the options [ks] completed: each now denotes the file its
    value in [ini] names, and an absolute value is still as it was. Nothing else
    has changed. *)
Definition completed (ini : str) (ks : list str) (d d' : dict (option str)) : Prop :=
  dkeys d' = dkeys d /\
  (forall k, ~ In k ks -> dget k d' = dget k d) /\
  (forall k, In k ks -> exists v w p,
     value_of d k v /\ located ini v p /\ dget k d' = Some (Some w) /\ denotes w p /\ (slashed v -> w = v)).

(** A file of the result: the one given on the command line if there is one,
    otherwise the one the top-level file names. *)
Definition chosen_file {File} (resolve : path -> File) (ini : str) (given : option str)
  (d : dict (option str)) (k : str) (f : File) : Prop :=
  match given with
  | Some c => exists p, denotes c p /\ f = resolve p
  | None => exists v p, value_of d k v /\ located ini v p /\ f = resolve p
  end.

(** The options required of each section. *)
Definition env_keys : list str := [$"supported-systems"; $"supported-envs"; $"environment-specs"].
Definition gen_keys : list str := [$"supported-config-flags"; $"config-specs"].

(** The value of [k] names a file that is there. *)
Definition names_a_file (there : path -> bool) (ini : str) (d : dict (option str)) (k : str) : Prop :=
  exists v p, value_of d k v /\ located ini v p /\ there p = true.

(** Calls that leave a section as it is: no explicit parse of it. *)
Definition spares (s : str) (h : list op) : Prop := forallb (fun c => negb (reparses s c)) h = true.

(** The data object after several accesses to [gen_config_config_data], with
    calls on it before each. *)
Fixpoint accesses uniword fs fuel there ini (hs : list (list op)) (o : obj unit unit) : obj unit unit :=
  match hs with
  | [] => o
  | h :: hs' => accesses uniword fs fuel there ini hs'
                  (snd (gen_data uniword fs fuel there ini (after (base_class uniword) fs fuel h o)))
  end.
