(** * What the program [gen_config.py] asks and writes. *)
From Coq Require Import String NArith List Bool.
Import ListNotations.
From Verif Require Import PyBase EnvVar LoadEnv SpecBash SpecLoadEnv.

(** The answers to a question: an answer counts by its first letter, and is
    repeated while it is neither y nor n. *)
Definition says_yes (r : str) : Prop := exists c t, r = c :: t /\ (c = 121 \/ c = 89)%N.
Definition says_no (r : str) : Prop := exists c t, r = c :: t /\ (c = 110 \/ c = 78)%N.
Definition unclear (r : str) : Prop := r <> [] /\ ~ says_yes r /\ ~ says_no r.
Definition agreed (answers : list str) : Prop :=
  exists l r rest, answers = l ++ r :: rest /\ Forall unclear l /\ says_yes r.
Definition refused (answers : list str) : Prop :=
  exists l r rest, answers = l ++ r :: rest /\ Forall unclear l /\ says_no r.
Definition may_replace (p : str) (out : dict str) (yes : bool) (answers : list str) : Prop :=
  dget p out = None \/ yes = true \/ agreed answers.

(** The options of one kind for a build name. *)
Definition options_for other_re systems hostname envs flags specs (gen : str -> str -> res (list str)) (kind build : str) (force : bool)
    (l : list str) : Prop :=
  canonical_sections other_re systems hostname envs flags specs /\
  exists c, config_name other_re systems hostname envs flags build force c /\ gen kind c = Ok l.

(** The files are the same, but for these. *)
Definition same_but (l : list str) (out out' : dict str) : Prop := forall q, ~ In q l -> dget q out' = dget q out.

(** The files that a run may write. *)
Definition touched (list_flags list_confs : bool) (save fragment : option str) (args_file loc_file : str) : list str :=
  if list_flags || list_confs then []
  else match save, fragment with
       | Some p, _ => [p]
       | None, Some p => [p]
       | None, None => [args_file; loc_file]
       end.

(** The options, one per line, as in a command. *)
Definition args_text (l : list str) : str := join ($" \" ++ newline ++ $"    ") l.
(** A word that bash does not split or expand. *)
Definition bare_word (s : str) : Prop := s <> [] /\ unsplit s.

(** The options with a backslash between any two. *)
Fixpoint slashed (l : list str) : list str :=
  match l with
  | x :: ((_ :: _) as l') => x :: $"\" :: slashed l'
  | _ => l
  end.

(** The command line of LoadEnv for the same files and build name. *)
Definition loadenv_command (systems envs specs : str) (force ci : bool) (build : str) (l : list str) : Prop :=
  exists options,
    l = [$"--supported-systems"; systems; $"--supported-envs"; envs; $"--environment-specs"; specs] ++ options ++ [build] /\
    (In $"--force" options <-> force = true) /\ (In $"--ci-mode" options <-> ci = true) /\ NoDup options /\
    forall o, In o options -> o = $"--force" \/ o = $"--ci-mode".
