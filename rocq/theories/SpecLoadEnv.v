(** * The names a [LoadEnv] and a [GenConfig] object answer. *)
From Coq Require Import String NArith List Bool.
Import ListNotations.
From Verif Require Import PyBase EnvVar Regex Keyword DetSys EnvKeyword LoadEnv SpecKeyword SpecFlags SpecSystem.

(** The elements with a property, in order. *)
Inductive kept (P : str -> Prop) : list str -> list str -> Prop :=
| kept_nil : kept P [] []
| kept_yes x l l' : P x -> kept P l l' -> kept P (x :: l) (x :: l')
| kept_no x l l' : ~ P x -> kept P l l' -> kept P (x :: l) l'.

(** The words of a build name that say nothing about system and environment. *)
Definition other_word (systems : list (str * list str)) (E : env_table) (w : str) : Prop :=
  ~ In w (map fst E) /\ ~ In w (flat_map snd E) /\ ~ (In w (map fst systems) /\ w <> $"DEFAULT").

Section Ops.
Variable other_re : str -> str -> res bool.
Variable systems : list (str * list str).
Variable hostname : str.
Variable envs : str -> res (dict (option str)).

(** ** Histories of a [LoadEnv] object *)
Inductive lop := LSystem | LParsed | LStripped | LName (b : str).
Definition lexec (o : lop) : SM loadenv str :=
  match o with
  | LSystem => le_system_name other_re systems hostname
  | LParsed => le_parsed_env_name other_re systems hostname envs
  | LStripped => le_stripped other_re systems hostname envs
  | LName b => bind (le_set_build b) (fun _ => ret b)
  end.
Fixpoint lafter (h : list lop) (p : loadenv) : loadenv :=
  match h with [] => p | o :: h' => lafter h' (snd (lexec o p)) end.
Fixpoint last_build (h : list lop) (b : str) : str :=
  match h with
  | [] => b
  | LName b' :: h' => last_build h' b'
  | _ :: h' => last_build h' b
  end.

(** ** Histories of a [GenConfig] object *)
Variable flags : str -> res (dict (option str)).
Variable specs : list str.
Variable gen : str -> res (list str).
Inductive gop := GConfig | GValidate | GFlags | GList.
Inductive gans := GStr (s : str) | GDone | GOpts (l : list str).
Definition gexec (o : gop) : SM genconfig gans :=
  match o with
  | GConfig => bind (complete_config other_re systems hostname envs flags) (fun s => ret (GStr s))
  | GValidate => bind (validate other_re systems hostname envs flags specs) (fun _ => ret GDone)
  | GFlags => bind (generated_flags other_re systems hostname envs flags specs gen) (fun l => ret (GOpts l))
  | GList => bind (list_configs other_re systems hostname specs) (fun l => ret (GOpts l))
  end.
Fixpoint gafter (h : list gop) (p : genconfig) : genconfig :=
  match h with [] => p | o :: h' => gafter h' (snd (gexec o p)) end.

(** The canonical name for a build name: the environment and the options. *)
Definition config_name (build : str) (force : bool) (c : str) : Prop :=
  exists k n o, new_ckp flags build = Ok k /\
    fst (lexec LParsed (new_loadenv build force)) = Ok n /\
    fst (selected_options_str flags k) = Ok o /\ c = n ++ o.

(** Every section whose name has a lower-case letter has the canonical name. *)
Definition canonical_sections : Prop :=
  forall s, In s specs -> upper s <> s -> config_name s true s.
End Ops.

(** The names of a system, of its environments and of the options do not
    overlap, and are words. *)
Definition is_word (w : str) : Prop := ~ In 95%N w /\ ~ In 10%N w.
Definition literal_name (w : str) : Prop := ~ In 46%N w /\ forall c, In c w -> ordinary_char c.
Record apart (systems : list (str * list str)) (s : str) (E : env_table) (T : list row) : Prop := Apart {
  a_system : is_word s /\ lower s = s;
  a_env : forall n, In n (map fst E) ->
            is_word n /\ literal_name n /\ n <> s /\ ~ In n (flat_map options_of T) /\ ~ In (lower n) (map fst systems);
  a_option : forall o, In o (flat_map options_of T) ->
            o <> [] /\ is_word o /\ o <> s /\ ~ In (lower o) (map fst systems)
}.
