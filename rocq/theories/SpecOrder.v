(** * Vocabulary of C85 and C86: actions that do not concern each other. *)
From Coq Require Import String NArith ZArith List Bool.
Import ListNotations.
From Verif Require Import PyBase IniView Cpe EnvVar SpecWalk SpecRun SpecEnv SetEnv SpecSetEnv.

(** Environments with the same variables and values; the order in which variables
    were added is not looked at. *)
Definition same_env (e e' : environ) : Prop := forall n, dget n e' = dget n e.

(** The text [v] refers to variable [n], as [$n] or [${n}]. *)
Definition mentions (v n : str) : Prop :=
  (exists a b, v = a ++ $"$" ++ n ++ b /\ n <> [] /\ Forall word_char n /\
     match b with c :: _ => ~ word_char c | [] => True end) \/
  (exists a b, v = a ++ $"${" ++ n ++ $"}" ++ b /\ ~ In 125%N n).

(** Programs are looked for along [PATH]. *)
Definition searches_path (which : environ -> str -> option str) : Prop :=
  forall e e' v, dget $"PATH" e' = dget $"PATH" e -> which e' v = which e v.
(** The module command does not see the order of the variables. *)
Definition orderless (mods : list str -> environ -> res Z * environ) : Prop :=
  forall args e e', same_env e e' ->
    fst (mods args e') = fst (mods args e) /\ same_env (snd (mods args e)) (snd (mods args e')).

(** Operation [op] with value [v] looks at variable [n], apart from its own one. *)
Definition looks_at (op v n : str) : Prop :=
  mentions v n \/ (op = $"find_in_path" /\ n = $"PATH").

(** The variable an action is about. *)
Definition target (a : action) (n : str) : Prop :=
  match a with AEnv _ m _ => m = n | AMod _ _ _ => False end.
(** Another variable that its effect depends on. *)
Definition depends (a : action) (n : str) : Prop :=
  exists op m v, a = AEnv ($"envvar_" ++ op) m (Some v) /\ op <> $"unset" /\ looks_at op v n.

(** Two operations on different variables that do not depend on each other's. *)
Definition independent (a b : action) : Prop :=
  (exists op m v, a = AEnv op m v) /\ (exists op m v, b = AEnv op m v) /\
  forall n, (target a n -> ~ target b n /\ ~ depends b n) /\ (target b n -> ~ depends a n).

(** [l'] is [l] with neighbours that are independent exchanged. *)
Inductive reorders : list action -> list action -> Prop :=
| ro_same l : reorders l l
| ro_swap l a b l' : independent a b -> reorders (l ++ a :: b :: l') (l ++ b :: a :: l')
| ro_trans l l' l'' : reorders l l' -> reorders l' l'' -> reorders l l''.

(** Actions that give variables values which depend on none of the variables they
    change. *)
Definition settled_ops : list str := [$"envvar_set"; $"envvar_unset"; $"envvar_find_in_path"].
Definition repeatable (l : list action) : Prop :=
  Forall (fun a => exists op m v, a = AEnv op m v /\ In op settled_ops) l /\
  forall a b n, In a l -> In b l -> target a n -> ~ depends b n.

(** The object has parsed section [s] of its file and recorded the actions [l];
    the exception control level is at least 2. *)
Definition recorded (fs : str -> option str) (i : ini) (s : str) (l : list action) (o : sobj) : Prop :=
  has_file fs o i /\ str_mem s (checked_of o) = true /\ (exists d, section_of o s = Some d) /\
  dget s (o_user o) = Some l /\ Forall asked_action l /\ Forall plain_action l /\ (2 <= level_of o)%Z.
