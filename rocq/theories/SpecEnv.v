(** * Specification of the operations on environment variables. *)
From Coq Require Import String NArith ZArith List Bool.
Import ListNotations.
From Verif Require Import PyBase EnvVar.

(** Letters, digits and the underscore. *)
Definition word_char (c : pychar) : Prop :=
  (48 <= c <= 57)%N \/ (65 <= c <= 90)%N \/ (97 <= c <= 122)%N \/ c = 95%N.

(** [s] begins with a reference to a variable: a name, or anything in braces. *)
Definition begins_reference (s : str) : Prop :=
  match s with
  | [] => False
  | c :: s' => word_char c \/ (c = 123%N /\ In 125%N s')
  end.

(** [expands e s t]: replacing the references in [s] by the values of the
    environment [e] gives [t]. Every reference is replaced once; references to
    variables that are not set stay, and so does a ["$"] that begins none. *)
Inductive expands (e : environ) : str -> str -> Prop :=
| ex_nil : expands e [] []
| ex_char c s t : c <> 36%N -> expands e s t -> expands e (c :: s) (c :: t)
| ex_dollar s t : ~ begins_reference s -> expands e s t -> expands e (36%N :: s) (36%N :: t)
| ex_name n v s t :
    n <> [] -> Forall word_char n -> match s with c :: _ => ~ word_char c | [] => True end ->
    dget n e = Some v -> expands e s t -> expands e (36%N :: n ++ s) (v ++ t)
| ex_name_unset n s t :
    n <> [] -> Forall word_char n -> match s with c :: _ => ~ word_char c | [] => True end ->
    dget n e = None -> expands e s t -> expands e (36%N :: n ++ s) (36%N :: n ++ t)
| ex_brace n v s t :
    ~ In 125%N n -> dget n e = Some v -> expands e s t ->
    expands e (36%N :: 123%N :: n ++ 125%N :: s) (v ++ t)
| ex_brace_unset n s t :
    ~ In 125%N n -> dget n e = None -> expands e s t ->
    expands e (36%N :: 123%N :: n ++ 125%N :: s) (36%N :: 123%N :: n ++ 125%N :: t).

(** [erases sub s t]: [t] is [s] without the occurrences of [sub], taken from the
    left and without overlap. *)
Inductive erases (sub : str) : str -> str -> Prop :=
| er_nil : erases sub [] []
| er_hit s t : erases sub s t -> erases sub (sub ++ s) t
| er_miss c s t : (forall r, c :: s <> sub ++ r) -> erases sub s t -> erases sub (c :: s) (c :: t).

(** A list of path entries and the value of a path variable. *)
Definition entries (l : list str) (p : str) : Prop :=
  l <> [] /\ Forall (fun x => ~ In 58%N x) l /\ p = join $":" l.
(** The entries other than [v]. *)
Inductive without (v : str) : list str -> list str -> Prop :=
| wo_nil : without v [] []
| wo_drop l l' : without v l l' -> without v (v :: l) l'
| wo_keep x l l' : x <> v -> without v l l' -> without v (x :: l) (x :: l').

(** [effect which e name value op new]: operation [op] with [value] succeeds on
    the environment [e] and leaves variable [name] with value [new] ([None]: not
    set). *)
Inductive effect (which : environ -> str -> option str) (e : environ) (name value : str)
  : str -> option str -> Prop :=
| ef_set v : expands e value v -> effect which e name value $"set" (Some v)
| ef_set_if_empty v : expands e value v -> dget name e = None \/ dget name e = Some [] ->
    effect which e name value $"set_if_empty" (Some v)
| ef_keep old : dget name e = Some old -> old <> [] ->
    effect which e name value $"set_if_empty" (Some old)
| ef_append v old : expands e value v -> dget name e = Some old ->
    effect which e name value $"append" (Some (old ++ $":" ++ v))
| ef_append_new v : expands e value v -> dget name e = None ->
    effect which e name value $"append" (Some v)
| ef_prepend v old : expands e value v -> dget name e = Some old ->
    effect which e name value $"prepend" (Some (v ++ $":" ++ old))
| ef_prepend_new v : expands e value v -> dget name e = None ->
    effect which e name value $"prepend" (Some v)
| ef_unset : effect which e name value $"unset" None
| ef_erase v old new : expands e value v -> v <> [] -> dget name e = Some old -> erases v old new ->
    effect which e name value $"remove_substr" (Some new)
| ef_erase_nothing old : expands e value [] -> dget name e = Some old ->
    effect which e name value $"remove_substr" (Some old)
| ef_erase_unset : dget name e = None -> effect which e name value $"remove_substr" None
| ef_entry v l l' old : expands e value v -> dget name e = Some old -> entries l old ->
    without v l l' -> effect which e name value $"remove_path_entry" (Some (join $":" l'))
| ef_entry_unset : dget name e = None -> effect which e name value $"remove_path_entry" None
| ef_find v p : expands e value v -> which e v = Some p ->
    effect which e name value $"find_in_path" (Some p)
| ef_find_not v : expands e value v -> which e v = None ->
    effect which e name value $"find_in_path" (Some [])
| ef_assert old : dget name e = Some old -> old <> [] ->
    effect which e name value $"assert_not_empty" (Some old).

Definition documented_ops : list str :=
  [$"set"; $"set_if_empty"; $"append"; $"prepend"; $"unset"; $"remove_substr";
   $"remove_path_entry"; $"find_in_path"; $"assert_not_empty"].

(** Names the system accepts, and text without null characters. *)
Definition valid_name (n : str) : Prop := n <> [] /\ ~ In 61%N n /\ ~ In 0%N n.
Definition no_null (s : str) : Prop := ~ In 0%N s.
Definition clean_env (e : environ) : Prop := forall n v, dget n e = Some v -> no_null v.
Definition clean_which (which : environ -> str -> option str) : Prop :=
  forall e v p, which e v = Some p -> no_null p.

(** All variables but [name] are as before. *)
Definition same_but (name : str) (e e' : environ) : Prop :=
  forall n, n <> name -> dget n e' = dget n e.
