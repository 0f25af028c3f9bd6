(** * What the printers of [SetEnvironment] show. *)
From Coq Require Import String NArith ZArith List Bool.
Import ListNotations.
From Verif Require Import PyBase EnvVar SetEnv SpecEnv SpecSetEnv SpecMessages.
Local Open Scope string_scope.
Local Open Scope list_scope.

(** ** Actions *)
Definition operation (a : action) : str := match a with AEnv op _ _ => op | AMod op _ _ => op end.
Definition shown (v : option str) : str := match v with Some s => s | None => $"None" end.

(** The words for an action. *)
Inductive in_words : action -> str -> Prop :=
| iw_append n v : in_words (AEnv $"envvar_append" n v) (n ++ $"=""${" ++ n ++ $"}:" ++ shown v ++ $"""")
| iw_prepend n v : in_words (AEnv $"envvar_prepend" n v) (n ++ $"=""" ++ shown v ++ $":${" ++ n ++ $"}""")
| iw_set op n v : In op [$"envvar_set"; $"envvar_set_if_empty"; $"envvar_find_in_path"] ->
    in_words (AEnv op n v) (n ++ $"=""" ++ shown v ++ $"""")
| iw_name op n v : In op [$"envvar_unset"; $"envvar_assert_not_empty"] -> in_words (AEnv op n v) n
| iw_entry n v : in_words (AEnv $"envvar_remove_path_entry" n v) ($"remove path `" ++ shown v ++ $"` from `" ++ n ++ $"`")
| iw_substr n v : in_words (AEnv $"envvar_remove_substr" n v) ($"remove string `" ++ shown v ++ $"` from `${" ++ n ++ $"}`")
| iw_load n v : v = None \/ v = Some [] -> in_words (AMod $"module_load" n v) (shown n ++ $" (default)")
| iw_version n v : v <> [] -> in_words (AMod $"module_load" n (Some v)) (shown n ++ $"/" ++ v)
| iw_purge n v : in_words (AMod $"module_purge" n v) []
| iw_swap n v : in_words (AMod $"module_swap" n v) (shown n ++ $" " ++ shown v)
| iw_unload n v : in_words (AMod $"module_unload" n v) (shown n)
| iw_use n v : in_words (AMod $"module_use" n v) (shown v).

(** The line for an action: the operation, filled up with blanks to width [w], and
    the words. *)
Definition action_line (w : nat) (a : action) (t : str) : Prop :=
  exists k d, length (operation a) + k = w /\ in_words a d /\
    t = $"--> " ++ operation a ++ repeat 32%N k ++ $" : " ++ d.
(** The width of the column: of the longest operation, and 14 at least. *)
Definition column (l : list action) (w : nat) : Prop :=
  14 <= w /\ (forall a, In a l -> length (operation a) <= w) /\
  (w = 14 \/ exists a, In a l /\ length (operation a) = w).
Definition actions_shown (l : list action) (t : str) : Prop :=
  exists w lines, column l w /\ Forall2 (action_line w) l lines /\ t = ended ([$"Actions"; $"======="] ++ lines).

(** Actions that the words tell apart: nothing is missing, names have no [=] and no
    backquote, modules and versions no blank, and nothing has a line feed. *)
Definition one_line (v : option str) : Prop := match v with Some s => ~ In 10%N s | None => True end.
Definition no_blank (v : option str) : Prop := match v with Some s => ~ In 32%N s | None => True end.
Definition tellable (a : action) : Prop :=
  asked_action a /\ ~ incomplete a /\
  match a with
  | AEnv _ n v => ~ In 61%N n /\ ~ In 96%N n /\ ~ In 10%N n /\ one_line v
  | AMod op n v => no_blank n /\ (op = $"module_load" -> no_blank v) /\ one_line n /\ one_line v
  end.

(** ** Variables *)

(** The line for a variable: with its value if there is no filter, or if a text of
    the filter occurs in its name. Other variables are shown by name, or not at all
    if only those that match are asked for. *)
Definition matching (filter : list str) (k : str) : Prop := exists f, In f filter /\ occurs_in f k.
Definition with_value (k v : str) : str := $"[envvar]: " ++ k ++ $" = " ++ v.
Inductive var_lines (filter : option (list str)) (only : bool) : environ -> list str -> Prop :=
| vl_nil : var_lines filter only [] []
| vl_all k v e ls : filter = None -> var_lines filter only e ls ->
    var_lines filter only ((k, v) :: e) (with_value k v :: ls)
| vl_match l k v e ls : filter = Some l -> matching l k -> var_lines filter only e ls ->
    var_lines filter only ((k, v) :: e) (with_value k v :: ls)
| vl_name l k v e ls : filter = Some l -> ~ matching l k -> only = false -> var_lines filter only e ls ->
    var_lines filter only ((k, v) :: e) (($"[envvar]: " ++ k) :: ls)
| vl_skip l k v e ls : filter = Some l -> ~ matching l k -> only = true -> var_lines filter only e ls ->
    var_lines filter only ((k, v) :: e) ls.
Definition vars_rule : str := $"+" ++ repeat 61%N 68 ++ $"+".
Definition vars_shown (filter : option (list str)) (only : bool) (e : environ) (t : str) : Prop :=
  exists ls, var_lines filter only e ls /\
    t = ended ([vars_rule; $"|   P R I N T   E N V I R O N M E N T   V A R S"; vars_rule] ++ ls).
(** Environments that agree on the names, in order, and on the values of the
    variables that match. *)
Definition agree_on (filter : list str) : environ -> environ -> Prop :=
  Forall2 (fun x y => fst x = fst y /\ (matching filter (fst x) -> snd x = snd y)).
(** The variables that match. *)
Inductive matching_vars (filter : list str) : environ -> environ -> Prop :=
| mv_nil : matching_vars filter [] []
| mv_keep k v e m : matching filter k -> matching_vars filter e m -> matching_vars filter ((k, v) :: e) ((k, v) :: m)
| mv_drop k v e m : ~ matching filter k -> matching_vars filter e m -> matching_vars filter ((k, v) :: e) m.
