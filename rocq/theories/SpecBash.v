(** * Specification of the bash scripts: which actions mean the same in both
    languages, and what the two removing functions do in bash. *)
From Coq Require Import String NArith ZArith List Bool.
Import ListNotations.
From Verif Require Import PyBase EnvVar Cpe SetEnv SpecEnv SpecSetEnv.

(** ** Names and values *)

(** A name: letters, digits, underscores, and no digit in front. *)
Definition shell_name (n : str) : Prop :=
  match n with
  | c :: s => word_char c /\ ~ (48 <= c <= 57)%N /\ Forall word_char s
  | [] => False
  end.
(** Names of variables that the functions in the header use themselves. *)
Definition header_locals : list str :=
  [$"op"; $"arg1"; $"arg2"; $"envvar"; $"message"; $"substr"; $"to_remove"; $"new_value";
   $"ENVVAR_NAME"; $"ENVVAR_VALUE"].
(** Variables that bash sets by itself or gives a meaning to (bash 5.2 manual,
    5.1 and 5.2; without those for interactive use). *)
Definition bash_names : list str :=
  [$"_"; $"BASH"; $"BASHOPTS"; $"BASHPID"; $"BASH_ALIASES"; $"BASH_ARGC"; $"BASH_ARGV"; $"BASH_ARGV0";
   $"BASH_CMDS"; $"BASH_COMMAND"; $"BASH_COMPAT"; $"BASH_ENV"; $"BASH_EXECUTION_STRING"; $"BASH_LINENO";
   $"BASH_LOADABLES_PATH"; $"BASH_REMATCH"; $"BASH_SOURCE"; $"BASH_SUBSHELL"; $"BASH_VERSINFO"; $"BASH_VERSION";
   $"BASH_XTRACEFD"; $"CHILD_MAX"; $"COMP_CWORD"; $"COMP_LINE"; $"COMP_POINT"; $"COMP_TYPE"; $"COMP_KEY";
   $"COMP_WORDBREAKS"; $"COMP_WORDS"; $"COPROC"; $"DIRSTACK"; $"EPOCHREALTIME"; $"EPOCHSECONDS"; $"EUID";
   $"EXECIGNORE"; $"FUNCNAME"; $"FUNCNEST"; $"GLOBIGNORE"; $"GROUPS"; $"HISTCMD"; $"HOSTNAME"; $"HOSTTYPE";
   $"IFS"; $"LINENO"; $"MACHTYPE"; $"MAPFILE"; $"OLDPWD"; $"OPTARG"; $"OPTERR"; $"OPTIND"; $"OSTYPE";
   $"PIPESTATUS"; $"POSIXLY_CORRECT"; $"PPID"; $"PS4"; $"PWD"; $"RANDOM"; $"READLINE_ARGUMENT";
   $"READLINE_LINE"; $"READLINE_MARK"; $"READLINE_POINT"; $"REPLY"; $"SECONDS"; $"SHELL"; $"SHELLOPTS"; $"SHLVL";
   $"SRANDOM"; $"UID"].
Definition reserved_names : list str := header_locals ++ bash_names.
Definition variable (n : str) : Prop := shell_name n /\ ~ In n reserved_names.

(** [stands_for e v t]: between double quotes, [v] means [t], in Python (after
    [expandvars]) and in bash, in the environment [e]. Every referenced variable
    is set. *)
Inductive stands_for (e : environ) : str -> str -> Prop :=
| sf_nil : stands_for e [] []
| sf_char c v t : plain_char c -> c <> 36%N -> c <> 96%N -> stands_for e v t ->
                  stands_for e (c :: v) (c :: t)
| sf_dollar c v t : In c $" %,./:;=^~" -> stands_for e (c :: v) t -> stands_for e (36%N :: c :: v) (36%N :: t)
| sf_dollar_end : stands_for e [36%N] [36%N]
| sf_name n x v t : shell_name n -> ~ In n bash_names -> match v with c :: _ => ~ word_char c | [] => True end ->
    dget n e = Some x -> stands_for e v t -> stands_for e (36%N :: n ++ v) (x ++ t)
| sf_brace n x v t : shell_name n -> ~ In n bash_names -> dget n e = Some x -> stands_for e v t ->
    stands_for e (36%N :: 123%N :: n ++ 125%N :: v) (x ++ t).

(** Text that bash does not split and in which it sees no pattern. *)
Definition unsplit (s : str) : Prop := forall c, In c s -> ~ In c [9; 10; 32; 42; 63; 91; 92]%N.
(** Text that stands for itself on a command line. *)
Definition bare_text (s : str) : Prop := s <> [] /\ forall c, In c s -> word_char c \/ In c $"%+,-./:=@".

(** Text without a meaning for [sed], between the delimiters [#]. *)
Definition sed_text (s : str) : Prop := forall c, In c s -> ~ In c [10; 35; 36; 42; 46; 91; 92; 93; 94]%N.
(** Text that [echo] prints as it is. *)
Definition echo_text (s : str) : Prop := unsplit s /\ forall r, s <> $"-" ++ r.

(** ** Actions that mean the same in both languages *)
Inductive portable (e : environ) : action -> Prop :=
| po_value op n v t :
    op = $"set" \/ op = $"set_if_empty" \/ op = $"assert_not_empty" ->
    variable n -> stands_for e v t -> portable e (AEnv ($"envvar_" ++ op) n (Some v))
| po_path op n v t : op = $"append" \/ op = $"prepend" ->
    variable n -> stands_for e v t -> t <> [] -> portable e (AEnv ($"envvar_" ++ op) n (Some v))
| po_find n v t : variable n -> stands_for e v t -> t <> [] -> unsplit t ->
    portable e (AEnv $"envvar_find_in_path" n (Some v))
| po_substr n v t old : variable n -> stands_for e v t -> t <> [] -> sed_text t -> unsplit t ->
    dget n e = Some old -> echo_text old ->
    portable e (AEnv $"envvar_remove_substr" n (Some v))
| po_unset n v : variable n -> portable e (AEnv $"envvar_unset" n v)
| po_purge n v : portable e (AMod $"module_purge" n v)
| po_use n p : bare_text p -> portable e (AMod $"module_use" n (Some p))
| po_load n v : v = None \/ v = Some [] -> bare_text n -> portable e (AMod $"module_load" (Some n) v)
| po_load_version n v : bare_text n -> bare_text v -> portable e (AMod $"module_load" (Some n) (Some v))
| po_unload n v : bare_text n -> portable e (AMod $"module_unload" (Some n) v)
| po_swap n v : bare_text n -> bare_text v -> portable e (AMod $"module_swap" (Some n) (Some v)).

(** Every action is portable in the environment in which it is performed. *)
Inductive portable_all (which : environ -> str -> option str)
  (mods : list str -> environ -> res Z * environ) : list action -> environ -> Prop :=
| pl_nil e : portable_all which mods [] e
| pl_cons a l e : portable e a ->
    (forall e1, performs which mods a e (Ok 0%Z) e1 -> portable_all which mods l e1) ->
    portable_all which mods (a :: l) e.

(** ** [remove_path_entry] in bash *)

(** The entries that remain: the entry after a removed one is never looked at. *)
Inductive skips (v : str) : list str -> list str -> Prop :=
| sk_nil : skips v [] []
| sk_keep x l l' : x <> v -> skips v l l' -> skips v (x :: l) (x :: l')
| sk_last : skips v [v] []
| sk_hit x l l' : skips v l l' -> skips v (v :: x :: l) (x :: l').

(** The new value: every remaining entry is followed by a colon, and a colon is
    put in front; if the text then begins with [:1], these two characters go. *)
Definition terminated (l : list str) : str := flat_map (fun x => x ++ $":") l.
Inductive bash_path (v old : str) : str -> Prop :=
| bp_value l l' new : entries l old -> skips v l l' ->
    (forall r, terminated l' <> $"1" ++ r) -> new = $":" ++ terminated l' -> bash_path v old new
| bp_one l l' new : entries l old -> skips v l l' ->
    terminated l' = $"1" ++ new -> bash_path v old new.

(** No two neighbours in [l] are equal to [v]. *)
Inductive no_neighbours (v : str) : list str -> Prop :=
| nn_nil : no_neighbours v []
| nn_one x : no_neighbours v [x]
| nn_cons x y l : x <> v \/ y <> v -> no_neighbours v (y :: l) -> no_neighbours v (x :: y :: l).
