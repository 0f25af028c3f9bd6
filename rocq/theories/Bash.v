(** * The bash scripts of
    [wip/setenvironment/src/setenvironment/SetEnvironment.py]: the functions
    that [_gen_script_header_bash] (1609-1751) writes into a script, and what
    bash does with the command lines of [generate_actions_script].

    Line numbers refer to that file. The functions are transcribed by hand, one
    definition per function; the part of bash they need is fixed here: dynamic
    scope of [local] variables, word splitting, [${x:?}], [${!x}], [export],
    [unset], pattern substitution. What is outside this part is a parameter:
    pathname expansion, [sed] with a regular expression that is not literal text,
    pattern substitution with a pattern that is not literal text, and command
    lines of another form. Return codes are ignored, as a script does; the only
    way a command stops the script is [exit] or a failing [${x:?}]. *)
From Coq Require Import String NArith ZArith List Bool.
Import ListNotations.
From Verif Require Import PyBase EnvVar.
Local Open Scope sm_scope.

(** The script ends ([exit], or [${x:?}] in a non-interactive shell). *)
Definition ScriptExit : exc := UserExc 1%N.

(** ** Variables

    Each function call has a frame of [local] variables ([None]: declared, then
    [unset]); the innermost comes first. All other variables are those of the
    environment. Variables that bash itself maintains ([IFS], [RANDOM], ...) are
    treated like any other. *)
Record shell := Shell { sh_frames : list (dict (option str)); sh_env : environ }.
Definition bash := SM shell.

Fixpoint local_of (x : str) (l : list (dict (option str))) : option (option str) :=
  match l with
  | [] => None
  | f :: l' => match dget x f with Some v => Some v | None => local_of x l' end
  end.
(** [$x] *)
Definition var (x : str) (b : shell) : option str :=
  match local_of x (sh_frames b) with
  | Some v => v
  | None => dget x (sh_env b)
  end.
Fixpoint local_set (x : str) (v : option str) (l : list (dict (option str))) : list (dict (option str)) :=
  match l with
  | [] => []
  | f :: l' => if dmem x f then dset x v f :: l' else f :: local_set x v l'
  end.
(** Assigning or unsetting [x] concerns the innermost variable of that name. *)
Definition assign (x : str) (v : option str) (b : shell) : shell :=
  match local_of x (sh_frames b) with
  | Some _ => Shell (local_set x v (sh_frames b)) (sh_env b)
  | None => Shell (sh_frames b)
                  (match v with Some t => dset x t (sh_env b) | None => ddel x (sh_env b) end)
  end.
(** [local x=v] *)
Definition declare (x v : str) : bash unit :=
  modify (fun b => match sh_frames b with
                   | f :: l => Shell (dset x (Some v) f :: l) (sh_env b)
                   | [] => b
                   end).
(** A function call. *)
Definition call (body : bash unit) : bash unit := fun b =>
  let (r, b') := body (Shell ([] :: sh_frames b) (sh_env b)) in
  (r, Shell (tl (sh_frames b')) (sh_env b')).

Definition name_start (c : pychar) : bool :=
  ascii_word c && negb ((48 <=? c) && (c <=? 57))%N.
Definition identifier (s : str) : bool :=
  match s with c :: s' => name_start c && forallb ascii_word s' | [] => false end.

(** ** Words *)

(** The characters of the default [IFS]. *)
Definition ifs (c : pychar) : bool := existsb (N.eqb c) [9; 10; 32]%N.
Definition glob_char (c : pychar) : bool := existsb (N.eqb c) [42; 63; 91; 92]%N.

(** The pieces of a word: text that is not split (literal or in double
    quotes), and the value of an unquoted expansion. *)
Inductive piece := Q (s : str) | U (s : str).

(** Fields of a word. [cur]: the field begun, and whether an expansion put a
    pattern character into it. *)
Fixpoint split_value (s : str) (cur : option (str * bool)) : list (str * bool) * option (str * bool) :=
  match s with
  | [] => ([], cur)
  | c :: s' =>
      if ifs c then
        let (l, last) := split_value s' None in
        (match cur with Some f => f :: l | None => l end, last)
      else
        split_value s' (match cur with
                        | Some (t, g) => Some (t ++ [c], g || glob_char c)
                        | None => Some ([c], glob_char c)
                        end)
  end.
Fixpoint split_word (w : list piece) (cur : option (str * bool)) : list (str * bool) :=
  match w with
  | [] => match cur with Some f => [f] | None => [] end
  | Q s :: w' => split_word w' (match cur with Some (t, g) => Some (t ++ s, g) | None => Some (s, false) end)
  | U s :: w' => let (l, last) := split_value s cur in l ++ split_word w' last
  end.

(** The text before the first ["="] and the text after it. *)
Fixpoint at_equals (s : str) : option (str * str) :=
  match s with
  | [] => None
  | c :: s' => if N.eqb c 61 then Some ([], s')
               else match at_equals s' with Some (n, v) => Some (c :: n, v) | None => None end
  end.

(** [${x:?}] *)
Definition required (v : option str) : bash str :=
  match v with Some (c :: s) => ret (c :: s) | _ => raise ScriptExit end.
Definition value_or_empty (v : option str) : str := match v with Some s => s | None => [] end.
Definition read (x : str) : bash (option str) := fun b => (Ok (var x b), b).

(** [s] without trailing newlines: the value of [$( ... )]. *)
Definition chomp (s : str) : str := rstrip (N.eqb 10%N) s.

(** [${s//p/:}] for literal text [p]. *)
Fixpoint subst_from (p : str) (skip : nat) (s : str) : str :=
  match s with
  | [] => []
  | c :: s' =>
      match skip with
      | S n => subst_from p n s'
      | O => if starts_with p s then 58%N :: subst_from p (pred (length p)) s'
             else c :: subst_from p 0 s'
      end
  end.
(** Text in which no character is special in a basic regular expression, nor
    in the command [s#...##g]. *)
Definition regex_literal (s : str) : bool :=
  negb (existsb (fun c => existsb (N.eqb c) [10; 35; 36; 42; 46; 91; 92; 93; 94]%N) s).

Section Bash.
(** Pathname expansion of a field with pattern characters. *)
Variable glob : str -> list str.
(** [${s//p/:}] for other patterns. *)
Variable subst_pattern : str -> str -> str.
(** What [sed args] prints for an input, for other arguments. *)
Variable sed_other : list str -> str -> str.
(** What [echo args] prints if the first argument begins with a dash. *)
Variable echo_option : list str -> str.
(** What [which args] prints. *)
Variable which_prints : environ -> list str -> str.
(** The command [module], and command lines of any other form. *)
Variable module_command : list str -> environ -> environ.
Variable other_command : str -> environ -> res unit * environ.

Definition fields (w : list piece) : list str :=
  flat_map (fun f : str * bool => if snd f then glob (fst f) else [fst f]) (split_word w None).

(** [export word ...]: a word that is no assignment to a name is refused, or
    (without ["="]) has no effect here, since every variable is exported. *)
Definition export_word (w : str) : bash unit :=
  match at_equals w with
  | Some (n, v) => if identifier n then modify (assign n (Some v)) else ret tt
  | None => ret tt
  end.
Fixpoint export (l : list str) : bash unit :=
  match l with [] => ret tt | w :: l' => export_word w ;; export l' end.

(** [envvar_append_or_create], 1630-1636. *)
Definition envvar_append_or_create (a1 a2 : str) : bash unit :=
  v <- read a1 ;;
  match v with
  | None => export (fields [U a1; Q $"="; Q a2])
  | Some t => export (fields [U a1; Q $"="; Q (t ++ $":" ++ a2)])
  end.

(** [envvar_assert_not_empty], 1641-1652; the message is not modelled. *)
Definition envvar_assert_not_empty (a1 a2 : str) : bash unit :=
  declare $"envvar" a1 ;;
  declare $"message" a2 ;;
  n <- read $"envvar" ;;
  v <- read (value_or_empty n) ;;
  match v with
  | None | Some [] => raise ScriptExit
  | Some _ => ret tt
  end.

(** [envvar_prepend_or_create], 1657-1663. *)
Definition envvar_prepend_or_create (a1 a2 : str) : bash unit :=
  v <- read a1 ;;
  match v with
  | None => export (fields [U a1; Q $"="; Q a2])
  | Some t => export (fields [U a1; Q $"="; Q (a2 ++ $":" ++ t)])
  end.

(** [envvar_set_or_create], 1668-1670. *)
Definition envvar_set_or_create (a1 a2 : str) : bash unit :=
  n <- required (Some a1) ;;
  export (fields [U n; Q $"="; Q a2]).

(** [envvar_set_if_empty], 1675-1681. *)
Definition bash_set_if_empty (a1 a2 : str) : bash unit :=
  a1 <- required (Some a1) ;;
  declare $"ENVVAR_NAME" a1 ;;
  declare $"ENVVAR_VALUE" a2 ;;
  n <- read $"ENVVAR_NAME" ;;
  v <- read (value_or_empty n) ;;
  match v with
  | None | Some [] =>
      t <- read $"ENVVAR_VALUE" ;;
      export (fields [U (value_or_empty n); Q $"="; Q (value_or_empty t)])
  | Some _ => ret tt
  end.

Definition echo (l : list str) : str :=
  match l with
  | (45%N :: _) :: _ => echo_option l
  | _ => join $" " l ++ newline
  end.
(** [sed s#p##g]; the input of one line. *)
Definition sed (args : list str) (input : str) : str :=
  match args with
  | [a] =>
      let p := skipn 2 (firstn (length a - 3) a) in
      if starts_with $"s#" a && str_eqb (skipn (length a - 3) a) $"##g" && regex_literal p &&
         negb (empty_str p) then erase p input
      else sed_other args input
  | _ => sed_other args input
  end.

(** [envvar_remove_substr], 1686-1698; [[ ! -z ${1:?} ]] holds for a name. *)
Definition envvar_remove_substr (a1 a2 : str) : bash unit :=
  a1 <- required (Some a1) ;;
  declare $"envvar" a1 ;;
  a2 <- required (Some a2) ;;
  declare $"substr" a2 ;;
  s <- read $"substr" ;;
  if char_mem 35%N (value_or_empty s) then ret tt
  else
    n <- read $"envvar" ;;
    v <- read (value_or_empty n) ;;
    let text := echo (fields [U (value_or_empty v)]) in
    let new := chomp (sed (fields [Q $"s#"; U (value_or_empty s); Q $"##g"]) text) in
    export (fields [U (value_or_empty n); Q $"="; U new]).

(** [envvar_remove_path_entry], 1703-1717: [${v#:1}] removes the two characters
    [:1] from the front of [v], [${v%:1}] from its end. *)
Definition drop_front (p s : str) : str := if starts_with p s then skipn (length p) s else s.
Definition drop_back (p s : str) : str := rev (drop_front (rev p) (rev s)).
Definition envvar_remove_path_entry (a1 a2 : str) : bash unit :=
  a1 <- required (Some a1) ;;
  declare $"envvar" a1 ;;
  a2 <- required (Some a2) ;;
  declare $"to_remove" a2 ;;
  n <- read $"envvar" ;;
  v <- read (value_or_empty n) ;;
  declare $"new_value" (value_or_empty v) ;;
  v <- read $"new_value" ;;
  modify (assign $"new_value" (Some ($":" ++ value_or_empty v ++ $":"))) ;;
  v <- read $"new_value" ;;
  r <- read $"to_remove" ;;
  let p := $":" ++ value_or_empty r ++ $":" in
  modify (assign $"new_value"
    (Some (if existsb glob_char p then subst_pattern p (value_or_empty v)
           else subst_from p 0 (value_or_empty v)))) ;;
  v <- read $"new_value" ;;
  modify (assign $"new_value" (Some (drop_front $":1" (value_or_empty v)))) ;;
  v <- read $"new_value" ;;
  modify (assign $"new_value" (Some (drop_back $":1" (value_or_empty v)))) ;;
  v <- read $"new_value" ;;
  export (fields [U (value_or_empty n); Q $"="; U (value_or_empty v)]).

(** The arguments of a function called with the words [l]. *)
Definition nth_arg (n : nat) (l : list str) : str := value_or_empty (nth_error l n).
Definition with2 (f : str -> str -> bash unit) (l : list str) : bash unit :=
  call (f (nth_arg 0 l) (nth_arg 1 l)).

(** [unset word ...] *)
Fixpoint unset (l : list str) : bash unit :=
  match l with
  | [] => ret tt
  | w :: l' => (if identifier w then modify (assign w None) else ret tt) ;; unset l'
  end.

(** The branches of [envvar_op], 1727-1747. *)
Definition op_branches (op : str) : bash unit :=
  let arg1 := v <- read $"arg1" ;; required v in
  let arg2 := v <- read $"arg2" ;; ret (value_or_empty v) in
  let arg2' := v <- read $"arg2" ;; required v in
  if str_eqb op $"set" then
    x <- arg1 ;; y <- arg2 ;; with2 envvar_set_or_create (fields [U x] ++ fields [Q y])
  else if str_eqb op $"unset" then
    x <- arg1 ;; unset (fields [U x])
  else if str_eqb op $"append" then
    x <- arg1 ;; y <- arg2' ;; with2 envvar_append_or_create (fields [U x] ++ fields [Q y])
  else if str_eqb op $"prepend" then
    x <- arg1 ;; y <- arg2' ;; with2 envvar_prepend_or_create (fields [U x] ++ fields [Q y])
  else if str_eqb op $"remove_substr" then
    x <- arg1 ;; y <- arg2' ;; with2 envvar_remove_substr (fields [U x] ++ fields [Q y])
  else if str_eqb op $"remove_path_entry" then
    x <- arg1 ;; y <- arg2' ;; with2 envvar_remove_path_entry (fields [U x] ++ fields [Q y])
  else if str_eqb op $"find_in_path" then
    x <- arg1 ;; y <- arg2' ;;
    b <- get ;;
    let p := chomp (which_prints (sh_env b) (fields [U y])) in
    with2 envvar_set_or_create (fields [U x] ++ fields [Q p])
  else if str_eqb op $"assert_not_empty" then
    x <- arg1 ;; y <- arg2 ;; with2 envvar_assert_not_empty (fields [Q x] ++ fields [Q y])
  else if str_eqb op $"set_if_empty" then
    x <- arg1 ;; y <- arg2 ;; with2 bash_set_if_empty (fields [Q x] ++ fields [Q y])
  else ret tt.

(** [envvar_op], 1723-1748. *)
Definition bash_envvar_op (args : list str) : bash unit :=
  op <- required (nth_error args 0) ;;
  declare $"op" op ;;
  a1 <- required (nth_error args 1) ;;
  declare $"arg1" a1 ;;
  declare $"arg2" (nth_arg 2 args) ;;
  op <- (v <- read $"op" ;; required v) ;;
  op_branches op.

(** ** Command lines *)

(** The parts of a word of a command line: text, and references to variables
    in double quotes. *)
Inductive part := Text (s : str) | Ref (x : str).

(** Characters that stand for themselves outside of quotes. *)
Definition bare_char (c : pychar) : bool :=
  ascii_word c || existsb (N.eqb c) [37; 43; 44; 45; 46; 47; 58; 61; 64]%N.

(** The name at the start of the text after a ["$"], and the number of
    characters it takes. Positional and special parameters, [${x...}] with an
    operator, and [$( ... )] are not modelled. *)
Definition bash_reference (s : str) : option (str * nat) :=
  match s with
  | c :: s' =>
      if name_start c then Some (word_run s, length (word_run s))
      else if N.eqb c 123%N then
        match upto_brace s' with
        | Some name => if identifier name then Some (name, 2 + length name) else None
        | None => None
        end
      else None
  | [] => None
  end.
(** A ["$"] before one of these is an ordinary character. *)
Definition dollar_is_text (s : str) : bool :=
  match s with c :: _ => existsb (N.eqb c) [32; 34; 37; 44; 46; 47; 58; 59; 61; 94; 126]%N | [] => false end.

(** The text after an opening double quote: its parts, and what follows the
    closing quote. *)
Definition put_part (p : part) (r : option (list part * str)) : option (list part * str) :=
  match r with Some (l, rest) => Some (p :: l, rest) | None => None end.
Fixpoint in_quotes (skip : nat) (s : str) : option (list part * str) :=
  match s with
  | [] => None
  | c :: s1 =>
      match skip with
      | S n => in_quotes n s1
      | O =>
          if N.eqb c 34 then Some ([], s1)
          else if N.eqb c 96 then None
          else if N.eqb c 36 then
            match bash_reference s1 with
            | Some (x, n) => put_part (Ref x) (in_quotes n s1)
            | None => if dollar_is_text s1 then put_part (Text [c]) (in_quotes 0 s1) else None
            end
          else if N.eqb c 92 then
            match s1 with
            | d :: _ =>
                if N.eqb d 10 then in_quotes 1 s1
                else if existsb (N.eqb d) [34; 36; 92; 96]%N then put_part (Text [d]) (in_quotes 1 s1)
                else put_part (Text [c]) (in_quotes 0 s1)
            | [] => None
            end
          else put_part (Text [c]) (in_quotes 0 s1)
      end
  end.

Definition word := list part.
Definition blank_char (c : pychar) : bool := existsb (N.eqb c) [9; 32]%N.
Fixpoint to_newline (s : str) : str :=
  match s with
  | [] => []
  | c :: s' => if N.eqb c 10 then s' else to_newline s'
  end.

(** The words up to the end of the line, and the text after it. [cur]: the
    word begun. *)
Definition end_word (cur : option word) (r : option (list word * str)) : option (list word * str) :=
  match cur with
  | None => r
  | Some w => match r with Some (l, rest) => Some (w :: l, rest) | None => None end
  end.
Definition add_parts (cur : option word) (l : list part) : option word :=
  Some (match cur with Some w => w | None => [] end ++ l).
Fixpoint line_words (fuel : nat) (s : str) (cur : option word) : option (list word * str) :=
  match fuel with
  | O => None
  | S f =>
      match s with
      | [] => end_word cur (Some ([], []))
      | c :: s' =>
          if N.eqb c 10 then end_word cur (Some ([], s'))
          else if blank_char c then end_word cur (line_words f s' None)
          else if N.eqb c 34 then
            match in_quotes 0 s' with
            | Some (l, rest) => line_words f rest (add_parts cur l)
            | None => None
            end
          else if bare_char c then line_words f s' (add_parts cur [Text [c]])
          else match cur with
               | None => if N.eqb c 35 then Some ([], to_newline s') else None
               | Some _ => None
               end
      end
  end.

Definition part_value (b : shell) (p : part) : str :=
  match p with Text s => s | Ref x => value_or_empty (var x b) end.
Definition word_value (b : shell) (w : word) : str := flat_map (part_value b) w.

(** A command; [line] is its text, for commands of another form. An
    [envvar_op] whose second argument is not a name is one of these: bash then
    reports an error for the line, or splits the argument. *)
Definition in_env {A} (f : environ -> res A * environ) : bash A := fun b =>
  let (r, e) := f (sh_env b) in (r, Shell (sh_frames b) e).
Definition run_command (ws : list word) (line : str) : bash unit := fun b =>
  match map (word_value b) ws with
  | [] => (Ok tt, b)
  | c :: args =>
      if str_eqb c $"envvar_op" && identifier (nth_arg 1 args) then call (bash_envvar_op args) b
      else if str_eqb c $"module" then (Ok tt, Shell (sh_frames b) (module_command args (sh_env b)))
      else if str_eqb c $"export" then export args b
      else in_env (other_command line) b
  end.

(** A script, read and executed line by line. *)
Fixpoint run_script (fuel : nat) (s : str) : bash unit :=
  match fuel with
  | O => raise RecursionError
  | S f =>
      match s with
      | [] => ret tt
      | _ =>
          match line_words (S (length s)) s None with
          | Some (ws, rest) => run_command ws s ;; run_script f rest
          | None => in_env (other_command s)
          end
      end
  end.
(** The commands of a script, run by a new bash process that knows the functions
    above, in the environment [e]. *)
Definition run_bash (s : str) (e : environ) : res unit * environ :=
  let (r, b) := run_script (S (length s)) s (Shell [] e) in (r, sh_env b).
End Bash.
