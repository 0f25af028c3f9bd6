(** * Specification of [SetEnvironment]: which actions a section asks for, and
    what performing them does. *)
From Coq Require Import String NArith ZArith List Bool.
Import ListNotations.
From Verif Require Import PyBase Shlex IniView IniRead ExcControl Cpe EnvVar SetEnv SpecWalk SpecEnv.

(** ** What the text of a section asks for *)

(** An option that is an operation of the class: its name, its parameters and
    its value. *)
Record request := Req { q_op : str; q_params : list str; q_value : option str }.

Definition request_of (e : ev shared cache) : list request :=
  match e with Call _ h _ _ _ v => [Req (h_op h) (h_params h) v] | _ => [] end.
(** The operations in the walk of a section, in order. *)
Definition requests (evs : list (ev shared cache)) : list request := flat_map request_of evs.

Definition envvar_requests : list str :=
  [$"envvar_append"; $"envvar_find_in_path"; $"envvar_prepend"; $"envvar_remove_path_entry";
   $"envvar_remove_substr"; $"envvar_set"; $"envvar_set_if_empty"; $"envvar_unset"].
Definition module_requests : list str :=
  [$"module_load"; $"module_purge"; $"module_swap"; $"module_unload"; $"module_use"].

(** The action a request asks for. *)
Inductive asks : request -> action -> Prop :=
| as_envvar op n ps v : In op envvar_requests -> asks (Req op (n :: ps) v) (AEnv op n v)
| as_assert n ps v :
    asks (Req $"envvar_assert_not_empty" (n :: ps) (Some v)) (AEnv $"envvar_assert_not_empty" n (Some v))
| as_assert_novalue n ps :
    asks (Req $"envvar_assert_not_empty" (n :: ps) None) (AEnv $"envvar_assert_not_empty" n (Some []))
| as_module op ps v : In op module_requests -> asks (Req op ps v) (AMod op (hd_error ps) v).

Definition asked_action (a : action) : Prop := exists q, asks q a.

(** An option of section [t] calls [finalize]. *)
Definition finalizes (t : str) (evs : list (ev shared cache)) : Prop :=
  exists h k f p v, In (Call t h k f p v) evs /\ h_op h = $"finalize".

(** [sub] occurs in [s]. *)
Definition occurs_in (sub s : str) : Prop := exists a b, s = a ++ sub ++ b.

(** A request that cancels an action asked for before. *)
Inductive cancels : request -> action -> Prop :=
| ca_envvar n ps w op v : cancels (Req $"envvar_remove" (n :: ps) w) (AEnv op n v)
| ca_module n ps w op v : cancels (Req $"module_remove" (n :: ps) w) (AMod op (Some n) v)
| ca_module_value n ps w op m v : occurs_in n v ->
    cancels (Req $"module_remove" (n :: ps) w) (AMod op m (Some v)).

(** The actions that remain: those no later request cancels, in order. *)
Inductive remain : list request -> list action -> Prop :=
| re_nil : remain [] []
| re_none q l r : (forall a, ~ asks q a) -> remain l r -> remain (q :: l) r
| re_keep q a l r : asks q a -> Forall (fun q' => ~ cancels q' a) l -> remain l r ->
                    remain (q :: l) (a :: r)
| re_drop q a q' l r : asks q a -> In q' l -> cancels q' a -> remain l r -> remain (q :: l) r.

(** ** What performing an action does *)

(** Text that stands for itself between double quotes in Python. *)
Definition plain_char (c : pychar) : Prop :=
  ~ In c [0; 10; 13; 34; 92]%N /\ ~ (55296 <= c <= 57343)%N.
Definition plain_text (s : str) : Prop := Forall plain_char s.
Definition plain_opt (v : option str) : Prop :=
  match v with Some s => plain_text s | None => True end.
Definition plain_action (a : action) : Prop :=
  match a with
  | AEnv _ n v => plain_text n /\ plain_opt v
  | AMod _ n v => plain_opt n /\ plain_opt v
  end.

Section Perform.
Variable which : environ -> str -> option str.
Variable mods : list str -> environ -> res Z * environ.

(** One action: the result and the new environment. An operation on a variable
    is the operation of that name on the argument texts themselves; a module
    operation is one call of the module command. A missing argument is a
    [TypeError] and changes nothing. *)
Inductive performs : action -> environ -> res Z -> environ -> Prop :=
| pf_envvar op n v e r e' :
    In op documented_ops -> op <> $"unset" ->
    envvar_op which op n v true e = (r, e') ->
    performs (AEnv ($"envvar_" ++ op) n (Some v)) e r e'
| pf_novalue op n e :
    In op documented_ops -> op <> $"unset" ->
    performs (AEnv ($"envvar_" ++ op) n None) e (Err TypeError) e
| pf_unset n v e r e' :
    envvar_op which $"unset" n [] true e = (r, e') ->
    performs (AEnv $"envvar_unset" n v) e r e'
| pf_purge n v e r e' : mods [$"purge"] e = (r, e') -> performs (AMod $"module_purge" n v) e r e'
| pf_use n p e r e' : mods [$"use"; p] e = (r, e') -> performs (AMod $"module_use" n (Some p)) e r e'
| pf_use_none n e : performs (AMod $"module_use" n None) e (Err TypeError) e
| pf_load n v e r e' : v = None \/ v = Some [] -> mods [$"load"; n] e = (r, e') ->
    performs (AMod $"module_load" (Some n) v) e r e'
| pf_load_version n v e r e' : v <> [] -> mods [$"load"; n ++ $"/" ++ v] e = (r, e') ->
    performs (AMod $"module_load" (Some n) (Some v)) e r e'
| pf_load_none v e : performs (AMod $"module_load" None v) e (Err TypeError) e
| pf_unload n v e r e' : mods [$"unload"; n] e = (r, e') ->
    performs (AMod $"module_unload" (Some n) v) e r e'
| pf_unload_none v e : performs (AMod $"module_unload" None v) e (Err TypeError) e
| pf_swap n v e r e' : mods [$"swap"; n; v] e = (r, e') ->
    performs (AMod $"module_swap" (Some n) (Some v)) e r e'
| pf_swap_none n v e : n = None \/ v = None ->
    performs (AMod $"module_swap" n v) e (Err TypeError) e.

(** Performing actions in order at exception control level [lvl]: the first
    exception ends it; so does the first return code that is not 0, at levels 2
    and above. Below, the largest return code (at least [m]) is the result. *)
Inductive performs_all (lvl : Z) : list action -> Z -> environ -> res Z -> environ -> Prop :=
| pa_nil m e : performs_all lvl [] m e (Ok m) e
| pa_raise a l m e x e' : performs a e (Err x) e' -> performs_all lvl (a :: l) m e (Err x) e'
| pa_code a l m e z e' : performs a e (Ok z) e' -> z <> 0%Z -> (2 <= lvl)%Z ->
    performs_all lvl (a :: l) m e (Err RuntimeError) e'
| pa_next a l m e z e1 r e' : performs a e (Ok z) e1 -> z = 0%Z \/ (lvl < 2)%Z ->
    performs_all lvl l (Z.max m z) e1 r e' ->
    performs_all lvl (a :: l) m e r e'.
End Perform.

(** Every action is performed once, in order, and returns 0. *)
Inductive all_done (which : environ -> str -> option str) (mods : list str -> environ -> res Z * environ)
  : list action -> environ -> environ -> Prop :=
| ad_nil e : all_done which mods [] e e
| ad_cons a l e e1 e' : performs which mods a e (Ok 0%Z) e1 -> all_done which mods l e1 e' ->
                        all_done which mods (a :: l) e e'.

(** ** Scripts *)
Definition quoted (s : str) : str := $"""" ++ s ++ $"""".

(** The line of an action in a script. *)
Inductive python_line : action -> str -> Prop :=
| py_envvar op n v : In op documented_ops -> op <> $"unset" ->
    python_line (AEnv ($"envvar_" ++ op) n (Some v))
      ($"envvar_op(" ++ quoted op ++ $"," ++ quoted n ++ $"," ++ quoted v ++ $")")
| py_unset n v : python_line (AEnv $"envvar_unset" n v) ($"envvar_op(""unset""," ++ quoted n ++ $")")
| py_purge n v : python_line (AMod $"module_purge" n v) $"ModuleHelper.module(""purge"")"
| py_use n p : python_line (AMod $"module_use" n (Some p)) ($"ModuleHelper.module(""use""," ++ quoted p ++ $")")
| py_load n v : v = None \/ v = Some [] ->
    python_line (AMod $"module_load" (Some n) v) ($"ModuleHelper.module(""load""," ++ quoted n ++ $")")
| py_load_version n v : v <> [] ->
    python_line (AMod $"module_load" (Some n) (Some v))
      ($"ModuleHelper.module(""load""," ++ quoted (n ++ $"/" ++ v) ++ $")")
| py_unload n v :
    python_line (AMod $"module_unload" (Some n) v) ($"ModuleHelper.module(""unload""," ++ quoted n ++ $")")
| py_swap n v : python_line (AMod $"module_swap" (Some n) (Some v))
    ($"ModuleHelper.module(""swap""," ++ quoted n ++ $"," ++ quoted v ++ $")").

Inductive bash_line : action -> str -> Prop :=
| ba_envvar op n v : In op documented_ops -> op <> $"unset" ->
    bash_line (AEnv ($"envvar_" ++ op) n (Some v)) ($"envvar_op " ++ op ++ $" " ++ quoted n ++ $" " ++ quoted v)
| ba_unset n v : bash_line (AEnv $"envvar_unset" n v) ($"envvar_op unset " ++ quoted n)
| ba_purge n v : bash_line (AMod $"module_purge" n v) $"module purge"
| ba_use n p : bash_line (AMod $"module_use" n (Some p)) ($"module use " ++ p)
| ba_load n v : v = None \/ v = Some [] ->
    bash_line (AMod $"module_load" (Some n) v) ($"module load " ++ n)
| ba_load_version n v : v <> [] ->
    bash_line (AMod $"module_load" (Some n) (Some v)) ($"module load " ++ n ++ $"/" ++ v)
| ba_unload n v : bash_line (AMod $"module_unload" (Some n) v) ($"module unload " ++ n)
| ba_swap n v : bash_line (AMod $"module_swap" (Some n) (Some v)) ($"module swap " ++ n ++ $" " ++ v).

Definition script_line (interp : str) (a : action) (t : str) : Prop :=
  (interp = $"python" /\ python_line a t) \/ (interp = $"bash" /\ bash_line a t).

(** The commands of a script: one line per action, in order. *)
Inductive script_lines (interp : str) : list action -> str -> Prop :=
| sl_nil : script_lines interp [] []
| sl_cons a t l u : script_line interp a t -> script_lines interp l u ->
                    script_lines interp (a :: l) (t ++ newline ++ u).
(** An action whose text cannot be written: an argument is missing. *)
Definition incomplete (a : action) : Prop :=
  match a with
  | AEnv op _ v => op <> $"envvar_unset" /\ v = None
  | AMod op n v =>
      (op = $"module_use" /\ v = None) \/
      ((op = $"module_load" \/ op = $"module_unload") /\ n = None) \/
      (op = $"module_swap" /\ (n = None \/ v = None))
  end.

(** What precedes the commands: the line that names the interpreter, and the
    text [header interp] (functions the commands call). *)
Definition heading (header : str -> str) (interp : str) (hdr bang : bool) : str :=
  (if bang then $"#!/usr/bin/env " ++ (if str_eqb interp $"bash" then $"bash" else $"python3") ++ newline else []) ++
  (if hdr then header interp ++ newline ++ newline else []).
