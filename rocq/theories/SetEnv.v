(** * [wip/setenvironment/src/setenvironment/SetEnvironment.py], lines 237-1858:
    the class [SetEnvironment].

    Line numbers refer to that file. Debug messages are not modelled; the pretty
    printers (344-498) are in [Printers.v]. *)
From Coq Require Import String NArith ZArith List Bool.
Import ListNotations.
From Verif Require Import PyBase Shlex IniView IniRead ExcControl Cpe EnvVar.
Local Open Scope sm_scope.

(** The dicts of the action list (1254, 1305). *)
Inductive action :=
| AEnv (op name : str) (value : option str)
| AMod (op : str) (name value : option str).

(** [data_shared]: only the entry ['setenvironment'] is used; [None]: no such
    entry. The subclass state is [actions] (264-297). The list in [data_shared]
    is stored in [actions] by reference (1098); the model stores its value,
    which differs only if an option of the file calls [finalize] as an
    operation. *)
Definition shared := option (list action).
Definition cache := dict (list action).
Definition handler := hbody shared cache.

(** [_initialize_handler_parameters], 1312-1330. *)
Definition init_shared (sh : shared) : list action :=
  match sh with Some l => l | None => [] end.

(** [_helper_handler_common_envvar], 1246-1259. *)
Definition common_envvar (value : option str) : handler := fun _ hp sh us =>
  match hp_params hp with
  | [] => (Err IndexError, sh, us)
  | n :: _ => (Ok (Some 0%Z), Some (init_shared sh ++ [AEnv (hp_op hp) n value]), us)
  end.
Definition h_envvar : handler := fun s hp => common_envvar (hp_value hp) s hp.
(** [_handler_envvar_assert_not_empty], 740-741. *)
Definition h_assert : handler := fun s hp =>
  common_envvar (match hp_value hp with None => Some [] | v => v end) s hp.

(** [_helper_handler_common_module], 1294-1310. *)
Definition h_module : handler := fun _ hp sh us =>
  let n := match hp_params hp with [] => None | n :: _ => Some n end in
  (Ok (Some 0%Z), Some (init_shared sh ++ [AMod (hp_op hp) n (hp_value hp)]), us).

(** [sub in s] *)
Fixpoint contains (sub s : str) : bool :=
  starts_with sub s || match s with [] => false | _ :: s' => contains sub s' end.

(** [_handler_envvar_remove], 804-820. *)
Definition h_envvar_remove : handler := fun _ hp sh us =>
  match sh with
  | None => (Err KeyError, sh, us)
  | Some l =>
      match hp_params hp with
      | [] => (Err IndexError, sh, us)
      | n :: _ =>
          (Ok (Some 0%Z),
           Some (filter (fun a => match a with
                                  | AEnv _ m _ => negb (str_eqb m n)
                                  | AMod _ _ _ => true
                                  end) l), us)
      end
  end.

(** [_handler_module_remove], 988-1013. *)
Definition h_module_remove : handler := fun _ hp sh us =>
  match sh with
  | None => (Err KeyError, sh, us)
  | Some l =>
      match hp_params hp with
      | [] => (Err IndexError, sh, us)
      | n :: _ =>
          (Ok (Some 0%Z),
           Some (filter (fun a => match a with
                                  | AMod _ m v =>
                                      negb (match m with Some m => str_eqb m n | None => false end) &&
                                      match v with None => true | Some v => negb (contains n v) end
                                  | AEnv _ _ _ => true
                                  end) l), us)
      end
  end.

(** [handler_initialize], 1084-1085; [handler_finalize], 1098-1099. *)
Definition h_initialize : handler := fun _ _ sh us =>
  (Ok (Some 0%Z), Some (init_shared sh), us).
Definition h_finalize : handler := fun s _ sh us =>
  match sh with
  | None => (Err KeyError, sh, us)
  | Some l => (Ok (Some 0%Z), sh, dset s l us)
  end.

Definition setenv_attrs : dict (attr shared cache) :=
  [($"_handler_envvar_append", AUser Decorated h_envvar);
   ($"_handler_envvar_assert_not_empty", AUser Decorated h_assert);
   ($"_handler_envvar_find_in_path", AUser Decorated h_envvar);
   ($"_handler_envvar_prepend", AUser Decorated h_envvar);
   ($"_handler_envvar_remove", AUser Decorated h_envvar_remove);
   ($"_handler_envvar_remove_path_entry", AUser Decorated h_envvar);
   ($"_handler_envvar_remove_substr", AUser Decorated h_envvar);
   ($"_handler_envvar_set", AUser Decorated h_envvar);
   ($"_handler_envvar_set_if_empty", AUser Decorated h_envvar);
   ($"_handler_envvar_unset", AUser Decorated h_envvar);
   ($"_handler_module_load", AUser Decorated h_module);
   ($"_handler_module_purge", AUser Decorated h_module);
   ($"_handler_module_remove", AUser Decorated h_module_remove);
   ($"_handler_module_swap", AUser Decorated h_module);
   ($"_handler_module_unload", AUser Decorated h_module);
   ($"_handler_module_use", AUser Decorated h_module);
   ($"handler_finalize", AUser Decorated h_finalize);
   ($"handler_initialize", AUser Decorated h_initialize)].

(** The class; the constructor (256-258) leaves [actions] empty. *)
Definition SetEnvironment (uniword : pychar -> bool) : pyclass shared cache :=
  PyClass setenv_attrs None uniword.

(** ** Generated commands *)

Definition sobj := obj shared cache.

(** [_remove_prefix], 1855-1858. *)
Definition remove_prefix (text prefix : str) : str :=
  if starts_with prefix text then skipn (length prefix) text else text.

(** ['"' + x + '"'] and [" ".join(...)] need strings. *)
Definition need_str (x : option str) : SM sobj str :=
  match x with Some s => ret s | None => raise TypeError end.
Fixpoint need_all (l : list (option str)) : SM sobj (list str) :=
  match l with
  | [] => ret []
  | x :: l' => s <- need_str x ;; r <- need_all l' ;; ret (s :: r)
  end.
Definition dquoted (s : str) : str := [34%N] ++ s ++ [34%N].

Definition envvar_ops2 : list str :=
  [$"append"; $"assert_not_empty"; $"find_in_path"; $"prepend"; $"remove_path_entry";
   $"remove_substr"; $"set"; $"set_if_empty"].

(** [_gen_actioncmd_envvar], 1441-1494, always called with two arguments. *)
Definition gen_envvar (op name : str) (value : option str) (interp : str) : SM sobj str :=
  let op := remove_prefix op $"envvar_" in
  arglist <-
    (if str_eqb op $"unset" then ret [Some name]
     else if str_mem op envvar_ops2 then ret [Some name; value]
     else event $"SERIOUS" ValueError ;; ret []) ;;
  if str_eqb interp $"python" then
    l <- need_all (Some op :: arglist) ;;
    ret ($"envvar_op(" ++ join $"," (map dquoted l) ++ $")")
  else if str_eqb interp $"bash" then
    l <- need_all arglist ;;
    ret ($"envvar_op " ++ join $" " (op :: map dquoted l))
  else event $"SERIOUS" ValueError ;; ret [].

(** [_gen_actioncmd_module], 1543-1607, always called with two arguments. *)
Definition gen_module (op : str) (name value : option str) (interp : str) : SM sobj str :=
  let op := remove_prefix op $"module_" in
  arglist <-
    (if str_eqb op $"purge" then ret []
     else if str_eqb op $"use" then ret [value]
     else if str_eqb op $"load" then
       match value with
       | None | Some [] => ret [name]
       | Some v => n <- need_str name ;; ret [Some (n ++ $"/" ++ v)]
       end
     else if str_eqb op $"unload" then ret [name]
     else if str_eqb op $"swap" then ret [name; value]
     else event $"SERIOUS" ValueError ;; ret []) ;;
  if str_eqb interp $"python" then
    l <- need_all (Some op :: arglist) ;;
    ret ($"ModuleHelper.module(" ++ join $"," (map dquoted l) ++ $")")
  else if str_eqb interp $"bash" then
    l <- need_all (Some op :: arglist) ;;
    ret ($"module " ++ join $" " l)
  else event $"SERIOUS" ValueError ;; ret [].

Definition gen_action (a : action) (interp : str) : SM sobj str :=
  match a with
  | AEnv op n v => gen_envvar op n v interp
  | AMod op n v => gen_module op n v interp
  end.

(** ** Python's view of a generated command *)

(** A character that ends or breaks a string literal or the source text. *)
Definition bad_source (c : pychar) : bool :=
  ((c =? 0) || (c =? 10) || (c =? 13) || (55296 <=? c) && (c <=? 57343))%N.

(** The escape sequences of a string literal that consist of two characters;
    octal, [\x], [\u], [\U], [\N] are not modelled ([None]). *)
Definition escape (d : pychar) : option str :=
  if bad_source d then (if N.eqb d 10 then Some [] else None)
  else if existsb (N.eqb d) [34; 39; 92]%N then Some [d]
  else if N.eqb d 97 then Some [7%N]
  else if N.eqb d 98 then Some [8%N]
  else if N.eqb d 102 then Some [12%N]
  else if N.eqb d 110 then Some [10%N]
  else if N.eqb d 114 then Some [13%N]
  else if N.eqb d 116 then Some [9%N]
  else if N.eqb d 118 then Some [11%N]
  else if existsb (N.eqb d) [48; 49; 50; 51; 52; 53; 54; 55; 78; 85; 117; 120]%N then None
  else Some [92%N; d].

(** The rest of a literal after its opening quote: value and remaining text. *)
Definition put_front (v : str) (r : option (str * str)) : option (str * str) :=
  match r with Some (w, rest) => Some (v ++ w, rest) | None => None end.
Fixpoint py_literal (s : str) : option (str * str) :=
  match s with
  | [] => None
  | c :: s1 =>
      if N.eqb c 34 then Some ([], s1)
      else if bad_source c then None
      else if N.eqb c 92 then
        match s1 with
        | [] => None
        | d :: s2 => match escape d with
                     | Some v => put_front v (py_literal s2)
                     | None => None
                     end
        end
      else put_front [c] (py_literal s1)
  end.

Definition blank (c : pychar) : bool := existsb (N.eqb c) [9; 12; 32]%N.
Definition ends_here (s : str) : bool :=
  match s with
  | [] => true
  | c :: s' => N.eqb c 35 && negb (existsb bad_source s')
  end.

(** The arguments of a call whose arguments are all simple string literals and
    after which nothing follows but a comment. Other Python text gives [None]. *)
Fixpoint py_args (fuel : nat) (s : str) : option (list str) :=
  match fuel, s with
  | S f, c :: s1 =>
      if N.eqb c 34 && negb (starts_with [34; 34]%N s1) then
        match py_literal s1 with
        | None => None
        | Some (v, rest) =>
            match lstrip blank rest with
            | d :: r =>
                if N.eqb d 44 then option_map (cons v) (py_args f (lstrip blank r))
                else if N.eqb d 41 then if ends_here (lstrip blank r) then Some [v] else None
                else None
            | [] => None
            end
        end
      else None
  | _, _ => None
  end.
Definition py_call (f : str) (cmd : str) : option (list str) :=
  if starts_with f cmd then py_args (length cmd) (skipn (length f) cmd) else None.

Section Apply.
Variable which : environ -> str -> option str.
(** [ModuleHelper.module(...)]: runs an external program and changes the
    environment in any way. *)
Variable mods : list str -> environ -> res Z * environ.
(** Any other Python text (or a syntax error) given to [exec]. *)
Variable other : str -> environ -> res Z * environ.

(** [_exec_helper], 1208-1210: [exec("_rval = " + command)] with the names of
    this module. *)
Definition exec_command (cmd : str) : SM environ Z :=
  match py_call $"envvar_op(" cmd with
  | Some [op; name] => envvar_op which op name [] true
  | Some [op; name; value] => envvar_op which op name value true
  | Some _ => raise TypeError
  | None =>
      match py_call $"ModuleHelper.module(" cmd with
      | Some args => mods args
      | None => other cmd
      end
  end.

Variable uniword : pychar -> bool.
Variable fs : str -> option str.
Variable fuel : nat.
Notation K := (SetEnvironment uniword).

Record world := World { w_obj : sobj; w_env : environ }.
Definition on_obj {A} (m : SM sobj A) : SM world A := fun w =>
  let (r, o) := m (w_obj w) in (r, World o (w_env w)).
Definition on_env {A} (m : SM environ A) : SM world A := fun w =>
  let (r, e) := m (w_env w) in (r, World (w_obj w) e).

(** [_apply_envvar], 1136-1150; [_apply_module], 1180-1193. *)
Definition apply_action (a : action) : SM world Z :=
  cmd <- on_obj (gen_action a $"python") ;;
  out <- on_env (exec_command cmd) ;;
  if (out =? 0)%Z then ret out
  else
    on_obj (event $"CRITICAL" RuntimeError) ;;
    ret match a with AEnv _ _ _ => 1%Z | AMod _ _ _ => out end.

(** The loop of [apply], 329-342. *)
Fixpoint apply_all (l : list action) (out : Z) : SM world Z :=
  match l with
  | [] => ret out
  | a :: l' => r <- apply_action a ;; apply_all l' (Z.max out r)
  end.

(** [self.actions[section]] *)
Definition actions_get (s : str) : SM sobj (list action) := fun o =>
  match dget s (o_user o) with
  | Some l => (Ok l, o)
  | None => (Err KeyError, o)
  end.

(** [apply], 319-342; a [KeyError] of the parse is only logged. *)
Definition apply (s : str) : SM world Z := fun w =>
  let rest := l <- on_obj (actions_get s) ;; apply_all l 0%Z in
  match on_obj (getitem K fs fuel s) w with
  | (Ok _, w') => rest w'
  | (Err KeyError, w') => (on_obj get_files ;; rest) w'
  | (Err e, w') => (Err e, w')
  end.

(** ** Scripts *)

(** [_gen_script_header_bash] (1620-1751) and [_gen_script_header_python]
    (1767-1797). *)
Variable header : str -> str.

(** [_gen_shebang_line], 1804-1814. *)
Definition shebang (interp : str) : str :=
  $"#!/usr/bin/env " ++
  (if str_eqb interp $"bash" then $"bash" else $"python3") ++ newline.

(** Lines 626-634. *)
Definition banner : str :=
  $"# -------------------------------------------------" ++ newline ++
  $"#   S E T E N V I R O N M E N T   C O M M A N D S" ++ newline ++
  $"# -------------------------------------------------" ++ newline.

(** The loop 641-660. *)
Fixpoint gen_lines (l : list action) (interp : str) : SM sobj str :=
  match l with
  | [] => ret []
  | a :: l' =>
      c <- gen_action a interp ;;
      r <- gen_lines l' interp ;;
      ret (c ++ newline ++ r)
  end.

(** [generate_actions_script], 593-664 (arguments of the right types). *)
Definition generate_script (s : str) (hdr body bang : bool) (interp : str) : SM sobj str :=
  if negb (str_mem interp [$"bash"; $"python"]) then
    event $"SERIOUS" ValueError ;; ret []
  else
    let head := if hdr then (if bang then shebang interp else []) ++ header interp ++
                            newline ++ newline
                else [] in
    if body then
      o <- get ;;
      (if dmem s (o_user o) then ret tt
       else parse_section_str K fs fuel s true true ;; ret tt) ;;
      l <- actions_get s ;;
      t <- gen_lines l interp ;;
      ret (head ++ (if bang && negb hdr then shebang interp else []) ++ banner ++ t ++
           newline ++ newline)
    else ret head.

(** [write_actions_to_file], 539-563: the text written, and 0 or 1. *)
Definition write_actions (s : str) (hdr body bang : bool) (interp : str)
  : SM sobj (option str * Z) :=
  if negb (str_mem interp [$"bash"; $"python"]) then
    event $"SERIOUS" ValueError ;; ret (None, 1%Z)
  else t <- generate_script s hdr body bang interp ;; ret (Some t, 0%Z).
End Apply.
