(** * The printers of [wip/setenvironment/src/setenvironment/SetEnvironment.py].

    The result is the text on the console. Encoding errors of the console are not
    modelled. *)
From Coq Require Import String NArith ZArith List Bool Arith.
Import ListNotations.
From Verif Require Import PyBase IniRead Cpe EnvVar Keyword SetEnv.
Local Open Scope sm_scope.

(** [str.format] of a value that may be [None]. *)
Definition format_opt (v : option str) : str := match v with Some s => s | None => $"None" end.
(** ["{:<{width}}".format(s, width=w)] *)
Definition pad (w : nat) (s : str) : str := s ++ repeat 32%N (w - length s).

Section Actions.
(** [str] of an action that is a dict. *)
Variable repr : action -> str.
Variable uniword : pychar -> bool.
Variable fs : str -> option str.
Variable fuel : nat.
Notation K := (SetEnvironment uniword).

Definition op_of (a : action) : str := match a with AEnv op _ _ => op | AMod op _ _ => op end.

(** What [pretty_print_actions] prints after the operation, 387-423. An action on a
    variable has no module and the other way round; the branches for the other kind
    raise [KeyError] there and cannot be reached from a file. *)
Definition action_text (a : action) : res str :=
  match a with
  | AMod op m v =>
      if str_eqb op $"module_load" then
        match v with
        | None | Some [] => Ok (format_opt m ++ $" (default)")
        | Some v => Ok (format_opt m ++ $"/" ++ v)
        end
      else if str_eqb op $"module_purge" then Ok []
      else if str_eqb op $"module_swap" then Ok (format_opt m ++ $" " ++ format_opt v)
      else if str_eqb op $"module_unload" then Ok (format_opt m)
      else if str_eqb op $"module_use" then Ok (format_opt v)
      else if str_mem op [$"envvar_append"; $"envvar_assert_not_empty"; $"envvar_find_in_path"; $"envvar_prepend";
                          $"envvar_remove_path_entry"; $"envvar_remove_substr"; $"envvar_set"; $"envvar_set_if_empty";
                          $"envvar_unset"] then Err KeyError
      else Ok ($"(unhandled) " ++ repr a)
  | AEnv op n v =>
      if str_mem op [$"module_load"; $"module_swap"; $"module_unload"] then Err KeyError
      else if str_eqb op $"module_purge" then Ok []
      else if str_eqb op $"module_use" then Ok (format_opt v)
      else if str_eqb op $"envvar_append" then Ok (n ++ $"=""" ++ ($"${" ++ n ++ $"}") ++ $":" ++ format_opt v ++ $"""")
      else if str_eqb op $"envvar_assert_not_empty" then Ok n
      else if str_eqb op $"envvar_find_in_path" then Ok (n ++ $"=""" ++ format_opt v ++ $"""")
      else if str_eqb op $"envvar_prepend" then Ok (n ++ $"=""" ++ format_opt v ++ $":" ++ ($"${" ++ n ++ $"}") ++ $"""")
      else if str_eqb op $"envvar_remove_path_entry" then Ok ($"remove path `" ++ format_opt v ++ $"` from `" ++ n ++ $"`")
      else if str_eqb op $"envvar_remove_substr" then Ok ($"remove string `" ++ format_opt v ++ $"` from `" ++ ($"${" ++ n ++ $"}") ++ $"`")
      else if str_eqb op $"envvar_set" then Ok (n ++ $"=""" ++ format_opt v ++ $"""")
      else if str_eqb op $"envvar_set_if_empty" then Ok (n ++ $"=""" ++ format_opt v ++ $"""")
      else if str_eqb op $"envvar_unset" then Ok n
      else Ok ($"(unhandled) " ++ repr a)
  end.

(** The loop 376-378. *)
Fixpoint max_op_len (l : list action) (m : nat) : nat :=
  match l with [] => m | a :: l' => max_op_len l' (max m (length (op_of a))) end.
(** The loop 382-423. *)
Fixpoint print_actions (w : nat) (l : list action) : res str :=
  match l with
  | [] => Ok []
  | a :: l' =>
      rbind (action_text a) (fun t =>
      rbind (print_actions w l') (fun u =>
      Ok ($"--> " ++ pad w (op_of a) ++ $" : " ++ t ++ newline ++ u)))
  end.
(** [pretty_print_actions], 371-425. *)
Definition pretty_print_actions (s : str) : SM sobj str :=
  getitem K fs fuel s ;;
  l <- actions_get s ;;
  of_res (rbind (print_actions (max_op_len l 14) l) (fun t =>
          Ok ($"Actions" ++ newline ++ $"=======" ++ newline ++ t))).
End Actions.

(** [pretty_print_envvars], 470-497. The loop sets [filtered_keys_only] to [False] at
    the first variable if there is no filter. *)
Definition matched_key (filter : list str) (k : str) : bool := existsb (fun f => contains f k) filter.
Fixpoint print_vars (filter : option (list str)) (only : bool) (e : environ) : str :=
  match e with
  | [] => []
  | (k, v) :: e' =>
      let matched := match filter with Some l => matched_key l k | None => false end in
      let only := match filter with Some _ => only | None => false end in
      (if negb only || matched then
         $"[envvar]: " ++ k ++
         (match filter with None => $" = " ++ v | Some _ => if matched then $" = " ++ v else [] end) ++ newline
       else []) ++
      print_vars filter only e'
  end.
Definition pretty_print_envvars (filter : option (list str)) (only : bool) (e : environ) : str :=
  let rule := $"+" ++ repeat 61%N 68 ++ $"+" ++ newline in
  rule ++ $"|   P R I N T   E N V I R O N M E N T   V A R S" ++ newline ++ rule ++ print_vars filter only e.
