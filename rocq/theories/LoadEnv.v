(** * [wip/loadenv/load_env.py], the names: [LoadEnv.build_name], [system_name],
    [parsed_env_name], [env_stripped_build_name], and
    [wip/genconfig/gen_config.py]: [complete_config],
    [validate_config_specs_ini], [list_configs].

    The files are the parameters of [DetSys.v] and [EnvKeyword.v]: they do not
    change while the program runs. *)
From Coq Require Import String NArith List Bool Arith.
Import ListNotations.
From Verif Require Import PyBase EnvVar Regex Keyword DetSys EnvKeyword.
Local Open Scope sm_scope.

Section LoadEnv.
Variable other_re : str -> str -> res bool.
Variable systems : list (str * list str).
Variable hostname : str.
(** [supported-envs.ini] *)
Variable envs : str -> res (dict (option str)).

Record loadenv := LoadEnv {
  l_build : str;                    (** [args.build_name] *)
  l_force : bool;                   (** [args.force] *)
  l_system : option str;            (** [_system_name] *)
  l_parsed : option str;            (** [_parsed_env_name] *)
  l_stripped : option str;          (** [_env_stripped_build_name] *)
  l_ekp : option ekp                (** [env_keyword_parser] *)
}.
Definition new_loadenv (build : str) (force : bool) : loadenv := LoadEnv build force None None None None.

(** [build_name] setter, 137-149. *)
Definition le_set_build (build : str) : SM loadenv unit :=
  modify (fun p => LoadEnv build (l_force p) None None None None).

(** [args.force = ...], as in [gen_config.py] 185 and 234. *)
Definition le_set_force (force : bool) : SM loadenv unit :=
  modify (fun p => LoadEnv (l_build p) force (l_system p) (l_parsed p) (l_stripped p) (l_ekp p)).

(** [system_name], 157-166: a new [DetermineSystem] object is asked. The name is
    never [None] then (C56); [TypeError] stands for what its use would raise. *)
Definition le_system_name : SM loadenv str :=
  p <- get ;;
  match l_system p with
  | Some s => ret s
  | None =>
      n <- of_res (fst (system_name other_re systems hostname (new_detsys (l_build p) (l_force p)))) ;;
      match n with
      | Some s =>
          modify (fun p => LoadEnv (l_build p) (l_force p) (Some s) (l_parsed p) (l_stripped p) (l_ekp p)) ;;
          ret s
      | None => raise TypeError
      end
  end.

(** [load_env_keyword_parser], 175-177. *)
Definition le_load_ekp : SM loadenv ekp :=
  p <- get ;;
  s <- le_system_name ;;
  k <- of_res (new_ekp envs (l_build p) s) ;;
  modify (fun p => LoadEnv (l_build p) (l_force p) (l_system p) (l_parsed p) (l_stripped p) (Some k)) ;;
  ret k.
Definition le_ekp : SM loadenv ekp :=
  p <- get ;;
  match l_ekp p with Some k => ret k | None => le_load_ekp end.

(** [parsed_env_name], 202-207. *)
Definition le_parsed_env_name : SM loadenv str :=
  p <- get ;;
  match l_parsed p with
  | Some n => ret n
  | None =>
      k <- le_ekp ;;
      let (r, k') := qualified_env_name other_re envs k in
      modify (fun p => LoadEnv (l_build p) (l_force p) (l_system p) (l_parsed p) (l_stripped p) (Some k')) ;;
      n <- of_res r ;;
      modify (fun p => LoadEnv (l_build p) (l_force p) (l_system p) (Some n) (l_stripped p) (l_ekp p)) ;;
      ret n
  end.

(** [env_stripped_build_name], 291-314. *)
Definition le_stripped : SM loadenv str :=
  p <- get ;;
  match l_stripped p with
  | Some n => ret n
  | None =>
      k <- le_ekp ;;
      let l := split_on 95%N (l_build p) in
      let l := filter (fun w => negb (str_mem w (e_names k))) l in
      let l := filter (fun w => negb (str_mem w (e_aliases k))) l in
      let l := filter (fun w => negb (str_mem w (sys_names systems))) l in
      let n := join [95%N] l in
      modify (fun p => LoadEnv (l_build p) (l_force p) (l_system p) (l_parsed p) (Some n) (l_ekp p)) ;;
      ret n
  end.

(** ** [GenConfig] *)

(** [supported-config-flags.ini], and the sections of [config-specs.ini]. *)
Variable flags : str -> res (dict (option str)).
Variable specs : list str.

Record genconfig := GenConfig {
  g_build : str;                    (** [args.build_name] *)
  g_force : bool;                   (** [args.force] *)
  g_ckp : option ckp;               (** [config_keyword_parser] *)
  g_le : option loadenv;            (** [load_env] *)
  g_config : option str;            (** [_complete_config] *)
  g_valid : bool                    (** [has_been_validated] *)
}.
Definition new_genconfig (build : str) (force : bool) : genconfig := GenConfig build force None None None false.

(** [load_config_keyword_parser], 244-248, and [load_load_env], 266-267. *)
Definition load_ckp : SM genconfig unit :=
  p <- get ;;
  match g_ckp p with
  | Some _ => ret tt
  | None =>
      k <- of_res (new_ckp flags (g_build p)) ;;
      modify (fun p => GenConfig (g_build p) (g_force p) (Some k) (g_le p) (g_config p) (g_valid p))
  end.
Definition load_le : SM genconfig unit :=
  modify (fun p => match g_le p with
                   | Some _ => p
                   | None => GenConfig (g_build p) (g_force p) (g_ckp p)
                               (Some (new_loadenv (g_build p) (g_force p))) (g_config p) (g_valid p)
                   end).

(** A call on one of the two objects. *)
Definition on_ckp {A} (m : SM ckp A) : SM genconfig A := fun p =>
  match g_ckp p with
  | Some k => let (r, k') := m k in
              (r, GenConfig (g_build p) (g_force p) (Some k') (g_le p) (g_config p) (g_valid p))
  | None => (Err AttributeError, p)
  end.
Definition on_le {A} (m : SM loadenv A) : SM genconfig A := fun p =>
  match g_le p with
  | Some k => let (r, k') := m k in
              (r, GenConfig (g_build p) (g_force p) (g_ckp p) (Some k') (g_config p) (g_valid p))
  | None => (Err AttributeError, p)
  end.

(** [complete_config], 162-175. *)
Definition complete_config : SM genconfig str :=
  p <- get ;;
  match g_config p with
  | Some c => ret c
  | None =>
      load_ckp ;;
      load_le ;;
      n <- on_le le_parsed_env_name ;;
      s <- on_ckp (selected_options_str flags) ;;
      let c := n ++ s in
      modify (fun p => GenConfig (g_build p) (g_force p) (g_ckp p) (g_le p) (Some c) (g_valid p)) ;;
      ret c
  end.

(** The loop of [validate_config_specs_ini], 190-214: the sections whose name is
    not the canonical one. [str.upper] is ASCII here. *)
Fixpoint check_sections (l : list str) : SM genconfig (list (str * str)) :=
  match l with
  | [] => ret []
  | s :: l' =>
      if str_eqb (upper s) s then check_sections l'
      else
        on_le (le_set_build s) ;;
        on_ckp (set_build_name s) ;;
        o <- on_ckp (selected_options_str flags) ;;
        n <- on_le le_parsed_env_name ;;
        rest <- check_sections l' ;;
        ret (if str_eqb (n ++ o) s then rest else (s, n ++ o) :: rest)
  end.

(** [validate_config_specs_ini], 178-236. *)
Definition validate : SM genconfig unit :=
  load_ckp ;;
  load_le ;;
  on_le (le_set_force true) ;;
  bad <- check_sections specs ;;
  match bad with
  | _ :: _ => raise ValueError
  | [] =>
      p <- get ;;
      on_le (le_set_build (g_build p)) ;;
      on_le (le_set_force (g_force p)) ;;
      on_ckp (set_build_name (g_build p)) ;;
      modify (fun p => GenConfig (g_build p) (g_force p) (g_ckp p) (g_le p) (g_config p) true)
  end.

(** [generated_config_flags_str], 54-65, without joining the options; [gen] is
    [gen_option_list] of [SetProgramOptionsCMake], which is not in the
    repository. *)
Variable gen : str -> res (list str).
Definition generated_flags : SM genconfig (list str) :=
  p <- get ;;
  (if g_valid p then ret tt else validate) ;;
  c <- complete_config ;;
  of_res (gen c).

(** [list_configs], 139-148: what is listed. *)
Fixpoint starts_with (pre s : str) : bool :=
  match pre, s with
  | [], _ => true
  | x :: pre', y :: s' => N.eqb x y && starts_with pre' s'
  | _, [] => false
  end.
Definition list_configs : SM genconfig (list str) :=
  load_le ;;
  n <- on_le le_system_name ;;
  ret (filter (starts_with n) specs).
End LoadEnv.
