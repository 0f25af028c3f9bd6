(** * The top-level configuration files [load-env.ini] and [gen-config.ini]:
    [wip/loadenv/load_env.py] 56-97, 109-130 and 334-361 (which of the three
    files are used), [wip/genconfig/gen_config.py] 282-341 and 343-379 (which of
    the five).

    Only the exception class of a [ValueError] is modelled, not its text. The
    files are parsed by [ConfigParserEnhanced] itself ([Cpe.v]). *)
From Coq Require Import String NArith ZArith List Bool.
Import ListNotations.
From Verif Require Import PyBase EnvVar Shlex IniView IniRead ExcControl Cpe.
Local Open Scope sm_scope.

(** ** [pathlib.PurePosixPath]: a root, [""], ["/"] or ["//"], and the names. *)
Record path := Path { p_root : str; p_names : list str }.

(** [_PosixFlavour.splitroot]: exactly two leading slashes are kept. *)
Definition split_root (s : str) : str :=
  match s with
  | 47%N :: 47%N :: 47%N :: _ => $"/"
  | 47%N :: 47%N :: _ => $"//"
  | 47%N :: _ => $"/"
  | _ => []
  end.
(** [_Flavour.parse_parts]: empty names and ["."] are dropped. *)
Definition is_name (w : str) : bool := negb (str_eqb w []) && negb (str_eqb w $".").
(** [Path(s)] *)
Definition mk_path (s : str) : path := Path (split_root s) (filter is_name (split_on 47%N s)).
(** [str(p)] *)
Definition path_str (p : path) : str :=
  match p_root p, p_names p with
  | [], [] => $"."
  | r, l => r ++ join $"/" l
  end.
(** [p.parent] *)
Definition parent (p : path) : path := Path (p_root p) (removelast (p_names p)).
(** [p.is_absolute()] *)
Definition is_absolute (p : path) : bool := negb (str_eqb (p_root p) []).
(** [p / s] *)
Definition path_div (p : path) (s : str) : path :=
  let q := mk_path s in
  if is_absolute q then q else Path (p_root p) (p_names p ++ p_names q).

(** The options of the command line that override a file; [None] when not
    given (load_env.py 468-500, gen_config.py 461-495). *)
Record overrides := Overrides {
  v_flags : option str;             (** [--supported-config-flags], [GenConfig] only *)
  v_specs : option str;             (** [--config-specs], [GenConfig] only *)
  v_systems : option str;           (** [--supported-systems] *)
  v_envs : option str;              (** [--supported-envs] *)
  v_envspecs : option str           (** [--environment-specs] *)
}.

Section TopLevel.
(** The non-ASCII letters, the texts of the files, the recursion limit. *)
Variable uniword : pychar -> bool.
Variable fs : str -> option str.
Variable fuel : nat.
(** [Path.exists()], and [Path.resolve()], which depends on the current
    directory and the symbolic links. *)
Variable exists_on_disk : path -> bool.
Variable File : Type.
Variable resolve : path -> File.
(** The file given to the constructor ([load_env_ini_file],
    [gen_config_ini_file]). *)
Variable ini_file : str.

Notation K := (base_class uniword).
Notation cpe := (obj unit unit).

(** [ConfigParserEnhanced(self.load_env_ini_file)]; the object is kept alive by
    its [configparserenhanceddata]. *)
Definition open_ini : cpe :=
  snd (set_inifilepath (FOne (path_str (mk_path ini_file))) (new_obj tt)).

(** [data[section][key] = value]: an item of the dict [__getitem__] returns. *)
Definition put_item (s k v : str) : SM cpe unit :=
  getitem K fs fuel s ;;
  e <- get_edata ;;
  match ed_put s k (Some v) e with
  | None => raise KeyError
  | Some e' => put_edata e'
  end.
(** [data[section][key]] *)
Definition get_item (s k : str) : SM cpe (option str) :=
  d <- getitem K fs fuel s ;;
  match dget k d with Some v => ret v | None => raise KeyError end.

(** One key: load_env.py 72-96, gen_config.py 315-333. *)
Definition check_key (s k : str) : SM cpe unit :=
  b <- has_option K fs fuel s k ;;
  if negb b then raise ValueError
  else
    v <- get_item s k ;;
    match v with
    | None => raise ValueError
    | Some [] => raise ValueError
    | Some v =>
        if is_absolute (mk_path v) then ret tt
        else put_item s k (path_str (path_div (parent (mk_path ini_file)) v))
    end.

(** A section must be there: load_env.py 68-70, gen_config.py 300-305. *)
Definition check_section (s : str) : SM cpe unit :=
  b <- has_section K fs fuel s ;;
  if b then ret tt else raise ValueError.

(** ** [LoadEnv] *)

(** [parse_top_level_config_file], 56-97. *)
Definition parse_top_level : SM cpe unit :=
  check_section $"load-env" ;;
  for_each (check_key $"load-env") [$"supported-systems"; $"supported-envs"; $"environment-specs"].

(** One file of [args], e.g. 345-348. A value [None] would be the [TypeError] of
    [Path(None)]. *)
Definition le_file (given : option str) (k : str) : SM cpe File :=
  match given with
  | Some c => ret (resolve (mk_path c))
  | None =>
      v <- get_item $"load-env" k ;;
      match v with Some v => ret (resolve (mk_path v)) | None => raise TypeError end
  end.

(** [args], 334-361, of a new [LoadEnv] object: systems, envs, specs. *)
Definition le_files (g : overrides) : SM cpe (list File) :=
  parse_top_level ;;
  a <- le_file (v_systems g) $"supported-systems" ;;
  b <- le_file (v_envs g) $"supported-envs" ;;
  c <- le_file (v_envspecs g) $"environment-specs" ;;
  ret [a; b; c].

(** ** [GenConfig] *)

(** 335-341: the file must exist. *)
Definition check_exists (s k : str) : SM cpe unit :=
  v <- get_item s k ;;
  match v with
  | Some v => if exists_on_disk (mk_path v) then ret tt else raise ValueError
  | None => raise TypeError
  end.

(** The loop of 308-341. *)
Fixpoint check_files (l : list (str * str)) : SM cpe unit :=
  match l with
  | [] => ret tt
  | (s, k) :: l' => check_key s k ;; check_exists s k ;; check_files l'
  end.

(** [validate_gen_config_config_data], 296-341. It runs at every access to
    [gen_config_config_data], 282-294. *)
Definition gen_data : SM cpe unit :=
  check_section $"gen-config" ;;
  check_section $"load-env" ;;
  check_files [($"gen-config", $"supported-config-flags"); ($"gen-config", $"config-specs");
               ($"load-env", $"supported-systems"); ($"load-env", $"supported-envs");
               ($"load-env", $"environment-specs")].

(** One file of [args], e.g. 354-357, from the section already at hand. *)
Definition gen_file (given : option str) (d : dict (option str)) (k : str) : SM cpe File :=
  match given with
  | Some c => ret (resolve (mk_path c))
  | None =>
      match dget k d with
      | Some (Some v) => ret (resolve (mk_path v))
      | Some None => raise TypeError
      | None => raise KeyError
      end
  end.

(** [args], 343-379: flags, specs, systems, envs, environment specs. The data are
    asked for twice. *)
Definition gen_files (g : overrides) : SM cpe (list File) :=
  gen_data ;;
  d <- getitem K fs fuel $"gen-config" ;;
  a <- gen_file (v_flags g) d $"supported-config-flags" ;;
  b <- gen_file (v_specs g) d $"config-specs" ;;
  gen_data ;;
  d <- getitem K fs fuel $"load-env" ;;
  x <- gen_file (v_systems g) d $"supported-systems" ;;
  y <- gen_file (v_envs g) d $"supported-envs" ;;
  z <- gen_file (v_envspecs g) d $"environment-specs" ;;
  ret [a; b; x; y; z].
End TopLevel.
