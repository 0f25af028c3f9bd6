(** * [wip/genconfig/gen-config.sh].

    Line numbers refer to that file. As in [LoadSh.v]; [load-env.sh] is the one of
    [LoadSh.v]. *)
From Coq Require Import String NArith List Bool.
Import ListNotations.
From Verif Require Import PyBase EnvVar SetEnv Bash LoadSh.
Local Open Scope sm_scope.

Section GenSh.
(** As in [LoadSh.v]. *)
Variable glob : str -> list str.
Variable odd_test : list str -> bool.
Variable odd_status : str -> N.
Variable which_python3 too_old : environ -> str.
Variable python3 : list str -> environ -> dict str -> N * dict str.
Variable interactive : list str -> environ -> dict str -> dict str.
Variable run_text run_function : str -> sh unit.
Variable here random : str.
(** Whether a path is a directory. *)
Variable directory : str -> bool.
(** A run of [cmake]: the files after it; its status is not used. *)
Variable cmake : list str -> environ -> dict str -> dict str.
(** [source] with a path of several words. *)
Variable odd_source : list str -> sh N.

Notation words := (words glob).

(** [[ -d w ]] *)
Definition is_directory (w : list piece) : bool :=
  match words w with
  | [] => true
  | [p] => directory p
  | l => odd_test ($"-d" :: l)
  end.

(** [cleanup_gc], 33-42. *)
Definition cleanup_gc : sh N :=
  t <- get ;;
  let user := value $"USER" t in
  rm_if glob odd_test (tmp user $".bash_cmake_args_loc") ;;
  rm_if glob odd_test (tmp user $".load_env_args") ;;
  unset_names [$"python_too_old"; $"script_dir"; $"cleanup_gc"; $"gen_config_py_call_args"; $"gen_config_helper"] ;;
  unset_names [$"path_to_src"; $"load_env_call_args"; $"cmake_args_file"] ;;
  set_trap None ;;
  ret 0%N.
(** [cleanup_gc; return 1] *)
Definition give_up_gc : sh N := cleanup_gc ;; ret 1%N.

(** [gen_config_helper], 116-141. *)
Definition helper_body : str := $"gen-config.sh: gen_config_helper".
Definition gen_config_helper : sh unit :=
  t <- get ;;
  let args_file := value $"cmake_args_file" t in
  let src := value $"path_to_src" t in
  if dmem args_file (t_files t) && negb (empty_str src) then
    let_var $"cmake_args" (cat glob [U args_file] t) ;;
    t <- get ;;
    let l := words [U (value $"cmake_args" t)] ++ words [U src] in
    started ($"cmake" :: l) ;;
    set_files (cmake l (t_vars t))
  else ret tt.
Definition function_body (body : str) : sh unit :=
  if str_eqb body helper_body then gen_config_helper else run_function body.

(** A run of [gen_config.py]. *)
Definition gen_config_py (l : list str) : sh N :=
  t <- get ;;
  python python3 ([$"-E"; $"-s"] ++ words [U (value $"script_dir" t); Q $"/gen_config.py"] ++ l).

(** [source ${script_dir}/LoadEnv/load-env.sh ${load_env_call_args}], 152. Without
    arguments a sourced script has those of the script that sources it. *)
Definition source_load_env (args : list str) : sh N :=
  t <- get ;;
  let l := words [U (value $"load_env_call_args" t)] in
  match words [U (value $"script_dir" t); Q $"/LoadEnv/load-env.sh"] with
  | [p] => load_env_sh glob odd_test odd_status which_python3 too_old python3 interactive run_text function_body
             (value $"script_dir" t ++ $"/LoadEnv") random true (match l with [] => args | _ => l end)
  | p => odd_source (p ++ l)
  end.

(** 96-157. *)
Definition configure (args : list str) : sh N :=
  t <- get ;;
  r <- gen_config_py (words [U (value $"gen_config_py_call_args" t)]) ;;
  if negb (N.eqb r 0) then cleanup_gc else
  t <- get ;;
  let_var $"cmake_args_file" (cat glob (tmp (value $"USER" t) $".bash_cmake_args_loc") t) ;;
  set_funs (dset $"gen_config_helper" helper_body) ;;
  r <- gen_config_py (words [U (value $"gen_config_py_call_args" t)] ++ [$"--save-load-env-args"] ++
                      words (tmp (value $"USER" t) $".load_env_args")) ;;
  if negb (N.eqb r 0) then cleanup_gc else
  t <- get ;;
  let_var $"load_env_call_args" (cat glob (tmp (value $"USER" t) $".load_env_args") t) ;;
  source_load_env args ;;
  cleanup_gc.

(** 1-157. *)
Definition gen_config_sh (sourced : bool) (args : list str) : sh N :=
  if negb sourced then raise ScriptExit else
  t <- get ;;
  if empty_str (which_python3 (t_vars t)) then unset_names [$"python_too_old"] ;; ret 1%N else
  let_var $"python_too_old" (too_old (t_vars t)) ;;
  if str_eqb (too_old (t_vars t)) $"True" then unset_names [$"python_too_old"] ;; ret 1%N else
  set_funs (dset $"cleanup_gc" $"gen-config.sh: cleanup_gc") ;;
  set_trap (Some $"cleanup_gc; return 1") ;;
  let_var $"script_dir" here ;;
  if match args with [] => true | _ => false end || contains $"--help" (join $" " args) then gen_config_py [$"--help"] ;; give_up_gc else
  if is_directory [U (last args [])] then
    let_var $"gen_config_py_call_args" (join $" " (removelast args)) ;;
    let_var $"path_to_src" (last args []) ;;
    configure args
  else if negb (contains $"--cmake-fragment" (join $" " args)) then give_up_gc
  else
    let_var $"gen_config_py_call_args" (join $" " args) ;;
    configure args.
End GenSh.
