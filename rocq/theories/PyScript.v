(** * The Python scripts that [SetEnvironment] writes, as Python runs them.

    The header of such a script ([_gen_script_header_python], 1753-1797) holds
    the text of the functions [envvar_set], [envvar_set_if_empty],
    [envvar_find_in_path] and [envvar_op] themselves ([inspect.getsource]), and
    imports [ModuleHelper]: a call in the script is a call of the function
    modelled in [EnvVar.v]. The header is not parsed here. Line numbers refer to
    [wip/setenvironment/src/setenvironment/SetEnvironment.py]. *)
From Coq Require Import String NArith ZArith List Bool.
Import ListNotations.
From Verif Require Import PyBase EnvVar SetEnv.
Local Open Scope sm_scope.

Section PyScript.
Variable which : environ -> str -> option str.
(** [ModuleHelper.module(...)]. *)
Variable mods : list str -> environ -> res Z * environ.
(** A program that has a line of any other form than those below. It may be
    refused as a whole, before anything is executed ([SyntaxError]). *)
Variable other_program : str -> environ -> res unit * environ.

(** One line: an empty line or a comment, or a call of one of the two functions
    with string literals as arguments (a statement of its own, whose value is
    dropped). *)
Definition py_line (s : str) : option (SM environ unit) :=
  if ends_here (lstrip blank s) then Some (ret tt)
  else
    match py_call $"envvar_op(" s with
    | Some [op; name] => Some (envvar_op which op name [] true ;; ret tt)
    | Some [op; name; value] => Some (envvar_op which op name value true ;; ret tt)
    | Some _ => Some (raise TypeError)
    | None =>
        match py_call $"ModuleHelper.module(" s with
        | Some args => Some (mods args ;; ret tt)
        | None => None
        end
    end.

(** All lines, if all have one of the forms. *)
Fixpoint py_lines (l : list str) : option (SM environ unit) :=
  match l with
  | [] => Some (ret tt)
  | s :: l' =>
      match py_line s, py_lines l' with
      | Some m, Some k => Some (m ;; k)
      | _, _ => None
      end
  end.

(** The script, run in a process that has the environment [e]: the exception that
    ended it, if any, and the environment of that process then. *)
Definition run_python (text : str) (e : environ) : res unit * environ :=
  match py_lines (split_on 10%N text) with
  | Some m => m e
  | None => other_program text e
  end.
End PyScript.
