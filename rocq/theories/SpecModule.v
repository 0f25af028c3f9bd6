(** * Terms of the statements about [ModuleHelper.module]. *)
From Coq Require Import String NArith ZArith List Bool.
Import ListNotations.
From Verif Require Import PyBase EnvVar ModuleHelper.

(** A word: not empty, no white space. *)
Definition word_text (s : str) : Prop := s <> [] /\ Forall (fun c => is_space c = false) s.

(** [p] is the program that a call uses: [modulecmd] as found on the path or, if it
    is not there, the one path in the shell function [module]. *)
Definition is_modulecmd (on_path : environ -> option str) (in_function : environ -> list str)
  (exists_on_path : environ -> str -> bool) (e : environ) (p : str) : Prop :=
  on_path e = Some p \/ on_path e = None /\ in_function e = [p] /\ exists_on_path e p = true.

(** What the checks after the command establish about the environment left by the command:
    the loaded module is loaded (status 0 of [module is-loaded]), the directory in
    use exists; nothing about an unloaded module. *)
Definition checked (is_loaded file_exists : str -> environ -> Z) (c : command) (args : list str) (e : environ) : Prop :=
  match command_words c with
  | op :: more =>
      let a := more ++ args in
      (op = $"load" -> exists m, hd_error a = Some m /\ is_loaded m e = 0%Z) /\
      (op = $"swap" -> exists m n l, a = m :: n :: l /\ is_loaded n e = 0%Z) /\
      (op = $"use" -> exists d, hd_error a = Some d /\ file_exists d e = 0%Z) /\
      (op = $"unload" -> a <> [])
  | [] => False
  end.

