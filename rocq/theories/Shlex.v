(** * [shlex.split(s)] (Python 3.11 [shlex.py], [read_token] and [split]).

    [shlex.split] uses posix mode, [whitespace_split = True] and no commenters,
    so of the states of [read_token] only these are reachable:
    [' '] (between tokens), ['a'] (in a word), a quote character, and the
    escape state. Called by [ConfigParserEnhanced.py:1026-1031]
    ([_tokenize_option_key]). *)
From Coq Require Import String NArith List Bool.
Import ListNotations.
From Verif Require Import PyBase.

(** [self.whitespace = ' \t\r\n'] *)
Definition sh_space (c : pychar) : bool := existsb (N.eqb c) [32; 9; 13; 10]%N.
(** [self.escape = '\\'] *)
Definition sh_escape (c : pychar) : bool := N.eqb c 92.
(** [self.quotes = '\'"'], [self.escapedquotes = '"'] *)
Definition sh_quote (c : pychar) : bool := N.eqb c 39 || N.eqb c 34.
Definition sh_escapedquote (c : pychar) : bool := N.eqb c 34.

Inductive sh_state :=
| ShSpace                       (** state [' '] *)
| ShWord                        (** state ['a'] *)
| ShQuote (q : pychar)          (** state is a quote character *)
| ShEsc (back : option pychar)  (** escape state; [back] is [escapedstate]:
                                    [None] is ['a'], [Some q] a quote *).

(** One pass over the characters. [tok] is [self.token], [quoted] the local
    flag of [read_token]; emitted tokens are consed to the result of the rest.
    End of input is the case [[]]. *)
Fixpoint sh_run (st : sh_state) (tok : str) (quoted : bool) (s : str)
  : res (list str) :=
  match s with
  | [] =>
      match st with
      | ShQuote _ => Err ValueError             (* No closing quotation *)
      | ShEsc _ => Err ValueError               (* No escaped character *)
      | ShSpace | ShWord =>
          (* [if self.posix and not quoted and result == '': result = None] *)
          if negb quoted && str_eqb tok [] then Ok [] else Ok [tok]
      end
  | c :: s' =>
      match st with
      | ShSpace =>
          if sh_space c then
            (if negb (str_eqb tok []) || quoted
             then match sh_run ShSpace [] false s' with
                  | Ok l => Ok (tok :: l) | Err e => Err e end
             else sh_run ShSpace tok quoted s')
          else if sh_escape c then sh_run (ShEsc None) tok quoted s'
          else if sh_quote c then sh_run (ShQuote c) tok quoted s'
          else sh_run ShWord [c] quoted s'
      | ShQuote q =>
          if N.eqb c q then sh_run ShWord tok true s'
          else if sh_escape c && sh_escapedquote q
               then sh_run (ShEsc (Some q)) tok true s'
          else sh_run (ShQuote q) (tok ++ [c]) true s'
      | ShEsc None => sh_run ShWord (tok ++ [c]) quoted s'
      | ShEsc (Some q) =>
          let tok' := if negb (sh_escape c) && negb (N.eqb c q)
                      then tok ++ [92%N] else tok in
          sh_run (ShQuote q) (tok' ++ [c]) quoted s'
      | ShWord =>
          if sh_space c then
            (if negb (str_eqb tok []) || quoted
             then match sh_run ShSpace [] false s' with
                  | Ok l => Ok (tok :: l) | Err e => Err e end
             else sh_run ShSpace tok quoted s')
          else if sh_quote c then sh_run (ShQuote c) tok quoted s'
          else if sh_escape c then sh_run (ShEsc None) tok quoted s'
          else sh_run ShWord (tok ++ [c]) quoted s'
      end
  end.

Definition shlex_split (s : str) : res (list str) := sh_run ShSpace [] false s.
