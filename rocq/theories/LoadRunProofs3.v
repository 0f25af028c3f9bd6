(** * Proofs about loading an environment: the commands of the script in bash. *)
From Coq Require Import String NArith ZArith List Bool Lia.
Import ListNotations.
From Verif Require Import PyBase PyFacts EnvVar SetEnv Bash SpecEnv SpecSetEnv SpecBash SpecLoadRun BashProofs BashTextProofs.
Local Open Scope sm_scope.

Definition letters (u : str) : word := map (fun c => Text [c]) u.
Lemma letters_value b u : word_value b (letters u) = u.
Proof. induction u as [|c u IH]; [reflexivity|]. unfold word_value, letters in *. cbn [map flat_map part_value app]. now rewrite IH. Qed.
Lemma words_bare u : (forall c, In c u -> word_char c \/ In c $"%+,-./:=@") -> forall f s cur, length u <= f ->
  line_words f (u ++ s) (Some cur) = line_words (f - length u) s (Some (cur ++ letters u)).
Proof.
  intros B. induction u as [|c u IH]; intros f s cur L.
  - cbn [app length letters map]. now rewrite Nat.sub_0_r, app_nil_r.
  - destruct f as [|f]; [cbn in L; lia|]. cbn [app]. rewrite line_words_S.
    destruct (bare_steps c (B c (or_introl eq_refl))) as (B1 & B2 & B3 & B4). rewrite B1, B2, B3, B4. cbn [add_parts].
    cbn in L. etransitivity; [apply IH; [intros d I; apply B; now right|lia]|]. cbn [length]. rewrite Nat.sub_succ.
    unfold letters. cbn [map]. now rewrite <- app_assoc.
Qed.
Lemma words_first u : bare_text u -> forall f s, length u <= f ->
  line_words f (u ++ s) None = line_words (f - length u) s (Some (letters u)).
Proof.
  intros [N B] f s L. destruct u as [|c u]; [congruence|]. destruct f as [|f]; [cbn in L; lia|]. cbn [app]. rewrite line_words_S.
  destruct (bare_steps c (B c (or_introl eq_refl))) as (B1 & B2 & B3 & B4). rewrite B1, B2, B3, B4. cbn [add_parts].
  cbn in L. etransitivity; [apply words_bare; [intros d I; apply B; now right|lia]|]. reflexivity.
Qed.
(** Two words at the end of the script. *)
Lemma two_words u v : bare_text u -> bare_text v ->
  line_words (S (length (u ++ $" " ++ v))) (u ++ $" " ++ v) None = Some ([letters u; letters v], []).
Proof.
  intros U V. rewrite words_first by (auto; rewrite !app_length; lia). rewrite !app_length. change (length $" ") with 1.
  transitivity (line_words (S (S (length v))) (32%N :: v) (Some (letters u))); [f_equal; lia|]. rewrite line_words_S. cbn [N.eqb Pos.eqb].
  change (blank_char 32%N) with true. cbv iota.
  pose proof (words_first v V (S (length v)) [] ltac:(lia)) as X. rewrite app_nil_r in X. rewrite X.
  replace (S (length v) - length v) with 1 by lia. reflexivity.
Qed.

Section Run.
Variable glob : str -> list str.
Variable subst_pattern : str -> str -> str.
Variable sed_other : list str -> str -> str.
Variable echo_option : list str -> str.
Variable which_prints : environ -> list str -> str.
Variable module_command : list str -> environ -> environ.
Variable other_command : str -> environ -> res unit * environ.
Notation run_bash := (run_bash glob subst_pattern sed_other echo_option which_prints module_command other_command).
Notation runs := (runs glob subst_pattern sed_other echo_option which_prints module_command other_command).

Lemma export_last t x n e e' : runs t e e' -> shell_name x -> bare_text x -> bare_text n ->
  run_bash (t ++ $"export " ++ x ++ $"=" ++ n) e = (Ok tt, dset x n e').
Proof.
  intros R SX BX BN. unfold Bash.run_bash.
  set (u := $"export " ++ x ++ $"=" ++ n).
  destruct (R (S (length (t ++ u))) u) as (f & L & E); [lia|]. rewrite E. clear E.
  destruct f as [|f]; [lia|]. rewrite run_script_S by discriminate.
  assert (W : line_words (S (length u)) u None = Some ([letters $"export"; letters (x ++ $"=" ++ n)], [])).
  { apply (two_words $"export" (x ++ $"=" ++ n)); [bare|]. destruct BX as [_ BX], BN as [_ BN].
    split; [intros X; now apply app_eq_nil in X|].
    intros c I. apply in_app_or in I as [I|I]; [auto|]. apply in_app_or in I as [I|I]; [|auto].
    right. destruct I as [<-|[]]. cbn. tauto. }
  rewrite W. unfold bind, run_command. cbn [map]. rewrite !letters_value.
  change (str_eqb $"export" $"envvar_op") with false. change (str_eqb $"export" $"module") with false.
  change (str_eqb $"export" $"export") with true. cbn [andb]. cbv iota.
  assert (X : export [x ++ $"=" ++ n] (Shell [] e') = (Ok tt, Shell [] (dset x n e'))).
  { cbn [export]. unfold export_word, bind. rewrite at_equals_name by now apply name_no_equals.
    rewrite (proj2 (identifier_spec x) SX). reflexivity. }
  match type of X with ?a = _ => match goal with |- context [export ?l ?b] => change (export l b) with a end end.
  rewrite X. destruct f; [cbn in L; lia|]. reflexivity.
Qed.

Theorem commands_run which mods :
  (forall e v, chomp (which_prints e [v]) = match which e v with Some p => p | None => [] end) ->
  (forall args e, module_command args e = snd (mods args e)) ->
  forall l t n e e', portable_all which mods l e -> script_lines $"bash" l t -> all_done which mods l e e' -> bare_text n ->
  run_bash (commands t n) e = (Ok tt, dset $"LOADED_ENV_NAME" n e').
Proof.
  intros SW SM l t n e e' P T A B.
  replace (commands t n) with ((banner ++ t ++ newline ++ newline) ++ $"export " ++ $"LOADED_ENV_NAME" ++ $"=" ++ n)
    by (unfold commands; rewrite <- !app_assoc; reflexivity).
  apply export_last.
  - eapply runs_app; [apply banner_runs|]. eapply runs_app; [eapply lines_run; eauto|]. eapply runs_app; apply blank_runs.
  - apply identifier_spec. reflexivity.
  - bare.
  - exact B.
Qed.
End Run.
