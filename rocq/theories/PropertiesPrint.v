(** * C76, C77: the printers of [SetEnvironment].

    Statements and examples only. *)
From Coq Require Import String NArith ZArith List Bool.
Import ListNotations.
From Verif Require Import PyBase PyFacts Shlex IniView IniRead ExcControl Cpe EnvVar SetEnv SpecWalk SpecRun SpecEnv
  SpecSetEnv SpecMessages Samples SetEnvProofs SetEnvProofs2 Printers SpecPrint PrintProofs PropertiesSetEnv.
Local Open Scope string_scope.
Local Open Scope list_scope.

(** ** C76 *)

(** What is printed for a section is one line for each action that [apply] then
    performs, in that order. [apply] does not change what is printed. *)
Theorem C76_printed_is_applied :
  forall repr which mods other uniword fs i fuel s (o : sobj) d o1,
    has_file fs o i -> level_ok o -> ini_has_section i s = true -> str_mem s (checked_of o) = false ->
    getitem (SetEnvironment uniword) fs fuel s o = (Ok d, o1) ->
    exists evs n l t, parse_walk (SetEnvironment uniword) i (o_defname o) s true true evs n /\ remain (requests evs) l /\
      pretty_print_actions repr uniword fs fuel s o = (Ok t, o1) /\ actions_shown l t /\
      (Forall plain_action l -> forall e, exists r e' o',
         apply which mods other uniword fs fuel s (World o1 e) = (r, World o' e') /\ performs_all which mods (level_of o) l 0 e r e' /\
         fst (pretty_print_actions repr uniword fs fuel s o') = Ok t).
Proof. exact printed_applied. Qed.
Print Assumptions C76_printed_is_applied.

(** A section that cannot be looked up is not printed. *)
Theorem C76_nothing_to_print :
  forall repr uniword fs fuel s (o : sobj) x o1,
    getitem (SetEnvironment uniword) fs fuel s o = (Err x, o1) ->
    pretty_print_actions repr uniword fs fuel s o = (Err x, o1).
Proof. exact pretty_fails. Qed.
Print Assumptions C76_nothing_to_print.

Theorem C76_text_is_determined :
  forall l t t', actions_shown l t -> actions_shown l t' -> t = t'.
Proof. exact shown_once. Qed.
Print Assumptions C76_text_is_determined.

(** Lists that print alike do alike: the text settles the outcome and the
    environment, from every environment and on every system. *)
Theorem C76_text_settles_effect :
  forall l l' t, Forall tellable l -> Forall tellable l' -> actions_shown l t -> actions_shown l' t ->
  forall which mods lvl m e r e', performs_all which mods lvl l m e r e' <-> performs_all which mods lvl l' m e r e'.
Proof. exact told_apart. Qed.
Print Assumptions C76_text_settles_effect.

(** Without the conditions it does not: a missing value prints as [None] does. *)
Theorem C76_missing_value_refuted :
  exists f f' t, fst (pretty_print_actions (fun _ => []) no_uni (disk f) 9 $"A" new_setenv) = Ok t /\
    fst (pretty_print_actions (fun _ => []) no_uni (disk f') 9 $"A" new_setenv) = Ok t /\
    fst (apply no_programs (returning 0) no_other no_uni (disk f) 9 $"A" (World new_setenv [])) = Ok 0%Z /\
    exists x, fst (apply no_programs (returning 0) no_other no_uni (disk f') 9 $"A" (World new_setenv [])) = Err x.
Proof.
  exists ["[A]"; "envvar-set X : None"], ["[A]"; "envvar-set X"]. eexists.
  split; [vm_compute; reflexivity|]. split; [vm_compute; reflexivity|]. split; [vm_compute; reflexivity|].
  eexists. vm_compute. reflexivity.
Qed.
Print Assumptions C76_missing_value_refuted.

(** Nor does a module name with a blank. *)
Theorem C76_blank_in_module_refuted :
  exists a a' t, a <> a' /\ ~ incomplete a /\ ~ incomplete a' /\ in_words a t /\ in_words a' t.
Proof.
  exists (AMod $"module_swap" (Some $"a b") (Some $"c")), (AMod $"module_swap" (Some $"a") (Some $"b c")), $"a b c".
  split; [discriminate|]. split; [vm_compute; intuition discriminate|]. split; [vm_compute; intuition discriminate|].
  split; [exact (iw_swap (Some $"a b") (Some $"c"))|exact (iw_swap (Some $"a") (Some $"b c"))].
Qed.
Print Assumptions C76_blank_in_module_refuted.

(** The documented listing spells operations as the file does, with hyphens. *)
Theorem C76_documented_spelling_refuted :
  exists f t, fst (pretty_print_actions (fun _ => []) no_uni (disk f) 9 $"A" new_setenv) = Ok t /\
    t <> ended [$"Actions"; $"======="; $"--> envvar-set     : FOO=""bar"""].
Proof. exists ["[A]"; "envvar-set FOO : bar"]. eexists. split; [vm_compute; reflexivity|discriminate]. Qed.
Print Assumptions C76_documented_spelling_refuted.

Example C76_ex :
  fst (pretty_print_actions (fun _ => []) no_uni (disk env_file) 9 $"A" new_setenv) =
    Ok (ended [$"Actions"; $"======="; $"--> module_load    : gcc/9"; $"--> envvar_prepend : PATH=""/opt/bin:${PATH}""";
               $"--> module_load    : mpi/4.1"; $"--> envvar_set     : OLD=""$PATH"""]) /\
  Forall tellable actions_A /\
  (exists t, actions_shown actions_A t /\ t = ended [$"Actions"; $"======="; $"--> module_load    : gcc/9";
     $"--> envvar_prepend : PATH=""/opt/bin:${PATH}"""; $"--> module_load    : mpi/4.1"; $"--> envvar_set     : OLD=""$PATH"""]) /\
  exists x, fst (pretty_print_actions (fun _ => []) no_uni (disk env_file) 9 $"C" new_setenv) = Err x.
Proof.
  split; [vm_compute; reflexivity|]. split.
  - assert (E : forall op n v, In op envvar_requests -> asked_action (AEnv op n (Some v))).
    { intros op n v I. eexists. now apply (as_envvar op n [] (Some v)). }
    assert (M : forall op n v, In op module_requests -> asked_action (AMod op (Some n) (Some v))).
    { intros op n v I. eexists. now apply (as_module op [n] (Some v)). }
    repeat apply Forall_cons; try apply Forall_nil.
    all: split; [first [apply E; cbn; tauto|apply M; cbn; tauto]|]; split; [cbn; intuition discriminate|].
    all: cbn; intuition discriminate.
  - split; [|eexists; vm_compute; reflexivity].
    eexists. split; [|reflexivity]. exists 14, [$"--> module_load    : gcc/9"; $"--> envvar_prepend : PATH=""/opt/bin:${PATH}""";
               $"--> module_load    : mpi/4.1"; $"--> envvar_set     : OLD=""$PATH"""].
    split; [split; [apply le_n|split; [|now left]]|split; [|reflexivity]].
    + intros a I. cbn [In actions_A] in I. repeat (destruct I as [<-|I]; [apply PeanoNat.Nat.leb_le; reflexivity|]). destruct I.
    + repeat apply Forall2_cons; try apply Forall2_nil.
      * exists 3, $"gcc/9". split; [reflexivity|]. split; [apply (iw_version (Some $"gcc") $"9"); discriminate|reflexivity].
      * exists 0, $"PATH=""/opt/bin:${PATH}""". split; [reflexivity|]. split; [exact (iw_prepend $"PATH" (Some $"/opt/bin"))|reflexivity].
      * exists 3, $"mpi/4.1". split; [reflexivity|]. split; [apply (iw_version (Some $"mpi") $"4.1"); discriminate|reflexivity].
      * exists 4, $"OLD=""$PATH""". split; [reflexivity|]. split; [apply (iw_set $"envvar_set" $"OLD" (Some $"$PATH")); now left|reflexivity].
Qed.

(** ** C77 *)

(** The environment is printed in order: with values without a filter, or else
    with the values of the variables that match it. *)
Theorem C77_variables :
  forall filter only e t, vars_shown filter only e t <-> t = pretty_print_envvars filter only e.
Proof. exact vars_iff. Qed.
Print Assumptions C77_variables.

(** With a filter the values of the other variables cannot be told from the text. *)
Theorem C77_values_hidden :
  forall filter only e e', agree_on filter e e' ->
    pretty_print_envvars (Some filter) only e = pretty_print_envvars (Some filter) only e'.
Proof. exact values_hidden. Qed.
Print Assumptions C77_values_hidden.

(** With only those that match, nothing about the others can. *)
Theorem C77_others_hidden :
  forall filter e e' m, matching_vars filter e m -> matching_vars filter e' m ->
    pretty_print_envvars (Some filter) true e = pretty_print_envvars (Some filter) true e'.
Proof. exact others_hidden. Qed.
Print Assumptions C77_others_hidden.

(** Without a filter everything is shown: the text settles the environment. *)
Theorem C77_everything_shown :
  forall only only' e e', Forall (fun x => ~ In 61%N (fst x) /\ ~ In 10%N (fst x) /\ ~ In 10%N (snd x)) e ->
    Forall (fun x => ~ In 61%N (fst x) /\ ~ In 10%N (fst x) /\ ~ In 10%N (snd x)) e' ->
    pretty_print_envvars None only e = pretty_print_envvars None only' e' -> e = e'.
Proof. exact all_shown. Qed.
Print Assumptions C77_everything_shown.

(** Without a filter, asking for only the variables that match changes nothing. *)
Theorem C77_no_filter :
  forall e, pretty_print_envvars None true e = pretty_print_envvars None false e.
Proof. exact only_ignored. Qed.
Print Assumptions C77_no_filter.

(** A value with a line feed can look like another variable. *)
Theorem C77_line_feed_refuted :
  exists e e', e <> e' /\ pretty_print_envvars None false e = pretty_print_envvars None false e'.
Proof.
  exists [($"A", $"1" ++ newline ++ $"[envvar]: B = 2")], [($"A", $"1"); ($"B", $"2")].
  split; [discriminate|vm_compute; reflexivity].
Qed.
Print Assumptions C77_line_feed_refuted.

Example C77_ex :
  pretty_print_envvars (Some [$"FOO"; $"BA"]) false [($"BAR", $"1"); ($"TOKEN", $"x"); ($"A_FOO", $"2")] =
    ended [vars_rule; $"|   P R I N T   E N V I R O N M E N T   V A R S"; vars_rule;
           $"[envvar]: BAR = 1"; $"[envvar]: TOKEN"; $"[envvar]: A_FOO = 2"] /\
  pretty_print_envvars (Some [$"FOO"; $"BA"]) true [($"BAR", $"1"); ($"TOKEN", $"x"); ($"A_FOO", $"2")] =
    ended [vars_rule; $"|   P R I N T   E N V I R O N M E N T   V A R S"; vars_rule;
           $"[envvar]: BAR = 1"; $"[envvar]: A_FOO = 2"] /\
  agree_on [$"FOO"] [($"TOKEN", $"x"); ($"FOO", $"2")] [($"TOKEN", $"y"); ($"FOO", $"2")] /\
  matching_vars [$"FOO"] [($"FOO", $"2"); ($"TOKEN", $"y")] [($"FOO", $"2")] /\
  pretty_print_envvars (Some [$"FOO"]) false [($"FOO", $"2")] <> pretty_print_envvars (Some [$"FOO"]) false [($"FOO", $"3")].
Proof.
  assert (N : ~ matching [$"FOO"] $"TOKEN") by (rewrite <- matched_iff; vm_compute; discriminate).
  assert (Y : matching [$"FOO"] $"FOO") by (rewrite <- matched_iff; reflexivity).
  split; [vm_compute; reflexivity|]. split; [vm_compute; reflexivity|]. split.
  - repeat constructor; cbn [fst snd]; intros; contradiction.
  - split; [apply mv_keep; [exact Y|]; apply mv_drop; [exact N|apply mv_nil]|]. vm_compute. discriminate.
Qed.
