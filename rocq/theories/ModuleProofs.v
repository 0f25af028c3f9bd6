(** * Proofs about [ModuleHelper.module]. *)
From Coq Require Import String NArith ZArith List Bool Lia.
Import ListNotations.
From Verif Require Import PyBase PyFacts EnvVar SetEnv ModuleHelper SpecEnv SpecSetEnv SpecModule EnvProofs SetEnvProofs SetEnvProofs2.
Local Open Scope sm_scope.

Lemma split_word w cur s : Forall (fun c => is_space c = false) w ->
  split_blanks (w ++ s) cur = split_blanks s (cur ++ w).
Proof.
  revert cur; induction w as [|c w IH]; intros cur F; cbn [app split_blanks].
  - now rewrite app_nil_r.
  - inversion F; subst. rewrite H1, IH by auto. now rewrite <- app_assoc.
Qed.
Lemma split_joined l : Forall word_text l -> py_split (join $" " l) = l.
Proof.
  unfold py_split. induction l as [|w l IH]; intros F; [reflexivity|].
  inversion F as [|? ? [N W] F']; subst. destruct l as [|v l].
  - cbn [join]. rewrite <- (app_nil_r w) at 1. rewrite split_word by auto. cbn [app split_blanks].
    destruct w; [contradiction|reflexivity].
  - change (join $" " (w :: v :: l)) with (w ++ $" " ++ join $" " (v :: l)). rewrite split_word by auto.
    change ($" " ++ join $" " (v :: l)) with (32%N :: join $" " (v :: l)).
    cbn [split_blanks app]. change (is_space 32%N) with true. cbn iota.
    rewrite IH by auto. destruct w; [contradiction|reflexivity].
Qed.

Section Modulecmd.
Variable on_path : environ -> option str.
Variable in_function : environ -> list str.
Variable exists_on_path : environ -> str -> bool.
Variable run : list str -> environ -> res (str * str * Z).
Variable exec_text : str -> environ -> res mlstatus * environ.
Variable exec_sets_locals : bool.
Notation module_cmd := (module_cmd on_path in_function exists_on_path run exec_text exec_sets_locals).
Notation is_modulecmd := (is_modulecmd on_path in_function exists_on_path).
Notation find_modulecmd := (find_modulecmd on_path in_function exists_on_path).

Lemma find_spec e r e' : find_modulecmd e = (r, e') ->
  e' = e /\ ((exists p, r = Ok p /\ is_modulecmd e p) \/ r = Err IOError /\ forall p, ~ is_modulecmd e p).
Proof.
  unfold ModuleHelper.find_modulecmd, SpecModule.is_modulecmd. intros E.
  destruct (on_path e) as [p|] eqn:P.
  { injection E as <- <-. split; auto. left. eauto. }
  destruct (in_function e) as [|p [|q l]] eqn:L.
  - injection E as <- <-. split; auto. right. split; auto. intros p [X|(_ & X & _)]; discriminate.
  - destruct (exists_on_path e p) eqn:X; injection E as <- <-; (split; [auto|]).
    + left. exists p. auto.
    + right. split; auto. intros q [Y|(_ & Y & Z)]; [discriminate|]. congruence.
  - injection E as <- <-. split; auto. right. split; auto. intros r [X|(_ & X & _)]; discriminate.
Qed.

Lemma command_line_words p c args l : args = l \/ args = [join $" " l] -> Forall word_text l ->
  command_line p c args = p :: $"python" :: command_words c ++ l.
Proof.
  intros A F. unfold command_line. cbn [app]. do 2 f_equal. f_equal.
  destruct A as [-> | ->].
  - destruct l as [|w [|v l]]; try reflexivity.
    change w with (join $" " [w]) at 1. now apply split_joined.
  - now apply split_joined.
Qed.

Lemma modulecmd_unique e p q : is_modulecmd e p -> is_modulecmd e q -> p = q.
Proof.
  intros [P|(P & L & _)] [Q|(Q & M & _)]; try congruence.
Qed.

(** All ways in which a call ends. *)
Lemma module_cases c args e r e' : module_cmd c args e = (r, e') ->
  (r = Err IOError /\ e' = e /\ forall p, ~ is_modulecmd e p) \/
  exists p, is_modulecmd e p /\
    match run (command_line p c args) e with
    | Err x => r = Err x /\ e' = e
    | Ok (out, err, code) =>
        (occurs_in $"ERROR:" err /\ r = Ok 1%Z /\ e' = e) \/
        (~ occurs_in $"ERROR:" err /\ code <> 0%Z /\ r = Ok code /\ e' = e) \/
        (~ occurs_in $"ERROR:" err /\ code = 0%Z /\
         exists st, exec_text out e = (st, e') /\
           r = match st with
               | Err x => Err x
               | Ok StatusFalse => Ok (if exec_sets_locals then 1%Z else 0%Z)
               | Ok _ => Ok 0%Z
               end)
    end.
Proof.
  unfold ModuleHelper.module_cmd, bind, get, of_res. intros E.
  destruct (find_modulecmd e) as [f e1] eqn:F. apply find_spec in F as [-> F].
  destruct F as [(p & -> & P)|[-> N]].
  2:{ left. injection E as <- <-. auto. }
  right. exists p. split; auto.
  destruct (run (command_line p c args) e) as [[[out err] code]|x] eqn:R.
  2:{ injection E as <- <-. auto. }
  cbn iota beta in E. destruct (contains $"ERROR:" err) eqn:C.
  { left. apply contains_spec in C. unfold ret in E. injection E as <- <-. auto. }
  assert (N : ~ occurs_in $"ERROR:" err) by (intros X; apply contains_spec in X; congruence).
  right. destruct (Z.eqb_spec code 0); cbn [negb] in E.
  2:{ left. unfold ret in E. injection E as <- <-. auto. }
  right. split; auto. split; auto. destruct (exec_text out e) as [st e1] eqn:X.
  exists st. destruct st as [st|x].
  - unfold ret in E. destruct st; injection E as <- <-; split; reflexivity.
  - injection E as <- <-. split; reflexivity.
Qed.

Lemma module_zero c args e e' : module_cmd c args e = (Ok 0%Z, e') ->
  exists p out err st, is_modulecmd e p /\ run (command_line p c args) e = Ok (out, err, 0%Z) /\
    ~ occurs_in $"ERROR:" err /\ exec_text out e = (Ok st, e') /\
    (st = StatusFalse -> exec_sets_locals = false).
Proof.
  intros E. apply module_cases in E as [(E & _)|(p & P & E)]; [discriminate|].
  destruct (run (command_line p c args) e) as [[[out err] code]|x] eqn:R; [|destruct E; discriminate].
  destruct E as [(_ & E & _)|[(_ & N & E & _)|(N & -> & st & X & E)]]; [discriminate|congruence|].
  destruct st as [st|x]; [|discriminate].
  exists p, out, err, st. repeat split; auto. intros ->. destruct exec_sets_locals; [discriminate|reflexivity].
Qed.
Lemma module_changes c args e r e' : module_cmd c args e = (r, e') -> e' <> e ->
  exists p out err st, is_modulecmd e p /\ run (command_line p c args) e = Ok (out, err, 0%Z) /\
    ~ occurs_in $"ERROR:" err /\ exec_text out e = (st, e').
Proof.
  intros E N. apply module_cases in E as [(_ & E & _)|(p & P & E)]; [contradiction|].
  destruct (run (command_line p c args) e) as [[[out err] code]|x] eqn:R; [|now destruct E].
  destruct E as [(_ & _ & E)|[(_ & _ & _ & E)|(M & -> & st & X & E)]]; [contradiction|contradiction|].
  exists p, out, err, st. auto.
Qed.
Lemma module_failed c args e z e' : module_cmd c args e = (Ok z, e') -> z <> 0%Z ->
  e' = e \/ z = 1%Z /\ exec_sets_locals = true /\ exists out, exec_text out e = (Ok StatusFalse, e').
Proof.
  intros E N. apply module_cases in E as [(_ & E & _)|(p & P & E)]; [auto|].
  destruct (run (command_line p c args) e) as [[[out err] code]|x] eqn:R; [|destruct E; auto].
  destruct E as [(_ & _ & E)|[(_ & _ & _ & E)|(M & -> & st & X & E)]]; auto.
  destruct st as [[]|x]; try congruence.
  right. destruct exec_sets_locals; [|congruence]. injection E as ->. eauto.
Qed.
Lemma module_argument_words c l e : Forall word_text l ->
  module_cmd c [join $" " l] e = module_cmd c l e.
Proof.
  intros F. unfold ModuleHelper.module_cmd, bind.
  destruct (find_modulecmd e) as [[p|x] e1]; [|reflexivity]. unfold get.
  now rewrite !(command_line_words p c _ l) by auto.
Qed.
Lemma module_not_found c args e : (forall p, ~ is_modulecmd e p) -> module_cmd c args e = (Err IOError, e).
Proof.
  intros N. destruct (module_cmd c args e) as [r e'] eqn:E.
  apply module_cases in E as [(-> & -> & _)|(p & P & _)]; [auto|]. destruct (N p P).
Qed.
Lemma module_error_text c args e p out err code : is_modulecmd e p ->
  run (command_line p c args) e = Ok (out, err, code) -> occurs_in $"ERROR:" err ->
  module_cmd c args e = (Ok 1%Z, e).
Proof.
  intros P R O. destruct (module_cmd c args e) as [r e'] eqn:E.
  apply module_cases in E as [(_ & _ & N)|(q & Q & E)]; [destruct (N p P)|].
  rewrite (modulecmd_unique e q p Q P), R in E.
  destruct E as [(_ & -> & ->)|[(N & _)|(N & _)]]; [auto|contradiction|contradiction].
Qed.
Lemma module_exit_code c args e p out err code : is_modulecmd e p ->
  run (command_line p c args) e = Ok (out, err, code) -> ~ occurs_in $"ERROR:" err -> code <> 0%Z ->
  module_cmd c args e = (Ok code, e).
Proof.
  intros P R O Z. destruct (module_cmd c args e) as [r e'] eqn:E.
  apply module_cases in E as [(_ & _ & N)|(q & Q & E)]; [destruct (N p P)|].
  rewrite (modulecmd_unique e q p Q P), R in E.
  destruct E as [(N & _)|[(_ & _ & -> & ->)|(_ & N & _)]]; [contradiction|auto|contradiction].
Qed.

(** A recorded [module-load] of one word that counts as done. *)
Lemma load_done which n v e e' : word_text n -> word_text v ->
  performs which (calls module_cmd) (AMod $"module_load" (Some n) (Some v)) e (Ok 0%Z) e' ->
  exists p out err st, is_modulecmd e p /\
    run [p; $"python"; $"load"; n ++ $"/" ++ v] e = Ok (out, err, 0%Z) /\
    ~ occurs_in $"ERROR:" err /\ exec_text out e = (Ok st, e').
Proof.
  intros [N W] [V U] P. inversion P; subst.
  { match goal with H : _ \/ _ |- _ => destruct H as [H|H]; [discriminate|congruence] end. }
  match goal with H : calls _ _ _ = _ |- _ => cbn [calls] in H; apply module_zero in H;
    destruct H as (p & out & err & st & Q & R & O & X & _) end.
  exists p, out, err, st. repeat split; auto.
  rewrite (command_line_words p (inl $"load") _ [n ++ $"/" ++ v]) in R; [exact R|auto|].
  constructor; [|constructor]. split.
  - destruct n; [contradiction|discriminate].
  - apply Forall_app. split; auto. constructor; auto.
Qed.
End Modulecmd.

Section Lmod.
Variable lmod : list str -> environ -> res (str * str) * environ.
Variable is_name_error : exc -> bool.
Variable is_loaded file_exists : str -> environ -> Z.
Notation lmod_module := (lmod_module lmod is_name_error is_loaded file_exists).
Notation checked := (checked is_loaded file_exists).
Notation run_checks := (run_checks is_loaded file_exists).

Lemma wait_zero z : (wait_status (and_or z sh_true sh_false) = 0 <-> z = 0)%Z.
Proof.
  unfold and_or, wait_status, sh_true, sh_false.
  destruct (Z.eqb_spec z 0) as [->|N]; cbn [Z.eqb]; [split; auto|].
  destruct (Z.eqb_spec z 0); [contradiction|]. split; lia.
Qed.
Lemma loaded_status t e : (os_system is_loaded file_exists (Loaded t) e = 0 <-> is_loaded t e = 0)%Z.
Proof. apply wait_zero. Qed.
Lemma file_status t e : (os_system is_loaded file_exists (File t) e = 0 <-> file_exists t e = 0)%Z.
Proof. apply wait_zero. Qed.
Lemma unloaded_status t e : os_system is_loaded file_exists (Unloaded t) e = 0%Z.
Proof.
  unfold os_system, and_or, wait_status, sh_true, sh_false.
  destruct (is_loaded t e =? 0)%Z eqn:Z; [reflexivity|]. now rewrite Z.
Qed.
Lemma wait_256 z : (wait_status (and_or z sh_true sh_false) <> 0 -> wait_status (and_or z sh_true sh_false) = 256)%Z.
Proof.
  unfold and_or, wait_status, sh_true, sh_false. destruct (z =? 0)%Z eqn:Z; [now cbn|]. rewrite Z. reflexivity.
Qed.
Lemma status_256 c e : os_system is_loaded file_exists c e <> 0%Z -> os_system is_loaded file_exists c e = 256%Z.
Proof.
  destruct c; [apply wait_256| |apply wait_256]. intros N. now rewrite unloaded_status in N.
Qed.
Lemma run_checks_256 l e : run_checks l e = 0%Z \/ run_checks l e = 256%Z.
Proof.
  induction l as [|c l IH]; [auto|]. cbn [ModuleHelper.run_checks].
  destruct (Z.eqb_spec (os_system is_loaded file_exists c e) 0); [exact IH|]. right. now apply status_256.
Qed.

Lemma run_one c e : run_checks [c] e = os_system is_loaded file_exists c e.
Proof. cbn [ModuleHelper.run_checks]. destruct (Z.eqb_spec (os_system is_loaded file_exists c e) 0); auto. Qed.

Lemma run_two m n e : run_checks [Unloaded m; Loaded n] e = os_system is_loaded file_exists (Loaded n) e.
Proof. rewrite <- run_one. cbn [ModuleHelper.run_checks]. now rewrite unloaded_status. Qed.

(** The checks, once chosen, say exactly what [checked] says. *)
Lemma checks_say c args e r e' : checks c args e = (r, e') -> e' = e /\
  match r with
  | Ok l => run_checks l e = 0%Z <-> checked c args e
  | Err x => x = IndexError /\ ~ checked c args e
  end.
Proof.
  unfold checks, SpecModule.checked, nth_or_raise, bind, ret, raise. intros E.
  destruct (command_words c) as [|op more].
  { injection E as <- <-. auto. }
  set (a := more ++ args) in *. clearbody a. cbn zeta.
  destruct (str_eqb_spec op $"load") as [->|NL].
  { destruct a as [|m a]; cbn [nth_error] in E; injection E as <- <-; (split; [auto|]).
    - split; auto. intros (L & _). destruct (L eq_refl) as (m & X & _). discriminate.
    - rewrite run_one, loaded_status. split.
      + intros L. repeat split; try discriminate. intros _. exists m. auto.
      + intros (L & _). destruct (L eq_refl) as (x & X & Y). cbn in X. congruence. }
  destruct (str_eqb_spec op $"unload") as [->|NU].
  { destruct a as [|m a]; cbn [nth_error] in E; injection E as <- <-; (split; [auto|]).
    - split; auto. intros (_ & _ & _ & L). now apply L.
    - rewrite run_one, unloaded_status. split; auto. intros _. repeat split; discriminate. }
  destruct (str_eqb_spec op $"swap") as [->|NS].
  { destruct a as [|m [|n a]]; cbn [nth_error] in E; injection E as <- <-; (split; [auto|]).
    - split; auto. intros (_ & L & _). destruct (L eq_refl) as (? & ? & ? & X & _). discriminate.
    - split; auto. intros (_ & L & _). destruct (L eq_refl) as (? & ? & ? & X & _). discriminate.
    - rewrite run_two, loaded_status. split.
      + intros L. repeat split; try discriminate. intros _. exists m, n, a. auto.
      + intros (_ & L & _). destruct (L eq_refl) as (? & ? & ? & X & Y). congruence. }
  destruct (str_eqb_spec op $"use") as [->|NE].
  { destruct a as [|m a]; cbn [nth_error] in E; injection E as <- <-; (split; [auto|]).
    - split; auto. intros (_ & _ & L & _). destruct (L eq_refl) as (m & X & _). discriminate.
    - rewrite run_one, file_status. split.
      + intros L. repeat split; try discriminate. intros _. exists m. auto.
      + intros (_ & _ & L & _). destruct (L eq_refl) as (x & X & Y). cbn in X. congruence. }
  injection E as <- <-. split; auto. split; auto. intros _. repeat split; contradiction.
Qed.

(** All ways in which a call ends. *)
Lemma lmod_cases c args e r e' : lmod_module c args e = (r, e') ->
  (dget $"LMOD_CMD" e = None /\ r = Err TypeError /\ e' = e) \/
  (dget $"LMOD_CMD" e = Some [] /\ r = Err IOError /\ e' = e) \/
  (exists x, x <> [] /\ dget $"LMOD_CMD" e = Some x) /\
  match lmod (command_words c ++ args) e with
  | (Err x, e1) => r = Err (if is_name_error x then RuntimeError else x) /\ e' = e1
  | (Ok (_, err), e1) => e' = e1 /\
      ((r = Err IndexError /\ ~ checked c args e1) \/
       (occurs_in $"error:" (lower err) /\ r = Ok 1%Z) \/
       (~ occurs_in $"error:" (lower err) /\ ~ checked c args e1 /\ r = Ok 256%Z) \/
       (~ occurs_in $"error:" (lower err) /\ checked c args e1 /\ r = Ok 0%Z))
  end.
Proof.
  unfold ModuleHelper.lmod_module, bind, get. intros E.
  destruct (dget $"LMOD_CMD" e) as [[|b lm]|] eqn:D;
    change (@dget (list pychar)) with (@dget str) in *; rewrite D in E.
  - right. left. unfold raise in E. injection E as <- <-. auto.
  - right. right. split; [exists (b :: lm); split; [discriminate|auto]|].
    destruct (lmod (command_words c ++ args) e) as [[[out err]|x] e1].
    2:{ injection E as <- <-. auto. }
    cbn [snd] in E. destruct (checks c args e1) as [q e2] eqn:Q.
    apply checks_say in Q as [-> Q]. destruct q as [l|x].
    2:{ injection E as <- <-. destruct Q as [-> Q]. auto. }
    destruct (contains $"error:" (lower err)) eqn:C; cbn [negb andb] in E.
    + apply contains_spec in C. unfold ret in E. injection E as <- <-. auto.
    + assert (N : ~ occurs_in $"error:" (lower err)) by (intros X; apply contains_spec in X; congruence).
      destruct (run_checks_256 l e1) as [R|R]; rewrite R in *; unfold ret in E; cbn in E; injection E as <- <-.
      * split; auto. right. right. right. split; auto. split; auto. now apply Q.
      * split; auto. right. right. left. split; auto. split; auto. intros X. apply Q in X. discriminate.
  - left. unfold raise in E. injection E as <- <-. auto.
Qed.
Lemma lmod_zero c args e e' : lmod_module c args e = (Ok 0%Z, e') <->
  (exists x, x <> [] /\ dget $"LMOD_CMD" e = Some x) /\
  exists out err, lmod (command_words c ++ args) e = (Ok (out, err), e') /\
    ~ occurs_in $"error:" (lower err) /\ checked c args e'.
Proof.
  split.
  - intros E. apply lmod_cases in E as [(_ & E & _)|[(_ & E & _)|[D E]]]; [discriminate|discriminate|].
    split; auto. destruct (lmod (command_words c ++ args) e) as [[[out err]|x] e1]; [|destruct E; discriminate].
    destruct E as [-> [[E _]|[[_ E]|[(_ & _ & E)|(N & K & _)]]]]; try discriminate. exists out, err. auto.
  - intros [(x & X & D) (out & err & L & N & K)].
    destruct (lmod_module c args e) as [r e1] eqn:E.
    apply lmod_cases in E as [(D' & _)|[(D' & _)|[_ E]]]; [congruence|congruence|].
    rewrite L in E. destruct E as [-> [[_ E]|[[E _]|[(_ & E & _)|(_ & _ & ->)]]]]; tauto.
Qed.
End Lmod.
