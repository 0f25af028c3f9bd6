(** * Proofs about [load-env.sh] with [load_env.py]. *)
From Coq Require Import String NArith ZArith List Bool Arith Lia.
Import ListNotations.
From Verif Require Import PyBase PyFacts IniView IniRead ExcControl Cpe EnvVar SetEnv Bash DetSys EnvKeyword LoadEnv LoadRun
  SpecText SpecWalk SpecRun SpecApi SpecEnv SpecSetEnv SpecBash SpecLoadEnv SpecLoadRun SpecGenRun RefineRoot SetEnvProofs BashTextProofs LoadRunProofs LoadRunProofs2 LoadRunProofs3 LoadSh SpecSh ShProofs.
Local Open Scope sm_scope.

(** The actions of a section, from a computation. *)
Lemma asks_computed uniword fs fuel specs_file i n l l' w w' o :
  has_file fs (new_set specs_file) i -> no_finalize_options i -> r_set w = None ->
  load_set uniword fs fuel specs_file w = (Ok tt, w') -> r_set w' = Some o -> ini_has_section i n = true ->
  dget n (o_user o) = Some l -> section_asks uniword i n l' -> l' = l.
Proof.
  intros HF NF N E SO HS D (evs' & m' & W' & RM').
  destruct (load_set_ok uniword fs fuel specs_file i HF NF w w' N E) as (_ & o' & SO' & R). replace o' with o in * by congruence.
  destruct R as [L R]. destruct (R n HS) as [C _].
  destruct (lo_read _ _ _ _ L n C) as (evs & m & l2 & W & RM & D2 & _).
  destruct (parse_walk_unique _ i _ _ _ _ _ _ _ _ W W') as [-> ->]. pose proof (remain_det _ _ _ RM RM') as ->. congruence.
Qed.

(** Deciders for literals. *)
Lemma plain_text_check s :
  forallb (fun c => negb (existsb (N.eqb c) [0; 10; 13; 34; 92]%N) && (c <? 55296)%N) s = true -> plain_text s.
Proof.
  intros H. rewrite forallb_forall in H. apply Forall_forall. intros c C. specialize (H c C).
  apply andb_prop in H as [A B]. apply N.ltb_lt in B. split.
  - intros X. apply negb_true_iff in A. assert (T : existsb (N.eqb c) [0; 10; 13; 34; 92]%N = true).
    { apply existsb_exists. exists c. split; [exact X|apply N.eqb_refl]. }
    congruence.
  - intros [L _]. apply N.le_ngt in L. contradiction.
Qed.
Lemma bare_word_check s : s <> [] -> forallb (fun c => negb (existsb (N.eqb c) [9; 10; 32; 42; 63; 91; 92]%N)) s = true ->
  bare_word s.
Proof. split; [assumption|]. now apply unsplit_check. Qed.

Section E.
Variable glob : str -> list str.
Variable odd_test : list str -> bool.
Variable odd_status : str -> N.
Variable which_python3 too_old : environ -> str.
Variable python3 : list str -> environ -> dict str -> N * dict str.
Variable interactive : list str -> environ -> dict str -> dict str.
Variable run_text run_function : str -> sh unit.
Variable here random : str.
Notation load_env_sh := (load_env_sh glob odd_test odd_status which_python3 too_old python3 interactive run_text run_function here random).

Lemma environment other_re systems hostname envs which mods other uniword fs fuel header specs_file env_file output list_flag writable i
    subst_pattern sed_other echo_option which_prints module_command other_command args build force stem t :
  is_load_env python3 (load_command here random args)
    (fun e files => load_main other_re systems hostname envs which mods other uniword fs fuel header specs_file env_file output
       (Some (loc_file random)) list_flag writable (new_lworld build force e files)) ->
  is_bash run_text (heading header $"bash" true true)
    (run_bash glob subst_pattern sed_other echo_option which_prints module_command other_command) ->
  (forall e v, chomp (which_prints e [v]) = match which e v with Some p => p | None => [] end) ->
  (forall a e, module_command a e = snd (mods a e)) ->
  has_file fs (new_set specs_file) i -> no_finalize_options i ->
  ready which_python3 too_old t -> unsplit here -> unsplit random -> args <> [] -> Forall bare_word args ->
  asks_ci args -> script_file env_file stem -> env_file <> loc_file random -> dget $"gen_config_helper" (t_funs t) = None ->
  (forall n l, fst (lexec other_re systems hostname envs LParsed (new_loadenv build force)) = Ok n -> section_asks uniword i n l ->
     bare_text n /\ Forall plain_action l /\
     forall e, same_but load_names (t_vars t) e ->
       portable_all which mods l e /\ exists e', all_done which mods l e e' /\ keeps load_names e e') ->
  exists e, same_but load_names (t_vars t) e /\
    let (r, w) := load_main other_re systems hostname envs which mods other uniword fs fuel header specs_file env_file output
                    (Some (loc_file random)) list_flag writable (new_lworld build force e (t_files t)) in
    match r with
    | Err _ => exists t', load_env_sh true args t = (Ok 1%N, t') /\ same_but load_names (t_vars t) (t_vars t')
    | Ok _ =>
        exists n l e3 e' t',
          fst (lexec other_re systems hostname envs LParsed (new_loadenv build force)) = Ok n /\ section_asks uniword i n l /\
          same_but load_names (t_vars t) e3 /\ all_done which mods l e3 e' /\
          load_env_sh true args t = (Ok 0%N, t') /\
          same_but load_names (dset $"LOADED_ENV_NAME" n e') (t_vars t') /\
          (forall x, In x removed_names -> dget x (t_vars t') = None) /\
          dget env_file (t_files t') = None
    end.
Proof.
  intros PY BA1 W1 W2 HF NF R HD RD NA BA CI SF NL NH HY.
  exists (seen too_old here random t). split; [now apply seen_vars|].
  pose proof (PY (seen too_old here random t) (t_files t)) as P.
  destruct (load_main other_re systems hostname envs which mods other uniword fs fuel header specs_file env_file output
    (Some (loc_file random)) list_flag writable (new_lworld build force (seen too_old here random t) (t_files t))) as [r w] eqn:E.
  cbn [fst snd] in P. clear PY. destruct r as [[]|x].
  2:{ destruct (failure glob odd_test odd_status which_python3 too_old python3 interactive run_text run_function here random
        args t 1%N (r_out w)) as (t' & E1 & L & _); auto.
      - discriminate.
      - reflexivity.
      - exists t'. split; auto. apply L. }
  destruct (main_success _ _ _ _ _ _ _ _ _ _ _ _ _ _ _ _ _ _ HF NF _ _ _ _ _ E) as (_ & AO & n & l & EN & HS & SA & K).
  destruct (HY n l EN SA) as (BN & PA & HE). destruct (K PA) as (_ & u & SL & F1 & F2). clear K.
  specialize (F1 env_file (or_introl eq_refl)). specialize (F2 _ eq_refl).
  assert (F3 : dget env_file (r_out w) = Some (heading header $"bash" true true ++ commands u n)).
  { apply F1. congruence. }
  destruct (script_ci glob odd_test odd_status which_python3 too_old python3 interactive run_text run_function here random
    args t (r_out w) env_file stem R HD RD NA BA P F2 SF _ CI F3) as (t3 & PR & _ & GO).
  destruct (HE (t_vars t3) (pr_vars _ _ _ _ _ PR)) as (PO & e' & AD & KE).
  pose proof (commands_run glob subst_pattern sed_other echo_option which_prints module_command other_command which mods W1 W2
    l u n (t_vars t3) e' PO SL AD BN) as RB.
  destruct (BA1 (commands u n) t3) as (f' & RT & FH). rewrite RB in RT. cbn [fst snd] in RT.
  destruct (GO _ (Term (dset $"LOADED_ENV_NAME" n e') f' (t_trap t3) (t_files t3) (t_calls t3)) RT) as (t' & E1 & L & C).
  - unfold then_helper. cbn [t_funs]. rewrite FH. rewrite (pr_funs _ _ _ _ _ PR) by (cbn; intuition discriminate). now rewrite NH.
  - intros x X. cbn [t_vars]. rewrite dget_dset_other.
    + apply KE. exact X.
    + intros ->. cbn in X. intuition discriminate.
  - exists n, l, (t_vars t3), e', t'. split; auto. split; auto. split; [apply PR|]. split; auto. split; auto.
    split; [apply (lv_vars _ _ _ _ _ L)|]. split; [apply (lv_unset _ _ _ _ _ L)|].
    apply (lv_gone _ _ _ _ _ L). apply in_or_app. right. now left.
Qed.

(** ** Forms used in the statements *)
Section Run.
Variable args : list str.
Variable t : term.
Hypothesis R : ready which_python3 too_old t.
Hypothesis HD : unsplit here.
Hypothesis RD : unsplit random.
Hypothesis NA : args <> [].
Hypothesis BA : Forall bare_word args.
Let call := load_command here random args.

Lemma runs : exists e, same_but load_names (t_vars t) e /\
  forall r fs, python3 call e (t_files t) = (r, fs) ->
    (* it fails *)
    (r <> 0%N -> (r < 256)%N ->
       exists t', load_env_sh true args t = (Ok r, t') /\
         leaves (t_vars t) (t_funs t) fs (tmp_paths t ++ [$"rc"]) t' /\ t_calls t' = t_calls t ++ [$"python3" :: call]) /\
    (* it names no script *)
    (r = 0%N -> dget (loc_file random) fs = None ->
       exists t', load_env_sh true args t = (Ok 0%N, t') /\
         leaves (t_vars t) (t_funs t) fs (tmp_paths t ++ [$"rc"]) t' /\ t_calls t' = t_calls t ++ [$"python3" :: call]) /\
    (* it names a script that does not exist *)
    (forall env_file stem, r = 0%N -> dget (loc_file random) fs = Some env_file -> script_file env_file stem -> dget env_file fs = None ->
       exists t', load_env_sh true args t = (Ok 1%N, t') /\
         leaves (t_vars t) (t_funs t) fs (tmp_paths t ++ [env_file; stem ++ $"rc"]) t' /\ t_calls t' = t_calls t ++ [$"python3" :: call]).
Proof.
  exists (seen too_old here random t). split; [now apply seen_vars|]. intros r fs PY. split; [|split].
  - intros. eapply failure; eauto.
  - intros -> LN. eapply nothing_written; eauto.
  - intros env_file stem -> LF SF DE. eapply missing_script; eauto.
Qed.
Lemma loads : exists e, same_but load_names (t_vars t) e /\
  forall fs env_file stem text, python3 call e (t_files t) = (0%N, fs) ->
    dget (loc_file random) fs = Some env_file -> script_file env_file stem -> dget env_file fs = Some text -> asks_ci args ->
  exists t3, prepared t fs (stem ++ $"rc") ($"python3" :: call) t3 /\
    (forall x t4, run_text text t3 = (Err x, t4) -> load_env_sh true args t = (Err x, t4)) /\
    (forall t4 t5, run_text text t3 = (Ok tt, t4) -> then_helper run_function t4 t5 -> keeps_names t3 t5 ->
       exists t', load_env_sh true args t = (Ok 0%N, t') /\
         leaves (t_vars t5) (t_funs t5) (t_files t5) (tmp_paths t ++ [env_file; stem ++ $"rc"]) t' /\ t_calls t' = t_calls t5).
Proof.
  exists (seen too_old here random t). split; [now apply seen_vars|]. intros fs env_file stem text PY LF SF TX CI.
  eapply script_ci; eauto.
Qed.
Lemma opens : exists e, same_but load_names (t_vars t) e /\
  forall fs env_file stem text, python3 call e (t_files t) = (0%N, fs) ->
    dget (loc_file random) fs = Some env_file -> script_file env_file stem -> dget env_file fs = Some text -> ~ asks_ci args ->
  exists t3 t' init rest, prepared t fs (stem ++ $"rc") ($"python3" :: call) t3 /\
    dget (stem ++ $"rc") (t_files t3) = Some init /\
    cut_at 10%N init (($"source " ++ env_file) :: rest) /\ In $"export LOAD_ENV_INTERACTIVE_MODE=""True""" rest /\
    load_env_sh true args t = (Ok 0%N, t') /\
    leaves (t_vars t) (t_funs t) (interactive [stem ++ $"rc"] (t_vars t3) (t_files t3)) (tmp_paths t ++ [env_file; stem ++ $"rc"]) t' /\
    t_calls t' = t_calls t ++ [$"python3" :: call; [$"/bin/bash"; $"--init-file"; stem ++ $"rc"; $"-i"]].
Proof.
  exists (seen too_old here random t). split; [now apply seen_vars|]. intros fs env_file stem text PY LF SF TX CI.
  destruct (script_interactive glob odd_test odd_status which_python3 too_old python3 interactive run_text run_function here random
    args t fs env_file stem R HD RD NA BA PY LF SF text CI TX) as (t3 & t' & P & RC & E & L & C).
  destruct (rc_lines env_file (sf_bare _ _ SF)) as (rest & CU & IN & _).
  exists t3, t', (rc_text env_file false), rest. split; auto. split; auto. split; auto. split; auto. split; auto. split; auto.
  rewrite C, (pr_calls _ _ _ _ _ P). now rewrite <- app_assoc.
Qed.
End Run.
Lemma helps_only t : ready which_python3 too_old t -> unsplit here ->
  exists e, same_but load_names (t_vars t) e /\
  forall r fs, python3 [$"-E"; $"-s"; here ++ $"/load_env.py"; $"--help"] e (t_files t) = (r, fs) ->
  exists t', load_env_sh true [] t = (Ok 1%N, t') /\
    leaves (t_vars t) (t_funs t) fs (tmp_paths t ++ [$"rc"]) t' /\
    t_calls t' = t_calls t ++ [[$"python3"; $"-E"; $"-s"; here ++ $"/load_env.py"; $"--help"]].
Proof.
  intros R HD. eexists. split; [|intros r fs PY; eapply help_shown; eauto].
  eapply same_but_trans; [|apply same_but_dset; cbn; tauto]. apply same_but_dset. cbn. tauto.
Qed.
End E.
