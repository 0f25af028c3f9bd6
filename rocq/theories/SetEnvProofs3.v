(** * [SetEnvironment]: results of [apply]. *)
From Coq Require Import String NArith ZArith List Bool Lia.
Import ListNotations.
From Verif Require Import PyBase PyFacts Shlex IniView IniRead ExcControl Cpe EnvVar SetEnv SpecWalk SpecRun SpecEnv
  SpecSetEnv EnvProofs SetEnvProofs SetEnvProofs2 Samples.

Section Results.
Variable which : environ -> str -> option str.
Variable mods : list str -> environ -> res Z * environ.
Variable other : str -> environ -> res Z * environ.
Variables (uniword : pychar -> bool) (fs : str -> option str) (i : ini) (fuel : nat).
Notation K := (SetEnvironment uniword).
Notation apply := (apply which mods other uniword fs fuel).

(** Without recorded actions the environment stays as it is. *)
Theorem apply_without_actions s (o : sobj) e : dget s (o_user (snd (getitem K fs fuel s o))) = None ->
  exists x o', apply s (World o e) = (Err x, World o' e).
Proof.
  intros D. unfold SetEnv.apply.
  assert (G0 : on_obj (getitem K fs fuel s) (World o e) =
    (fst (getitem K fs fuel s o), World (snd (getitem K fs fuel s o)) e))
    by (unfold on_obj; cbn [w_obj w_env]; now destruct (getitem K fs fuel s o)).
  rewrite G0. clear G0. destruct (getitem K fs fuel s o) as [r o1]. cbn [fst snd] in D |- *.
  assert (L : forall o2, o_user o2 = o_user o1 ->
    bind (on_obj (actions_get s)) (fun l => apply_all which mods other l 0) (World o2 e) = (Err KeyError, World o2 e)).
  { intros o2 U. unfold bind, on_obj, actions_get. cbn [w_obj w_env].
    replace (dget s (o_user o2)) with (@None (list action)); auto. rewrite <- D. symmetry. f_equal. exact U. }
  destruct r as [d|x].
  - rewrite (L o1 eq_refl). eauto.
  - destruct x; try (eexists; eexists; reflexivity).
    unfold bind at 1. unfold on_obj at 1. cbn [w_obj w_env].
    destruct (get_files o1) as [[v|x] o2] eqn:G.
    + cbn [w_obj w_env]. rewrite L; eauto.
      revert G. unfold get_files, bind, get. destruct (o_files o1); unfold ret, raise; intros G; inversion G; auto.
    + eauto.
Qed.

(** At levels 2 and above, success means that every action was done. *)
Theorem apply_result s (o : sobj) d l e : has_file fs o i -> str_mem s (checked_of o) = true ->
  section_of o s = Some d -> dget s (o_user o) = Some l -> Forall asked_action l -> Forall plain_action l ->
  (2 <= level_of o)%Z ->
  (forall z w, apply s (World o e) = (Ok z, w) -> z = 0%Z /\ all_done which mods l e (w_env w)) /\
  (forall e', all_done which mods l e e' -> exists o', apply s (World o e) = (Ok 0%Z, World o' e')).
Proof.
  intros H C S D AA PA L.
  destruct (apply_again which mods other uniword fs i fuel s o d l H C S D AA PA e) as (r & e' & o' & E & P & _).
  split.
  - intros z w A. rewrite E in A. inversion A; subst. cbn [w_env].
    now apply (success_means_done which mods (level_of o) l e z e' L).
  - intros e2 A. destruct (success_means_done which mods (level_of o) l e 0 e2 L) as [_ B].
    destruct (performs_all_det which mods (level_of o) l 0 e _ _ P _ _ (B (conj eq_refl A))) as [-> ->].
    exists o'. exact E.
Qed.
End Results.

(** The text generated for an action, executed, performs the action. *)
Theorem text_performs which mods other a (o : sobj) e : asked_action a -> plain_action a ->
  match gen_action a $"python" o with
  | (Ok cmd, o') => o' = o /\ forall r e', exec_command which mods other cmd e = (r, e') -> performs which mods a e r e'
  | (Err x, o') => o' = o /\ x = TypeError /\ performs which mods a e (Err TypeError) e
  end.
Proof.
  intros AA PA. destruct (asked_passes a AA) as [p P]. rewrite (gen_python a p o P).
  destruct p as [[f args]|]; split; auto.
  - destruct (passes_plain _ _ _ P PA) as (NE & PT & F). intros r e' E.
    rewrite (exec_plain which mods other f args NE PT F) in E.
    exact (performs_call which mods a (Some (f, args)) e r e' P E).
  - split; auto. exact (performs_call which mods a None e _ _ P eq_refl).
Qed.

(** A value that ends its quotation. *)
Lemma injected which mods other e :
  w_env (snd (apply which mods other no_uni (disk ["[A]"; "envvar-set X = a"");danger()#"]%string) 9 $"A"
                (World (fresh []) e))) =
  snd (other $"envvar_op(""set"",""X"",""a"");danger()#"")" e).
Proof.
  destruct (other $"envvar_op(""set"",""X"",""a"");danger()#"")" e) as [r e'] eqn:E. vm_compute in E. vm_compute.
  rewrite E. destruct r as [[|p|p]|x]; reflexivity.
Qed.
