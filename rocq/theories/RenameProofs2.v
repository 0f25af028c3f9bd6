(** * C95 for environments, and a computable check for the examples. *)
From Coq Require Import String NArith ZArith List Bool Lia.
Import ListNotations.
From Verif Require Import PyBase PyFacts Shlex IniView IniRead ExcControl Debuggable Cpe SpecText SpecFile FileProofs MeaningProofs
  SpecBase SpecWalk SpecRun SpecParse Refine RefineRoot WalkProofs SpecApi EnvVar SetEnv SpecEnv SpecSetEnv SpecLoadRun SpecRename RenameProofs Samples.
Local Open Scope list_scope.

Lemma requests_renamed {uniword} rho evs evs' : Forall2 (ren (SetEnvironment uniword) rho) evs evs' -> requests evs' = requests evs.
Proof. induction 1 as [|e e' l l' R _ IH]; [reflexivity|]. unfold requests in *. cbn [flat_map]. rewrite IH. destruct R; reflexivity. Qed.
Theorem asks_renamed uniword rho i i' s l : renamed_file (SetEnvironment uniword) rho i i' -> rho $"DEFAULT" = $"DEFAULT" ->
  section_asks uniword i s l <-> section_asks uniword i' (rho s) l.
Proof.
  intros RF D. split.
  - intros (evs & n & W & R). destruct (parse_renamed _ _ _ _ RF _ _ _ _ _ _ W) as (evs' & W' & F). rewrite D in W'. exists evs', n. split; [exact W'|].
    now rewrite (requests_renamed _ _ _ F).
  - intros (evs' & n & W' & R). destruct (parse_walk_exists (SetEnvironment uniword) i $"DEFAULT" s true true) as (evs & n1 & W & _).
    destruct (parse_renamed _ _ _ _ RF _ _ _ _ _ _ W) as (e2 & W2 & F). rewrite D in W2. destruct (parse_walk_unique _ i' _ _ _ _ _ _ _ _ W' W2) as [-> _].
    exists evs, n1. split; [exact W|]. now rewrite <- (requests_renamed _ _ _ F).
Qed.

(** ** Checking [renamed_file] *)
Section C.
Context {Sh Us : Type} (K : pyclass Sh Us) (rho : str -> str) (i i' : ini).
Definition item_same (a b : str * res (option str)) : bool :=
  match snd a, snd b with
  | Ok None, Ok None => str_eqb (fst a) (fst b)
  | Ok (Some x), Ok (Some y) => str_eqb (fst a) (fst b) && str_eqb x y
  | _, _ => false
  end.
Definition op_of (a : str * res (option str)) : list str :=
  match snd a, shlex_split (strip_ws (fst a)) with Ok _, Ok (w :: _) => [undash w] | _, _ => [] end.
Definition item_check (a b : str * res (option str)) : bool :=
  match target K a, target K b, op_of a, op_of b with
  | [], [], _, _ => item_same a b && item_ok K a
  | [t], [t'], [w], [w'] => str_eqb t' (rho t) && str_eqb w w'
  | _, _, _, _ => false
  end.
Lemma res_same (x y : res (option str)) : (match x, y with Ok None, Ok None => true | Ok (Some a), Ok (Some b) => str_eqb a b | _, _ => false end) = true -> x = y.
Proof. destruct x as [[a|]|], y as [[b|]|]; try discriminate; [|reflexivity]. intros E. apply str_eqb_eq in E. now subst. Qed.
Lemma target_spec s item m : meaning K s item m -> match m with MStep _ => target K item = [] | MUse t h _ _ => target K item = [t] /\ op_of item = [h_op h] end.
Proof.
  intros M. apply meaning_iff in M. unfold target, op_of. inversion M; subst; cbn [fst snd h_op];
  repeat match goal with
  | H : shlex_split _ = _ |- _ => rewrite H; clear H
  | H : op_word _ _ = _ |- _ => rewrite H; clear H
  | H : handler_of _ _ (Some _) |- _ => apply handler_chosen in H; rewrite H; clear H
  end; try reflexivity; try (destruct ps; reflexivity); try (now split).
  - match goal with H : handler_of _ _ None |- _ => inversion H; subst end. destruct ps; [reflexivity|]. unfold chosen. 
    repeat match goal with H : has_attr _ _ = None |- _ => rewrite H; clear H end. reflexivity.
Qed.
Lemma item_check_ok s a b : item_check a b = true -> item_renamed K rho s a b.
Proof.
  intros C. destruct (meaning_total K s a) as (m & M). destruct (meaning_total K (rho s) b) as (m' & M').
  pose proof (target_spec _ _ _ M) as T. pose proof (target_spec _ _ _ M') as T'. unfold item_check in C.
  destruct m as [e|t h k v], m' as [e'|t' h' k' v'].
  - rewrite T, T' in C. apply andb_true_iff in C as (C & _). assert (a = b) as <-; [|eapply ir_same; eauto].
    destruct a as [k x], b as [k' y]. unfold item_same in C. cbn [fst snd] in C. assert (k = k').
    { destruct x as [[?|]|], y as [[?|]|]; try discriminate; [apply andb_true_iff in C as (C & _)|]; now apply str_eqb_eq. }
    subst k'. f_equal. apply res_same. destruct x as [[?|]|], y as [[?|]|]; try discriminate; [apply andb_true_iff in C as (_ & C); exact C|reflexivity].
  - destruct T' as (T' & _). rewrite T, T' in C. discriminate.
  - destruct T as (T & O). rewrite T, T' in C. discriminate.
  - destruct T as (T & O), T' as (T' & O'). rewrite T, T', O, O' in C. apply andb_true_iff in C as (C & D). apply str_eqb_eq in C, D. subst t'.
    eapply ir_use; eauto.
Qed.
Fixpoint items_check (l l' : list (str * res (option str))) : bool :=
  match l, l' with
  | [], [] => true
  | a :: l, b :: l' => item_check a b && items_check l l'
  | _, _ => false
  end.
Lemma items_check_ok s l : forall l', items_check l l' = true -> Forall2 (item_renamed K rho s) l l'.
Proof.
  induction l as [|a l IH]; intros [|b l']; cbn [items_check]; try discriminate; [constructor|]. intros C. apply andb_true_iff in C as (A & B).
  constructor; [now apply item_check_ok|now apply IH].
Qed.
Lemma renamed_check :
  (forall a b, rho a = rho b -> a = b) -> (forall s, rho s = [] -> s = []) ->
  i_defname i' = rho (i_defname i) -> ini_sections i' = map rho (ini_sections i) ->
  forallb (fun s => match ini_items i s, ini_items i' (rho s) with Some l, Some l' => items_check l l' | _, _ => false end) (i_defname i :: ini_sections i) = true ->
  renamed_file K rho i i'.
Proof.
  intros INJ EM D S C. rewrite forallb_forall in C.
  assert (IN : forall j s, ini_has_section j s = true <-> In s (ini_sections j)) by (intros; apply dmem_keys).
  assert (HS : forall s, ini_has_section i' (rho s) = ini_has_section i s).
  { intros s. apply eq_true_iff_eq. rewrite !IN, S. split; [|apply in_map]. intros H. apply in_map_iff in H as (x & E & H). apply INJ in E. now subst. }
  assert (PR : forall j s, ini_items j s <> None -> In s (i_defname j :: ini_sections j)).
  { intros j s H. unfold ini_items, own_options in H. destruct (str_eqb_spec s (i_defname j)) as [E|_]; [left; congruence|right]. apply IN. unfold ini_has_section, dmem.
    destruct (dget s (i_secs j)); congruence. }
  split; [exact INJ|]. split; [exact EM|]. split; [exact HS|]. split; [|split].
  - intros u H. apply IN in H. rewrite S in H. apply in_map_iff in H as (x & <- & _). eauto.
  - intros s items SS. apply shows_iff in SS. assert (X : In s (i_defname i :: ini_sections i)) by (apply PR; congruence). specialize (C s X). rewrite SS in C.
    destruct (ini_items i' (rho s)) as [l'|] eqn:E; [|discriminate]. exists l'. split; [now apply shows_iff|now apply items_check_ok].
  - intros s P. apply present_iff in P. apply PR in P. apply present_iff. assert (X : In s (i_defname i :: ini_sections i)).
    { destruct P as [P|P]; [left; apply INJ; congruence|right]. rewrite S in P. apply in_map_iff in P as (x & E & H). apply INJ in E. now subst. }
    specialize (C s X). destruct (ini_items i s); [discriminate|discriminate].
Qed.
End C.
