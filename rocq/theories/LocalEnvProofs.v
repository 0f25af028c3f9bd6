(** * The same for the actions of environment files. *)
From Coq Require Import String NArith ZArith List Bool.
Import ListNotations.
From Verif Require Import PyBase PyFacts IniView IniRead ExcControl Cpe EnvVar SetEnv SpecText SpecFile SpecShell SpecWalk SpecParse SpecApi SpecSetEnv SpecLoadRun RefineRoot SetEnvProofs
  SpecLocal LocalProofs PasteProofs.

Lemma requests_happenings evs : requests (happenings evs) = requests evs.
Proof.
  unfold requests, happenings. induction evs as [|e l IH]; [reflexivity|]. cbn [flat_map]. rewrite flat_map_app, IH. f_equal. destruct e; reflexivity.
Qed.
Theorem asks_local uniword i i' s l : agree_for (SetEnvironment uniword) i i' $"DEFAULT" s true ->
  section_asks uniword i s l -> section_asks uniword i' s l.
Proof. intros A (evs & n & W & R). exists evs, n. split; auto. eapply parse_walk_alike; eauto. Qed.
Theorem asks_pasted uniword i i' a b s l : pasted (SetEnvironment uniword) i i' a b -> ~ on_cycle (SetEnvironment uniword) i b ->
  section_asks uniword i s l <-> section_asks uniword i' s l.
Proof.
  intros P N.
  assert (F : forall evs n, parse_walk (SetEnvironment uniword) i $"DEFAULT" s true true evs n ->
    exists evs' n', parse_walk (SetEnvironment uniword) i' $"DEFAULT" s true true evs' n' /\ requests evs' = requests evs).
  { intros evs n W. destruct (paste_parse _ i i' a b _ s true true evs n P N W) as (evs' & n' & W' & E).
    exists evs', n'. split; auto. now rewrite <- (requests_happenings evs), <- E, requests_happenings. }
  split.
  - intros (evs & n & W & R). destruct (F _ _ W) as (evs' & n' & W' & E). exists evs', n'. split; auto. now rewrite E.
  - intros (evs' & n' & W' & R). destruct (parse_walk_exists (SetEnvironment uniword) i $"DEFAULT" s true true) as (evs & n & W & _).
    destruct (F _ _ W) as (e2 & n2 & W2 & E). destruct (parse_walk_unique _ i' _ _ _ _ _ _ _ _ W' W2) as [-> _].
    exists evs, n. split; auto. now rewrite <- E.
Qed.

Theorem setenv_blind uniword : unambiguous (SetEnvironment uniword) /\
  forall i dname s init, no_finalize_options i -> calls_blind (SetEnvironment uniword) i dname s init.
Proof.
  split; [apply unambiguous_check; vm_compute; reflexivity|].
  intros i dname s init NF u items item h kind f k v _ SS IN M.
  assert (X : exists op, op <> $"finalize" /\ (find_attr (SetEnvironment uniword) (public_name op) = Some (AUser kind f) \/
    find_attr (SetEnvironment uniword) (private_name op) = Some (AUser kind f))).
  { inversion M; subst.
    match goal with H1 : trimmed _ _ _, H2 : words _ (?w :: _) |- _ => exists (undash w); split; [exact (NF _ _ _ _ _ _ _ SS IN H1 H2)|] end.
    match goal with HO : handler_of _ _ _ |- _ => inversion HO; subst end;
    match goal with E : has_attr _ ?n = Some (AUser kind f) |- _ => unfold has_attr in E; destruct (find_attr _ n) as [[]|]; (discriminate || (injection E as <- <-; tauto)) end. }
  destruct X as (op & NE & X).
  assert (Y : exists n, In (n, AUser kind f) setenv_attrs /\ n <> $"handler_finalize").
  { destruct X as [X|X]; unfold find_attr in X; cbn [SetEnvironment k_over] in X.
    - exists (public_name op). split.
      + destruct (dget (public_name op) setenv_attrs) as [a|] eqn:E; [injection X as ->; now apply dget_Some_In|].
        exfalso. apply dget_Some_In in X. destruct X as [X|[X|[X|[]]]]; [discriminate X|..];
        apply (f_equal fst) in X; cbn [fst] in X; rewrite <- X in E; vm_compute in E; discriminate E.
      + intros E. apply NE. exact (app_inv_head $"handler_" op $"finalize" E).
    - exists (private_name op). split; [|discriminate].
      destruct (dget (private_name op) setenv_attrs) as [a|] eqn:E; [injection X as ->; now apply dget_Some_In|].
      exfalso. apply dget_Some_In in X. destruct X as [X|[X|[X|[]]]]; discriminate X. }
  assert (B : Forall (fun na : str * attr shared cache => fst na <> $"handler_finalize" -> match snd na with AUser _ g => blind g | _ => True end) setenv_attrs).
  { unfold setenv_attrs. repeat first [apply Forall_nil | apply Forall_cons; [intros Q; cbn [fst snd] in *; first [now destruct Q | exact Logic.I | intros ? ? ? ? ?; reflexivity]|]]. }
  destruct Y as (n & Y & NN). rewrite Forall_forall in B. exact (B _ Y NN).
Qed.
