(** * Checks for the examples of C85 and C86. *)
From Coq Require Import String NArith ZArith List Bool.
Import ListNotations.
From Verif Require Import PyBase PyFacts IniView Cpe EnvVar SpecWalk SpecRun SpecEnv SetEnv SpecSetEnv SpecOrder OrderProofs.

Definition plain_textb (s : str) : bool :=
  forallb (fun c => negb (existsb (N.eqb c) [0; 10; 13; 34; 92]%N) && (c <? 55296)%N) s.
Lemma plain_textb_ok s : plain_textb s = true -> plain_text s.
Proof.
  intros H. unfold plain_textb in H. rewrite forallb_forall in H. apply Forall_forall. intros c C. specialize (H c C).
  apply andb_prop in H as [A B]. apply N.ltb_lt in B. split.
  - intros X. apply negb_true_iff in A. assert (T : existsb (N.eqb c) [0; 10; 13; 34; 92]%N = true)
      by (apply existsb_exists; exists c; split; auto; apply N.eqb_refl). congruence.
  - intros [X _]. apply N.lt_nge in B. contradiction.
Qed.

Definition simpleb (a : action) : bool :=
  match a with
  | AEnv op n (Some v) => str_mem op envvar_requests && plain_textb n && plain_textb v
  | AEnv op n None => str_mem op envvar_requests && plain_textb n
  | AMod op (Some n) (Some v) => str_mem op module_requests && plain_textb n && plain_textb v
  | AMod _ _ _ => false
  end.
Lemma simpleb_ok l : forallb simpleb l = true -> Forall asked_action l /\ Forall plain_action l.
Proof.
  intros H. rewrite forallb_forall in H. split; apply Forall_forall; intros a I; specialize (H a I);
    destruct a as [op n [v|]|op [n|] [v|]]; cbn [simpleb] in H; try discriminate H;
    repeat match goal with X : _ && _ = true |- _ => apply andb_prop in X as [? ?] end;
    repeat match goal with
    | X : str_mem _ _ = true |- _ => apply str_mem_In in X
    | X : plain_textb _ = true |- _ => apply plain_textb_ok in X end.
  - exists (Req op [n] (Some v)). apply as_envvar. assumption.
  - exists (Req op [n] None). apply as_envvar. assumption.
  - exists (Req op [n] (Some v)). apply as_module. assumption.
  - split; assumption.
  - split; [assumption|exact Logic.I].
  - split; assumption.
Qed.

Lemma recorded_check fs i s l (o : sobj) d : has_file fs o i -> str_mem s (checked_of o) = true ->
  section_of o s = Some d -> dget s (o_user o) = Some l -> forallb simpleb l = true -> (2 <=? level_of o)%Z = true ->
  recorded fs i s l o.
Proof.
  intros H C S D A L. destruct (simpleb_ok l A) as [A1 A2]. apply Z.leb_le in L.
  split; [exact H|]. split; [exact C|]. split; [exists d; exact S|]. auto.
Qed.

Lemma no_dollar v n : char_mem 36%N v = false -> ~ mentions v n.
Proof.
  intros H M. assert (I : In 36%N v).
  { destruct M as [(a & b & -> & _)|(a & b & -> & _)]; apply in_or_app; right; left; reflexivity. }
  apply char_mem_In in I. congruence.
Qed.

Definition closedb (a : action) : bool :=
  match a with
  | AEnv op _ (Some v) => negb (char_mem 36%N v) && negb (str_eqb op $"envvar_find_in_path")
  | _ => true
  end.
Lemma closedb_ok a n : closedb a = true -> ~ depends a n.
Proof.
  intros H (op & m & v & -> & _ & [L|[-> _]]).
  - cbn [closedb] in H. apply andb_prop in H as [H _]. apply negb_true_iff in H. exact (no_dollar _ _ H L).
  - cbn [closedb] in H. apply andb_prop in H as [_ H]. vm_compute in H. discriminate.
Qed.

Lemma independent_check op n v op' n' v' : closedb (AEnv op n v) = true -> closedb (AEnv op' n' v') = true ->
  n <> n' -> independent (AEnv op n v) (AEnv op' n' v').
Proof.
  intros A B NE. split; [eauto|]. split; [eauto|]. intros m. split; intros T; [split|].
  - cbn in *. congruence.
  - apply closedb_ok, B.
  - apply closedb_ok, A.
Qed.

(** A system whose programs are all in the first place looked at. *)
Definition first_place (e : environ) (v : str) : option str :=
  match dget $"PATH" e with Some p => Some (p ++ $"/" ++ v) | None => None end.
Lemma first_place_path : searches_path first_place.
Proof. intros e e' v H. unfold first_place. unfold str in *. rewrite H. reflexivity. Qed.

Lemma split_first (c : N) : forall (n k b r : str), ~ In c n -> ~ In c k -> n ++ c :: b = k ++ c :: r -> n = k.
Proof.
  induction n as [|x n IH]; intros [|y k] b r Hn Hk E; cbn in E.
  - reflexivity.
  - injection E as E _. destruct Hk. left. auto.
  - injection E as E _. destruct Hn. left. auto.
  - injection E as -> E. f_equal. apply (IH k b r); [intros X; apply Hn; right; exact X|intros X; apply Hk; right; exact X|exact E].
Qed.
Lemma one_reference (k r n : str) : char_mem 125%N k = false -> char_mem 36%N (k ++ 125%N :: r) = false ->
  mentions (36%N :: 123%N :: k ++ 125%N :: r) n -> n = k.
Proof.
  intros K D M.
  assert (T : forall a' b', 123%N :: k ++ 125%N :: r = a' ++ 36%N :: b' -> False).
  { intros a' b' E. assert (X : In 36%N (123%N :: k ++ 125%N :: r)) by (rewrite E; apply in_or_app; right; left; reflexivity).
    destruct X as [X|X]; [discriminate X|]. apply char_mem_In in X. congruence. }
  destruct M as [(a & b & E & NE & W & _)|(a & b & E & NI)].
  - destruct a as [|x a].
    + destruct n as [|c n]; [contradiction NE; reflexivity|]. cbn in E. injection E as E _.
      inversion W; subst. exfalso. clear - H1. revert H1. unfold word_char. intros H. vm_compute in H. intuition discriminate.
    + injection E as _ E. destruct (T _ _ E).
  - destruct a as [|x a].
    + cbn in E. injection E as E. symmetry. apply (split_first 125%N k n r b); [|exact NI|exact E].
      intros X. apply char_mem_In in X. congruence.
    + injection E as _ E. destruct (T _ _ E).
Qed.

Definition names_of (l : list action) : list str :=
  flat_map (fun a => match a with AEnv _ n _ => [n] | AMod _ _ _ => [] end) l.
Definition settledb (a : action) : bool :=
  match a with AEnv op _ _ => str_mem op settled_ops | AMod _ _ _ => false end.
Lemma repeatable_check l : forallb settledb l = true ->
  Forall (fun b => forall n, depends b n -> str_mem n (names_of l) = false) l -> repeatable l.
Proof.
  intros A B. rewrite forallb_forall in A. rewrite Forall_forall in B. split.
  - apply Forall_forall. intros a I. specialize (A a I). destruct a as [op n v|]; [|discriminate].
    exists op, n, v. split; [reflexivity|apply str_mem_In, A].
  - intros a b n Ia Ib T D. specialize (B b Ib n D).
    assert (X : In n (names_of l)).
    { apply in_flat_map. exists a. split; [exact Ia|]. destruct a; [|destruct T]. cbn in T. subst. left. reflexivity. }
    apply str_mem_In in X. congruence.
Qed.
Lemma depends_cases op n v m : depends (AEnv op n (Some v)) m ->
  mentions v m \/ (op = $"envvar_find_in_path" /\ m = $"PATH").
Proof. intros (o & k & w & E & _ & [L|[-> ->]]); injection E as -> -> ->; [left; exact L|right; split; reflexivity]. Qed.
