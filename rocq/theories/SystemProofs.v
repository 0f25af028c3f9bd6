(** * Determining the system. *)
From Coq Require Import String NArith List Bool Arith Lia.
Import ListNotations.
From Verif Require Import PyBase PyFacts EnvVar EnvProofs Regex Keyword DetSys EnvKeyword SpecKeyword KeywordText RegexProofs
  KeywordProofs SpecFlags SpecSystem SearchProofs.

Lemma plain_dec s : plain s \/ ~ plain s.
Proof. rewrite <- simple_plain. destruct (simple s); [now left|right; discriminate]. Qed.

Section System.
Variable other_re : str -> str -> res bool.
Variable systems : list (str * list str).
Variable host : str.

Lemma host_matches_ok key :
  (plain key \/ exists b, other_re key host = Ok b) ->
  exists b, host_matches other_re key host = Ok b /\ (b = true <-> found_in other_re key host).
Proof.
  intros R. unfold host_matches, found_in. destruct (simple key) eqn:S.
  - pose proof (proj1 (simple_plain key) S) as P. eexists. split; [reflexivity|]. rewrite search_part by auto. tauto.
  - assert (P : ~ plain key) by (rewrite <- simple_plain; congruence). destruct R as [|(b & E)]; [tauto|].
    exists b. split; auto. rewrite E. split; [intros ->; auto|]. intros [(? & _)|(_ & [= ->])]; tauto.
Qed.
Lemma any_matches_ok keys :
  (forall k, In k keys -> plain (key_word k) \/ exists b, other_re (key_word k) host = Ok b) ->
  exists b, any_matches other_re host keys = Ok b /\ (b = true <-> names_host other_re keys host).
Proof.
  induction keys as [|k keys IH]; intros R.
  - exists false. split; auto. split; [discriminate|]. intros (k & [] & _).
  - destruct (host_matches_ok (key_word k)) as (b & E & B); [apply R; now left|].
    destruct IH as (b' & E' & B'); [intros; apply R; now right|].
    exists (b || b'). cbn [any_matches]. rewrite host_key_word, E. cbn [rbind]. rewrite E'. split; auto.
    rewrite orb_true_iff, B, B'. unfold names_host. split.
    + intros [H|(k' & I & H)]; [exists k|exists k']; cbn; auto.
    + intros (k' & [<-|I] & H); [now left|right; eauto].
Qed.
Lemma first_system_ok l : readable_keys other_re l host ->
  exists r, first_system other_re host l = Ok r /\ host_system other_re l host r.
Proof.
  induction l as [|(name, keys) l IH]; intros R.
  - exists None. split; auto. intros ? ? [].
  - destruct IH as (r & E & H). { intros n ks k I. apply (R n). now right. }
    assert (S : (name = $"DEFAULT" \/ ~ names_host other_re keys host) ->
      host_system other_re ((name, keys) :: l) host r).
    { intros D. destruct r as [n|]; cbn in H |- *.
      - destruct H as (a & ks & b & -> & N & M & F). exists ((name, keys) :: a), ks, b. repeat split; auto.
        intros n' ks' [[= <- <-]|I]; eauto.
      - intros n' ks' [[= <- <-]|I]; eauto. }
    cbn [first_system]. destruct (str_eqb_spec name $"DEFAULT") as [D|D].
    + exists r. auto.
    + destruct (any_matches_ok keys) as (b & A & B). { intros k I. eapply R; [now left|auto]. }
      rewrite A. cbn [rbind]. destruct b.
      * exists (Some name). split; auto. exists [], keys, l. repeat split; auto. { now apply B. }
      * exists r. split; auto. apply S. right. intros M. apply B in M. discriminate.
Qed.
Lemma host_system_fun l r r' : host_system other_re l host r -> host_system other_re l host r' -> r = r'.
Proof.
  induction l as [|(name, keys) l IH]; intros H H'.
  - destruct r as [n|], r' as [n'|]; auto.
    + destruct H as ([|] & ? & ? & [=] & _).
    + destruct H as ([|] & ? & ? & [=] & _).
    + destruct H' as ([|] & ? & ? & [=] & _).
  - assert (C : forall q, host_system other_re ((name, keys) :: l) host q ->
      (q = Some name /\ name <> $"DEFAULT" /\ names_host other_re keys host) \/
      ((name = $"DEFAULT" \/ ~ names_host other_re keys host) /\ host_system other_re l host q)).
    { intros [n|] Q; cbn in Q.
      - destruct Q as (a & ks & b & E & N & M & F). destruct a as [|p a]; cbn in E; injection E.
        + intros <- <- <-. auto.
        + intros -> <-. right. split; [apply F; now left|]. exists a, ks, b. repeat split; auto. intros; apply F. now right.
      - right. split; [apply Q; now left|]. intros ? ? I. apply Q. now right. }
    destruct (C _ H) as [(-> & N & M)|(D & G)], (C _ H') as [(-> & N' & M')|(D' & G')]; tauto || auto.
Qed.

Lemma sys_names_in n : In n (sys_names systems) <-> In n (map fst systems) /\ n <> $"DEFAULT".
Proof.
  unfold sys_names. rewrite filter_In, negb_true_iff, <- not_true_iff_false.
  destruct (str_eqb_spec n $"DEFAULT"); intuition.
Qed.
Lemma NoDup_filter' {A} (f : A -> bool) l : NoDup l -> NoDup (filter f l).
Proof.
  induction 1 as [|x l N D IH]; cbn; [constructor|]. destruct (f x); auto. constructor; auto.
  rewrite filter_In. tauto.
Qed.
Lemma sys_from_build_cases build : NoDup (map fst systems) ->
  (sys_from_build systems build = Ok None /\ forall n, ~ names_system systems build n) \/
  (exists n, sys_from_build systems build = Ok (Some n) /\ names_system systems build n /\
     forall m, names_system systems build m -> m = n) \/
  (sys_from_build systems build = Err SystemExit /\
     exists n m, names_system systems build n /\ names_system systems build m /\ n <> m).
Proof.
  intros D. unfold sys_from_build.
  assert (I : forall n, In n (filter (fun s => str_mem s (split_on 95%N (lower build))) (sys_names systems)) <->
                        names_system systems build n).
  { intros n. rewrite filter_In, sys_names_in, str_mem_In. unfold names_system. rewrite named_iff. unfold words. tauto. }
  assert (U : NoDup (filter (fun s => str_mem s (split_on 95%N (lower build))) (sys_names systems)))
    by (apply NoDup_filter', NoDup_filter', D).
  destruct (filter _ (sys_names systems)) as [|n [|m l]].
  - left. split; auto. intros n H. now apply I in H.
  - right. left. exists n. split; auto. split; [apply I; now left|]. intros m H. apply I in H as [<-|[]]. reflexivity.
  - right. right. split; auto. exists n, m. split; [apply I; now left|]. split; [apply I; right; now left|].
    inversion U; subst. intros ->. apply H1. now left.
Qed.

(** The effect of determining the system on a new object. *)
Lemma determine_eq p h :
  d_name p = None -> sys_from_hostname other_re systems host = Ok h ->
  determine_system other_re systems host p =
    match sys_from_build systems (d_build p) with
    | Err e => (Err e, DetSys (d_build p) (d_force p) (Some h))
    | Ok None => (match h with None => Err SystemExit | Some _ => Ok tt end, DetSys (d_build p) (d_force p) (Some h))
    | Ok (Some n) =>
        (if negb (match h with Some m => str_eqb m n | None => false end) && negb (d_force p) then Err SystemExit
         else Ok tt, DetSys (d_build p) (d_force p) (Some (Some n)))
    end.
Proof.
  intros N H. destruct p as [b f nm]. cbn in N. subst. cbv [determine_system bind get of_res set_name modify d_name d_build d_force].
  rewrite H. cbv [ret raise]. destruct (sys_from_build systems b) as [[n|]|e]; [|destruct h; reflexivity|reflexivity].
  destruct h as [m|]; cbv [negb andb].
  - destruct (str_eqb m n), f; reflexivity.
  - destruct f; reflexivity.
Qed.
Lemma system_name_eq p : system_name other_re systems host p =
  match determine_system other_re systems host p with
  | (Ok _, q) => match d_name q with Some n => (Ok n, q) | None => (Err AttributeError, q) end
  | (Err e, q) => (Err e, q)
  end.
Proof.
  cbv [system_name bind get ret raise]. destruct (determine_system other_re systems host p) as [[u|e] q]; auto.
  destruct (d_name q); reflexivity.
Qed.

Hypothesis D : NoDup (map fst systems).
Hypothesis R : readable_keys other_re systems host.

Lemma system_of_ok build force :
  system_of other_re systems host build force (fst (system_name other_re systems host (new_detsys build force))).
Proof.
  destruct (first_system_ok systems R) as (h & E & H).
  rewrite system_name_eq, (determine_eq (new_detsys build force) h eq_refl E). cbn [new_detsys d_build d_force].
  destruct (sys_from_build_cases build D) as [(B & N)|[(n & B & N & U)|(B & n & m & N & M & X)]]; rewrite B.
  - destruct h as [h|]; cbn.
    + apply sys_host; auto. intros n K. now apply N in K.
    + now apply sys_unknown.
  - assert (X : forall r, h <> Some n -> r = (if force then Ok (Some n) else Err SystemExit) ->
      system_of other_re systems host build force r).
    { intros r X ->. eapply sys_other; eauto. }
    destruct h as [h|]; cbn.
    + destruct (str_eqb_spec h n) as [->|Q]; cbn.
      * apply sys_host; auto.
      * apply X; [congruence|]. destruct force; reflexivity.
    + apply X; [congruence|]. destruct force; reflexivity.
  - cbn. apply (sys_two _ _ _ _ _ n m); auto.
Qed.
Lemma system_of_fun build force r r' :
  system_of other_re systems host build force r -> system_of other_re systems host build force r' -> r = r'.
Proof.
  intros S S'.
  destruct S as [n m N M X|H N|h H U|h n H Q N U], S' as [n' m' N' M' X'|H' N'|h' H' U'|h' n' H' Q' N' U'];
    auto;
    try (exfalso; now apply N in N'); try (exfalso; now apply N' in N);
    try (pose proof (host_system_fun _ _ _ H H') as Z).
  all: try discriminate.
  - exfalso. apply X. rewrite (U' _ N), (U' _ M). reflexivity.
  - exfalso. apply X. rewrite (U' _ N), (U' _ M). reflexivity.
  - exfalso. apply X'. rewrite (U _ N'), (U _ M'). reflexivity.
  - congruence.
  - exfalso. apply Q'. rewrite <- Z. f_equal. symmetry. auto.
  - exfalso. apply X'. rewrite (U _ N'), (U _ M'). reflexivity.
  - exfalso. apply Q. rewrite Z. f_equal. symmetry. auto.
  - rewrite (U _ N'). reflexivity.
Qed.
Lemma system_of_iff build force r :
  fst (system_name other_re systems host (new_detsys build force)) = r <->
  system_of other_re systems host build force r.
Proof.
  split.
  - intros <-. apply system_of_ok.
  - intros S. eapply system_of_fun; eauto. apply system_of_ok.
Qed.
End System.

(** A name that was determined stays. *)
Lemma system_again other_re systems host p n q :
  system_name other_re systems host p = (Ok n, q) -> system_name other_re systems host q = (Ok n, q).
Proof.
  intros H.
  assert (N : d_name q = Some n).
  { rewrite system_name_eq in H. destruct (determine_system other_re systems host p) as [[u|e] q']; [|discriminate].
    destruct (d_name q') as [m|] eqn:E; try discriminate. injection H as -> ->; auto. }
  rewrite system_name_eq. cbv [determine_system bind get]. rewrite N. cbv [ret]. now rewrite N.
Qed.
(** After an exit the next read does not exit: it answers the system named in
    the build name, or that of the host, or nothing. *)
Lemma system_after_exit other_re systems host build force q h :
  NoDup (map fst systems) -> readable_keys other_re systems host -> host_system other_re systems host h ->
  system_name other_re systems host (new_detsys build force) = (Err SystemExit, q) ->
  exists r, fst (system_name other_re systems host q) = Ok r /\
    (forall n, names_system systems build n -> (forall m, names_system systems build m -> m = n) -> r = Some n) /\
    ((forall n, ~ names_system systems build n) -> r = None) /\
    (forall n m, names_system systems build n -> names_system systems build m -> n <> m -> r = h).
Proof.
  intros D R H. destruct (first_system_ok other_re host systems R) as (h' & E & H').
  rewrite <- (host_system_fun _ _ _ _ _ H H') in E. clear h' H'.
  rewrite system_name_eq, (determine_eq other_re systems host (new_detsys build force) h eq_refl E). cbn [new_detsys d_build d_force].
  assert (A : forall b f n, system_name other_re systems host (DetSys b f (Some n)) = (Ok n, DetSys b f (Some n))) by reflexivity.
  destruct (sys_from_build_cases other_re systems host build D) as [(B & N)|[(n & B & N & U)|(B & n & m & N & M & X)]]; rewrite B.
  - destruct h; intros [= <-]. exists None. rewrite A. split; auto. split; [intros n K; now apply N in K|]. split; auto.
  - intros Q. exists (Some n).
    assert (q = DetSys build force (Some (Some n))) as -> by (destruct (_ && _) in Q; injection Q; auto; discriminate).
    rewrite A. split; auto. split; [intros m M _; f_equal; symmetry; auto|]. split; [intros K; now apply K in N|].
    intros a b Na Nb X. exfalso. apply X. rewrite (U _ Na), (U _ Nb). reflexivity.
  - intros [= <-]. exists h. rewrite A. split; auto. split.
    + intros k K U. exfalso. apply X. rewrite (U _ N), (U _ M). reflexivity.
    + split; auto. intros K. now apply K in N.
Qed.
