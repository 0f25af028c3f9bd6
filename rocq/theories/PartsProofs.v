(** * Proofs of C93: reading parts of a file. *)
From Coq Require Import String NArith List Bool Arith Lia Permutation.
Import ListNotations.
From Verif Require Import PyBase PyFacts IniView IniRead SpecRead SpecApi SpecLayout SpecParts
  ReadProofs ReadProofs2 ReadProofs3 ReadProofs4 ReadProofs5 LayoutProofs.
Local Open Scope list_scope.

Section Parts.
Variables (delims : list str) (dn : str).
Notation rl := (read_line delims dn).
Notation rls := (read_lines delims dn).

(** ** More names that count as duplicates *)
Section Seen.
Variables (SA : list str) (OA : list (str * str)).
Record seen (p q : rstate) : Prop := {
  sn_secs : r_secs p = r_secs q;
  sn_defs : r_defs p = r_defs q;
  sn_cur : r_cur p = r_cur q;
  sn_name : r_sectname p = r_sectname q;
  sn_opt : r_optname p = r_optname q;
  sn_indent : r_indent p = r_indent q;
  sn_err : r_err p = r_err q;
  sn_addsec : forall x, str_mem x (r_addsec p) = str_mem x (r_addsec q) || str_mem x SA;
  sn_addopt : forall a b, pair_mem a b (r_addopt p) = pair_mem a b (r_addopt q) || pair_mem a b OA
}.
Definition strange (q : rstate) : Prop :=
  (forall x, str_mem x (r_addsec q) = true -> str_mem x SA = false) /\
  (forall a b, pair_mem a b (r_addopt q) = true -> pair_mem a b OA = false).

Lemma seen_cur p q : seen p q -> cur_opts p = cur_opts q.
Proof. intros S. unfold cur_opts. now rewrite (sn_cur _ _ S), (sn_secs _ _ S), (sn_defs _ _ S). Qed.
Lemma seen_set p q o : seen p q -> seen (set_cur_opts p o) (set_cur_opts q o).
Proof.
  intros S. unfold set_cur_opts. rewrite (sn_cur _ _ S). destruct (r_cur q) eqn:C; [exact S| |];
    (constructor; cbn [r_secs r_defs r_cur r_sectname r_optname r_indent r_err r_addsec r_addopt]; try apply S; auto).
  now rewrite (sn_secs _ _ S).
Qed.
Lemma pair_mem_cons a b p l : pair_mem a b (p :: l) = (str_eqb a (fst p) && str_eqb b (snd p)) || pair_mem a b l.
Proof. reflexivity. Qed.

(** What is read without errors is read alike. *)
Lemma seen_line l p q : seen p q ->
  (forall p', rl l p = (Ok tt, p') -> exists q', rl l q = (Ok tt, q') /\ seen p' q') /\
  (forall q', rl l q = (Ok tt, q') -> strange q' -> exists p', rl l p = (Ok tt, p') /\ seen p' q').
Proof.
  intros S. unfold read_line. rewrite (seen_cur _ _ S), (sn_cur _ _ S), (sn_opt _ _ S), (sn_indent _ _ S).
  set (comment := starts_with $"#" (strip_ws l) || starts_with $";" (strip_ws l)).
  assert (SAME : forall x, (forall p' : rstate, (Ok x, p) = (Ok tt, p') -> exists q', (@Ok unit x, q) = (Ok tt, q') /\ seen p' q') /\
    (forall q' : rstate, (Ok x, q) = (Ok tt, q') -> strange q' -> exists p', (@Ok unit x, p) = (Ok tt, p') /\ seen p' q')).
  { intros []. split; [intros p' E|intros q' E _]; injection E as <-; eauto. }
  assert (FAIL : forall e r r', (forall p' : rstate, (@Err unit e, r) = (Ok tt, p') -> exists q', (@Err unit e, r') = (Ok tt, q') /\ seen p' q') /\
    (forall q' : rstate, (@Err unit e, r') = (Ok tt, q') -> strange q' -> exists p', (@Err unit e, r) = (Ok tt, p') /\ seen p' q')) by (split; discriminate).
  assert (BOTH : forall p1 q1, seen p1 q1 -> (forall p' : rstate, (Ok tt, p1) = (Ok tt, p') -> exists q', (@Ok unit tt, q1) = (Ok tt, q') /\ seen p' q') /\
    (forall q' : rstate, (Ok tt, q1) = (Ok tt, q') -> strange q' -> exists p', (@Ok unit tt, p1) = (Ok tt, p') /\ seen p' q')).
  { intros p1 q1 S1. split; [intros p' E|intros q' E _]; injection E as <-; eauto. }
  destruct (if comment then [] else strip_ws l) as [|c0 value] eqn:EV.
  - destruct comment; [apply SAME|]. destruct (cur_is_none (r_cur q)); [apply SAME|].
    destruct (opt_active (r_optname q)) as [k|]; [|apply SAME].
    destruct (dget k (cur_opts q)) as [[|s|ls]|]; [apply SAME|apply FAIL| |apply FAIL]. apply BOTH. now apply seen_set.
  - destruct (if cur_is_none (r_cur q) then _ else _) as [k|].
    { destruct (dget k (cur_opts q)) as [[|s|ls]|]; [apply FAIL|apply FAIL| |apply FAIL]. apply BOTH. now apply seen_set. }
    cbv zeta. cbn [r_cur r_secs r_addsec r_defs r_sectname r_optname r_indent r_err r_addopt].
    rewrite (sn_secs _ _ S), (sn_defs _ _ S), (sn_name _ _ S), (sn_err _ _ S).
    destruct (sectcre (c0 :: value)) as [name|].
    { destruct (dmem name (r_secs q)).
      - rewrite (sn_addsec _ _ S). destruct (str_mem name (r_addsec q)) eqn:M; [apply FAIL|]. cbn [orb].
        destruct (str_mem name SA) eqn:MA.
        + split; [discriminate|]. intros q' E (X & _). injection E as <-. specialize (X name). cbn [r_addsec] in X.
          rewrite str_mem_sadd, str_eqb_refl in X. rewrite X in MA by reflexivity. discriminate.
        + apply BOTH. constructor; cbn [r_secs r_defs r_cur r_sectname r_optname r_indent r_err r_addsec r_addopt]; try apply S; auto.
          intros x. rewrite !str_mem_sadd, (sn_addsec _ _ S). now destruct (str_eqb x name).
      - destruct (str_eqb name dn).
        + apply BOTH. constructor; cbn [r_secs r_defs r_cur r_sectname r_optname r_indent r_err r_addsec r_addopt]; try apply S; auto.
        + apply BOTH. constructor; cbn [r_secs r_defs r_cur r_sectname r_optname r_indent r_err r_addsec r_addopt]; try apply S; auto.
          intros x. rewrite !str_mem_sadd, (sn_addsec _ _ S). now destruct (str_eqb x name). }
    destruct (cur_is_none (r_cur q)); [apply FAIL|].
    destruct (optcre delims (c0 :: value)) as [[opt val]|].
    2: { apply BOTH. constructor; cbn [r_secs r_defs r_cur r_sectname r_optname r_indent r_err r_addsec r_addopt]; try apply S; auto. }
    rewrite (sn_addopt _ _ S). destruct (pair_mem (r_sectname q) (rstrip_ws opt) (r_addopt q)) eqn:M; [apply FAIL|]. cbn [orb].
    match goal with |- context[set_cur_opts ?x (dset ?k ?v (cur_opts ?x))] => match x with RState _ _ _ _ _ _ _ _ (_ :: r_addopt p) => set (p3 := x) end end.
    match goal with |- context[set_cur_opts ?x (dset ?k ?v (cur_opts ?x))] => match x with RState _ _ _ _ _ _ _ _ (_ :: r_addopt q) => set (q3 := x) end end.
    assert (S3 : seen p3 q3).
    { constructor; cbn [p3 q3 r_secs r_defs r_cur r_sectname r_optname r_indent r_err r_addsec r_addopt]; try apply S; auto.
      intros a b. rewrite !pair_mem_cons, (sn_addopt _ _ S). now rewrite orb_assoc. }
    destruct (pair_mem (r_sectname q) (rstrip_ws opt) OA) eqn:MA.
    + split; [discriminate|]. intros q' E (_ & X). injection E as <-. specialize (X (r_sectname q) (rstrip_ws opt)).
      assert (Y : r_addopt (set_cur_opts q3 (dset (rstrip_ws opt) match val with Some s => RLines [strip_ws s] | None => RNone end (cur_opts q3)))
                  = (r_sectname q, rstrip_ws opt) :: r_addopt q) by (unfold set_cur_opts; destruct (r_cur q3); reflexivity).
      rewrite Y, pair_mem_cons in X. cbn [fst snd] in X. rewrite !str_eqb_refl in X. rewrite X in MA by reflexivity. discriminate.
    + apply BOTH. rewrite (seen_cur _ _ S3). now apply seen_set.
Qed.
Lemma strange_before ls q q' : rls ls q = (Ok tt, q') -> strange q' -> strange q.
Proof.
  intros E (X & Y). apply read_lines_keeps in E as (A & B & _). split; [auto|]. intros a b M. apply Y.
  apply pair_mem_In, B, pair_mem_In, M.
Qed.
Lemma seen_lines ls : forall p q, seen p q ->
  (forall p', rls ls p = (Ok tt, p') -> exists q', rls ls q = (Ok tt, q') /\ seen p' q') /\
  (forall q', rls ls q = (Ok tt, q') -> strange q' -> exists p', rls ls p = (Ok tt, p') /\ seen p' q').
Proof.
  induction ls as [|l ls IH]; intros p q S; cbn [read_lines].
  - split; [intros p' E|intros q' E _]; injection E as <-; eauto.
  - destruct (seen_line l p q S) as (F & B). split.
    + intros p' E. destruct (rl l p) as [[[]|e] p1]; [|discriminate]. destruct (F p1 eq_refl) as (q1 & -> & S1). now apply (IH p1 q1 S1).
    + intros q' E ST. destruct (rl l q) as [[[]|e] q1]; [|discriminate].
      destruct (B q1 eq_refl (strange_before _ _ _ E ST)) as (p1 & -> & S1). now apply (IH p1 q1 S1).
Qed.
End Seen.

(** ** What the pairs are *)
Record paired (r : rstate) : Prop := {
  pr_sec : forall n, r_cur r = CurSec n -> r_sectname r = n;
  pr_def : r_cur r = CurDefaults -> r_sectname r = dn;
  pr_pairs : forall a b, In (a, b) (r_addopt r) -> dget a (r_secs r) <> None \/ (a = dn /\ dget b (r_defs r) <> None)
}.
Lemma dset_keeps {A} k x (v : A) d : dget x d <> None -> dget x (dset k v d) <> None.
Proof. intros H. rewrite dget_dset. destruct (str_eqb x k); [discriminate|exact H]. Qed.
Lemma paired_set r k v : paired r -> paired (set_cur_opts r (dset k v (cur_opts r))).
Proof.
  intros P. unfold set_cur_opts. destruct (r_cur r) eqn:C; [exact P| |];
    (constructor; cbn [r_secs r_defs r_cur r_sectname r_optname r_indent r_err r_addsec r_addopt]).
  - discriminate.
  - intros _. now apply (pr_def _ P).
  - intros a b I. destruct (pr_pairs _ P a b I) as [H|(E & H)]; [now left|right]. split; [exact E|].
    unfold cur_opts. rewrite C. now apply dset_keeps.
  - intros m E. injection E as <-. now apply (pr_sec _ P).
  - discriminate.
  - intros a b I. destruct (pr_pairs _ P a b I) as [H|H]; [left|now right]. now apply dset_keeps.
Qed.
Lemma paired_line l r r1 : paired r -> rl l r = (Ok tt, r1) -> paired r1.
Proof.
  intros P. unfold read_line. set (comment := starts_with $"#" (strip_ws l) || starts_with $";" (strip_ws l)).
  destruct (if comment then [] else strip_ws l) as [|c0 value].
  - destruct comment; [intros E; now injection E as <-|]. destruct (cur_is_none (r_cur r)); [intros E; now injection E as <-|].
    destruct (opt_active (r_optname r)) as [k|]; [|intros E; now injection E as <-].
    destruct (dget k (cur_opts r)) as [[|s|ls]|]; intros E; try discriminate; injection E as <-; [exact P|now apply paired_set].
  - destruct (if cur_is_none (r_cur r) then _ else _) as [k|].
    { destruct (dget k (cur_opts r)) as [[|s|ls]|]; intros E; try discriminate; injection E as <-. now apply paired_set. }
    cbv zeta. cbn [r_cur r_secs r_addsec r_defs r_sectname r_optname r_indent r_err r_addopt].
    destruct (sectcre (c0 :: value)) as [name|].
    { destruct (dmem name (r_secs r)).
      - destruct (str_mem name (r_addsec r)); [discriminate|]. intros E; injection E as <-.
        constructor; cbn [r_secs r_defs r_cur r_sectname r_addopt]; [congruence|discriminate|apply P].
      - destruct (str_eqb name dn) eqn:ED; intros E; injection E as <-;
          (constructor; cbn [r_secs r_defs r_cur r_sectname r_addopt]).
        + discriminate.
        + intros _. now apply str_eqb_eq.
        + apply P.
        + congruence.
        + discriminate.
        + intros a b I. destruct (pr_pairs _ P a b I) as [H|H]; [left|now right]. now apply dset_keeps. }
    destruct (cur_is_none (r_cur r)) eqn:CN; [discriminate|].
    destruct (optcre delims (c0 :: value)) as [[opt val]|].
    2: { intros E; injection E as <-. constructor; cbn [r_secs r_defs r_cur r_sectname r_addopt]; apply P. }
    destruct (pair_mem _ _ _); [discriminate|]. intros E; injection E as <-.
    unfold set_cur_opts. cbn [r_cur]. destruct (r_cur r) eqn:C; [discriminate| |];
      (constructor; cbn [r_secs r_defs r_cur r_sectname r_addopt]).
    + discriminate.
    + intros _. now apply (pr_def _ P).
    + intros a b [I|I].
      * injection I as <- <-. right. split; [now apply (pr_def _ P)|]. rewrite dget_dset_same. discriminate.
      * destruct (pr_pairs _ P a b I) as [H|(E & H)]; [now left|right]. split; [exact E|]. unfold cur_opts. cbn [r_cur r_defs]. rewrite ?C. now apply dset_keeps.
    + intros m E. injection E as <-. now apply (pr_sec _ P).
    + discriminate.
    + intros a b [I|I].
      * injection I as <- <-. left. rewrite (pr_sec _ P n C), dget_dset_same. discriminate.
      * destruct (pr_pairs _ P a b I) as [H|H]; [left|now right]. now apply dset_keeps.
Qed.
Lemma paired_lines ls : forall r r1, paired r -> rls ls r = (Ok tt, r1) -> paired r1.
Proof.
  induction ls as [|l ls IH]; intros r r1 P; cbn [read_lines]; [intros E; now injection E as <-|].
  destruct (rl l r) as [[[]|e] r'] eqn:E; [|discriminate]. apply IH. eapply paired_line; eauto.
Qed.
Lemma start_paired : paired start.
Proof. constructor; cbn; try discriminate. intros a b []. Qed.

(** Errors stay. *)
Lemma err_line l r r1 : rl l r = (Ok tt, r1) -> r_err r = true -> r_err r1 = true.
Proof.
  assert (SCO : forall r' o, r_err (set_cur_opts r' o) = r_err r') by (intros r' o; unfold set_cur_opts; destruct (r_cur r'); reflexivity).
  unfold read_line. set (comment := starts_with $"#" (strip_ws l) || starts_with $";" (strip_ws l)).
  destruct (if comment then [] else strip_ws l) as [|c0 value].
  - destruct comment; [intros E; now injection E as <-|]. destruct (cur_is_none (r_cur r)); [intros E; now injection E as <-|].
    destruct (opt_active (r_optname r)) as [k|]; [|intros E; now injection E as <-].
    destruct (dget k (cur_opts r)) as [[|s|ls]|]; intros E; try discriminate; injection E as <-; rewrite ?SCO; auto.
  - destruct (if cur_is_none (r_cur r) then _ else _) as [k|].
    { destruct (dget k (cur_opts r)) as [[|s|ls]|]; intros E; try discriminate; injection E as <-; now rewrite SCO. }
    cbv zeta. cbn [r_cur r_secs r_addsec r_defs r_sectname r_optname r_indent r_err r_addopt].
    destruct (sectcre (c0 :: value)) as [name|].
    { destruct (dmem name (r_secs r)); [destruct (str_mem name (r_addsec r)); [discriminate|]|destruct (str_eqb name dn)]; intros E; injection E as <-; auto. }
    destruct (cur_is_none (r_cur r)); [discriminate|].
    destruct (optcre delims (c0 :: value)) as [[opt val]|]; [|intros E; injection E as <-; auto].
    destruct (pair_mem _ _ _); [discriminate|]. intros E; injection E as <-. rewrite SCO. cbn [r_err]. destruct opt; auto.
Qed.
Lemma err_lines ls : forall r r1, rls ls r = (Ok tt, r1) -> r_err r = true -> r_err r1 = true.
Proof.
  induction ls as [|l ls IH]; intros r r1; cbn [read_lines]; [intros E; now injection E as <-|].
  destruct (rl l r) as [[[]|e] r'] eqn:E; [|discriminate]. intros E' H. eapply IH; eauto. eapply err_line; eauto.
Qed.
End Parts.
