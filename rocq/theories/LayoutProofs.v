(** * Proofs of C91: reading. *)
From Coq Require Import String NArith List Bool Arith Lia.
Import ListNotations.
From Verif Require Import PyBase PyFacts IniView IniRead SpecRead SpecLayout ReadProofs ReadProofs2 ReadProofs3 ReadProofs4 ReadProofs5.
Local Open Scope list_scope.

(** ** Lines with the same text *)
Lemma read_line_ext delims dn l l' r : strip_ws l = strip_ws l' -> (strip_ws l <> [] -> indent l = indent l') ->
  read_line delims dn l r = read_line delims dn l' r.
Proof.
  intros E I. unfold read_line. rewrite <- E. destruct (starts_with $"#" (strip_ws l) || starts_with $";" (strip_ws l)) eqn:C; [reflexivity|].
  destruct (strip_ws l) as [|c x] eqn:S; [reflexivity|]. rewrite <- I by discriminate. reflexivity.
Qed.
Lemma strip_end l w : forallb is_space w = true -> strip_ws (l ++ w) = strip_ws l.
Proof.
  intros W. unfold strip_ws, strip. induction l as [|c l IH]; cbn [app].
  - rewrite (lstrip_all w W). reflexivity.
  - cbn [lstrip]. destruct (is_space c); [exact IH|]. change (c :: l ++ w) with ((c :: l) ++ w). now apply rstrip_blanks.
Qed.
Lemma blank_strip l : strip_ws l = [] <-> forallb is_space l = true.
Proof.
  split; [|apply strip_blank]. unfold strip_ws, strip. induction l as [|c l IH]; cbn [lstrip forallb]; [reflexivity|].
  destruct (is_space c) eqn:E; [exact IH|]. intros H. pose proof (rstrip_keep [] c l E) as R. cbn [app] in R. rewrite R in H. discriminate.
Qed.
Lemma indent_end l w : forallb is_space l = false -> indent (l ++ w) = indent l.
Proof. induction l as [|c l IH]; cbn [forallb app indent]; [discriminate|]. destruct (is_space c); cbn; auto. Qed.
Lemma read_end delims dn l w r : forallb is_space w = true -> read_line delims dn l r = read_line delims dn (l ++ w) r.
Proof.
  intros W. apply read_line_ext; [symmetry; now apply strip_end|]. intros N. symmetry. apply indent_end.
  destruct (forallb is_space l) eqn:B; [|reflexivity]. apply blank_strip in B. contradiction.
Qed.

(** ** Reading lines *)
Definition read_from delims dn ls (i : ini) : res unit * ini :=
  let r0 := RState (map (fun so => (fst so, to_ropts (snd so))) (i_secs i))
                   (to_ropts (i_defs i)) CurNone [] None 0 false [] [] in
  let (out, r) := read_lines delims dn ls r0 in
  let i' := Ini (map (fun so => (fst so, join_opts (snd so))) (r_secs r))
                (join_opts (r_defs r)) (i_defname i) in
  match out with
  | Err e => (Err e, i')
  | Ok _ => (if r_err r then Err ParsingError else Ok tt, i')
  end.
Lemma read_file_from delims t ls i : lines_of t ls -> read_file delims t i = read_from delims (i_defname i) ls i.
Proof. intros L. apply lines_complete in L. subst ls. reflexivity. Qed.
Lemma read_from_lines delims dn ls ls' i : (forall r, read_lines delims dn ls r = read_lines delims dn ls' r) ->
  read_from delims dn ls i = read_from delims dn ls' i.
Proof. intros H. unfold read_from. now rewrite H. Qed.
Lemma read_lines_mid delims dn a b b' : (forall r, read_lines delims dn b r = read_lines delims dn b' r) ->
  forall r, read_lines delims dn (a ++ b) r = read_lines delims dn (a ++ b') r.
Proof. intros H. induction a as [|x a IH]; intros r; cbn [app read_lines]; [apply H|]. destruct (read_line delims dn x r) as [[[]|e] r']; auto. Qed.

(** ** Indentation *)
Definition with_indent (n : nat) (r : rstate) : rstate :=
  RState (r_secs r) (r_defs r) (r_cur r) (r_sectname r) (r_optname r) n (r_err r) (r_addsec r) (r_addopt r).
Definition fits (f : nat -> nat) (n : nat) (r : rstate) : Prop := opt_active (r_optname r) <> None -> n = f (r_indent r).
Lemma cur_indent n r : cur_opts (with_indent n r) = cur_opts r.
Proof. reflexivity. Qed.
Lemma set_indent n r o : set_cur_opts (with_indent n r) o = with_indent n (set_cur_opts r o).
Proof. unfold set_cur_opts. destruct r as [se de cu sn on ind er as_ ao]. cbn. destruct cu; reflexivity. Qed.
Lemma set_opt r o : r_optname (set_cur_opts r o) = r_optname r /\ r_indent (set_cur_opts r o) = r_indent r.
Proof. unfold set_cur_opts. destruct r as [se de cu sn on ind er as_ ao]. destruct cu; split; reflexivity. Qed.

Lemma indent_step delims dn f l l' n r : (forall m k, m < k -> f m < f k) -> re_indented f l l' -> fits f n r ->
  exists n', read_line delims dn l' (with_indent n r) = (fst (read_line delims dn l r), with_indent n' (snd (read_line delims dn l r))) /\
             fits f n' (snd (read_line delims dn l r)).
Proof.
  intros MO RI F.
  assert (INC : forall m k, (m <? k) = (f m <? f k)).
  { intros m k. destruct (Nat.ltb_spec m k) as [A|A]; symmetry; [apply Nat.ltb_lt; auto|].
    apply Nat.ltb_ge. destruct (Nat.eq_dec k m) as [->|NE]; [lia|]. assert (k < m) by lia. specialize (MO _ _ H). lia. }
  assert (X : strip_ws l = strip_ws l' /\ (strip_ws l <> [] -> starts_with $"#" (strip_ws l) || starts_with $";" (strip_ws l) = false -> indent l' = f (indent l))).
  { inversion RI as [x [B|C] E1 E2|w w' c x W W' NS L E1 E2]; subst.
    - split; [reflexivity|]. intros N. apply strip_blank in B. contradiction.
    - split; [reflexivity|]. intros _ N. apply comment_starts in C. congruence.
    - split.
      + unfold strip_ws, strip. now rewrite !lstrip_blanks.
      + intros _ _. assert (IW : forall w, forallb is_space w = true -> indent (w ++ c :: x) = length w).
        { clear -NS. induction w as [|d w IH]; cbn [forallb app indent length]; [now rewrite NS|]. intros H. apply andb_prop in H as (-> & H). now rewrite IH. }
        now rewrite !IW. }
  destruct X as (ES & EI). unfold read_line. rewrite <- ES.
  set (st := strip_ws l) in *. destruct (starts_with $"#" st || starts_with $";" st) eqn:C.
  { exists n. split; [reflexivity|exact F]. }
  destruct st as [|c x] eqn:S.
  { change (r_cur (with_indent n r)) with (r_cur r). change (r_optname (with_indent n r)) with (r_optname r).
    destruct (cur_is_none (r_cur r)); [exists n; split; [reflexivity|exact F]|].
    destruct (opt_active (r_optname r)) as [k|] eqn:O; [|exists n; split; [reflexivity|exact F]].
    rewrite cur_indent. destruct (dget k (cur_opts r)) as [[|s|ls]|]; try (exists n; split; [reflexivity|exact F]).
    rewrite set_indent. exists n. split; [reflexivity|]. cbn [snd]. unfold fits. destruct (set_opt r (dset k (RLines (ls ++ [[]])) (cur_opts r))) as (-> & ->). exact F. }
  assert (EI' : indent l' = f (indent l)) by (apply EI; [discriminate|reflexivity]). clear EI.
  change (r_cur (with_indent n r)) with (r_cur r). change (r_optname (with_indent n r)) with (r_optname r). change (r_indent (with_indent n r)) with n.
  assert (CT : (if cur_is_none (r_cur r) then None else if n <? indent l' then opt_active (r_optname r) else None) =
               (if cur_is_none (r_cur r) then None else if r_indent r <? indent l then opt_active (r_optname r) else None)).
  { destruct (cur_is_none (r_cur r)); [reflexivity|]. destruct (opt_active (r_optname r)) as [k|] eqn:O.
    - rewrite EI', (INC (r_indent r)). rewrite F by (rewrite O; discriminate). reflexivity.
    - now destruct (n <? indent l'), (r_indent r <? indent l). }
  rewrite CT. destruct (if cur_is_none (r_cur r) then None else if r_indent r <? indent l then opt_active (r_optname r) else None) as [k|] eqn:D.
  { rewrite cur_indent. destruct (dget k (cur_opts r)) as [[|s|ls]|]; try (exists n; split; [reflexivity|exact F]).
    rewrite set_indent. exists n. split; [reflexivity|]. cbn [snd]. unfold fits. match goal with |- context[set_cur_opts r ?o] => destruct (set_opt r o) as (-> & ->) end. exact F. }
  cbv zeta. rewrite EI'. exists (f (indent l)).
  destruct r as [se de cu sn on ind er as_ ao].
  cbn [r_secs r_defs r_cur r_sectname r_optname r_indent r_err r_addsec r_addopt with_indent].
  destruct (sectcre (c :: x)) as [name|].
  - destruct (dmem name se); [destruct (str_mem name as_)|destruct (str_eqb name dn)]; (split; [reflexivity|]; intros H; reflexivity).
  - destruct (cur_is_none cu); [split; [reflexivity|]; intros H; reflexivity|].
    destruct (optcre delims (c :: x)) as [[opt val]|]; [|split; [reflexivity|]; intros H; reflexivity].
    destruct (pair_mem sn (rstrip_ws opt) ao); [split; [reflexivity|]; intros H; reflexivity|].
    split; [|intros H; now destruct cu]. unfold cur_opts, set_cur_opts. cbn. destruct cu; reflexivity.
Qed.
Lemma indent_lines delims dn f ls ls' : (forall m k, m < k -> f m < f k) -> Forall2 (re_indented f) ls ls' -> forall n r, fits f n r ->
  exists n', read_lines delims dn ls' (with_indent n r) = (fst (read_lines delims dn ls r), with_indent n' (snd (read_lines delims dn ls r))).
Proof.
  intros MO. induction 1 as [|l l' ls ls' RI _ IH]; intros n r F; cbn [read_lines].
  - exists n. reflexivity.
  - destruct (indent_step delims dn f l l' n r MO RI F) as (n' & E & F'). rewrite E. destruct (read_line delims dn l r) as [[[]|e] r1]; cbn [fst snd] in *.
    + now apply IH.
    + exists n'. reflexivity.
Qed.
Lemma indent_from delims dn f ls ls' i : (forall m k, m < k -> f m < f k) -> Forall2 (re_indented f) ls ls' ->
  read_from delims dn ls i = read_from delims dn ls' i.
Proof.
  intros MO F2. unfold read_from. set (r0 := RState _ _ _ _ _ _ _ _ _).
  destruct (indent_lines delims dn f ls ls' MO F2 0 r0) as (n' & E); [intros H; now destruct H|].
  change (with_indent 0 r0) with r0 in E. rewrite E. destruct (read_lines delims dn ls r0) as [[[]|e] r1]; reflexivity.
Qed.

(** ** Blank lines *)
Definition drel {A} (R : A -> A -> Prop) (d d' : dict A) : Prop := Forall2 (fun kv kv' => fst kv = fst kv' /\ R (snd kv) (snd kv')) d d'.
Lemma drel_get {A} (R : A -> A -> Prop) k d d' : drel R d d' ->
  match dget k d, dget k d' with Some v, Some v' => R v v' | None, None => True | _, _ => False end.
Proof.
  induction 1 as [|[a v] [a' v'] d d' (E & H) _ IH]; cbn [dget]; [exact I|]. cbn [fst snd] in *. subst a'. destruct (str_eqb k a); auto.
Qed.
Lemma drel_mem {A} (R : A -> A -> Prop) k d d' : drel R d d' -> dmem k d = dmem k d'.
Proof. intros H. apply (drel_get R k) in H. unfold dmem. destruct (dget k d), (dget k d'); easy. Qed.
Lemma drel_set {A} (R : A -> A -> Prop) k v v' d d' : drel R d d' -> R v v' -> drel R (dset k v d) (dset k v' d').
Proof.
  intros H HV. induction H as [|[a w] [a' w'] d d' (E & H) Hd IH]; cbn [dset]; [constructor; [now split|constructor]|].
  cbn [fst snd] in *. subst a'. destruct (str_eqb k a); constructor; auto.
Qed.
Lemma drel_refl {A} (R : A -> A -> Prop) d : (forall v, R v v) -> drel R d d.
Proof. intros H. induction d as [|[k v] d IH]; constructor; auto. Qed.

Definition veq (v v' : rval) : Prop := v = v' \/ exists ls n, v = RLines ls /\ v' = RLines (ls ++ repeat [] n).
Lemma veq_refl v : veq v v.
Proof. now left. Qed.
Lemma join_blanks ls n : rstrip_ws (join newline (ls ++ repeat [] n)) = rstrip_ws (join newline ls).
Proof.
  assert (B : forall n, forallb is_space (join newline (repeat [] n)) = true).
  { clear. induction n as [|[|n] IH]; cbn [repeat join]; try reflexivity. cbn [repeat join] in IH. rewrite forallb_app, forallb_app, IH. reflexivity. }
  destruct ls as [|l ls].
  - cbn [app]. unfold rstrip_ws. rewrite <- (app_nil_l (join newline (repeat [] n))). rewrite rstrip_blanks by apply B. reflexivity.
  - destruct n as [|n]; [now rewrite app_nil_r|].
    assert (E : join newline ((l :: ls) ++ repeat [] (S n)) = join newline (l :: ls) ++ newline ++ join newline (repeat [] (S n))).
    { clear. revert l. induction ls as [|x ls IH]; intros l; [reflexivity|]. change ((l :: x :: ls) ++ repeat [] (S n)) with (l :: (x :: ls) ++ repeat [] (S n)).
      change (join newline (l :: (x :: ls) ++ repeat [] (S n))) with (l ++ newline ++ join newline ((x :: ls) ++ repeat [] (S n))).
      rewrite IH. change (join newline (l :: x :: ls)) with (l ++ newline ++ join newline (x :: ls)). now rewrite <- !app_assoc. }
    rewrite E. unfold rstrip_ws. apply rstrip_blanks. rewrite forallb_app, B. reflexivity.
Qed.
Lemma veq_join v v' : veq v v' -> join_rval v = join_rval v'.
Proof. intros [->|(ls & n & -> & ->)]; [reflexivity|]. cbn [join_rval]. now rewrite join_blanks. Qed.
Definition oeq : ropts -> ropts -> Prop := drel veq.
Lemma oeq_join o o' : oeq o o' -> join_opts o = join_opts o'.
Proof. induction 1 as [|[k v] [k' v'] o o' (E & H) _ IH]; [reflexivity|]. cbn [fst snd] in *. subst k'. cbn. rewrite (veq_join _ _ H). f_equal. exact IH. Qed.

Record close (r r' : rstate) : Prop := Close {
  cl_secs : drel oeq (r_secs r) (r_secs r');
  cl_defs : oeq (r_defs r) (r_defs r');
  cl_cur : r_cur r = r_cur r';
  cl_sect : r_sectname r = r_sectname r';
  cl_opt : r_optname r = r_optname r';
  cl_ind : r_indent r = r_indent r';
  cl_err : r_err r = r_err r';
  cl_as : r_addsec r = r_addsec r';
  cl_ao : r_addopt r = r_addopt r'
}.
Definition exactly (r r' : rstate) : Prop := forall k, opt_active (r_optname r) = Some k -> dget k (cur_opts r) = dget k (cur_opts r').
Lemma close_refl r : close r r.
Proof. constructor; try reflexivity; apply drel_refl; [intros o; apply drel_refl, veq_refl|apply veq_refl]. Qed.
Lemma close_cur r r' : close r r' -> oeq (cur_opts r) (cur_opts r').
Proof.
  intros C. unfold cur_opts. rewrite <- (cl_cur _ _ C). destruct (r_cur r) as [| |n]; [constructor|apply (cl_defs _ _ C)|].
  pose proof (drel_get oeq n _ _ (cl_secs _ _ C)) as H. destruct (dget n (r_secs r)), (dget n (r_secs r')); try easy. constructor.
Qed.
Lemma close_set r r' o o' : close r r' -> oeq o o' -> close (set_cur_opts r o) (set_cur_opts r' o').
Proof.
  intros C H. destruct C as [A B E1 E2 E3 E4 E5 E6 E7]. destruct r as [se de cu sn on ind er as_ ao], r' as [se' de' cu' sn' on' ind' er' as' ao'].
  cbn in *. subst. unfold set_cur_opts. cbn. destruct cu'; constructor; cbn; auto. now apply drel_set.
Qed.
Lemma set_fields r o : r_cur (set_cur_opts r o) = r_cur r /\ r_optname (set_cur_opts r o) = r_optname r.
Proof. unfold set_cur_opts. destruct r as [se de cu sn on ind er as_ ao]. destruct cu; split; reflexivity. Qed.

(** A line in the same mode. *)
Lemma close_step delims dn l r r' : close r r' ->
  exactly r r' \/ (exists c x, l = c :: x /\ is_space c = false /\ ~ comment_line l) ->
  fst (read_line delims dn l r) = fst (read_line delims dn l r') /\
  close (snd (read_line delims dn l r)) (snd (read_line delims dn l r')) /\
  (fst (read_line delims dn l r) = Ok tt -> exactly (snd (read_line delims dn l r)) (snd (read_line delims dn l r'))).
Proof.
  intros C M. pose proof (close_cur r r' C) as CC. pose proof C as [A B E1 E2 E3 E4 E5 E6 E7].
  unfold read_line. rewrite <- E1, <- E3, <- E4.
  set (st := strip_ws l). destruct (starts_with $"#" st || starts_with $";" st) eqn:CM.
  { split; [reflexivity|]. split; [exact C|]. intros _. destruct M as [M|(c & x & -> & NS & NC)]; [exact M|].
    exfalso. apply NC. unfold st, strip_ws, strip in CM. cbn [lstrip] in CM. rewrite NS in CM. pose proof (rstrip_keep [] c x NS) as R. cbn [app] in R.
    change (rstrip is_space (c :: x)) with (rstrip is_space (c :: x)) in CM. rewrite R in CM. exists [], c, x. split; [reflexivity|]. split; [reflexivity|].
    change $"#" with [35%N] in CM. change $";" with [59%N] in CM. cbn [starts_with] in CM. rewrite !andb_true_r in CM.
    apply orb_prop in CM as [X|X]; apply N.eqb_eq in X; auto. }
  destruct st as [|c x] eqn:S.
  { assert (EX : exactly r r').
    { destruct M as [M|(d & y & -> & NS & _)]; [exact M|]. unfold st in S. apply blank_strip in S. cbn [forallb] in S. rewrite NS in S. discriminate. }
    destruct (cur_is_none (r_cur r)) eqn:CN; [split; [reflexivity|]; split; [exact C|intros _; exact EX]|].
    destruct (opt_active (r_optname r)) as [k|] eqn:O; [|split; [reflexivity|]; split; [exact C|intros _; exact EX]].
    pose proof (EX k O) as EK. rewrite <- EK. destruct (dget k (cur_opts r)) as [[|s|ls]|] eqn:G; try (split; [reflexivity|]; split; [exact C|intros H; try discriminate; exact EX]).
    split; [reflexivity|]. cbn [snd]. split; [apply close_set; [exact C|]; apply drel_set; [exact CC|now left]|].
    intros _ k' O'. destruct (set_fields r (dset k (RLines (ls ++ [[]])) (cur_opts r))) as (_ & SO). rewrite SO in O'. assert (k' = k) by congruence. subst k'.
    rewrite !cur_set. 2: { rewrite <- E1. now apply cin_true. } 2: now apply cin_true. now rewrite !dget_dset_same. }
  destruct (if cur_is_none (r_cur r) then None else if r_indent r <? indent l then opt_active (r_optname r) else None) as [k|] eqn:D.
  { destruct (cur_is_none (r_cur r)) eqn:CN; [discriminate|]. destruct (r_indent r <? indent l) eqn:IN; [|discriminate].
    assert (EX : exactly r r').
    { destruct M as [M|(d & y & -> & NS & _)]; [exact M|]. rewrite indent_0 in IN by exact NS. now destruct (r_indent r). }
    pose proof (EX k D) as EK. rewrite <- EK. destruct (dget k (cur_opts r)) as [[|s|ls]|] eqn:G; try (split; [reflexivity|]; split; [exact C|intros H; try discriminate; exact EX]).
    split; [reflexivity|]. cbn [snd]. split; [apply close_set; [exact C|]; apply drel_set; [exact CC|now left]|].
    intros _ k' O'. match type of O' with context[set_cur_opts r ?o] => destruct (set_fields r o) as (_ & SO) end. rewrite SO in O'. assert (k' = k) by congruence. subst k'.
    rewrite !cur_set. 2: { rewrite <- E1. now apply cin_true. } 2: now apply cin_true. now rewrite !dget_dset_same. }
  cbv zeta. destruct r as [se de cu sn on ind er as_ ao], r' as [se' de' cu' sn' on' ind' er' as' ao']. cbn in A, B, E1, E2, E3, E4, E5, E6, E7. subst.
  cbn [r_secs r_defs r_cur r_sectname r_optname r_indent r_err r_addsec r_addopt].
  destruct (sectcre (c :: x)) as [name|].
  { rewrite <- (drel_mem _ name _ _ A).
    destruct (dmem name se) eqn:DM; [destruct (str_mem name as')|destruct (str_eqb name dn)]; cbn [fst snd];
      (split; [reflexivity|]; split; [constructor; cbn; auto|]); try discriminate; try (intros _ k H; discriminate).
    apply drel_set; [exact A|constructor]. }
  destruct (cur_is_none cu') eqn:CN; [cbn [fst snd]; split; [reflexivity|]; split; [constructor; cbn; auto|discriminate]|].
  destruct (optcre_total delims (c :: x)) as ([opt val] & ->).
  destruct (pair_mem sn' (rstrip_ws opt) ao'); cbn [fst snd]; [split; [reflexivity|]; split; [constructor; cbn; auto|discriminate]|].
  split; [reflexivity|]. split.
  - apply close_set; [constructor; cbn; auto|]. apply drel_set; [exact CC|now left].
  - intros _ k O. match type of O with context[set_cur_opts ?r ?o] => destruct (set_fields r o) as (_ & SO) end. rewrite SO in O. cbn [r_optname opt_active] in O.
    assert (rstrip_ws opt = k) as ->. { destruct (rstrip_ws opt); [discriminate|]. now injection O. }
    rewrite !cur_set; [now rewrite !dget_dset_same| |]; cbn; intros ->; discriminate.
Qed.
(** A filler line in the loose mode. *)
Lemma close_filler delims dn l r r' : close r r' -> filler l ->
  fst (read_line delims dn l r) = fst (read_line delims dn l r') /\
  close (snd (read_line delims dn l r)) (snd (read_line delims dn l r')).
Proof.
  intros C [BL|CM]; [|rewrite !read_comment by exact CM; split; [reflexivity|exact C]].
  pose proof (close_cur r r' C) as CC. pose proof C as [A B E1 E2 E3 E4 E5 E6 E7].
  unfold read_line. rewrite <- E1, <- E3, <- E4. rewrite (strip_blank l BL). cbn [starts_with orb].
  change (starts_with $"#" [] || starts_with $";" []) with false. cbn iota.
  destruct (cur_is_none (r_cur r)); [split; [reflexivity|exact C]|]. destruct (opt_active (r_optname r)) as [k|]; [|split; [reflexivity|exact C]].
  pose proof (drel_get veq k _ _ CC) as G. destruct (dget k (cur_opts r)) as [v|], (dget k (cur_opts r')) as [v'|]; try easy.
  destruct G as [<-|(ls & n & -> & ->)].
  - destruct v as [|s|ls]; try (split; [reflexivity|exact C]). split; [reflexivity|]. cbn [snd]. apply close_set; [exact C|]. apply drel_set; [exact CC|now left].
  - split; [reflexivity|]. cbn [snd]. apply close_set; [exact C|]. apply drel_set; [exact CC|]. right. exists (ls ++ [[]]), n. split; [reflexivity|].
    rewrite <- !app_assoc. f_equal. f_equal. change [[]] with (repeat ([] : str) 1). rewrite <- !repeat_app, Nat.add_comm. reflexivity.
Qed.
Lemma close_lines delims dn ls : forall r r', close r r' -> exactly r r' ->
  fst (read_lines delims dn ls r) = fst (read_lines delims dn ls r') /\
  close (snd (read_lines delims dn ls r)) (snd (read_lines delims dn ls r')).
Proof.
  induction ls as [|l ls IH]; intros r r' C E; cbn [read_lines]; [split; [reflexivity|exact C]|].
  destruct (close_step delims dn l r r' C (or_introl E)) as (F & C' & E').
  destruct (read_line delims dn l r) as [[[]|e] r1], (read_line delims dn l r') as [[[]|e'] r1']; cbn [fst snd] in *; try discriminate.
  - now apply IH; [|apply E'].
  - split; [congruence|exact C'].
Qed.
Lemma close_afresh delims dn ls : starts_afresh ls -> forall r r', close r r' ->
  fst (read_lines delims dn ls r) = fst (read_lines delims dn ls r') /\
  close (snd (read_lines delims dn ls r)) (snd (read_lines delims dn ls r')).
Proof.
  induction 1 as [|l ls FL S IH|c x ls NS NC]; intros r r' C; cbn [read_lines].
  - split; [reflexivity|exact C].
  - destruct (close_filler delims dn l r r' C FL) as (F & C').
    destruct (read_line delims dn l r) as [[[]|e] r1], (read_line delims dn l r') as [[[]|e'] r1']; cbn [fst snd] in *; try discriminate.
    + now apply IH.
    + split; [congruence|exact C'].
  - destruct (close_step delims dn (c :: x) r r' C) as (F & C' & E'); [right; eauto|].
    destruct (read_line delims dn (c :: x) r) as [[[]|e] r1], (read_line delims dn (c :: x) r') as [[[]|e'] r1']; cbn [fst snd] in *; try discriminate.
    + apply close_lines; [exact C'|now apply E'].
    + split; [congruence|exact C'].
Qed.

(** The current option has lines or no value. *)
Definition lively (r : rstate) : Prop := forall k, opt_active (r_optname r) = Some k -> r_cur r <> CurNone ->
  dget k (cur_opts r) = Some RNone \/ exists ls, dget k (cur_opts r) = Some (RLines ls).
Lemma lively_set r k v o : opt_active (r_optname r) = Some k \/ opt_active (r_optname r) = None -> (v = RNone \/ exists ls, v = RLines ls) ->
  lively (set_cur_opts r (dset k v o)).
Proof.
  intros O V k' O' CN. destruct (set_fields r (dset k v o)) as (EC & EO). rewrite EO in O'. rewrite EC in CN.
  assert (k' = k) by (destruct O; congruence). subst. rewrite cur_set by exact CN. rewrite dget_dset_same. destruct V as [->|(ls & ->)]; eauto.
Qed.
Lemma lively_step delims dn l r : lively r -> fst (read_line delims dn l r) = Ok tt -> lively (snd (read_line delims dn l r)).
Proof.
  intros L. unfold read_line. set (st := strip_ws l). destruct (starts_with $"#" st || starts_with $";" st); [intros _; exact L|].
  destruct st as [|c x].
  { destruct (cur_is_none (r_cur r)); [intros _; exact L|]. destruct (opt_active (r_optname r)) as [k|] eqn:O; [|intros _; exact L].
    destruct (dget k (cur_opts r)) as [[|s|ls]|]; intros H; try exact L; try discriminate. cbn [snd]. apply lively_set; eauto. }
  destruct (if cur_is_none (r_cur r) then None else if r_indent r <? indent l then opt_active (r_optname r) else None) as [k|] eqn:D.
  { destruct (cur_is_none (r_cur r)); [discriminate|]. destruct (r_indent r <? indent l); [|discriminate].
    destruct (dget k (cur_opts r)) as [[|s|ls]|]; intros H; try exact L; try discriminate. cbn [snd]. apply lively_set; eauto. }
  cbv zeta. destruct r as [se de cu sn on ind er as_ ao]. cbn [r_secs r_defs r_cur r_sectname r_optname r_indent r_err r_addsec r_addopt].
  destruct (sectcre (c :: x)) as [name|].
  { destruct (dmem name se); [destruct (str_mem name as_)|destruct (str_eqb name dn)]; cbn [fst snd]; intros H; try discriminate; intros k O; discriminate. }
  destruct (cur_is_none cu) eqn:CN; [discriminate|]. destruct (optcre_total delims (c :: x)) as ([opt val] & ->).
  destruct (pair_mem sn (rstrip_ws opt) ao); [discriminate|]. intros _. cbn [snd]. apply lively_set.
  - cbn [r_optname opt_active]. destruct (rstrip_ws opt); auto.
  - destruct val; eauto.
Qed.
Lemma blank_step delims dn l r : lively r -> blank_line l -> exists r1, read_line delims dn l r = (Ok tt, r1) /\ close r r1.
Proof.
  intros L BL. unfold read_line. rewrite (strip_blank l BL). change (starts_with $"#" [] || starts_with $";" []) with false. cbn iota.
  destruct (cur_is_none (r_cur r)) eqn:CN; [eexists; split; [reflexivity|apply close_refl]|].
  destruct (opt_active (r_optname r)) as [k|] eqn:O; [|eexists; split; [reflexivity|apply close_refl]].
  destruct (L k O (cin_true _ CN)) as [G|(ls & G)]; rewrite G; (eexists; split; [reflexivity|]); [apply close_refl|].
  assert (X : r = set_cur_opts r (cur_opts r) \/ True) by auto. clear X.
  pose proof (dset_same_id k _ _ G) as E. assert (RR : close (set_cur_opts r (cur_opts r)) (set_cur_opts r (dset k (RLines (ls ++ [[]])) (cur_opts r)))).
  { apply close_set; [apply close_refl|]. rewrite <- E at 1. apply drel_set; [apply drel_refl, veq_refl|]. right. exists ls, 1. auto. }
  assert (SAME : close r (set_cur_opts r (cur_opts r))).
  { unfold set_cur_opts, cur_opts. destruct r as [se de cu sn on ind er as_ ao]. cbn. destruct cu as [| |n]; [apply close_refl|apply close_refl|].
    cbn in G. destruct (dget n se) as [o|] eqn:GN; [|discriminate]. rewrite (dset_same_id n _ _ GN). apply close_refl. }
  destruct SAME as [S1 S2 S3 S4 S5 S6 S7 S8 S9], RR as [R1 R2 R3 R4 R5 R6 R7 R8 R9].
  unfold set_cur_opts, cur_opts in *. destruct r as [se de cu sn on ind er as_ ao]. cbn in *. destruct cu as [| |n]; [discriminate| |].
  - constructor; cbn in *; auto.
  - cbn in *. destruct (dget n se) as [o|] eqn:GN; [|discriminate]. rewrite (dset_same_id n _ _ GN) in R1. constructor; cbn in *; auto.
Qed.
Lemma blank_from delims dn a l b i : blank_line l -> starts_afresh b -> read_from delims dn (a ++ b) i = read_from delims dn (a ++ l :: b) i.
Proof.
  intros BL SA. unfold read_from. set (r0 := RState _ _ _ _ _ _ _ _ _). assert (L : lively r0) by (intros k O; discriminate).
  assert (X : fst (read_lines delims dn (a ++ b) r0) = fst (read_lines delims dn (a ++ l :: b) r0) /\
              close (snd (read_lines delims dn (a ++ b) r0)) (snd (read_lines delims dn (a ++ l :: b) r0))).
  { clearbody r0. revert r0 L. induction a as [|x a IH]; intros r L; cbn [app].
    - change (read_lines delims dn (l :: b) r) with (match read_line delims dn l r with (Ok _, r') => read_lines delims dn b r' | (Err e, r') => (Err e, r') end).
      destruct (blank_step delims dn l r L BL) as (r1 & E & C). rewrite E. now apply close_afresh.
    - cbn [read_lines]. pose proof (lively_step delims dn x r L) as L'. destruct (read_line delims dn x r) as [[[]|e] r1]; cbn [fst snd] in L'.
      + apply IH. now apply L'.
      + split; [reflexivity|apply close_refl]. }
  destruct X as (F & C). destruct (read_lines delims dn (a ++ b) r0) as [o r], (read_lines delims dn (a ++ l :: b) r0) as [o' r']. cbn [fst snd] in *. subst o'.
  assert (S : map (fun so => (fst so, join_opts (snd so))) (r_secs r) = map (fun so => (fst so, join_opts (snd so))) (r_secs r')).
  { pose proof (cl_secs _ _ C) as H. induction H as [|[k v] [k' v'] d d' (E & H) _ IH]; [reflexivity|]. cbn [fst snd map] in *. subst k'. rewrite (oeq_join _ _ H). f_equal. exact IH. }
  rewrite S, (oeq_join _ _ (cl_defs _ _ C)), (cl_err _ _ C). reflexivity.
Qed.

Lemma layout_from delims dn ls ls' : same_layout ls ls' -> forall i, read_from delims dn ls i = read_from delims dn ls' i.
Proof.
  induction 1 as [a l b C|a l b BL SA|a l w b W|f ls ls' MO F2|ls|ls ls' _ IH|ls ls' ls'' _ IH1 _ IH2]; intros i.
  - apply read_from_lines, read_lines_mid. intros r. cbn [read_lines]. now rewrite read_comment.
  - now apply blank_from.
  - apply read_from_lines, read_lines_mid. intros r. cbn [read_lines]. now rewrite <- (read_end delims dn l w r W).
  - now apply (indent_from delims dn f).
  - reflexivity.
  - symmetry. apply IH.
  - rewrite IH1. apply IH2.
Qed.
Lemma same_text_read t t' : same_text t t' -> forall delims i, read_file delims t i = read_file delims t' i.
Proof. intros (ls & ls' & L & L' & S) delims i. rewrite (read_file_from _ _ _ _ L), (read_file_from _ _ _ _ L'). now apply layout_from. Qed.
Lemma same_lines_read t t' ls : lines_of t ls -> lines_of t' ls -> forall delims i, read_file delims t i = read_file delims t' i.
Proof. intros L L'. apply same_text_read. exists ls, ls. split; [exact L|]. split; [exact L'|apply sl_refl]. Qed.
