(** * Files in the usual layout are read as written. *)
From Coq Require Import String NArith Arith List Bool Lia.
Import ListNotations.
From Verif Require Import PyBase PyFacts IniView IniRead Cpe SpecWalk SpecParse SpecRead WalkProofs ReadProofs
  ReadProofs2 ReadProofs3 ReadProofs4.

Local Arguments is_space : simpl never.

Section Layout.
Variables (delims : list str) (dn : str).
Hypothesis GD : good_delims delims.
Notation rl := (read_line delims dn).
Notation rls := (read_lines delims dn).

Lemma strip_blank l : blank_line l -> strip_ws l = [].
Proof. intros H. unfold strip_ws, strip. now rewrite lstrip_all. Qed.

Lemma not_comment c s : ~ In c [35%N; 59%N] ->
  starts_with $"#" (c :: s) || starts_with $";" (c :: s) = false.
Proof.
  intros H. cbn. destruct c as [|p]; auto.
  destruct (Pos.eqb_spec 35 p) as [<-|]; [exfalso; apply H; now left|].
  destruct (Pos.eqb_spec 59 p) as [<-|]; [exfalso; apply H; right; now left|]. reflexivity.
Qed.

Lemma comment_starts l : comment_line l -> starts_with $"#" (strip_ws l) || starts_with $";" (strip_ws l) = true.
Proof.
  intros (b & c & x & -> & B & C). assert (S : is_space c = false) by (destruct C as [-> | ->]; reflexivity).
  unfold strip_ws, strip. rewrite lstrip_blanks by auto. rewrite lstrip_fix by auto.
  change (c :: x) with ([] ++ c :: x). rewrite rstrip_keep by auto. destruct C as [-> | ->]; reflexivity.
Qed.

Lemma read_comment l r : comment_line l -> rl l r = (Ok tt, r).
Proof. intros C. unfold read_line. now rewrite comment_starts. Qed.

Lemma read_blank l r : blank_line l ->
  rl l r = if cur_is_none (r_cur r) then (Ok tt, r) else
    match opt_active (r_optname r) with
    | None => (Ok tt, r)
    | Some k =>
        match dget k (cur_opts r) with
        | Some (RLines ls) => (Ok tt, set_cur_opts r (dset k (RLines (ls ++ [[]])) (cur_opts r)))
        | Some RNone => (Ok tt, r)
        | Some (RStr _) => (Err AttributeError, r)
        | None => (Err KeyError, r)
        end
    end.
Proof. intros B. unfold read_line. rewrite strip_blank by auto. reflexivity. Qed.

(** Lines that change nothing where no value can be continued. *)
Definition idle (r : rstate) : Prop :=
  cur_is_none (r_cur r) = true \/ opt_active (r_optname r) = None \/
  exists k, opt_active (r_optname r) = Some k /\ dget k (cur_opts r) = Some RNone.
Lemma read_fillers ls r : Forall filler ls -> idle r -> rls ls r = (Ok tt, r).
Proof.
  intros F I. induction F as [|l ls [B|C] F IH]; auto; cbn [read_lines].
  - rewrite read_blank by auto. destruct I as [I|[I|(k & I & J)]].
    + now rewrite I.
    + rewrite I. now destruct (cur_is_none (r_cur r)).
    + rewrite I, J. now destruct (cur_is_none (r_cur r)).
  - now rewrite read_comment.
Qed.

(** Continuation lines. [at_value r s k vs]: in section [s], reading the value
    of [k], [vs] so far. *)
Definition with_value (r : rstate) (s k : str) (o : ropts) (vs : list str) : rstate :=
  RState (dset s (dset k (RLines vs) o) (r_secs r)) (r_defs r) (CurSec s) s (Some k) 0 (r_err r) (r_addsec r) (r_addopt r).

Lemma with_value_step r s k o vs ws : 
  set_cur_opts (with_value r s k o vs) (dset k (RLines ws) (cur_opts (with_value r s k o vs))) = with_value r s k o ws.
Proof.
  unfold set_cur_opts, with_value, cur_opts. cbn [r_cur r_secs r_defs r_sectname r_optname r_indent r_err r_addsec r_addopt].
  rewrite dget_dset_same, dset_dset_same. now rewrite dset_dset_same.
Qed.
Lemma cur_with_value r s k o vs : dget k (cur_opts (with_value r s k o vs)) = Some (RLines vs).
Proof. unfold with_value, cur_opts. cbn [r_cur r_secs]. now rewrite dget_dset_same, dget_dset_same. Qed.

Lemma read_more r s k o ls ts : k <> [] -> more ls ts -> forall vs,
  rls ls (with_value r s k o vs) = (Ok tt, with_value r s k o (vs ++ ts)).
Proof.
  intros NE M. assert (OA : forall vs, opt_active (r_optname (with_value r s k o vs)) = Some k).
  { intros vs. cbn. destruct k; congruence. }
  induction M as [|l ls ts C M IH|l ls ts B M IH|b x b' ls ts NB B B' NX EX NC M IH]; intros vs; cbn [read_lines].
  - now rewrite app_nil_r.
  - rewrite read_comment; auto.
  - rewrite read_blank by auto. cbn [cur_is_none with_value r_cur]. fold (with_value r s k o vs).
    rewrite OA, cur_with_value, with_value_step, IH. now rewrite <- app_assoc.
  - assert (ST : strip_ws (b ++ x ++ b') = x).
    { unfold strip_ws, strip. rewrite lstrip_blanks by auto. destruct x as [|c x]; [congruence|].
      destruct EX as [E1 E2]. rewrite lstrip_fix by auto. rewrite rstrip_blanks by auto. now apply rstrip_edge. }
    assert (IN : 0 < indent (b ++ x ++ b')).
    { destruct b as [|c b]; [congruence|]. cbn [app indent]. cbn in B. apply andb_true_iff in B as [-> _]. lia. }
    assert (E : rl (b ++ x ++ b') (with_value r s k o vs) = (Ok tt, with_value r s k o (vs ++ [x]))).
    { unfold read_line. rewrite ST. destruct x as [|c x]; [congruence|]. rewrite not_comment by auto.
      cbn [cur_is_none with_value r_cur r_indent]. fold (with_value r s k o vs).
      apply Nat.ltb_lt in IN. rewrite IN, OA, cur_with_value, with_value_step. reflexivity. }
    rewrite E, IH. now rewrite <- app_assoc.
Qed.

Lemma read_option_block r s o k v ls : option_block delims (k, v) ls ->
  r_cur r = CurSec s -> r_sectname r = s -> dget s (r_secs r) = Some o -> ~ In (s, k) (r_addopt r) ->
  exists rv r', rls ls r = (Ok tt, r') /\ join_rval rv = v /\
    r_secs r' = dset s (dset k rv o) (r_secs r) /\ r_defs r' = r_defs r /\ r_cur r' = CurSec s /\
    r_sectname r' = s /\ r_err r' = r_err r /\ r_addsec r' = r_addsec r /\ r_addopt r' = (s, k) :: r_addopt r.
Proof.
  intros OB C SN G N.
  assert (NC : r_cur r <> CurNone) by congruence.
  assert (PM : pair_mem (r_sectname r) k (r_addopt r) = false).
  { destruct (pair_mem (r_sectname r) k (r_addopt r)) eqn:E; auto. apply pair_mem_In in E. rewrite SN in E. contradiction. }
  assert (CO : cur_opts r = o) by (unfold cur_opts; now rewrite C, G).
  inversion OB as [k0 l ls0 PK OL FI E1 E2|k0 x l ls0 ts PK OL MO E1 E2]; subst.
  - pose proof (read_option delims dn GD k None l r PK OL NC) as E. rewrite PM in E.
    eexists RNone, _. cbn [read_lines]. rewrite E. rewrite read_fillers; auto.
    + split; [reflexivity|]. unfold set_cur_opts. cbn [r_cur]. rewrite C.
      cbn [r_secs r_defs r_cur r_sectname r_err r_addsec r_addopt line_value]. auto 10.
    + right. right. exists k. split.
      * unfold set_cur_opts. cbn [r_cur]. rewrite C. cbn. destruct PK as (NE & _). destruct k; [now destruct NE|]. reflexivity.
      * rewrite cur_set by (cbn; congruence). apply dget_dset_same.
  - pose proof (read_option delims dn GD k (Some x) l r PK OL NC) as E. rewrite PM in E.
    exists (RLines (strip_ws x :: ts)).
    set (r2 := RState (r_secs r) (r_defs r) (CurSec (r_sectname r)) (r_sectname r) (Some k) 0 (r_err r) (r_addsec r)
                      ((r_sectname r, k) :: r_addopt r)).
    exists (with_value r2 (r_sectname r) k (cur_opts r) (strip_ws x :: ts)).
    split; [|cbn; auto 10]. cbn [read_lines]. rewrite E.
    assert (Q : set_cur_opts (RState (r_secs r) (r_defs r) (r_cur r) (r_sectname r) (Some k) 0 (r_err r) (r_addsec r)
                ((r_sectname r, k) :: r_addopt r)) (dset k (line_value (Some x)) (cur_opts r)) =
              with_value r2 (r_sectname r) k (cur_opts r) [strip_ws x]).
    { unfold set_cur_opts. cbn [r_cur]. rewrite C. reflexivity. }
    rewrite Q. rewrite (read_more r2 _ k _ ls0 ts); auto. now destruct PK.
Qed.

Lemma join_dset k rv o : join_opts (dset k rv o) = dset k (join_rval rv) (join_opts o).
Proof. apply (dset_vmap join_rval). Qed.
Lemma dset_new {A} k (v : A) d : ~ In k (dkeys d) -> dset k v d = d ++ [(k, v)].
Proof.
  induction d as [|[k' v'] d IH]; intros N; auto. cbn [dset app]. destruct (str_eqb_spec k k') as [->|NE].
  - exfalso. apply N. now left.
  - f_equal. apply IH. intros X. apply N. now right.
Qed.

Lemma read_options_block s os ls : options_block delims os ls -> forall r o,
  r_cur r = CurSec s -> r_sectname r = s -> dget s (r_secs r) = Some o ->
  NoDup (dkeys o ++ dkeys os) -> (forall k, In k (dkeys os) -> ~ In (s, k) (r_addopt r)) ->
  exists o' r', rls ls r = (Ok tt, r') /\ join_opts o' = join_opts o ++ os /\
    r_secs r' = dset s o' (r_secs r) /\ r_defs r' = r_defs r /\ r_err r' = r_err r /\ r_addsec r' = r_addsec r /\
    (forall t k, t <> s -> ~ In (t, k) (r_addopt r) -> ~ In (t, k) (r_addopt r')).
Proof.
  intros OB. induction OB as [|[k v] os ls ls' B OB IH]; intros r o C SN G ND NA.
  - exists o, r. cbn [read_lines]. rewrite app_nil_r. repeat (split; auto). now rewrite dset_same_id.
  - rewrite read_lines_app.
    destruct (read_option_block r s o k v ls B C SN G) as (rv & r1 & E & J & S1 & D1 & C1 & N1 & E1 & A1 & O1).
    { apply NA. now left. }
    rewrite E. cbn [dkeys map fst] in ND.
    assert (NK : ~ In k (dkeys o)). { apply NoDup_remove_2 in ND. intros X. apply ND. apply in_or_app. now left. }
    destruct (IH r1 (dset k rv o)) as (o' & r' & E2 & J2 & S2 & D2 & R2 & A2 & O2); auto.
    + rewrite S1. apply dget_dset_same.
    + rewrite dkeys_dset_new, <- app_assoc by auto. exact ND.
    + intros k' I. rewrite O1. intros [X|X].
      * inversion X; subst. apply NoDup_remove_2 in ND. apply ND. apply in_or_app. now right.
      * revert X. apply NA. now right.
    + exists o', r'. split; [exact E2|]. split.
      { rewrite J2, join_dset, dset_new; [|now rewrite dkeys_join]. rewrite J, <- app_assoc. reflexivity. }
      split; [rewrite S2, S1; apply dset_dset_same|]. repeat (split; [congruence|]).
      intros t k' NT NI. apply O2; auto. rewrite O1. intros [X|X]; [congruence|auto].
Qed.

Lemma read_sections_block d ls : sections_block delims d ls -> forall r,
  inv dn r -> NoDup (dkeys (r_secs r) ++ dkeys d) -> ~ In dn (dkeys d) ->
  Forall (fun so => NoDup (dkeys (snd so))) d ->
  (forall s k, In s (dkeys d) -> ~ In (s, k) (r_addopt r)) ->
  exists r', rls ls r = (Ok tt, r') /\ r_defs r' = r_defs r /\ r_err r' = r_err r /\
    vmap join_opts (r_secs r') = vmap join_opts (r_secs r) ++ d.
Proof.
  intros SB. induction SB as [|s o d l ls ls1 ls2 H F OB SB IH]; intros r V ND ND2 FN NA.
  - exists r. rewrite app_nil_r. auto.
  - cbn [dkeys map fst] in ND, ND2. inversion FN; subst. cbn [snd] in *.
    assert (NS : ~ In s (dkeys (r_secs r))). { apply NoDup_remove_2 in ND. intros X. apply ND. apply in_or_app. now left. }
    assert (DM : dmem s (r_secs r) = false) by (unfold dmem; now rewrite (proj2 (dget_None_keys _ _) NS)).
    set (r1 := RState (dset s [] (r_secs r)) (r_defs r) (CurSec s) s None 0 (r_err r) (sadd s (r_addsec r)) (r_addopt r)).
    assert (E1 : rl l r = (Ok tt, r1)).
    { rewrite (read_header delims dn s l r H), DM. destruct (str_eqb_spec s dn); [|reflexivity].
      subst. exfalso. apply ND2. now left. }
    assert (V1 : inv dn r1) by (eapply read_line_inv; eauto).
    cbn [read_lines app]. rewrite E1, read_lines_app, read_fillers by (auto; right; now left).
    rewrite read_lines_app.
    destruct (read_options_block s o ls1 OB r1 []) as (o' & r2 & E2 & J2 & S2 & D2 & R2 & A2 & O2); auto.
    + apply dget_dset_same.
    + intros k I. apply NA. now left.
    + rewrite E2.
      assert (V2 : inv dn r2).
      { apply (read_lines_inv delims dn ls1 r1); auto. }
      assert (DS : r_secs r2 = r_secs r ++ [(s, o')]).
      { rewrite S2. cbn [r1 r_secs]. rewrite dset_dset_same. now apply dset_new. }
      assert (DK : dkeys (r_secs r2) = dkeys (r_secs r) ++ [s]) by (rewrite DS; unfold dkeys; now rewrite map_app).
      destruct (IH r2 V2) as (r' & E3 & D3 & R3 & J3); auto.
      * rewrite DK, <- app_assoc. exact ND.
      * intros X. apply ND2. now right.
      * intros s' k I. apply O2.
        -- intros ->. apply NoDup_remove_2 in ND. apply ND. apply in_or_app. now right.
        -- apply NA. now right.
      * exists r'. split; [exact E3|]. split; [now rewrite D3, D2|]. split; [now rewrite R3, R2|].
        rewrite J3, DS. unfold vmap at 1. rewrite map_app. cbn [map fst snd]. rewrite <- app_assoc, J2. reflexivity.
Qed.

Theorem layout_read t ls d : lines_of t ls -> file_layout delims d ls ->
  NoDup (dkeys d) -> Forall (fun so => NoDup (dkeys (snd so))) d -> ~ In dn (dkeys d) ->
  read_file delims t (empty_ini dn) = (Ok tt, Ini d [] dn).
Proof.
  intros L (ls0 & ls1 & -> & F & SB) ND FN NI. rewrite read_file_start, (lines_complete _ _ L), read_lines_app.
  rewrite read_fillers by (auto; now left).
  destruct (read_sections_block d ls1 SB start (start_inv dn)) as (r' & E & D & R & J); auto.
  rewrite E, R. cbn [start r_err]. unfold content.
  change (map (fun so => (fst so, join_opts (snd so))) (r_secs r')) with (vmap join_opts (r_secs r')).
  rewrite J, D. reflexivity.
Qed.
End Layout.
