(** * Proofs of C93: joining and splitting texts. *)
From Coq Require Import String NArith List Bool Arith Lia Permutation.
Import ListNotations.
From Verif Require Import PyBase PyFacts IniView IniRead SpecRead SpecApi SpecLayout SpecParts
  ReadProofs ReadProofs2 ReadProofs3 ReadProofs4 ReadProofs5 LayoutProofs PartsProofs.
Local Open Scope list_scope.

(** ** Dictionaries without common keys *)
Lemma dkeys_app {A} (a b : dict A) : dkeys (a ++ b) = dkeys a ++ dkeys b.
Proof. apply map_app. Qed.
Lemma overlay_apart {A} (n d : dict A) : NoDup (dkeys n) -> (forall k, In k (dkeys n) -> ~ In k (dkeys d)) -> overlay n d = d ++ n.
Proof.
  revert d. induction n as [|[k v] n IH]; intros d ND H; cbn [overlay fold_left]; [now rewrite app_nil_r|].
  change (fold_left _ n ?x) with (overlay n x). inversion ND as [|? ? NI ND']; subst. cbn [fst snd].
  rewrite dset_new by (apply H; now left). rewrite IH; [now rewrite <- app_assoc|assumption|].
  intros x I. rewrite dkeys_app, in_app_iff. intros [J|[<-|[]]]; [apply (H x); [now right|exact J]|contradiction].
Qed.
Lemma merge_apart {A} (n d : dict (dict A)) : NoDup (dkeys n) -> (forall s o, In (s, o) n -> NoDup (dkeys o)) ->
  (forall k, In k (dkeys n) -> ~ In k (dkeys d)) -> merge n d = d ++ n.
Proof.
  intros ND NE H. rewrite merge_lifted by assumption. assert (L : lifted d n = n).
  { unfold lifted. transitivity (map (fun so : str * dict A => so) n); [|apply map_id]. apply map_ext_in. intros [s o] I. cbn [fst snd]. f_equal.
    unfold opts. assert (dget s d = None) as ->.
    { destruct (dget s d) as [x|] eqn:E; [|reflexivity]. exfalso. apply dget_Some_In in E. apply (H s); [exact (in_map fst _ _ I)|exact (in_map fst _ _ E)]. }
    apply (overlay_apart o []); [exact (NE s o I)|auto]. }
  rewrite L. now apply overlay_apart.
Qed.

Lemma In_dget {A} k (v : A) d : NoDup (dkeys d) -> In (k, v) d -> dget k d = Some v.
Proof.
  induction d as [|[k1 v1] d IH]; intros ND I; [destruct I|]. inversion ND as [|? ? N ND']; subst. cbn [dget fst snd]. destruct I as [E|I].
  - injection E as -> ->. now rewrite str_eqb_refl.
  - destruct (str_eqb k k1) eqn:X; [|now apply IH]. apply str_eqb_eq in X. subst. exfalso. apply N. exact (in_map fst _ _ I).
Qed.

Section Join.
Variables (delims : list str) (dn : str).
Notation rl := (read_line delims dn).
Notation rls := (read_lines delims dn).
Notation rfrom ls := (read_from delims dn ls (empty_ini dn)).

Lemma from_start ls : rfrom ls =
  let (out, r) := rls ls start in
  match out with Err e => (Err e, content dn r) | Ok _ => (if r_err r then Err ParsingError else Ok tt, content dn r) end.
Proof. reflexivity. Qed.
Lemma from_ok ls i : rfrom ls = (Ok tt, i) <-> exists r, rls ls start = (Ok tt, r) /\ r_err r = false /\ i = content dn r.
Proof.
  rewrite from_start. destruct (rls ls start) as [[[]|e] r]; split.
  - intros E. exists r. destruct (r_err r) eqn:X; [discriminate|]. injection E as <-. auto.
  - intros (r' & E & X & ->). injection E as <-. now rewrite X.
  - discriminate.
  - intros (r' & E & _). discriminate.
Qed.

(** The header of the second text. *)
Lemma head_line s h ra : inv dn ra -> r_err ra = false -> header_line s h ->
  let q := full (r_secs ra) (r_defs ra) start in
  (forall p', rl h ra = (Ok tt, p') -> exists q', rl h q = (Ok tt, q') /\ seen (r_addsec ra) (r_addopt ra) p' q') /\
  (forall q', rl h q = (Ok tt, q') -> strange (r_addsec ra) (r_addopt ra) q' -> exists p', rl h ra = (Ok tt, p') /\ seen (r_addsec ra) (r_addopt ra) p' q').
Proof.
  intros V NE H q. rewrite !(read_header delims dn s h) by assumption.
  change (r_secs q) with (r_secs ra). change (r_defs q) with (r_defs ra). change (r_addsec q) with (@nil str). change (r_addopt q) with (@nil (str * str)).
  change (r_err q) with false. rewrite NE, (iv_added _ _ V). cbn [str_mem existsb].
  destruct (dmem s (r_secs ra)) eqn:D.
  - split; [discriminate|]. intros q' E (X & _). injection E as <-. specialize (X s). cbn [r_addsec] in X.
    rewrite str_mem_sadd, str_eqb_refl, (iv_added _ _ V), D in X. now specialize (X eq_refl).
  - destruct (str_eqb s dn).
    + split; [intros p' E|intros q' E _]; injection E as <-; eexists; (split; [reflexivity|]);
        (constructor; cbn [r_secs r_defs r_cur r_sectname r_optname r_indent r_err r_addsec r_addopt]; auto).
    + split; [intros p' E|intros q' E _]; injection E as <-; eexists; (split; [reflexivity|]);
        (constructor; cbn [r_secs r_defs r_cur r_sectname r_optname r_indent r_err r_addsec r_addopt]; auto);
        intros x; rewrite !str_mem_sadd; now destruct (str_eqb x s).
Qed.
Lemma second_text s h rest ra : inv dn ra -> r_err ra = false -> header_line s h ->
  let q := full (r_secs ra) (r_defs ra) start in
  (forall p', rls (h :: rest) ra = (Ok tt, p') -> exists q', rls (h :: rest) q = (Ok tt, q') /\ seen (r_addsec ra) (r_addopt ra) p' q') /\
  (forall q', rls (h :: rest) q = (Ok tt, q') -> strange (r_addsec ra) (r_addopt ra) q' ->
     exists p', rls (h :: rest) ra = (Ok tt, p') /\ seen (r_addsec ra) (r_addopt ra) p' q').
Proof.
  intros V NE H q. destruct (head_line s h ra V NE H) as (F & B). fold q in F, B. cbn [read_lines]. split.
  - intros p' E. destruct (rl h ra) as [[[]|e] p1]; [|discriminate]. destruct (F p1 eq_refl) as (q1 & -> & S1).
    now apply (seen_lines delims dn _ _ rest p1 q1 S1).
  - intros q' E ST. destruct (rl h q) as [[[]|e] q1]; [|discriminate].
    destruct (B q1 eq_refl (strange_before _ _ _ _ _ _ _ E ST)) as (p1 & -> & S1). now apply (seen_lines delims dn _ _ rest p1 q1 S1).
Qed.
Lemma seen_content SA OA p q : seen SA OA p q -> content dn p = content dn q.
Proof. intros S. apply content_ext; apply S. Qed.
Lemma content_full ra r : content dn (full (r_secs ra) (r_defs ra) r) = merge_ini (content dn r) (content dn ra).
Proof.
  unfold content, merge_ini. cbn [full r_secs r_defs i_secs i_defs i_defname]. f_equal.
  - change (map _ ?x) with (vmap join_opts x). unfold join_opts.
    change (vmap (vmap join_rval) (merge (r_secs r) (r_secs ra)) = merge_secs (vmap (vmap join_rval) (r_secs r)) (vmap (vmap join_rval) (r_secs ra))).
    rewrite merge_vmap. reflexivity.
  - change (vmap join_rval (overlay (r_defs r) (r_defs ra)) = overlay (vmap join_rval (r_defs r)) (vmap join_rval (r_defs ra))). apply overlay_vmap.
Qed.

(** A readable text that is cut before a header. *)
Lemma split_header s la h rest i : header_line s h -> rfrom (la ++ h :: rest) = (Ok tt, i) ->
  exists ia ib, rfrom la = (Ok tt, ia) /\ rfrom (h :: rest) = (Ok tt, ib) /\ i = merge_ini ib ia.
Proof.
  intros H E. apply from_ok in E as (p & E & NE & ->). rewrite read_lines_app in E.
  destruct (rls la start) as [[[]|e] ra] eqn:EA; [|discriminate].
  assert (NA : r_err ra = false).
  { destruct (r_err ra) eqn:X; [|reflexivity]. rewrite (err_lines _ _ _ _ _ E X) in NE. discriminate. }
  pose proof (read_lines_inv delims dn la start ra (start_inv dn) EA) as V.
  destruct (proj1 (second_text s h rest ra V NA H) p E) as (q & Q & S).
  pose proof (read_lines_full delims dn (r_secs ra) (r_defs ra) (iv_nodef _ _ V) (h :: rest) start (start_inv dn)) as F.
  destruct (rls (h :: rest) start) as [a rb] eqn:EB. rewrite Q in F. injection F as <- ->.
  exists (content dn ra), (content dn rb). split; [|split].
  - apply from_ok. exists ra. auto.
  - apply from_ok. exists rb. split; [exact EB|]. split; [|reflexivity]. rewrite <- NE, (sn_err _ _ _ _ S). reflexivity.
  - rewrite (seen_content _ _ _ _ S). apply content_full.
Qed.

(** Two readable texts without common names. *)
Lemma join_header s la h rest ia ib : header_line s h -> rfrom la = (Ok tt, ia) -> rfrom (h :: rest) = (Ok tt, ib) ->
  (forall x, In x (ini_sections ib) -> ~ In x (ini_sections ia)) -> (forall k, In k (dkeys (i_defs ib)) -> ~ In k (dkeys (i_defs ia))) ->
  rfrom (la ++ h :: rest) = (Ok tt, Ini (i_secs ia ++ i_secs ib) (i_defs ia ++ i_defs ib) dn).
Proof.
  intros H EA EB DS DD. apply from_ok in EA as (ra & EA & NA & ->). apply from_ok in EB as (rb & EB & NB & ->).
  pose proof (read_lines_inv delims dn la start ra (start_inv dn) EA) as V.
  pose proof (read_lines_inv delims dn (h :: rest) start rb (start_inv dn) EB) as VB.
  pose proof (paired_lines delims dn _ _ _ (start_paired dn) EA) as PA. pose proof (paired_lines delims dn _ _ _ (start_paired dn) EB) as PB.
  assert (KS : forall r, ini_sections (content dn r) = dkeys (r_secs r)).
  { intros r. unfold ini_sections, content. cbn [i_secs]. apply (dkeys_vmap join_opts). }
  assert (KD : forall r, dkeys (i_defs (content dn r)) = dkeys (r_defs r)) by (intros r; apply dkeys_join).
  assert (NN : forall {A} k (d : dict A), dget k d <> None -> In k (dkeys d)).
  { intros A k d X. destruct (dget k d) as [v|] eqn:E; [|congruence]. apply dget_Some_In in E. exact (in_map fst _ _ E). }
  rewrite !KS in DS. rewrite !KD in DD.
  assert (ST : strange (r_addsec ra) (r_addopt ra) rb).
  { split.
    - intros x X. rewrite (iv_added _ _ VB) in X. rewrite (iv_added _ _ V). destruct (dmem x (r_secs ra)) eqn:D; [|reflexivity]. exfalso.
      unfold dmem in *. apply (DS x); apply NN; intros N; rewrite N in *; discriminate.
    - intros a b X. destruct (pair_mem a b (r_addopt ra)) eqn:Y; [|reflexivity]. exfalso. apply pair_mem_In in X, Y.
      destruct (pr_pairs _ _ PB _ _ X) as [X1|(XE & X1)], (pr_pairs _ _ PA _ _ Y) as [Y1|(YE & Y1)].
      + apply (DS a); apply NN; assumption.
      + subst a. now rewrite (iv_nodef _ _ VB) in X1.
      + subst a. now rewrite (iv_nodef _ _ V) in Y1.
      + apply (DD b); apply NN; assumption. }
  pose proof (read_lines_full delims dn (r_secs ra) (r_defs ra) (iv_nodef _ _ V) (h :: rest) start (start_inv dn)) as F. rewrite EB in F.
  destruct (proj2 (second_text s h rest ra V NA H) _ F ST) as (p & E & S).
  apply from_ok. exists p. split; [rewrite read_lines_app, EA; exact E|]. split; [rewrite (sn_err _ _ _ _ S); exact NB|].
  rewrite (seen_content _ _ _ _ S). unfold content, full. cbn [r_secs r_defs].
  assert (ME : merge (r_secs rb) (r_secs ra) = r_secs ra ++ r_secs rb).
  { apply merge_apart; [apply VB| |exact DS]. intros x o I. apply (iv_each _ _ VB x). apply In_dget; [apply VB|exact I]. }
  rewrite ME, (overlay_apart (r_defs rb) (r_defs ra) (iv_defs _ _ VB) DD). cbn [i_secs i_defs]. unfold join_opts. now rewrite !map_app.
Qed.

(** Blank lines and comments before the header. *)
Lemma begins_header lb : begins_section lb -> exists s h rest, header_line s h /\ same_layout (h :: rest) lb /\ forall la, same_layout (la ++ h :: rest) (la ++ lb).
Proof.
  induction 1 as [s l ls H|l ls F B IH].
  - exists s, l, ls. split; [exact H|]. split; [|intros la]; apply sl_refl.
  - destruct IH as (s & h & rest & H & L & LA).
    assert (SA : starts_afresh ls).
    { clear - B. induction B as [s l ls H|l ls F B IH]; [|now constructor]. destruct H as (_ & tl & -> & _). apply sa_line; [reflexivity|].
      intros (b & c & x & E & W & C). destruct b as [|d b]; injection E as E1 _; subst; [destruct C; discriminate|discriminate W]. }
    assert (X : forall la, same_layout (la ++ ls) (la ++ l :: ls)) by (intros la; destruct F; [now apply sl_blank|now apply sl_comment]).
    exists s, h, rest. split; [exact H|]. split; [apply sl_trans with ls; [exact L|apply (X [])]|]. intros la. apply sl_trans with (la ++ ls); [apply LA|apply X].
Qed.
Lemma split_from la lb i : begins_section lb -> rfrom (la ++ lb) = (Ok tt, i) ->
  exists ia ib, rfrom la = (Ok tt, ia) /\ rfrom lb = (Ok tt, ib) /\ i = merge_ini ib ia.
Proof.
  intros B. destruct (begins_header lb B) as (s & h & rest & H & L & LA).
  rewrite <- (layout_from delims dn _ _ (LA la)), <- (layout_from delims dn _ _ L). now apply (split_header s).
Qed.
Lemma join_from la lb ia ib : begins_section lb -> rfrom la = (Ok tt, ia) -> rfrom lb = (Ok tt, ib) ->
  (forall x, In x (ini_sections ib) -> ~ In x (ini_sections ia)) -> (forall k, In k (dkeys (i_defs ib)) -> ~ In k (dkeys (i_defs ia))) ->
  rfrom (la ++ lb) = (Ok tt, Ini (i_secs ia ++ i_secs ib) (i_defs ia ++ i_defs ib) dn).
Proof.
  intros B. destruct (begins_header lb B) as (s & h & rest & H & L & LA).
  rewrite <- (layout_from delims dn _ _ (LA la)), <- (layout_from delims dn _ _ L). now apply (join_header s).
Qed.

(** ** Any number of parts *)
Lemma reads_from t ls n : lines_of t ls -> (reads delims dn t n <-> rfrom ls = (Ok tt, n)).
Proof. intros L. unfold reads. rewrite (read_file_from _ _ _ _ L). reflexivity. Qed.
Lemma part_from ls n : part_reads delims dn ls n -> rfrom ls = (Ok tt, n).
Proof. intros (t & L & R). now apply (reads_from t ls n L). Qed.

Lemma NoDup_app_parts {A} (a b : list A) : NoDup (a ++ b) -> NoDup a /\ forall x, In x b -> ~ In x a.
Proof.
  induction a as [|y a IH]; cbn [app]; intros H; [split; [constructor|auto]|]. inversion H as [|? ? N H']; subst. destruct (IH H') as (X & Y).
  split; [constructor; [intros I; apply N, in_app_iff; now left|exact X]|]. intros x I [->|J]; [apply N, in_app_iff; now right|now apply (Y x)].
Qed.
Lemma sections_joined ns : ini_sections (joined dn ns) = flat_map ini_sections ns.
Proof. unfold ini_sections, joined. cbn [i_secs]. induction ns as [|n ns IH]; [reflexivity|]. cbn [flat_map]. rewrite <- IH. apply map_app. Qed.
Lemma defs_joined ns : dkeys (i_defs (joined dn ns)) = flat_map (fun n => dkeys (i_defs n)) ns.
Proof. unfold joined. cbn [i_defs]. induction ns as [|n ns IH]; [reflexivity|]. cbn [flat_map]. rewrite <- IH. apply map_app. Qed.

Theorem parts_joined parts ns t : Forall2 (part_reads delims dn) parts ns -> Forall begins_section parts -> apart ns -> lines_of t (concat parts) ->
  reads delims dn t (joined dn ns).
Proof.
  intros F B AP L. apply (reads_from t _ _ L). clear t L. revert ns F AP. induction parts as [|p parts IH] using rev_ind; intros ns F AP.
  - inversion F; subst. reflexivity.
  - apply Forall2_app_inv_l in F as (ns1 & ns2 & F1 & F2 & ->). inversion F2 as [|? n ? ? R F3]; subst. inversion F3; subst. clear F2 F3.
    apply Forall_app in B as (B1 & B2). inversion B2 as [|? ? BP _]; subst. destruct AP as (A1 & A2).
    rewrite flat_map_app in A1, A2. cbn [flat_map] in A1, A2. rewrite app_nil_r in A1, A2.
    destruct (NoDup_app_parts _ _ A1) as (A1' & D1), (NoDup_app_parts _ _ A2) as (A2' & D2).
    rewrite concat_app. cbn [concat]. rewrite app_nil_r.
    rewrite (join_from (concat parts) p (joined dn ns1) n BP (IH B1 ns1 F1 (conj A1' A2')) (part_from _ _ R)).
    + unfold joined. rewrite !flat_map_app. cbn [flat_map]. now rewrite !app_nil_r.
    + now rewrite sections_joined.
    + now rewrite defs_joined.
Qed.

Lemma read_files_app ts t i i1 : read_files delims ts i = (Ok tt, i1) -> read_files delims (ts ++ [t]) i = read_file delims t i1.
Proof.
  revert i. induction ts as [|x ts IH]; intros i; cbn [app read_files].
  - intros E. injection E as ->. destruct (read_file delims t i1) as [[[]|e] i']; reflexivity.
  - destruct (read_file delims x i) as [[[]|e] i']; [apply IH|discriminate].
Qed.
Theorem parts_split first rest ts t i : Forall begins_section rest -> Forall2 lines_of ts (first :: rest) -> lines_of t (concat (first :: rest)) ->
  reads delims dn t i -> read_files delims ts (empty_ini dn) = (Ok tt, i).
Proof.
  intros B F L R. apply (reads_from t _ _ L) in R. clear t L. revert ts i F R B.
  induction rest as [|p rest IH] using rev_ind; intros ts i F R B.
  - cbn [concat] in R. rewrite app_nil_r in R. inversion F as [|t0 ? ? ? L F']; subst. inversion F'; subst. cbn [read_files].
    apply (reads_from t0 _ _ L) in R. unfold reads in R. rewrite R. reflexivity.
  - change (first :: rest ++ [p]) with ((first :: rest) ++ [p]) in *. apply Forall2_app_inv_r in F as (ts1 & ts2 & F1 & F2 & ->).
    inversion F2 as [|tp ? ? ? LP F3]; subst. inversion F3; subst. clear F2 F3. apply Forall_app in B as (B1 & B2). inversion B2 as [|? ? BP _]; subst.
    rewrite concat_app in R. cbn [concat] in R. rewrite app_nil_r in R.
    destruct (split_from (first ++ concat rest) p i BP R) as (ia & ib & RA & RB & ->).
    rewrite (read_files_app ts1 tp _ ia (IH ts1 ia F1 RA B1)).
    assert (NT : neat ia /\ i_defname ia = dn).
    { apply from_ok in RA as (r & E & _ & ->). split; [|reflexivity]. apply content_neat. exact (read_lines_inv _ _ _ _ _ (start_inv dn) E). }
    destruct NT as (NT & DN). pose proof (read_file_merge delims tp ia (neat_well_formed _ NT)) as M. rewrite DN in M.
    apply (reads_from tp _ _ LP) in RB. unfold reads in RB. rewrite RB in M. exact M.
Qed.

(** ** Moving parts *)
Lemma Permutation_parts (P : list str -> ini -> Prop) l l' : Permutation l l' -> forall ns, Forall2 P l ns -> exists ns', Forall2 P l' ns' /\ Permutation ns ns'.
Proof.
  induction 1 as [|x l l' _ IH|x y l|l l' l'' _ IH1 _ IH2]; intros ns F.
  - inversion F; subst. exists []. auto.
  - inversion F as [|? n ? ns0 X F']; subst. destruct (IH ns0 F') as (ns' & G & Q). exists (n :: ns'). auto.
  - inversion F as [|? n ? ns0 X F']; subst. inversion F' as [|? m ? ns1 Y F'']; subst. exists (m :: n :: ns1). split; [auto|apply perm_swap].
  - destruct (IH1 ns F) as (n1 & G1 & Q1). destruct (IH2 n1 G1) as (n2 & G2 & Q2). exists n2. split; [exact G2|eapply perm_trans; eauto].
Qed.
Lemma Permutation_flat_map {A B} (f : A -> list B) l l' : Permutation l l' -> Permutation (flat_map f l) (flat_map f l').
Proof.
  induction 1 as [|x l l' _ IH|x y l|l l' l'' _ IH1 _ IH2]; cbn [flat_map]; auto.
  - now apply Permutation_app_head.
  - rewrite !app_assoc. apply Permutation_app_tail, Permutation_app_comm.
  - eapply perm_trans; eauto.
Qed.
Lemma one_defs d l l' : Permutation l l' -> (forall m, In m l -> i_defs m = [] \/ i_defs m = d) -> NoDup (flat_map (fun n => dkeys (i_defs n)) l) ->
  flat_map i_defs l = flat_map i_defs l'.
Proof.
  induction 1 as [|x l l' _ IH|x y l|l l' l'' P1 IH1 P2 IH2]; cbn [flat_map]; intros H ND; auto.
  - f_equal. apply IH; [auto with datatypes|]. clear - ND. induction (dkeys (i_defs x)) as [|k ks IH]; [exact ND|]. inversion ND; subst. auto.
  - destruct (H x) as [X|X]; [now right; left|rewrite X; reflexivity|]. destruct (H y) as [Y|Y]; [now left|rewrite Y; reflexivity|]. now rewrite X, Y.
  - rewrite IH1 by assumption. apply IH2; [intros m I; apply H; eapply Permutation_in; [apply Permutation_sym; exact P1|exact I]|].
    eapply Permutation_NoDup; [apply Permutation_flat_map; exact P1|exact ND].
Qed.
Theorem parts_moved parts parts' ns t t' : Forall2 (part_reads delims dn) parts ns -> Forall begins_section parts -> apart ns -> Permutation parts parts' ->
  lines_of t (concat parts) -> lines_of t' (concat parts') ->
  exists i i', reads delims dn t i /\ reads delims dn t' i' /\ Permutation (i_secs i) (i_secs i') /\ Permutation (i_defs i) (i_defs i') /\
    NoDup (ini_sections i) /\ i_defname i = dn /\ i_defname i' = dn /\
    (forall d, (forall m, In m ns -> i_defs m = [] \/ i_defs m = d) -> i_defs i = i_defs i').
Proof.
  intros F B (A1 & A2) P L L'. destruct (Permutation_parts _ _ _ P ns F) as (ns' & F' & Q).
  assert (AP' : apart ns').
  { split; [apply (Permutation_NoDup (Permutation_flat_map _ _ _ Q)), A1|apply (Permutation_NoDup (Permutation_flat_map _ _ _ Q)), A2]. }
  assert (B' : Forall begins_section parts') by (eapply Permutation_Forall; eauto).
  exists (joined dn ns), (joined dn ns'). split; [exact (parts_joined _ _ _ F B (conj A1 A2) L)|]. split; [exact (parts_joined _ _ _ F' B' AP' L')|].
  split; [now apply Permutation_flat_map|]. split; [now apply Permutation_flat_map|]. split; [now rewrite sections_joined|].
  split; [reflexivity|]. split; [reflexivity|]. intros d O. cbn [joined i_defs].
  now apply (one_defs d).
Qed.
End Join.

Theorem parts_files delims dn parts ns : Forall2 (part_reads delims dn) parts ns -> Forall begins_section parts -> apart ns ->
  (forall t, lines_of t (concat parts) -> reads delims dn t (joined dn ns)) /\
  (forall ts, Forall2 lines_of ts parts -> read_files delims ts (empty_ini dn) = (Ok tt, joined dn ns)).
Proof.
  intros F B AP. split; [intros t; now apply parts_joined|]. intros ts L.
  destruct parts as [|p parts]; [inversion L; subst; inversion F; subst; reflexivity|].
  assert (NN : Forall no_newline (concat (p :: parts))).
  { apply Forall_concat. clear - L. induction L as [|t ls ts0 parts0 H _ IH]; constructor; [|exact IH]. clear - H. induction H; auto. }
  inversion B; subst. eapply parts_split with (t := SpecRead.text_of (concat (p :: parts))); [eassumption|exact L|now apply lines_text_of|].
  apply (parts_joined delims dn (p :: parts)); auto. now apply lines_text_of.
Qed.
