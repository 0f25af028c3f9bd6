(** * The file written by [unroll_to_str] stands for the same data. *)
From Coq Require Import String NArith ZArith Arith List Bool Lia.
Import ListNotations.
From Verif Require Import PyBase PyFacts Shlex IniView IniRead ExcControl Cpe SpecText SpecFile SpecShell ShellProofs FileProofs SpecWalk MeaningProofs SpecRun SpecParse SpecApi
  SpecRead SpecValue SpecUnroll Refine RefineRoot RefineOk RunProofs WalkProofs ParseProofs ParseProofs2 ApiProofs ApiProofs2
  ApiProofs5 Samples
  ReadProofs2 ReadProofs4 ReadProofs6 ValueProofs UnrollProofs.

(** ** Dicts written twice *)
Lemma first_keys_sub (f : str -> bool) l : first_keys (filter f l) = filter f (first_keys l).
Proof.
  induction l as [|x l IH]; cbn [filter first_keys]; auto. destruct (f x) eqn:E.
  - cbn [first_keys]. rewrite IH. f_equal. rewrite !filter_filter. apply filter_ext. intros y. apply andb_comm.
  - rewrite IH. rewrite filter_filter. apply filter_ext. intros y. destruct (str_eqb_spec y x) as [->|]; [now rewrite E|].
    cbn. now rewrite andb_true_r.
Qed.
Lemma first_keys_twice l : first_keys (first_keys l) = first_keys l.
Proof.
  induction l as [|x l IH]; cbn [first_keys]; auto. rewrite first_keys_sub, IH, filter_filter. f_equal.
  apply filter_ext. intros y. now destruct (negb (str_eqb y x)).
Qed.
Lemma first_keys_NoDup' l : NoDup (first_keys l).
Proof.
  induction l as [|x l IH]; cbn [first_keys]; constructor.
  - intros H. apply filter_In in H as [_ H]. now rewrite str_eqb_refl in H.
  - now apply NoDup_filter.
Qed.
Lemma keys_write_new l : dkeys (write_all l []) = first_keys (map fst l).
Proof.
  rewrite dkeys_write_all. cbn [dkeys map app]. clear. induction (first_keys (map fst l)) as [|x r IH]; auto.
  cbn [filter str_mem existsb negb]. f_equal. exact IH.
Qed.
Lemma write_new_NoDup l : NoDup (dkeys (write_all l [])).
Proof. rewrite keys_write_new. apply first_keys_NoDup'. Qed.
Lemma NoDup_write_all l d : NoDup (dkeys d) -> NoDup (dkeys (write_all l d)).
Proof.
  revert d. unfold write_all. induction l as [|[k v] l IH]; intros d N; auto. cbn [fold_left fst snd]. apply IH. now apply NoDup_dkeys_dset.
Qed.
Lemma dget_In_NoDup {A} k (v : A) d : In (k, v) d -> NoDup (dkeys d) -> dget k d = Some v.
Proof.
  induction d as [|[k' v'] d IH]; [intros []|]. cbn [dkeys map fst dget]. intros [E|I] N; inversion N as [|? ? NI ND]; subst.
  - injection E as -> ->. now rewrite str_eqb_refl.
  - destruct (str_eqb_spec k k') as [->|]; [|auto]. exfalso. apply NI. now apply (in_map fst) in I.
Qed.
Lemma last_value_dict k d : NoDup (dkeys d) -> last_value k d = dget k d.
Proof.
  induction d as [|[k' v] d IH]; [reflexivity|]. cbn [dkeys map fst]. intros N. inversion N as [|? ? NI ND]; subst.
  rewrite last_value_cons. rewrite IH by auto. cbn [dget]. destruct (str_eqb_spec k k') as [->|NE].
  - rewrite str_eqb_refl. destruct (dget k' d) eqn:E; auto. exfalso. apply NI. apply dget_Some_In in E. now apply (in_map fst) in E.
  - destruct (dget k d); auto. destruct (str_eqb_spec k' k); congruence.
Qed.
Lemma write_again l d : NoDup (dkeys d) -> write_all (write_all l []) d = write_all l d.
Proof.
  intros N. apply dict_ext.
  - now apply NoDup_write_all.
  - rewrite !dkeys_write_all. f_equal. f_equal. change (map fst (write_all l [])) with (dkeys (write_all l [])).
    rewrite keys_write_new. apply first_keys_twice.
  - intros k. rewrite !dget_write_all. rewrite (last_value_dict k (write_all l [])) by apply write_new_NoDup.
    rewrite dget_write_all. cbn [dget]. now destruct (last_value k l).
Qed.

Section P.
Context {Sh Us : Type} (K : pyclass Sh Us) (i : ini) (dname : str).
Variable delims : list str.
Variable dn : str.
Variable l : dict options.
Hypothesis SEC : map fst l = ini_sections i.
Hypothesis EXP : Forall (fun sd => expansion K i dname (fst sd) (snd sd)) l.
Hypothesis PLA : Forall (plain_section delims) l.
Hypothesis AP : all_parsable K i dname.
Hypothesis NDS : NoDup (ini_sections i).
Hypothesis ND : ~ In dn (dkeys l).
Definition i' : ini := Ini l [] dn.

Lemma has_same s : ini_has_section i' s = ini_has_section i s.
Proof.
  unfold ini_has_section. cbn [i' i_secs]. apply eq_true_iff_eq. rewrite !dmem_keys. unfold dkeys at 1. rewrite SEC. reflexivity.
Qed.

Lemma l_get s : ini_has_section i s = true -> exists d, In (s, d) l /\ dget s l = Some d /\ expansion K i dname s d /\
  Forall (plain_option delims) d /\ s <> dn.
Proof.
  intros H. rewrite <- has_same in H. unfold ini_has_section, dmem in H. cbn [i' i_secs] in H.
  destruct (dget s l) as [d|] eqn:E; [|discriminate]. pose proof (dget_Some_In _ _ _ E) as I. exists d. split; auto. split; auto.
  rewrite Forall_forall in EXP, PLA. split; [apply (EXP (s, d) I)|]. split; [apply (PLA (s, d) I)|].
  intros ->. apply ND. now apply (in_map fst) in I.
Qed.

(** Every option of the new file is a plain one and reads as it is. *)
Lemma clean_plain x v0 : edge_ok x -> Some x = clean_value v0 -> clean_value (Some x) = Some x.
Proof.
  intros E H. destruct v0 as [y|]; [|discriminate]. cbn [clean_value option_map] in *. f_equal.
  rewrite (ReadProofs3.strip_edge x E). injection H as ->. unfold strip_dquote. now rewrite strip_idem.
Qed.
Lemma plain_again t k v w ps : strip_ws k = k -> clean_value v = v -> shlex_split k = Ok (w :: ps) ->
  (op_word K w = false -> meaning K t (k, Ok v) (MStep (SpecWalk.Plain t None k v))) /\
  (op_word K w = true -> handler_of K (undash w) None -> meaning K t (k, Ok v) (MStep (SpecWalk.Plain t (Some (undash w, ps)) k v))).
Proof.
  intros SK CV S. split.
  - intros OW. pose proof (c_noword K t k v w ps) as M. rewrite SK, CV in M. apply meaning_iff. auto.
  - intros OW HO. pose proof (c_plain K t k v w ps) as M. rewrite SK, CV in M. apply meaning_iff. auto.
Qed.
Lemma option_plain s d k v : ini_has_section i s = true -> expansion K i dname s d -> In (k, v) d -> plain_option delims (k, v) ->
  forall t, exists w, meaning K t (k, Ok v) (MStep (SpecWalk.Plain t w k v)).
Proof.
  intros H (evs & n & W & ->) IN (x & E & _ & _ & _ & EX & _) t. cbn [snd] in E. subst v.
  assert (IP : In (k, Some x) (plains evs)).
  { assert (G : dget k (write_all (plains evs) []) = Some (Some x)) by (apply dget_In_NoDup; auto using write_new_NoDup).
    rewrite dget_write_all in G. destruct (last_value k (plains evs)) eqn:LV; [|discriminate]. injection G as ->.
    now apply last_value_In in LV. }
  unfold plains in IP. apply in_flat_map in IP as (e & IE & IP).
  destruct e as [| | |u wd k1 v1| | | | | |]; try destruct IP as []; [|contradiction].
  injection H0 as -> ->.
  destruct (parse_walk_origin K i _ _ _ _ _ _ _ W IE) as [(nm & X)|O]; [discriminate|].
  assert (Y : item_of K i u (MStep (SpecWalk.Plain u wd k (Some x)))) by (destruct O as [[_ O]|(_ & _ & _ & O)]; exact O).
  destruct Y as (items & [k0 r] & _ & _ & M).
  apply meaning_iff in M. inversion M as [| | |k2 v2 w ps S OW E1 E2|k2 v2 w ps S OW HO E1 E2| | | |]; subst.
  - exists None. match goal with X : clean_value v2 = Some x |- _ => pose proof (clean_plain x v2 EX (eq_sym X)) as CP;
      rewrite ?X end.
    apply (proj1 (plain_again t (strip_ws k0) (Some x) w ps (strip_idem _ _) CP S) OW).
  - exists (Some (undash w, ps)). match goal with X : clean_value v2 = Some x |- _ => pose proof (clean_plain x v2 EX (eq_sym X)) as CP;
      rewrite ?X end.
    apply (proj2 (plain_again t (strip_ws k0) (Some x) w ps (strip_idem _ _) CP S) OW HO).
Qed.

Lemma new_items s d : dget s l = Some d -> s <> dn -> Forall (plain_option delims) d ->
  ini_items i' s = Some (map (fun kv => (fst kv, Ok (snd kv))) d).
Proof.
  intros G N P. unfold ini_items, own_options. cbn [i' i_defname i_secs]. apply str_eqb_neq in N. rewrite N, G. f_equal.
  unfold section_raw. cbn [i' i_defs filter]. rewrite app_nil_r. apply map_ext_in. intros [k v] IN. f_equal. cbn [fst snd].
  rewrite Forall_forall in P. destruct (P _ IN) as (x & E & _ & _ & _ & _ & NP). cbn [snd] in E. subst v. unfold ini_get.
  rewrite (proj2 (interp_expands _ max_interpolation_depth x x)); auto. now apply expands_plain.
Qed.

Lemma flat_options path s d : (forall k v, In (k, v) d -> exists w, meaning K s (k, Ok v) (MStep (SpecWalk.Plain s w k v))) ->
  exists evs, walk_options K i' path s (map (fun kv => (fst kv, Ok (snd kv))) d) evs 0 /\ plains evs = d.
Proof.
  induction d as [|[k v] d IH]; intros M.
  - exists []. split; [constructor|reflexivity].
  - destruct IH as (evs & W & P); [intros; apply M; now right|]. destruct (M k v) as (w & MK); [now left|].
    exists (SpecWalk.Plain s w k v :: evs). cbn [map fst snd]. split; [now constructor|]. cbn [plains flat_map plain_of app].
    f_equal. exact P.
Qed.

Lemma new_section s : ini_has_section i s = true -> exists d evs, dget s l = Some d /\ expansion K i dname s d /\
  ini_items i' s = Some (map (fun kv => (fst kv, Ok (snd kv))) d) /\
  (forall path, exists evs', walk_options K i' path s (map (fun kv => (fst kv, Ok (snd kv))) d) evs' 0 /\ plains evs' = d) /\
  walk K i' [] s evs 1 /\ plains evs = d.
Proof.
  intros H. destruct (l_get s H) as (d & IN & G & X & PO & NE). pose proof (new_items s d G NE PO) as NI.
  assert (FO : forall path, exists evs', walk_options K i' path s (map (fun kv => (fst kv, Ok (snd kv))) d) evs' 0 /\ plains evs' = d).
  { intros path. apply flat_options. intros k v I. rewrite Forall_forall in PO. eapply option_plain; eauto. }
  destruct (FO [s]) as (evs & W & P). exists d, (Enter s :: evs ++ [Leave s]). split; auto. split; auto. split; auto. split; auto.
  split; [econstructor; eauto|]. unfold plains in *. cbn [flat_map plain_of app]. rewrite flat_map_app. cbn. now rewrite app_nil_r.
Qed.

Lemma own_no_uses s t : ~ uses K i' s t.
Proof.
  intros (items & item & h & k & v & HI & IN & M). apply shows_iff in HI. destruct (ini_has_section i s) eqn:HS.
  - destruct (new_section s HS) as (d & evs & G & X & NI & _ & _ & _). rewrite NI in HI. injection HI as <-.
    apply in_map_iff in IN as ([k1 v1] & <- & I1). cbn [fst snd] in M.
    destruct (l_get s HS) as (d' & IN' & G' & X' & PO & NE). assert (d' = d) by congruence. subst d'.
    rewrite Forall_forall in PO. destruct (option_plain s d k1 v1 HS X I1 (PO _ I1) s) as (w & M').
    pose proof (meaning_fun K _ _ _ _ M M'). discriminate.
  - rewrite <- has_same in HS. unfold ini_items, own_options in HI. cbn [i' i_defname i_secs] in HI.
    unfold ini_has_section, dmem in HS. cbn [i' i_secs] in HS. destruct (str_eqb s dn).
    + injection HI as <-. destruct IN.
    + destruct (dget s l); discriminate.
Qed.
Lemma own_reaches s t : reaches K i' s t -> t = s.
Proof. intros R. inversion R; subst; auto. exfalso. eapply own_no_uses; eauto. Qed.

Lemma new_clean s : ini_has_section i s = true -> clean_section K i' s.
Proof.
  intros HS. destruct (new_section s HS) as (d & evs & G & X & NI & _ & _ & _). eexists. split; [apply shows_iff, NI|].
  intros item r IN M. apply in_map_iff in IN as ([k1 v1] & <- & I1). cbn [fst snd] in M.
  destruct (l_get s HS) as (d' & IN' & G' & X' & PO & NE). assert (d' = d) by congruence. subst d'.
  rewrite Forall_forall in PO. destruct (option_plain s d k1 v1 HS X I1 (PO _ I1) s) as (w & M').
  pose proof (meaning_fun K _ _ _ _ M M'). discriminate.
Qed.

Theorem new_parsable : all_parsable K i' dname.
Proof.
  intros s H. pose proof H as H'. rewrite has_same in H'. destruct (AP s H') as (NE & _ & _ & _). split; auto. split; auto. split.
  - intros _ _ N R. apply own_reaches in R. congruence.
  - intros t C. apply new_clean. destruct C as [R|(_ & D & R)]; apply own_reaches in R; subst; auto. now rewrite <- has_same.
Qed.
Theorem new_acyclic s : acyclic K i' dname s.
Proof. intros t _ (u & U & _). eapply own_no_uses; eauto. Qed.

(** ** The same data *)
Theorem new_expansion s d : ini_has_section i s = true -> expansion K i dname s d -> expansion K i' dname s d.
Proof.
  intros HS X. destruct (new_section s HS) as (d0 & evs & G & X0 & NI & FO & _).
  assert (d0 = d) by (eapply expansion_unique; eauto). subst d0. destruct (FO [s]) as (evs1 & W1 & P1).
  destruct X as (evo & no & WO & ED).
  assert (IT : ini_items i s <> None).
  { unfold ini_items, own_options. destruct (str_eqb s (i_defname i)); [discriminate|].
    unfold ini_has_section, dmem in HS. now destruct (dget s (i_secs i)). }
  destruct (parse_walk_parts K i _ _ _ _ _ _ WO IT) as (e0 & n0 & e1 & n1 & D0 & V1 & PL & _).
  cbn [default_walk] in D0. destruct (ini_has_section i dname) eqn:HD.
  - destruct (new_section dname HD) as (dd & evd & GD & XD & _ & _ & WD & PD).
    eexists. eexists. split.
    + eapply pw_section with (evs0 := evd) (n0 := 1); [|apply shows_iff, NI|exact W1]. unfold default_walk. now rewrite has_same, HD.
    + unfold plains. rewrite !flat_map_app. cbn [flat_map plain_of app]. rewrite flat_map_app. cbn [flat_map plain_of app].
      rewrite app_nil_r. fold (plains evd) (plains evs1). rewrite PD, P1, write_all_app.
      rewrite ED. rewrite PL. unfold default_walk in D0. rewrite HD in D0.
      destruct XD as (evq & nq & WQ & EQ).
      assert (ITD : ini_items i dname <> None).
      { unfold ini_items, own_options. destruct (str_eqb dname (i_defname i)); [discriminate|].
        unfold ini_has_section, dmem in HD. now destruct (dget dname (i_secs i)). }
      destruct (parse_walk_parts K i _ _ _ _ _ _ WQ ITD) as (e2 & n2 & e3 & n3 & D2 & V3 & PL2 & _).
      cbn [default_walk] in D2. unfold default_walk in D2. rewrite HD in D2.
      destruct (walk_unique K i) as [U _]. destruct (U _ _ _ _ D0 _ _ D2) as [E02 _]. destruct (U _ _ _ _ D0 _ _ V3) as [E03 _].
      subst e2 e3. rewrite EQ, PL2.
      assert (E1 : write_all (plains e0 ++ plains e0) [] = write_all (plains e0) [])
        by (rewrite write_all_app; apply write_all_idem).
      rewrite E1. rewrite (write_again (plains e0) []) by constructor.
      rewrite (write_again (plains e0 ++ plains e1) (write_all (plains e0) [])) by apply write_new_NoDup.
      rewrite !write_all_app. now rewrite write_all_idem.
  - eexists. eexists. split.
    + eapply pw_section with (evs0 := []) (n0 := 0); [|apply shows_iff, NI|exact W1]. unfold default_walk. now rewrite has_same, HD.
    + unfold plains. rewrite !flat_map_app. cbn [flat_map plain_of app]. rewrite flat_map_app. cbn [flat_map plain_of app].
      rewrite app_nil_r. fold (plains evs1). rewrite P1. rewrite ED at 1. rewrite ED. rewrite write_again by constructor. reflexivity.
Qed.
Theorem new_expansion_iff s d : ini_has_section i s = true -> (expansion K i' dname s d <-> expansion K i dname s d).
Proof.
  intros HS. split; [|now apply new_expansion]. intros X. destruct (expansion_exists K i dname s) as (d' & X').
  rewrite (expansion_unique K i' dname _ _ _ X (new_expansion s d' HS X')). exact X'.
Qed.
End P.

(** ** Objects *)
Section R.
Context {Sh Us : Type} (K : pyclass Sh Us) (i : ini) (dname : str) (delims : list str) (dn : str).
Notation obj := (obj Sh Us).
Hypothesis WB : well_behaved K.
Hypothesis AP : all_parsable K i dname.
Hypothesis NDS : NoDup (ini_sections i).
Hypothesis GD : good_delims delims.
Hypothesis CO : In [58%N] delims.
Hypothesis ND : ~ In dn (ini_sections i).
Hypothesis PLAIN : forall s d, ini_has_section i s = true -> expansion K i dname s d -> plain_section delims (s, d).

Lemma has_In s : ini_has_section i s = true <-> In s (ini_sections i).
Proof. unfold ini_has_section. rewrite dmem_keys. reflexivity. Qed.

Theorem reread lvl (b : bool) t fs' p (o' : obj) :
  answers K i dname lvl (OUnroll None b) (Ok (RText t)) ->
  fs' p = Some t -> o_files o' = Some [p] -> o_cpd o' = None -> o_edata o' = None ->
  o_delims o' = delims -> o_intname o' = dn -> o_defname o' = dname -> level_ok o' ->
  exists j, opened K fs' j dname o' /\ ini_sections j = ini_sections i /\ all_parsable K j dname /\
    (forall s, acyclic K j dname s) /\
    forall s d, ini_has_section i s = true -> (expansion K j dname s d <-> expansion K i dname s d).
Proof.
  intros A FP OF OC OE OD OI ON L. inversion A as [| | | | | | | | | | | | | | | | | | | | | | |l b' SEC EXP E1 E2| | | |]; subst b'.
  subst t.
  assert (ES : forall s, In s (map fst l) -> ini_has_section i s = true) by (intros s I; apply has_In; congruence).
  assert (PLA : Forall (plain_section delims) l).
  { rewrite Forall_forall in EXP |- *. intros [s d] I. apply PLAIN; [apply ES; now apply (in_map fst) in I|apply (EXP _ I)]. }
  assert (NDL : ~ In dn (dkeys l)) by (intros X; apply ND; rewrite <- SEC; exact X).
  assert (NDK : NoDup (dkeys l)) by (pose proof NDS as X; rewrite <- SEC in X; exact X).
  assert (ND2 : Forall (fun so : str * options => NoDup (dkeys (snd so))) l).
  { rewrite Forall_forall in EXP |- *. intros [s d] I. destruct (EXP _ I) as (evs & n & _ & EQ). cbn [fst snd] in *.
    rewrite EQ. apply write_new_NoDup. }
  assert (RF : read_file delims (strip_ws (unrolled (if b then $" : " else $":") l) ++ newline) (empty_ini dn) =
    (Ok tt, Ini l [] dn)).
  { apply unrolled_reads; auto; destruct b; auto. }
  exists (Ini l [] dn).
  split; [constructor|].
  - unfold has_file. rewrite (access_files fs' o' [p] [strip_ws (unrolled (if b then $" : " else $":") l) ++ newline]); auto.
    + rewrite OD, OI. cbn [read_files]. rewrite RF. reflexivity.
    + discriminate.
    + constructor; [auto|constructor].
  - unfold path_set_of. now rewrite OF.
  - auto.
  - right. intros s _. apply (new_acyclic K i dname delims dn l SEC EXP PLA NDL).
  - auto.
  - auto.
  - split; [exact SEC|]. split; [exact (new_parsable K i dname delims dn l SEC EXP PLA AP NDL)|]. split.
    + intros s. apply (new_acyclic K i dname delims dn l SEC EXP PLA NDL).
    + intros s d HS. apply (new_expansion_iff K i dname delims dn l SEC EXP PLA NDL); auto.
Qed.

Lemma in_file_same j c : ini_sections j = ini_sections i -> (forall s, acyclic K j dname s) ->
  in_file K i dname c -> in_file K j dname c.
Proof.
  intros E AC. assert (H : forall s, ini_has_section j s = ini_has_section i s).
  { intros s. unfold ini_has_section. apply eq_true_iff_eq. rewrite !dmem_keys. unfold ini_sections in E. now rewrite E. }
  destruct c as [| | | | | | | | | | | | | |[]| | |]; cbn [in_file]; rewrite ?H; auto.
Qed.

Lemma same_shown lvl lvl' j c r r' : ini_sections j = ini_sections i ->
  (forall s d, ini_has_section i s = true -> (expansion K j dname s d <-> expansion K i dname s d)) ->
  shows c -> in_file K i dname c ->
  answers K i dname lvl c r -> answers K j dname lvl' c r' -> r = r'.
Proof.
  intros E X S IF A B. assert (TR : answers K i dname lvl c r').
  { destruct c as [| | | | | | | | | | | | | |[s|] b| | |]; try destruct S; cbn [in_file] in IF;
      inversion B; subst; rewrite ?E; try (constructor; fail);
      try (econstructor; try apply X; eauto; fail).
    - constructor; [congruence|]. match goal with F : Forall _ ?l, M : map fst ?l = ini_sections j |- _ =>
        rewrite Forall_forall in F |- *; intros sd I; apply X; [|auto]; apply has_In; rewrite <- E, <- M; now apply in_map end. }
  pose proof (answers_unique K i dname _ (Nat.le_refl _) lvl c r _ A TR) as Q. destruct c; try destruct S; exact Q.
Qed.
End R.

Section F.
Context {Sh Us : Type} (K : pyclass Sh Us) (fs : str -> option str) (i : ini) (dname : str) (fuel : nat).
Notation obj := (obj Sh Us).

Theorem text_round_trip lvl delims dn h (b : bool) (o : obj) t fs' fuel' p (o' : obj) h' c :
  well_behaved K -> all_parsable K i dname -> NoDup (ini_sections i) ->
  length (ini_sections i) + 3 <= fuel -> length (ini_sections i) + 3 <= fuel' ->
  good_delims delims -> In [58%N] delims -> ~ In dn (ini_sections i) ->
  (forall s d, ini_has_section i s = true -> expansion K i dname s d -> plain_section delims (s, d)) ->
  opened K fs i dname o -> Forall (in_file K i dname) h ->
  answers K i dname lvl (OUnroll None b) (Ok (RText t)) ->
  fs' p = Some t -> o_files o' = Some [p] -> o_cpd o' = None -> o_edata o' = None ->
  o_delims o' = delims -> o_intname o' = dn -> o_defname o' = dname -> level_ok o' ->
  Forall (in_file K i dname) h' -> shows c -> in_file K i dname c ->
  fst (exec_op K fs' fuel' c (after K fs' fuel' h' o')) = fst (exec_op K fs fuel c (after K fs fuel h o)).
Proof.
  intros WB AP NDS F F' GD CO ND PL O FA A FP OF OC OE OD OI ON L FA' S IF.
  destruct (reread K i dname delims dn AP NDS GD CO ND PL _ b t fs' p o' A FP OF OC OE OD OI ON L)
    as (j & OJ & SJ & PJ & AJ & XJ).
  assert (FJ : length (ini_sections j) + 3 <= fuel') by now rewrite SJ.
  assert (FH : Forall (in_file K j dname) h').
  { rewrite Forall_forall in FA' |- *. intros x I. apply (in_file_same K i dname j x SJ AJ). auto. }
  pose proof (history_answers K fs' j dname fuel' WB FJ PJ h' c o' OJ FH (in_file_same K i dname j c SJ AJ IF)) as B.
  pose proof (history_answers K fs i dname fuel WB F AP h c o O FA IF) as A0.
  symmetry. exact (same_shown K i dname _ _ j c _ _ SJ XJ S IF A0 B).
Qed.

Theorem round_trip delims dn h (b : bool) (o : obj) t fs' fuel' p (o' : obj) h' c :
  well_behaved K -> all_parsable K i dname -> NoDup (ini_sections i) ->
  length (ini_sections i) + 3 <= fuel -> length (ini_sections i) + 3 <= fuel' ->
  good_delims delims -> In [58%N] delims -> ~ In dn (ini_sections i) ->
  (forall s d, ini_has_section i s = true -> expansion K i dname s d -> plain_section delims (s, d)) ->
  opened K fs i dname o -> Forall (in_file K i dname) h ->
  fst (unroll_to_str K fs fuel None b false (after K fs fuel h o)) = Ok t ->
  fs' p = Some t -> o_files o' = Some [p] -> o_cpd o' = None -> o_edata o' = None ->
  o_delims o' = delims -> o_intname o' = dn -> o_defname o' = dname -> level_ok o' ->
  Forall (in_file K i dname) h' -> shows c -> in_file K i dname c ->
  fst (exec_op K fs' fuel' c (after K fs' fuel' h' o')) = fst (exec_op K fs fuel c (after K fs fuel h o)).
Proof.
  intros WB AP NDS F F' GD CO ND PL O FA U FP OF OC OE OD OI ON L FA' S IF.
  pose proof (history_answers K fs i dname fuel WB F AP h (OUnroll None b) o O FA Logic.I) as A.
  cbn [exec_op] in A. unfold fmap in A. rewrite Trace.bind_eq in A.
  destruct (unroll_to_str K fs fuel None b false (after K fs fuel h o)) as [[t1|] o1]; [|discriminate]. cbn in U, A.
  injection U as ->. eapply text_round_trip; eauto.
Qed.
End F.

(** Unrolling with the base class, for an object of any class [K0]. *)
Theorem base_round_trip {Sh0 Us0} (K0 : pyclass Sh0 Us0) (o0 : obj Sh0 Us0) fs i fuel fl
  delims dn h (b : bool) t fs' fuel' p (o' : obj unit unit) h' c :
  let B := base_class (k_uniword K0) in
  let o := set_files (Some fl) (new_obj tt) in
  all_parsable B i $"DEFAULT" -> NoDup (ini_sections i) ->
  length (ini_sections i) + 3 <= fuel -> length (ini_sections i) + 3 <= fuel' ->
  good_delims delims -> In [58%N] delims -> ~ In dn (ini_sections i) ->
  (forall s d, ini_has_section i s = true -> expansion B i $"DEFAULT" s d -> plain_section delims (s, d)) ->
  o_files o0 = Some fl -> has_file fs o i -> Forall (in_file B i $"DEFAULT") h ->
  fst (unroll_to_str K0 fs fuel None b true o0) = Ok t ->
  fs' p = Some t -> o_files o' = Some [p] -> o_cpd o' = None -> o_edata o' = None ->
  o_delims o' = delims -> o_intname o' = dn -> o_defname o' = $"DEFAULT" -> level_ok o' ->
  Forall (in_file B i $"DEFAULT") h' -> shows c -> in_file B i $"DEFAULT" c ->
  fst (exec_op B fs' fuel' c (after B fs' fuel' h' o')) = fst (exec_op B fs fuel c (after B fs fuel h o)).
Proof.
  intros B o AP NDS F F' GD CO ND PL OF0 HF FA U FP OF OC OE OD OI ON L FA' S IF.
  destruct (unroll_base_text K0 fs fuel i None b fl o0 OF0 HF AP Logic.I F) as (t1 & E & A).
  rewrite U in E. injection E as <-.
  eapply text_round_trip; try eassumption; try reflexivity.
  - apply base_well_behaved.
  - constructor; auto.
    + split; vm_compute; discriminate.
    + left. vm_compute. reflexivity.
Qed.
