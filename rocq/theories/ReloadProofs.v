(** * Proofs of C14: changing [inifilepath]. *)
From Coq Require Import String NArith ZArith List Bool Lia Arith ZifyBool.
Import ListNotations.
From Verif Require Import PyBase PyFacts Shlex IniView IniRead ExcControl Debuggable Cpe
  SpecBase SpecWalk SpecRun SpecParse SpecApi SpecReload BaseProofs Refine RefineRoot RefineOk RunProofs Trace WalkProofs
  ParseProofs ParseProofs2 ParseProofs3 ParseProofs4 ApiProofs ApiProofs2 ApiProofs3 ApiProofs4 ApiProofs5 ApiProofs6.
Local Open Scope sm_scope.

(** ** The assignment *)
Section A.
Context {Sh Us : Type}.
Notation obj := (obj Sh Us).

Lemma append_paths_ok l ps : all_paths l = Some ps -> forall (o : obj) old, o_files o = Some old ->
  append_paths l o = (Ok tt, set_files (Some (old ++ ps)) o).
Proof.
  revert ps. induction l as [|[p|] l IH]; intros ps E o old F; cbn in E; try discriminate.
  - injection E as <-. rewrite app_nil_r. cbn. unfold ret. f_equal. destruct o; cbn in *; now subst.
  - destruct (all_paths l) as [qs|]; [|discriminate]. cbn in E. injection E as <-.
    cbn [append_paths]. unfold bind, modify. rewrite F.
    rewrite (IH qs eq_refl (set_files (Some (old ++ [p])) o) (old ++ [p]) eq_refl). rewrite <- app_assoc. reflexivity.
Qed.
Lemma append_paths_bad l : all_paths l = None -> forall (o : obj) old, o_files o = Some old ->
  exists o', append_paths l o = (Err TypeError, o') /\ o_files o' = Some (old ++ leading_paths l) /\
    o_cpd o' = o_cpd o /\ o_edata o' = o_edata o /\ o_log o' = o_log o.
Proof.
  induction l as [|[p|] l IH]; intros E o old F; cbn in E; try discriminate.
  - destruct (all_paths l) as [qs|]; [discriminate|]. cbn [append_paths leading_paths]. unfold bind, modify. rewrite F.
    destruct (IH eq_refl (set_files (Some (old ++ [p])) o) (old ++ [p]) eq_refl) as (o' & A & B & C & D & G).
    exists o'. rewrite <- app_assoc in B. cbn in B. repeat split; auto.
  - eexists. split; [reflexivity|]. cbn. rewrite app_nil_r. auto.
Qed.

Theorem assignment a ps old (o : obj) : paths_of a = Some ps -> o_files o = Some old ->
  exists o', set_inifilepath a o = (Ok tt, o') /\ o_files o' = Some ps /\ o_cpd o' = None /\ o_log o' = None /\
    o_edata o' = o_edata o /\ o_last o' = o_last o /\ o_delims o' = o_delims o /\ o_ec o' = o_ec o /\
    o_debug o' = o_debug o /\ o_defname o' = o_defname o /\ o_intname o' = o_intname o /\ o_user o' = o_user o /\
    o_out o' = o_out o /\
    forall fs, fst (get_cpd fs o') = fst (get_cpd fs (renewed (Some ps) (o_delims o) o)).
Proof.
  intros P F.
  assert (E : set_inifilepath a o = (Ok tt, set_files (Some ps) (set_log None (set_cpd None o)))).
  { destruct a as [p|l|]; [| |discriminate]; cbn in P; unfold set_inifilepath, bind, modify; rewrite F.
    - injection P as <-. reflexivity.
    - rewrite (append_paths_ok l ps P (set_files (Some []) (set_log None (set_cpd None o))) [] eq_refl). reflexivity. }
  eexists. split; [exact E|]. repeat split. intros fs. unfold get_cpd. cbn.
  destruct ps as [|p ps]; auto. destruct (forallb (file_exists fs) (p :: ps)); auto.
  match goal with |- context [read_files ?a ?b ?c] => destruct (read_files a b c) as [[[]|[]] j]; reflexivity end.
Qed.

Theorem bad_assignment a old (o : obj) : paths_of a = None -> o_files o = Some old -> level_ok o ->
  exists o', set_inifilepath a o = (Err TypeError, o') /\ o_edata o' = o_edata o /\
    match a with
    | FMany l => o_files o' = Some (leading_paths l) /\ o_cpd o' = None /\ o_log o' = None
    | _ => o_files o' = Some old /\ o_cpd o' = o_cpd o /\ o_log o' = o_log o
    end.
Proof.
  intros P F L. destruct a as [p|l|]; [discriminate| |].
  - cbn in P. unfold set_inifilepath, bind, modify. rewrite F.
    destruct (append_paths_bad l P (set_files (Some []) (set_log None (set_cpd None o))) [] eq_refl) as (o' & A & B & C & D & G).
    exists o'. auto.
  - unfold set_inifilepath, event.
    pose proof (event_raise_iff (o_ec o) $"CATASTROPHIC" 0 TypeError true th_catastrophic) as H.
    destruct (ec_event (o_ec o) $"CATASTROPHIC" (XClass TypeError) true) as [r out]. cbn in H.
    unfold level_ok, level_of in L. destruct (0 <=? ec_level (o_ec o))%Z eqn:X; [|lia]. subst r.
    eexists. split; [reflexivity|]. split; [reflexivity|]. split; [exact F|split; reflexivity].
Qed.
End A.

(** ** Sections parsed before the assignment *)
Section B.
Context {Sh Us : Type} (K : pyclass Sh Us) (fs : str -> option str) (i : ini) (dname : str) (fuel : nat).
Notation obj := (obj Sh Us).
Hypothesis WB : well_behaved K.
Hypothesis F : length (ini_sections i) + 3 <= fuel.
Hypothesis AP : all_parsable K i dname.
Let G (s : str) : Prop := ini_has_section i s = true.
Notation inv := (inv K fs i dname G True).
Notation owner := (parse_owner (owner_parse K fs fuel)).
Notation parse s := (parse_section_str K fs fuel s true true).

(** *** Once parsed, always parsed *)
Variable s : str.
Definition seen (o : obj) : Prop := has_file fs o i /\ str_mem s (checked_of o) = true.
Lemma seen_ext (o o' : obj) : checked_of o' = checked_of o -> has_file fs o' i -> seen o -> seen o'.
Proof. intros C H (A & B). split; auto. now rewrite C. Qed.
Lemma seen_parse t (o : obj) : seen o -> seen (snd (parse t o)).
Proof.
  intros (A & B). split; [now apply parse_section_keeps_file|].
  pose proof (parse_section_any K fs fuel t true true o) as X.
  destruct (parse t o) as [r o']. destruct X as (es & _ & C & _). cbn [snd]. rewrite C.
  destruct (str_eqb t []); auto. rewrite str_mem_sadd, B. apply orb_true_r.
Qed.
Lemma seen_owner t force : keeps seen (owner t force).
Proof.
  intros o H. destruct (owner_eq K fs fuel t force o) as (o1 & D1 & C1 & F1 & _ & _ & E). rewrite E.
  destruct (negb (str_mem t (checked_of o)) || force) eqn:B.
  - rewrite bind_eq. match goal with |- context [parse_section_str K fs fuel t true true ?x] => set (o2 := x) end.
    assert (H2 : seen o2).
    { destruct H as (X & Y). split; [unfold has_file; rewrite <- X; now apply get_cpd_fst_ext|].
      change (str_mem s (sadd t (checked_of o)) = true). rewrite str_mem_sadd, Y. apply orb_true_r. }
    pose proof (seen_parse t o2 H2) as R. destruct (parse t o2) as [[v|x] o3]; exact R.
  - apply (seen_ext o); auto. apply F1, H.
Qed.
Lemma closed_seen : closed K fs fuel seen (fun _ => True) (fun _ => True).
Proof.
  constructor; auto.
  - intros o H. rewrite (get_cpd_ready fs i o (proj1 H)). cbn [snd]. revert H. apply seen_ext; reflexivity.
  - intros o H. destruct (get_edata_same o) as (e & A & B & C & D & E). rewrite E.
    apply (seen_ext o); auto; [unfold has_file; rewrite <- (proj1 H); now apply get_cpd_fst_ext].
  - intros o l H. apply (seen_ext o); auto. unfold has_file; rewrite <- (proj1 H); now apply get_cpd_fst_ext.
  - intros t _. apply seen_owner.
  - intros t _. apply seen_owner.
  - intros t _ o H. now apply seen_parse.
Qed.
Lemma seen_exec c : keeps seen (exec_op K fs fuel c).
Proof.
  apply (k_exec K fs fuel seen _ _ closed_seen).
  - intros x e (A & B). split; [|auto]. unfold has_file; rewrite <- A; now apply get_cpd_fst_ext.
  - intros x e (A & B). split; [|auto]. unfold has_file; rewrite <- A; now apply get_cpd_fst_ext.
  - destruct c; cbn; auto. destruct p; auto.
Qed.
Lemma seen_after h : forall o, seen o -> seen (after K fs fuel h o).
Proof. induction h as [|c h IH]; intros o H; cbn [after]; auto. apply IH. now apply seen_exec. Qed.

(** *** A call that parses the section *)
Lemma keeps_seen {A} (m : SM obj A) o : keeps seen m -> seen o -> seen (snd (m o)).
Proof. intros H. apply H. Qed.

Lemma get_seen files k (o : obj) : inv files o -> G s -> seen (snd (data_get K fs fuel s k o)).
Proof.
  intros V g. unfold data_get. rewrite bind_eq.
  destruct (get_edata_inv K fs i dname G True _ _ V) as (e & o1 & E1 & G1 & [_ EC] & _ & _ & C1). rewrite E1.
  assert (X : seen (snd ((if str_mem s (d_checked e) then ret tt else owner s false) o1))).
  { destruct (str_mem s (d_checked e)) eqn:M.
    - split; [apply (iv_file _ _ _ _ _ _ _ _ (go_inv _ _ _ _ _ _ _ _ _ G1))|]. cbn. rewrite C1, <- EC. exact M.
    - destruct (parse_owner_good K fs i dname fuel WB F G True AP _ s false _ (go_inv _ _ _ _ _ _ _ _ _ G1) g) as (o3 & E3 & G3 & C3).
      rewrite E3. split; [apply (iv_file _ _ _ _ _ _ _ _ (go_inv _ _ _ _ _ _ _ _ _ G3))|exact C3]. }
  rewrite bind_eq. destruct ((if str_mem s (d_checked e) then ret tt else owner s false) o1) as [[[]|x] o2]; [|exact X].
  cbn [snd] in X. revert o2 X. change (keeps seen (b <- has_section K fs fuel s ;;
    (if b then match k with
               | Some k0 => h <- has_option K fs fuel s k0 ;;
                   if h then d <- data_section s ;; match dget k0 d with Some v => ret (GotValue v) | None => raise KeyError end
                   else raise KeyError
               | None => d <- data_section s ;; ret (GotSection d)
               end
     else raise KeyError))).
  apply keeps_bind; [apply (k_has_section _ _ _ _ _ _ closed_seen)|]. intros []; [|intros x Hx; exact Hx].
  destruct k as [k|].
  - apply keeps_bind; [apply (k_has_option _ _ _ _ _ _ closed_seen); exact I|]. intros []; [|intros x Hx; exact Hx].
    apply keeps_bind; [apply (k_data_section _ _ _ _ _ _ closed_seen)|]. intros x. destruct (dget k x); intros y Hy; exact Hy.
  - apply keeps_bind; [apply (k_data_section _ _ _ _ _ _ closed_seen)|]. intros x y Hy; exact Hy.
Qed.

Lemma snd_fmap {A} (f : A -> answer) (m : SM obj A) o : snd (fmap f m o) = snd (m o).
Proof. unfold fmap, bind. now destruct (m o) as [[a|e] o']. Qed.

Lemma goes_seen files (o o' : obj) : goes K fs i dname G True files o o' -> str_mem s (checked_of o') = true -> seen o'.
Proof. intros GO M. split; auto. apply (iv_file _ _ _ _ _ _ _ _ (go_inv _ _ _ _ _ _ _ _ _ GO)). Qed.

Lemma for_each_seen files (o : obj) : inv files o -> G s ->
  seen (snd ((l <- data_keys fs ;; for_each (fun x => owner x false) l) o)).
Proof.
  intros V g. rewrite bind_eq. destruct (data_keys_good K fs i dname G True _ _ V) as (o1 & E1 & G1). rewrite E1.
  destruct (for_each_good K fs i dname fuel WB F G True AP files false (ini_sections i)
    (fun x H => proj1 (in_sections i x) H) _ (go_inv _ _ _ _ _ _ _ _ _ G1)) as (o2 & E2 & G2 & C2).
  rewrite E2. apply (goes_seen files o1); auto. apply C2. now apply in_sections.
Qed.

Lemma exec_seen files c (o : obj) : inv files o -> in_file K i dname c -> parses s c = true -> G s ->
  seen (snd (exec_op K fs fuel c o)).
Proof.
  intros V IN P g. destruct (expansion_exists K i dname s) as (d & X).
  assert (then_keys : forall A (k : SM obj A), keeps seen k ->
    seen (snd ((l <- data_keys fs ;; (for_each (fun x => owner x false) l ;; k)) o))).
  { intros A k KK. pose proof (for_each_seen _ _ V g) as Q. rewrite !bind_eq in *.
    destruct (data_keys fs o) as [[l|e] o1]; [|exact Q]. rewrite bind_eq.
    destruct (for_each (fun x => owner x false) l o1) as [[[]|e] o2]; [|exact Q]. apply KK. exact Q. }
  unfold parses in P. destruct c as [t| |t|t|t k|t|t k| |t|p| | |t b| | | | |]; cbn [parses_all names orb] in P;
    try discriminate; cbn [exec_op] in *; rewrite snd_fmap;
    try (rewrite orb_false_l in P); try (apply str_eqb_eq in P; subst t).
  - destruct (parse_good K fs i dname fuel WB F G True AP _ s _ V g) as (v & o' & E & GO & M).
    rewrite E. exact (goes_seen _ _ _ GO M).
  - unfold parse_all_sections, data_sections. rewrite bind_eq.
    pose proof (then_keys _ (data_keys fs) (k_keys _ _ _ _ _ _ closed_seen)) as Q.
    match goal with |- context [?m o] => destruct (m o) as [[l|e] o1] end; exact Q.
  - destruct (getitem_good K fs i dname fuel WB F G True AP _ s _ d V g X) as (o' & E & GO & M).
    rewrite E. exact (goes_seen _ _ _ GO M).
  - unfold data_options. destruct (getitem_good K fs i dname fuel WB F G True AP _ s _ d V g X) as (o' & E & GO & M).
    rewrite E. exact (goes_seen _ _ _ GO M).
  - eapply get_seen; eauto.
  - destruct (has_section_good K fs i dname fuel WB F G True AP _ s _ V g) as (o' & E & GO & M).
    rewrite E. exact (goes_seen _ _ _ GO M).
  - destruct (has_option_good K fs i dname fuel WB F G True AP _ s k _ d V g X) as (o' & E & GO & M).
    rewrite E. exact (goes_seen _ _ _ GO M).
  - unfold data_items_all. apply then_keys. apply keeps_bind; [apply (cl_edata _ _ _ _ _ _ closed_seen)|].
    intros e x Hx. exact Hx.
  - unfold data_items. rewrite bind_eq. destruct (data_keys_good K fs i dname G True _ _ V) as (o1 & E1 & G1). rewrite E1.
    unfold data_options.
    destruct (getitem_good K fs i dname fuel WB F G True AP _ s _ d (go_inv _ _ _ _ _ _ _ _ _ G1) g X) as (o' & E & GO & M).
    rewrite E. exact (goes_seen _ _ _ GO M).
  - destruct p as [[]|x|]; try discriminate. unfold data_sections. apply then_keys. apply (k_keys _ _ _ _ _ _ closed_seen).
  - unfold assert_section. rewrite bind_eq. pose proof (get_seen _ None _ V g) as Q.
    destruct (data_get K fs fuel s None o) as [[r|x] o3]; auto. cbn [snd] in Q.
    destruct r as [[|kv d0]|v]; try exact Q. cbn zeta. destruct b; [|exact Q].
    apply keeps_bind with (P := seen); auto; [apply keeps_get_files|]. intros fl.
    apply keeps_bind; [apply (k_known_message _ _ _ _ _ _ closed_seen)|]. intros m.
    apply keeps_bind; [apply (k_event _ _ _ _ _ _ closed_seen)|intros ? x Hx; exact Hx].
Qed.

Theorem parsed_then h (o : obj) d : opened K fs i dname o -> Forall (in_file K i dname) h -> G s ->
  existsb (parses s) h = true -> expansion K i dname s d ->
  exists fl, o_files (after K fs fuel h o) = Some fl /\ str_mem s (checked_of (after K fs fuel h o)) = true /\
    section_of (after K fs fuel h o) s = Some d.
Proof.
  intros O FA g EX X. destruct (opened_inv K fs i dname o O) as (fl & V). exists fl.
  assert (V' := after_inv K fs i dname fuel WB F AP fl h o V FA).
  split; [apply (iv_files _ _ _ _ _ _ _ _ V')|].
  assert (S : seen (after K fs fuel h o)).
  { clear O V'. revert o V. induction h as [|c h IH]; intros o V; [discriminate|]. cbn [after existsb] in *.
    inversion FA as [|? ? I1 I2]; subst. destruct (parses s c) eqn:P.
    - apply seen_after. eapply exec_seen; eauto.
    - apply IH; auto. now apply (exec_op_good K fs i dname fuel WB F AP fl). }
  split; [apply S|]. destruct (iv_parsed _ _ _ _ _ _ _ _ V' s g (proj2 S)) as (d' & X' & E).
  now rewrite (expansion_unique K i dname _ _ _ X X').
Qed.
End B.

Theorem parsed_sections_stay {Sh Us} (K : pyclass Sh Us) fs i dname fuel h (o : obj Sh Us) s d a ps fs' j fuel' h' o1 :
  well_behaved K -> length (ini_sections i) + 3 <= fuel -> all_parsable K i dname ->
  opened K fs i dname o -> Forall (in_file K i dname) h -> ini_has_section i s = true ->
  existsb (parses s) h = true -> expansion K i dname s d ->
  paths_of a = Some ps -> set_inifilepath a (after K fs fuel h o) = (Ok tt, o1) -> has_file fs' o1 j ->
  forallb (fun c => negb (reparses s c)) h' = true ->
  let o' := after K fs' fuel' h' o1 in
  fst (getitem K fs' fuel' s o') = Ok d /\ fst (data_get K fs' fuel' s None o') = Ok (GotSection d) /\
  (forall k, fst (has_option K fs' fuel' s k o') = Ok (dmem k d)) /\
  (forall k, fst (data_get K fs' fuel' s (Some k) o') =
     match dget k d with Some v => Ok (GotValue v) | None => Err KeyError end).
Proof.
  intros WB F AP O FA HS EX X PA SE HF Q o'.
  destruct (parsed_then K fs i dname fuel WB F AP s h o d O FA HS EX X) as (fl & FI & CH & SO).
  destruct (assignment a ps fl _ PA FI) as (o2 & E & _ & _ & _ & ED & _). rewrite SE in E. injection E as <-.
  apply holds_read with (i := j). apply holds_after; auto. split; [exact HF|].
  unfold checked_of, section_of, data_of in *. rewrite ED. auto.
Qed.
