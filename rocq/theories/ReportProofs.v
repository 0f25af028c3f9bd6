(** * The reports of the checks. *)
From Coq Require Import String NArith ZArith List Bool Lia Arith.
Import ListNotations.
From Verif Require Import PyBase PyFacts Shlex IniView IniRead ExcControl Debuggable Cpe SpecText FileProofs
  SpecBase SpecWalk SpecRun SpecParse SpecApi BaseProofs Refine RefineRoot RefineOk RunProofs Trace WalkProofs
  ParseProofs ParseProofs2 ParseProofs3 ApiProofs ApiProofs2 SpecMessages MsgProofs MsgProofs2 QuietProofs SpecReport.
Local Open Scope string_scope.
Local Open Scope list_scope.
Local Open Scope sm_scope.

Lemma ended_map (f : str -> str) l : flat_map (fun x => f x ++ newline) l = ended (map f l).
Proof. induction l as [|x l IH]; [reflexivity|]. cbn [flat_map]. rewrite IH. unfold ended. reflexivity. Qed.
Lemma unhandled_lines s keys : unhandled_message s keys = ended (section_lines s keys).
Proof.
  unfold unhandled_message, section_lines. rewrite ended_app, <- ended_map. unfold ended. cbn [map concat].
  change ($"` or one of its dependent sections.") with ($"`" ++ $" or one of its dependent sections."). rewrite <- !app_assoc.
  do 7 f_equal. cbn [app]. apply flat_map_ext. intros k. unfold entry_line. now rewrite <- !app_assoc.
Qed.
Lemma rstrip_end (x : str) c : is_space c = false -> rstrip_ws ((x ++ [c]) ++ newline) = x ++ [c].
Proof. intros H. unfold rstrip_ws. change newline with [10%N]. rewrite rstrip_last. cbn [is_space]. change (is_space 10%N) with true. cbv iota. now rewrite rstrip_last, H. Qed.
Lemma entries_text (pre : list str) (h : str) l : ended (pre ++ h :: map entry_line l) = 
  ended (pre ++ removelast (h :: map entry_line l)) ++ last (h :: map entry_line l) ([] : str) ++ newline.
Proof.
  rewrite (app_removelast_last (l := h :: map entry_line l) ([] : str)) at 1 by discriminate. rewrite app_assoc, ended_app. unfold ended at 2. cbn [map concat]. now rewrite app_nil_r.
Qed.
Lemma last_entry (h : str) l c x : is_space c = false -> h = x ++ [c] -> exists y c', is_space c' = false /\ last (h :: map entry_line l) ([] : str) = y ++ [c'].
Proof.
  intros C H. destruct l as [|k l] using rev_ind; [exists x, c; auto|]. clear IHl. rewrite map_app. cbn [map].
  exists ($"|- '" ++ k), 39%N. split; [reflexivity|]. rewrite app_comm_cons, last_last. unfold entry_line. now rewrite <- app_assoc.
Qed.
Lemma entries_trim (pre : list str) (h : str) l c x : is_space c = false -> h = x ++ [c] ->
  text_of (pre ++ h :: map entry_line l) (rstrip_ws (ended (pre ++ h :: map entry_line l))).
Proof.
  intros C H. unfold text_of. rewrite entries_text. destruct (last_entry h l c x C H) as (y & c' & C' & E).
  cbv beta in E. rewrite E. rewrite !app_assoc, rstrip_end by auto. reflexivity.
Qed.
Lemma section_text s keys : text_of (section_lines s keys) (rstrip_ws (unhandled_message s keys)).
Proof.
  rewrite unhandled_lines. unfold section_lines. change ([?a; ?b] ++ ?l) with ([a] ++ b :: l).
  apply (entries_trim _ _ _ 58%N $"The following entries are unhandled"); reflexivity.
Qed.
Lemma operations_text ops : text_of (operation_lines ops) (rstrip_ws ($"Valid operations are:" ++ newline ++ flat_map (fun op => $"|- '" ++ op ++ $"'" ++ newline) ops)).
Proof.
  replace ($"Valid operations are:" ++ newline ++ flat_map (fun op => $"|- '" ++ op ++ $"'" ++ newline) ops) with (ended ([] ++ operation_lines ops)).
  - apply (entries_trim [] _ _ 58%N $"Valid operations are"); reflexivity.
  - unfold operation_lines. cbn [app]. change (?h :: map entry_line ops) with ([h] ++ map entry_line ops). rewrite ended_app, <- ended_map.
    unfold ended. cbn [map concat]. rewrite <- !app_assoc. f_equal. cbn [app]. f_equal. apply flat_map_ext. intros k. unfold entry_line. now rewrite <- !app_assoc.
Qed.
Lemma join_ended (f : list str) : f <> [] -> ($"|- " ++ join (newline ++ $"|- ") f) ++ newline = ended (map (fun x => $"|- " ++ x) f).
Proof.
  destruct f as [|x f]; [congruence|]. intros _. revert x. induction f as [|y f IH]; intros x.
  - unfold ended. cbn [map concat join]. now rewrite app_nil_r.
  - change (map (fun z => $"|- " ++ z) (x :: y :: f)) with ([$"|- " ++ x] ++ map (fun z => $"|- " ++ z) (y :: f)). rewrite ended_app.
    change (join (newline ++ $"|- ") (x :: y :: f)) with (x ++ (newline ++ $"|- ") ++ join (newline ++ $"|- ") (y :: f)). rewrite <- IH.
    unfold ended. cbn [map concat]. now rewrite <- !app_assoc.
Qed.

Lemma files_text files : files <> [] -> files_message files ++ newline = newline ++ ended (file_lines files).
Proof.
  intros N. unfold files_message, file_lines. change (?h :: map ?f files) with ([h] ++ map f files). rewrite ended_app, <- join_ended by auto.
  unfold ended. cbn [map concat]. now rewrite <- !app_assoc.
Qed.
Lemma whole_text s keys ops files : files <> [] ->
  (unhandled_message s keys ++ rstrip_ws ($"Valid operations are:" ++ newline ++ flat_map (fun op => $"|- '" ++ op ++ $"'" ++ newline) ops) ++ files_message files) ++ newline =
  ended (section_lines s keys ++ operation_lines ops ++ file_lines files).
Proof.
  intros N. rewrite !ended_app, <- !app_assoc, unhandled_lines, (files_text files N). f_equal. rewrite app_assoc. f_equal. apply operations_text.
Qed.
Lemma trimmed_feed (t : str) : end_trimmed (t ++ newline) (rstrip_ws t).
Proof.
  destruct (rstrip_trimmed t) as (w & E & W & N). exists (w ++ newline). split; [now rewrite app_assoc, <- E|]. split; [|exact N].
  apply Forall_app. split; [exact W|]. constructor; [|constructor]. apply space_iff. reflexivity.
Qed.
Lemma trimmed_rstrip (x t : str) : x ++ newline = t -> end_trimmed t (rstrip_ws x).
Proof. intros <-. apply trimmed_feed. Qed.

Section C.
Context {Sh Us : Type} (K : pyclass Sh Us) (fs : str -> option str) (i : ini) (dname : str) (fuel : nat).
Notation obj := (obj Sh Us).
Hypothesis WB : well_behaved K.
Hypothesis F : length (ini_sections i) + 3 <= fuel.
Hypothesis AP : all_parsable K i dname.
Let G (s : str) : Prop := ini_has_section i s = true.
Notation inv := (inv K fs i dname G True).
Notation goes := (goes K fs i dname G True).

Lemma said_warn (o : obj) l : said (add_out (map OutWarn l) o) = said o.
Proof.
  unfold said. cbn [o_out add_out]. rewrite flat_map_app. assert (E : flat_map (fun x => match x with OutText t => [t] | OutWarn _ => [] end) (map OutWarn l) = [] :> list str).
  { induction l; auto. } rewrite E. apply app_nil_r.
Qed.
Lemma quiet T fuel' s b : keeps (fun o : obj => has_file fs o i /\ said o = T) (assert_section K fs fuel' s b).
Proof.
  apply q_assert_section.
  - intros o (H & S). rewrite (get_cpd_ready fs i o H). split; [|exact S]. reflexivity.
  - intros o d (H & S). split; [|exact S]. unfold has_file; rewrite <- H; now apply get_cpd_fst_ext.
  - intros o d (H & S). split; [|exact S]. unfold has_file; rewrite <- H; now apply get_cpd_fst_ext.
  - intros o d (H & S). split; [|exact S]. unfold has_file; rewrite <- H; now apply get_cpd_fst_ext.
  - intros o d (H & S). split; [|exact S]. unfold has_file; rewrite <- H; now apply get_cpd_fst_ext.
  - intros o d (H & S). split; [|now rewrite said_warn]. unfold has_file; rewrite <- H; now apply get_cpd_fst_ext.
Qed.
Lemma quiet_known T : keeps (fun o : obj => has_file fs o i /\ said o = T) (get_known_operations_message K fs).
Proof.
  apply q_known.
  - intros o (H & S). rewrite (get_cpd_ready fs i o H). split; [|exact S]. reflexivity.
  - intros o d (H & S). split; [|exact S]. unfold has_file; rewrite <- H; now apply get_cpd_fst_ext.
Qed.

Lemma report_section files s b (o : obj) d : files <> [] -> inv files o -> G s -> expansion K i dname s d ->
  exists r o', assert_section K fs fuel s b o = (r, o') /\ goes files o o' /\ said o' = said o /\
    match d with
    | [] => r = Ok None
    | _ => if b then
             if (3 <=? level_of o)%Z then r = Err ValueError
             else exists m, r = Ok (Some m) /\
               end_trimmed (ended (section_lines s (dkeys d) ++ operation_lines (known_operations K) ++ file_lines files)) m
           else exists m, r = Ok (Some m) /\ text_of (section_lines s (dkeys d)) m
    end.
Proof.
  intros NF V g X. destruct (assert_section_good K fs i dname fuel WB F G True AP files s b o d V g X) as (r & o' & E & GO & _).
  exists r, o'. split; [exact E|]. split; [exact GO|]. split.
  { pose proof (quiet (said o) fuel s b o (conj (iv_file _ _ _ _ _ _ _ _ V) eq_refl)) as Q. rewrite E in Q. apply Q. }
  unfold assert_section in E. rewrite bind_eq in E.
  destruct (data_get_good K fs i dname fuel WB F G True AP _ s None _ d V g X) as (o1 & E1 & G1). rewrite E1 in E.
  destruct d as [|kv d0]; [apply (f_equal fst) in E; symmetry; exact E|]. set (d := kv :: d0) in *.
  change (match d with [] => ret None | _ :: _ => ?x end) with x in E. cbv zeta in E. destruct b.
  - pose proof (go_inv _ _ _ _ _ _ _ _ _ G1) as V1. rewrite bind_eq in E. unfold get_files at 1 in E. rewrite (iv_files _ _ _ _ _ _ _ _ V1), bind_eq in E.
    unfold get_known_operations_message at 1 in E. rewrite bind_eq in E.
    destruct (known_good K fs i dname G True _ _ V1) as (o2 & E2 & G2). rewrite E2 in E. cbn [ret] in E. rewrite bind_eq in E.
    destruct (event_serious K fs i dname G True _ ValueError _ (go_inv _ _ _ _ _ _ _ _ _ G2)) as (o3 & E3 & G3). rewrite E3 in E.
    assert (L : level_of o2 = level_of o) by (rewrite (go_level _ _ _ _ _ _ _ _ _ G2); apply (go_level _ _ _ _ _ _ _ _ _ G1)).
    rewrite L in E. destruct (3 <=? level_of o)%Z; [apply (f_equal fst) in E; symmetry; exact E|]. apply (f_equal fst) in E. cbn [fst ret] in E. subst r. eexists. split; [reflexivity|].
    apply trimmed_rstrip. now apply whole_text.
  - apply (f_equal fst) in E. cbn [fst ret] in E. subst r. eexists. split; [reflexivity|]. apply section_text.
Qed.

Lemma report_sections files l : files <> [] -> (forall s, In s l -> G s) -> forall out (o : obj), inv files o ->
  exists o' sd r, assert_sections K fs fuel l out o = (Ok (out || negb (match r with [] => true | _ => false end)), o') /\ goes files o o' /\
    map fst sd = l /\ Forall (fun x => expansion K i dname (fst x) (snd x)) sd /\ reports sd r /\ said o' = said o ++ r.
Proof.
  intros NF. induction l as [|s l IH]; intros A out o V; cbn [assert_sections].
  - exists o, [], []. split; [cbn; now rewrite orb_false_r|]. split; [now apply goes_refl|]. split; [reflexivity|]. split; [constructor|].
    split; [constructor|now rewrite app_nil_r].
  - rewrite bind_eq. destruct (expansion_exists K i dname s) as (d & X).
    destruct (report_section files s false o d NF V (A s (or_introl eq_refl)) X) as (r & o1 & E1 & G1 & S1 & R1). rewrite E1.
    pose proof (go_inv _ _ _ _ _ _ _ _ _ G1) as V1. destruct d as [|kv d0].
    + subst r. destruct (IH (fun x H => A x (or_intror H)) out o1 V1) as (o2 & sd & r & E2 & G2 & M & FA & R & S).
      exists o2, ((s, []) :: sd), r. split; [exact E2|]. split; [eapply goes_trans; eauto|]. split; [cbn; now rewrite M|].
      split; [now constructor|]. split; [now constructor|now rewrite S, S1].
    + destruct R1 as (m & -> & T). rewrite bind_eq. cbv [print_line modify].
      destruct (print_good K fs i dname G True files m o1 V1) as (o2 & E2 & G2). cbv [print_line modify] in E2. apply (f_equal snd) in E2; cbn [snd] in E2. rewrite E2.
      destruct (IH (fun x H => A x (or_intror H)) true o2 (go_inv _ _ _ _ _ _ _ _ _ G2)) as (o3 & sd & r & E3 & G3 & M & FA & R & S).
      exists o3, ((s, kv :: d0) :: sd), (m :: r). split; [rewrite E3; cbn; now rewrite orb_true_r|].
      split; [eapply goes_trans; [eapply goes_trans|]; eauto|]. split; [cbn; now rewrite M|]. split; [now constructor|].
      split; [constructor; [discriminate|exact T|exact R]|]. rewrite S, <- E2. unfold said at 1. cbn [o_out add_out]. rewrite flat_map_app.
      cbn [flat_map app]. rewrite <- app_assoc. cbn [app]. f_equal. exact S1.
Qed.
Lemma report_file files (o : obj) : files <> [] -> inv files o ->
  exists r o' sd ts, assert_file K fs fuel o = (r, o') /\
    map fst sd = ini_sections i /\ Forall (fun x => expansion K i dname (fst x) (snd x)) sd /\ reports sd ts /\
    match ts with
    | [] => r = Ok 0%Z /\ said o' = said o
    | _ => r = (if (3 <=? level_of o)%Z then Err ValueError else Ok 1%Z) /\
           exists t, text_of (operation_lines (known_operations K) ++ file_lines files) t /\ said o' = said o ++ ts ++ [t]
    end.
Proof.
  intros NF V. unfold assert_file. rewrite bind_eq.
  destruct (sections_good K fs i dname fuel WB F G True AP (fun s (H : ini_has_section i s = true) => H) _ (PBool false) _ V) as (o1 & E1 & G1).
  assert (S1 : said o1 = said o).
  { cbn [data_sections] in E1. unfold data_keys in E1. rewrite bind_eq, (get_cpd_ready fs i o (iv_file _ _ _ _ _ _ _ _ V)) in E1. injection E1 as <-. reflexivity. }
  rewrite E1, bind_eq.
  destruct (report_sections files (ini_sections i) NF (fun s H => proj1 (in_sections i s) H) false o1 (go_inv _ _ _ _ _ _ _ _ _ G1))
    as (o2 & sd & ts & E2 & G2 & M & FA & R & S). rewrite E2. pose proof (go_inv _ _ _ _ _ _ _ _ _ G2) as V2.
  assert (G02 : goes files o o2) by (eapply goes_trans; eauto). rewrite S1 in S.
  destruct ts as [|t0 ts]; cbn [orb negb].
  - exists (Ok 0%Z), o2, sd, []. rewrite app_nil_r in S. repeat split; auto.
  - rewrite bind_eq. unfold get_files at 1. rewrite (iv_files _ _ _ _ _ _ _ _ V2), bind_eq.
    unfold get_known_operations_message at 1. rewrite bind_eq.
    destruct (known_good K fs i dname G True _ _ V2) as (o3 & E3 & G3). rewrite E3. cbn [ret].
    assert (S3 : said o3 = said o2).
    { pose proof (quiet_known (said o2) o2 (conj (iv_file _ _ _ _ _ _ _ _ V2) eq_refl)) as Q. unfold get_known_operations_message in Q.
      rewrite bind_eq, E3 in Q. apply Q. }
    set (t := rstrip_ws _). rewrite bind_eq. cbv [print_line modify].
    destruct (print_good K fs i dname G True files (t ++ files_message files) o3 (go_inv _ _ _ _ _ _ _ _ _ G3)) as (o4 & E4 & G4).
    cbv [print_line modify] in E4. apply (f_equal snd) in E4; cbn [snd] in E4. rewrite E4. rewrite bind_eq.
    pose proof (event_serious K fs i dname G True _ ValueError _ (go_inv _ _ _ _ _ _ _ _ _ G4)) as (o5 & E5 & G5).
    assert (S5 : said o5 = said o4).
    { revert E5. unfold event. destruct (ec_event _ _ _ _) as [x out]. intros E5. apply (f_equal snd) in E5; cbn [snd] in E5; subst o5. apply said_warn. }
    rewrite E5. assert (G04 : goes files o o4) by (eapply goes_trans; [eapply goes_trans|]; eauto). rewrite (go_level _ _ _ _ _ _ _ _ _ G04).
    exists (if (3 <=? level_of o)%Z then Err ValueError else Ok 1%Z), o5, sd, (t0 :: ts).
    split; [destruct (3 <=? level_of o)%Z; reflexivity|]. split; [exact M|]. split; [exact FA|]. split; [exact R|]. split; [reflexivity|].
    exists (t ++ files_message files). split.
    + unfold text_of. rewrite ended_app, <- app_assoc, (files_text files NF), app_assoc. f_equal. apply operations_text.
    + rewrite S5, <- E4. unfold said at 1. cbn [o_out add_out]. rewrite flat_map_app. cbn [flat_map app]. fold (said o3). rewrite S3, S. now rewrite <- app_assoc.
Qed.

Theorem section_report h s b (o : obj) files : opened K fs i dname o -> Forall (in_file K i dname) h -> o_files o = Some files -> files <> [] ->
  ini_has_section i s = true ->
  exists d ops, expansion K i dname s d /\ fst (get_known_operations K fs (after K fs fuel h o)) = Ok ops /\
    let o1 := after K fs fuel h o in let '(r, o2) := assert_section K fs fuel s b o1 in
    said o2 = said o1 /\
    match d with
    | [] => r = Ok None
    | _ => if b then
             if (3 <=? last_level h (level_of o))%Z then r = Err ValueError
             else exists m, r = Ok (Some m) /\
               end_trimmed (ended (section_lines s (dkeys d) ++ operation_lines ops ++ file_lines files)) m
           else exists m, r = Ok (Some m) /\ text_of (section_lines s (dkeys d)) m
    end.
Proof.
  intros O FA FI NF HS. destruct (opened_inv K fs i dname o O) as (files' & V).
  assert (files' = files) by (pose proof (iv_files _ _ _ _ _ _ _ _ V); congruence). subst files'.
  pose proof (after_inv K fs i dname fuel WB F AP files h o V FA) as V'.
  destruct (expansion_exists K i dname s) as (d & X). exists d, (known_operations K). split; [exact X|].
  destruct (known_good K fs i dname _ True _ _ V') as (o9 & E9 & _). split; [now rewrite E9|].
  destruct (report_section files s b _ d NF V' HS X) as (r & o2 & E & _ & S & R). cbv zeta. rewrite E.
  rewrite (history_level K fs i dname fuel WB F AP h o O FA) in R. auto.
Qed.
Theorem file_report h (o : obj) files : opened K fs i dname o -> Forall (in_file K i dname) h -> o_files o = Some files -> files <> [] ->
  exists sd ts ops, map fst sd = ini_sections i /\ Forall (fun x => expansion K i dname (fst x) (snd x)) sd /\ reports sd ts /\
    fst (get_known_operations K fs (after K fs fuel h o)) = Ok ops /\
    let o1 := after K fs fuel h o in let '(r, o2) := assert_file K fs fuel o1 in
    match ts with
    | [] => r = Ok 0%Z /\ said o2 = said o1
    | _ => r = (if (3 <=? last_level h (level_of o))%Z then Err ValueError else Ok 1%Z) /\
           exists t, text_of (operation_lines ops ++ file_lines files) t /\ said o2 = said o1 ++ ts ++ [t]
    end.
Proof.
  intros O FA FI NF. destruct (opened_inv K fs i dname o O) as (files' & V).
  assert (files' = files) by (pose proof (iv_files _ _ _ _ _ _ _ _ V); congruence). subst files'.
  pose proof (after_inv K fs i dname fuel WB F AP files h o V FA) as V'.
  destruct (report_file files _ NF V') as (r & o2 & sd & ts & E & M & FAL & R & X). exists sd, ts, (known_operations K). split; [exact M|]. split; [exact FAL|]. split; [exact R|].
  destruct (known_good K fs i dname _ True _ _ V') as (o9 & E9 & _). split; [now rewrite E9|].
  cbv zeta. rewrite E. rewrite (history_level K fs i dname fuel WB F AP h o O FA) in X. exact X.
Qed.
End C.

(** ** Reports tell sections and entries *)
Theorem report_determines s s' (l l' : list str) t : ~ In 10%N s -> ~ In 10%N s' -> Forall (fun k => ~ In 10%N k) l -> Forall (fun k => ~ In 10%N k) l' ->
  text_of (section_lines s l) t -> text_of (section_lines s' l') t -> s = s' /\ l = l'.
Proof.
  intros S S' L L' T T'. unfold text_of in *. rewrite T in T'. clear T t.
  assert (LF : forall x y z : str, forallb (fun c => negb (N.eqb c 10)) x = true -> ~ In 10%N y -> forallb (fun c => negb (N.eqb c 10)) z = true -> ~ In 10%N (x ++ y ++ z)).
  { intros x y z X Y Z J. apply in_app_iff in J as [J|J]; [apply (proj1 (forallb_forall _ _) X) in J; discriminate J|].
    apply in_app_iff in J as [J|J]; [auto|apply (proj1 (forallb_forall _ _) Z) in J; discriminate J]. }
  assert (NF : forall s l, ~ In 10%N s -> Forall (fun k => ~ In 10%N k) l -> Forall (fun x => ~ In 10%N x) (section_lines s l)).
  { clear - LF. intros s l S L. unfold section_lines. constructor; [now apply LF|]. constructor; [apply (LF $"The following entries are unhandled:" [] []); auto; intros []|].
    apply Forall_forall. intros x J. apply in_map_iff in J as (k & <- & J). apply LF; auto. exact (proj1 (Forall_forall _ _) L k J). }
  apply ended_inj in T'; [|now apply NF|now apply NF]. unfold section_lines in T'. injection T' as A B.
  split.
  - apply app_inv_tail in A. exact A.
  - clear - B. revert l' B. induction l as [|k l IH]; intros [|k' l'] B; try discriminate B; [reflexivity|]. cbn [map] in B. injection B as B1 B2.
    apply app_inv_tail in B1. subst. f_equal. now apply IH.
Qed.
