(** * The texts of the accessors (C94). *)
From Coq Require Import String NArith ZArith List Bool Lia.
Import ListNotations.
From Verif Require Import PyBase PyFacts IniView IniRead ExcControl Cpe SpecText SpecFile FileProofs SpecWalk SpecRun SpecParse RefineRoot Errors Texts SpecTexts
  TextsProofs TextsProofs2.
Local Open Scope list_scope.

Section A.
Context {Sh Us : Type} (K : pyclass Sh Us) (fs : str -> option str) (cwd : str) (shown_files : list str -> str) (fuel : nat).
Notation obj := (obj Sh Us).
Variables (i : ini) (fl : list str) (dname s : str).
Hypothesis NE : s <> [].
Hypothesis DOK : default_ok K i dname s true.
Notation tells := (tells K shown_files i fl dname s true).
Notation io := (io fs i fl dname s).
Notation triple := (triple K shown_files i fl dname s true).
Notation answers_with := (answers_with K shown_files i fl dname s true).
Notation owner := (tparse_owner (towner_parse K fs cwd shown_files fuel) s false).
Definition po (o : obj) : Prop := has_file fs o i /\ o_files o = Some fl /\ o_defname o = dname.
Lemma po_ext (o o' : obj) : o_files o' = o_files o -> o_cpd o' = o_cpd o -> o_delims o' = o_delims o -> o_intname o' = o_intname o ->
  o_defname o' = o_defname o -> po o -> po o'.
Proof. intros F C D N E (X & Y & Z). split; [exact (has_file_ext fs o o' i F C D N X)|]. split; congruence. Qed.
Lemma po_edata o : po o -> exists d o1, get_edata o = (Ok d, o1) /\ o_edata o1 = Some d /\ po o1.
Proof.
  intros P. unfold get_edata. destruct (o_edata o) eqn:E; [eauto|]. eexists _, _. split; [reflexivity|]. split; [reflexivity|]. apply (po_ext o); auto.
Qed.
Lemma po_io o d : po o -> o_edata o = Some d -> str_mem s (d_checked d) = true -> io o.
Proof. intros (X & Y & Z) E M. split; [exact X|]. split; [exact Y|]. split; [exact Z|]. eauto. Qed.

Lemma owner_tells : triple (fun _ => True) po owner (fun _ => io).
Proof.
  intros o P. unfold tparse_owner, tbind at 1, tof at 1. destruct (po_edata o P) as (d & o1 & -> & E & P1). cbn [silent]. rewrite orb_false_r.
  destruct (str_mem s (d_checked d)) eqn:M; cbn [negb]; [split; [constructor|]; eapply po_io; eauto|].
  unfold tbind at 1, tof at 1. unfold set_owner_options, get_edata at 1. rewrite E. cbn [silent].
  unfold tbind at 1, tof at 1. cbn [get_edata set_edata o_edata silent]. unfold tbind at 1, tof at 1. cbn [put_edata modify silent].
  set (o2 := set_edata _ _).
  assert (P2 : po o2) by (apply (po_ext o1); auto). destruct P2 as (H & F & D).
  unfold towner_parse, tbind at 1. pose proof (parse_tells K fs cwd shown_files fuel s true true i fl o2 NE H F) as T. rewrite D in T. specialize (T DOK).
  destruct (tparse_section_str K fs cwd shown_files fuel s true true o2) as [[[u|e x] o3] w]; cbn [tret].
  - destruct T as (W & X). split; [|exact X]. repeat (apply Forall_app; split); first [exact W|constructor].
  - destruct T as (W & X). split; [exact W|]. split; [exact Logic.I|]. exact X.
Qed.

Lemma has_io o : io o -> exists o' d, thas_section K fs cwd shown_files fuel s o = (EOk (dmem s (d_data d)), o', []) /\ io o' /\ o_edata o' = Some d.
Proof.
  intros I0. unfold thas_section, tdata_has_section, tbind at 1.
  pose proof (tr_cpd K fs cwd shown_files i fl dname s true o I0) as T. destruct (tget_cpd fs cwd o) as [[[j|e x] o1] w] eqn:E1.
  2:{ exfalso. pose proof (er_cpd (Sh := Sh) (Us := Us) fs cwd o) as Er. rewrite E1 in Er. destruct (io_cpd fs i fl dname s o I0) as (Q & _). rewrite Q in Er. discriminate. }
  assert (w = []) as ->.
  { revert E1. unfold tget_cpd. destruct (o_cpd o); [congruence|]. destruct (o_files (set_cpd (Some (Ini [] [] (o_intname o))) o)) as [[|p l]|]; try congruence.
    destruct (first_missing fs (p :: l)); [congruence|]. destruct (read_files _ _ _) as [[[]|e] j']; [congruence|]. destruct e; congruence. }
  destruct T as (_ & -> & I1). destruct (io_edata fs i fl dname s o1 I1) as (d & G & E & M).
  exists o1, d. split; [|split; [exact I1|exact E]].
  unfold tbind at 1. destruct (ini_has_section i s).
  - unfold tbind at 1, tof at 1. rewrite G. cbn [silent]. rewrite M. cbn [tret app]. unfold tbind, tof. rewrite G. reflexivity.
  - cbn [tret]. unfold tbind, tof. rewrite G. reflexivity.
Qed.
Lemma data_io (o : obj) d : o_edata o = Some d -> dmem s (d_data d) = true -> exists l, data_section s o = (Ok l, o) /\ dget s (d_data d) = Some l.
Proof.
  intros E M. unfold data_section, bind, get_edata. rewrite E. unfold dmem in M. destruct (dget s (d_data d)) as [l|]; [|discriminate]. exists l. auto.
Qed.
Lemma has_opt_io k o d : io o -> o_edata o = Some d -> thas_option K fs cwd shown_files fuel s k o
  = (EOk (match dget s (d_data d) with Some l => dmem k l | None => false end), o, []).
Proof.
  intros I0 E. destruct (io_edata fs i fl dname s o I0) as (d' & G & E' & M). assert (d' = d) as -> by congruence.
  unfold thas_option, tparse_owner. unfold tbind at 1, tbind at 1, tof at 1. rewrite G. cbn [silent]. rewrite M. cbn [negb orb tret app].
  unfold tbind, tof. rewrite G. reflexivity.
Qed.

Theorem get_tells k o : po o ->
  answers_with (fun e m => e = KeyError /\ (m = $"Missing section " ++ s ++ $"." \/ exists key, k = Some key /\ m = $"Missing section:option -> '" ++ s ++ $"': '" ++ key ++ $"'"))
    (tdata_get K fs cwd shown_files fuel s k o).
Proof.
  intros P. unfold tdata_get, tbind at 1, tof at 1. destruct (po_edata o P) as (d & o1 & -> & E & P1). cbn [silent].
  assert (T : triple (fun _ => True) (fun x => x = o1) (if str_mem s (d_checked d) then tret tt else owner) (fun _ => io)).
  { intros x ->. destruct (str_mem s (d_checked d)) eqn:M; [|now apply owner_tells]. split; [constructor|]. eapply po_io; eauto. }
  specialize (T o1 eq_refl). unfold tbind at 1.
  destruct ((if str_mem s (d_checked d) then tret tt else owner) o1) as [[[u|e x] o2] w].
  2:{ destruct T as (W & _ & R). split; [exact W|]. destruct x; [left|]; exact R. }
  destruct T as (W & I2). destruct (has_io o2 I2) as (o3 & d3 & H3 & I3 & E3). unfold tbind at 1. rewrite H3. cbn [app].
  assert (WW : forall w', w' = [] -> Forall (fun l => exists e m, tells e m /\ warns m l) (w ++ w')) by (intros w' ->; apply Forall_app; split; [exact W|constructor]).
  destruct (dmem s (d_data d3)) eqn:DM; [|split; [now apply WW|right; cbn; auto]].
  destruct (data_io o3 d3 E3 DM) as (l & D3 & GL). destruct k as [k|].
  - unfold tbind at 1. rewrite (has_opt_io k o3 d3 I3 E3), GL. destruct (dmem k l) eqn:KL; [|split; [now apply WW|right; cbn; split; [reflexivity|right; eauto]]].
    unfold tbind at 1, tof at 1. rewrite D3. cbn [silent]. unfold dmem in KL. destruct (dget k l); [|discriminate]. split; [now apply WW|exact Logic.I].
  - unfold tbind at 1, tof at 1. rewrite D3. split; [now apply WW|exact Logic.I].
Qed.

Theorem has_option_tells k o : po o -> answers_with (fun _ _ => False) (thas_option K fs cwd shown_files fuel s k o).
Proof.
  intros P. unfold thas_option, tbind at 1. pose proof (owner_tells o P) as T. destruct (owner o) as [[[u|e x] o2] w].
  2:{ destruct T as (W & _ & R). split; [exact W|]. destruct x; [left|]; exact R. }
  destruct T as (W & I2). destruct (io_edata fs i fl dname s o2 I2) as (d & G & _ & _). unfold tbind, tof. rewrite G. split; [|exact Logic.I].
  apply Forall_app; split; [exact W|constructor].
Qed.

(** [has_section] for a section of the file: another text for a [KeyError]. *)
Lemma has_tells o : po o ->
  let '(r, o', w) := thas_section K fs cwd shown_files fuel s o in
  Forall (fun l => exists e m, tells e m /\ warns m l) w /\
  match r with
  | EOk b => b = true -> exists d, o_edata o' = Some d /\ dmem s (d_data d) = true
  | EErr e (Some m) => e = KeyError /\ present i s /\ m = unreachable \/ e <> KeyError /\ tells e m
  | EErr e None => e <> KeyError /\ silent_exc K i dname s true e
  end.
Proof.
  intros P. unfold thas_section, tdata_has_section, tbind at 1.
  assert (C : exists o1, tget_cpd fs cwd o = (EOk i, o1, []) /\ po o1).
  { destruct P as (H & F & D). pose proof (er_cpd (Sh := Sh) (Us := Us) fs cwd o) as Er. rewrite (get_cpd_ready _ _ _ H) in Er.
    exists (set_cpd (Some i) o). split; [|split; [reflexivity|auto]]. destruct (tget_cpd fs cwd o) as [[[j|e x] o1] w] eqn:E1; [|discriminate].
    assert (w = []) as ->; [|cbn in Er; congruence].
    revert E1. unfold tget_cpd. destruct (o_cpd o); [congruence|]. destruct (o_files (set_cpd (Some (Ini [] [] (o_intname o))) o)) as [[|p l]|]; try congruence.
    destruct (first_missing fs (p :: l)); [congruence|]. destruct (read_files _ _ _) as [[[]|e] j']; [congruence|]. destruct e; congruence. }
  destruct C as (o1 & -> & P1). unfold tbind at 1.
  assert (FIN : forall o2 w, Forall (fun l => exists e m, tells e m /\ warns m l) w -> po o2 ->
    let '(r, o', w) := let '(r, s'', w') := (let '(r, s'', w') := tbind (tof get_edata) (fun d => tret (dmem s (d_data d))) o2 in (r, s'', w ++ w')) in (r, s'', [] ++ w') in
    Forall (fun l => exists e m, tells e m /\ warns m l) w /\
    match r with
    | EOk b => b = true -> exists d, o_edata o' = Some d /\ dmem s (d_data d) = true
    | EErr e (Some m) => e = KeyError /\ present i s /\ m = unreachable \/ e <> KeyError /\ tells e m
    | EErr e None => e <> KeyError /\ silent_exc K i dname s true e
    end).
  { intros o2 w W P2. destruct (po_edata o2 P2) as (d & o3 & G & E & _). unfold tbind, tof. rewrite G. cbn [silent tret app]. split; [|intros <-; eauto].
    apply Forall_app; split; [exact W|constructor]. }
  destruct (ini_has_section i s) eqn:HS; [|apply FIN; [constructor|exact P1]].
  unfold tbind at 1, tof at 1. destruct (po_edata o1 P1) as (d & o2 & -> & E & P2). cbn [silent].
  destruct (str_mem s (d_checked d)) eqn:M; [apply FIN; [constructor|exact P2]|].
  pose proof (owner_tells o2 P2) as T. destruct (owner o2) as [[[u|e x] o3] w].
  - destruct T as (W & I3). apply (FIN o3 w W). destruct I3 as (A & B & C & _). split; auto.
  - destruct T as (W & _ & R). assert (PR : present i s) by (apply present_iff; unfold ini_items, own_options, ini_has_section, dmem in *; destruct (str_eqb s (i_defname i)); [discriminate|]; destruct (dget s (i_secs i)); congruence).
    destruct e; cbn [app]; (split; [exact W|]); first [solve [left; auto] | destruct x; [right|]; (split; [discriminate|exact R])].
Qed.

Theorem getitem_tells o : po o ->
  answers_with (fun e m => e = KeyError /\ (m = s \/ present i s /\ m = unreachable)) (tgetitem K fs cwd shown_files fuel s o).
Proof.
  intros P. unfold tgetitem, tbind at 1. pose proof (has_tells o P) as T. destruct (thas_section K fs cwd shown_files fuel s o) as [[[b|e x] o2] w].
  - destruct T as (W & B). destruct b; [|split; [apply Forall_app; split; [exact W|constructor]|right; cbn; auto]].
    destruct (B eq_refl) as (d & E & M). destruct (data_io o2 d E M) as (l & D & _). unfold tof. rewrite D. split; [apply Forall_app; split; [exact W|constructor]|exact Logic.I].
  - destruct T as (W & R). split; [exact W|]. destruct x as [m|]; [|apply R]. destruct R as [(-> & A & B)|(_ & R)]; [right; auto|now left].
Qed.
(** No [KeyError] of [data[s]] names another section. *)
Theorem getitem_key o : po o ->
  match fst (fst (tgetitem K fs cwd shown_files fuel s o)) with EErr KeyError x => x = Some s \/ x = Some unreachable | _ => True end.
Proof.
  intros P. unfold tgetitem, tbind at 1. pose proof (has_tells o P) as T. destruct (thas_section K fs cwd shown_files fuel s o) as [[[b|e x] o2] w].
  - destruct T as (W & B). destruct b; [|cbn; auto].
    destruct (B eq_refl) as (d & E & M). destruct (data_io o2 d E M) as (l & D & _). unfold tof. rewrite D. exact Logic.I.
  - destruct T as (W & R). cbn [fst]. destruct e; try exact Logic.I. destruct x as [m|]; [|destruct R as (Q & _); congruence].
    destruct R as [(_ & _ & ->)|(Q & _)]; [now right|congruence].
Qed.
Theorem options_tells o : po o ->
  answers_with (fun e m => e = KeyError /\ (m = $"Section " ++ s ++ $" does not exist." \/ present i s /\ m = unreachable)) (tdata_options K fs cwd shown_files fuel s o).
Proof.
  intros P. unfold tdata_options, tbind at 1. pose proof (has_tells o P) as T. destruct (thas_section K fs cwd shown_files fuel s o) as [[[b|e x] o2] w].
  - destruct T as (W & B). destruct b; [|split; [apply Forall_app; split; [exact W|constructor]|right; cbn; auto]].
    destruct (B eq_refl) as (d & E & M). destruct (data_io o2 d E M) as (l & D & _). unfold tof. rewrite D. split; [apply Forall_app; split; [exact W|constructor]|exact Logic.I].
  - destruct T as (W & R). split; [exact W|]. destruct x as [m|]; [|apply R]. destruct R as [(-> & A & B)|(_ & R)]; [right; auto|now left].
Qed.
End A.
