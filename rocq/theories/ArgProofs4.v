(** * Proofs about command lines: the two programs. *)
From Coq Require Import String NArith List Bool Arith Lia.
Import ListNotations.
From Verif Require Import PyBase PyFacts SpecText SpecGenRun ArgParse SpecArgs ArgProofs ArgProofs2 ArgProofs3.

(** ** Tables *)
Definition long_check (s : str) : bool :=
  match s with a :: b :: _ :: _ => N.eqb a 45 && N.eqb b 45 && negb (char_mem 61%N s) | _ => false end.
Definition short_check (s : str) : bool :=
  match s with [a; c] => N.eqb a 45 && negb (char_mem c [45; 46; 61; 32]%N) && N.ltb c 128 && negb (N.leb 48 c && N.leb c 57) | _ => false end.
Fixpoint nodup_check (l : list str) : bool := match l with [] => true | x :: l => negb (existsb (str_eqb x) l) && nodup_check l end.
Lemma nodup_check_sound l : nodup_check l = true -> NoDup l.
Proof.
  induction l as [|x l IH]; [constructor|]. cbn [nodup_check]. rewrite andb_true_iff, negb_true_iff. intros (E & H). constructor; [|now apply IH].
  intros I. assert (X : existsb (str_eqb x) l = true) by (apply existsb_exists; exists x; split; [exact I|apply str_eqb_refl]). congruence.
Qed.
Lemma nodup_spellings t : NoDup (flat_map o_strings t) -> forall s o o', spelling t s o -> spelling t s o' -> o = o'.
Proof.
  induction t as [|x l IH]; [intros _ s o o' ([] & _)|]. cbn [flat_map]. intros N s o o' (I & J) (I' & J').
  assert (SP : forall a b : list str, NoDup (a ++ b) -> NoDup b /\ forall y, In y a -> ~ In y b).
  { clear. induction a as [|y a IH]; intros b N; [split; [exact N|intros y []]|]. cbn [app] in N. inversion N as [|? ? N1 N2]; subst. destruct (IH _ N2) as (H1 & H2).
    split; [exact H1|]. intros z [->|Z] ZB; [apply N1; apply in_or_app; now right|now apply (H2 z)]. }
  destruct (SP _ _ N) as (N2 & H). destruct I as [->|I], I' as [<-|I'].
  - reflexivity.
  - exfalso. apply (H s J). apply in_flat_map. now exists o'.
  - exfalso. apply (H s J'). apply in_flat_map. now exists o.
  - apply (IH N2 s); split; auto.
Qed.
Definition table_check (t : list opt) : bool :=
  forallb (fun s => long_check s || short_check s) (flat_map o_strings t) && nodup_check (flat_map o_strings t) && nodup_check (map o_dest t).
Lemma long_check_sound s : long_check s = true -> is_long s.
Proof.
  unfold long_check. destruct s as [|a [|b [|c n]]]; try discriminate. rewrite !andb_true_iff, negb_true_iff, !N.eqb_eq. intros ((-> & ->) & H).
  exists c, n. split; [reflexivity|]. intros I. apply char_mem_In in I. congruence.
Qed.
Lemma short_check_sound uni_digit s : short_check s = true -> exists c, s = [45; c]%N /\ ~ In c [45; 46; 61; 32]%N /\ digit uni_digit c = false.
Proof.
  unfold short_check. destruct s as [|a [|c [|d n]]]; try discriminate. rewrite !andb_true_iff, !negb_true_iff, !N.eqb_eq. intros (((-> & H) & L) & D).
  exists c. split; [reflexivity|]. split; [intros I; apply char_mem_In in I; congruence|]. unfold digit. rewrite D.
  apply N.ltb_lt in L. destruct (N.ltb 127 c) eqn:E; [|reflexivity]. apply N.ltb_lt in E. lia.
Qed.
Lemma table_check_sound uni_digit t : table_check t = true -> good_table (fun c => digit uni_digit c = true) t.
Proof.
  unfold table_check. rewrite !andb_true_iff. intros ((F & N1) & N2). apply nodup_check_sound in N1. apply nodup_check_sound in N2.
  assert (H : forall s o, spelling t s o -> long_check s = true \/ short_check s = true).
  { intros s o (I & J). apply orb_true_iff. apply (proj1 (forallb_forall _ _) F). apply in_flat_map. now exists o. }
  split.
  - intros s o S. destruct (H s o S) as [E|E]; [left; now apply long_check_sound|right]. destruct (short_check_sound uni_digit s E) as (c & -> & N & _). now exists c.
  - now apply nodup_spellings.
  - exact N1.
  - intros c o S. destruct (H _ o S) as [E|E]; [discriminate|]. destruct (short_check_sound uni_digit _ E) as (c' & [= <-] & _ & D). congruence.
  - exact N2.
Qed.
Lemma load_table uni_digit : good_table (fun c => digit uni_digit c = true) load_options /\ ~ In $"build_name" (map o_dest load_options).
Proof.
  split; [apply table_check_sound; vm_compute; reflexivity|]. intros I.
  assert (X : existsb (str_eqb $"build_name") (map o_dest load_options) = true) by (apply existsb_exists; eexists; split; [exact I|reflexivity]). vm_compute in X. discriminate.
Qed.
Lemma gen_table uni_digit : good_table (fun c => digit uni_digit c = true) gen_options /\ ~ In $"build_name" (map o_dest gen_options).
Proof.
  split; [apply table_check_sound; vm_compute; reflexivity|]. intros I.
  assert (X : existsb (str_eqb $"build_name") (map o_dest gen_options) = true) by (apply existsb_exists; eexists; split; [exact I|reflexivity]). vm_compute in X. discriminate.
Qed.

(** ** Reading more *)
Section More.
Variable is_digit : pychar -> Prop.
Variable t : list opt.
Notation reading := (reading is_digit t).
(** A spelling is a word that stands for its option. *)
Lemma spelled_word s o : spelling t s o -> is_long s -> long_word t s o None.
Proof.
  intros S (c & n & -> & N). apply lw_bare; [now exists (c :: n)|discriminate|exact N|now left].
Qed.
Lemma reading_append l f evs w v o : reading f l evs -> ~ In [45; 45]%N l -> long_word t w o None -> takes o -> plain is_digit t v ->
  reading f (l ++ [w; v]) (evs ++ [EOption o (Some v)]).
Proof.
  intros R N L T Q. induction R as [f|f w1 o1 l evs L1 T1 RD IH|f w1 o1 v1 l evs L1 T1 RD IH|f w1 o1 v1 l evs L1 T1 Q1 RD IH|f r evs1 l evs L1 RD IH|f r evs1 o1 v1 l evs L1 Q1 RD IH|w1 l evs Q1 RD IH|w1 Q1| |w1]; cbn [app].
  - apply rd_next; auto. constructor.
  - apply rd_flag; auto. apply IH. intros J. apply N. now right.
  - apply rd_value; auto. apply IH. intros J. apply N. now right.
  - apply rd_next; auto. apply IH. intros J. apply N. right. now right.
  - rewrite <- app_assoc. apply rd_letters; auto. apply IH. intros J. apply N. now right.
  - rewrite <- app_assoc. cbn [app]. apply rd_letters_next; auto. apply IH. intros J. apply N. right. now right.
  - apply rd_build; auto. apply IH. intros J. apply N. now right.
  - exfalso. apply N. right. now left.
  - exfalso. apply N. now left.
  - exfalso. apply N. now left.
Qed.
End More.

Section Front.
Variable uni_digit : pychar -> bool.
Variable resolve : str -> str.
Variable t : list opt.
Variable positional : str.
Notation is_digit := (fun c => digit uni_digit c = true).
Notation reading := (reading is_digit t).
Notation effects := (effects resolve positional).
Notation effect := (effect resolve positional).
Notation parse_args := (parse_args uni_digit resolve t positional).
Hypothesis G : good_table is_digit t.
Hypothesis P : ~ In positional (map o_dest t).

Lemma front_reads w o v l ns : long_word t w o None -> takes o -> plain is_digit t v -> parse_args (w :: v :: l) = Done ns ->
  exists evs, reading true l evs /\ no_help evs /\ ns = effects evs (effects [EOption o (Some v)] (defaults t positional)).
Proof.
  intros L T Q E. assert (O : opt_word t w [] (Some o)) by now constructor.
  destruct (option_next uni_digit resolve t positional G w [] o v O (fun _ _ x => match x with end)) as (D & tp & PO & K).
  unfold ArgParse.parse_args in E. destruct (classify uni_digit t (w :: v :: l)) as [cl0| |] eqn:C0; [|discriminate..].
  assert (X : exists cl, classify uni_digit t l = Done cl /\ cl0 = (w, CO tp) :: (v, CA) :: cl).
  { destruct (classify_result uni_digit t G l) as [(cl & C)|(C & _)].
    - exists cl. split; [exact C|]. rewrite (classify_option uni_digit t w tp (v :: l) ((v, CA) :: cl) D PO) in C0 by now apply classify_plain. now injection C0 as <-.
    - exfalso. destruct (parse_plain uni_digit t G v Q) as (DV & PV). cbn [classify] in C0.
      destruct (str_eqb w $"--") eqn:E1; [apply str_eqb_eq in E1; now elim D|]. destruct (str_eqb v $"--") eqn:E2; [apply str_eqb_eq in E2; now elim DV|].
      rewrite PO, PV, C in C0. discriminate. }
  destruct X as (cl & C & ->). cbn [obind] in E. rewrite K in E. cbn [app length] in E.
  assert (IV : true = true -> dget positional (effects [EOption o (Some v)] (defaults t positional)) = Some (VStr [])).
  { intros _. change [EOption o (Some v)] with (said [(o, Some v)]). rewrite (effects_positional resolve t positional P).
    - cbn [defaults dget]. now rewrite str_eqb_refl.
    - constructor; [|constructor]. split; [now apply long_in in L|]. cbn. split; [discriminate|auto]. }
  assert (Y := loop_is_good uni_digit resolve t positional G P (S (S (length cl))) l cl true [] _ C ltac:(lia) IV). unfold good_result in Y.
  destruct (parse_loop _ _ _ _ _ _ _ _) as [(ns' & ex)|n|]; cbn [obind snd fst] in E; [|discriminate..].
  destruct Y as (_ & Y). destruct ex; [|discriminate]. injection E as <-. now apply Y.
Qed.
Lemma effects_agree k evs : forall ns ns', dget k ns = dget k ns' -> dget k (effects evs ns) = dget k (effects evs ns').
Proof.
  assert (DS : forall k' v ns ns', dget k ns = dget k ns' -> dget k (dset k' v ns) = dget k (@dset aval k' v ns')).
  { intros k' v ns ns' E. destruct (str_eqb k k') eqn:X.
    - apply str_eqb_eq in X. subst. now rewrite !dget_dset_same.
    - rewrite !dget_dset_other; [exact E|intros ->; rewrite str_eqb_refl in X; discriminate..]. }
  induction evs as [|e evs IH]; intros ns ns' E; [exact E|]. change (dget k (effects evs (effect e ns)) = dget k (effects evs (effect e ns'))). apply IH.
  destruct e as [o v|w]; cbn [ArgProofs2.effect]; [|now apply DS]. destruct (o_kind o); [|destruct v|]; auto.
Qed.
Lemma has_last o evs v : In o t -> Forall (sound_event t) evs -> In (EOption o (Some v)) evs -> exists v', last_value o evs v'.
Proof.
  intros I F. revert v. induction F as [|e evs S F IH]; [intros v []|]. intros v J.
  destruct (event_dec uni_digit t positional G P o evs I F) as [([v'|] & J')|N].
  - destruct (IH v' J') as (v2 & a & b & -> & M). exists v2, (e :: a), b. split; [reflexivity|exact M].
  - exfalso. assert (S' := proj1 (Forall_forall _ _) F _ J'). destruct S' as (_ & T'). destruct J as [->|J].
    + destruct S as (_ & T). apply (proj1 T'); [|reflexivity]. apply T. discriminate.
    + assert (S2 := proj1 (Forall_forall _ _) F _ J). destruct S2 as (_ & T). apply (proj1 T'); [|reflexivity]. apply T. discriminate.
  - destruct J as [->|J]; [|now elim (N _ J)]. exists v, [], evs. split; [reflexivity|]. intros v'. apply N.
Qed.
Lemma front_settings o v l evs : In o t -> takes o -> reading true l evs ->
  in_front resolve (o_dest o) v (effects evs (defaults t positional)) (effects evs (effects [EOption o (Some v)] (defaults t positional))).
Proof.
  intros I T R. destruct (reading_builds uni_digit resolve t G _ _ _ R) as (F & _). unfold takes in T. split.
  - intros k K. apply effects_agree. unfold ArgProofs2.effects. cbn [fold_left ArgProofs2.effect]. rewrite T. now apply dget_dset_other.
  - destruct (event_dec uni_digit t positional G P o evs I F) as [([v'|] & J)|N].
    + destruct (has_last o evs v' I F J) as (v2 & LV).
      rewrite !(effects_store uni_digit resolve t positional G P o evs v2 I T F LV). reflexivity.
    + exfalso. assert (S' := proj1 (Forall_forall _ _) F _ J). destruct S' as (_ & T'). now apply (proj1 T').
    + rewrite !(effects_other uni_digit resolve t positional G P o evs I F N). rewrite (default_get uni_digit t positional G P o I), T.
      unfold ArgProofs2.effects. cbn [fold_left ArgProofs2.effect]. rewrite T. apply dget_dset_same.
Qed.
Lemma front_accepts w o v l : long_word t w o None -> takes o -> plain is_digit t v ->
  (forall ns, parse_args l = Done ns -> exists ns', parse_args (w :: v :: l) = Done ns' /\ in_front resolve (o_dest o) v ns ns') /\
  (forall ns', parse_args (w :: v :: l) = Done ns' -> exists ns, parse_args l = Done ns /\ in_front resolve (o_dest o) v ns ns').
Proof.
  intros L T Q. assert (I := long_in t _ _ _ L). split.
  - intros ns E. assert (X := parse_result uni_digit resolve t positional G P l). rewrite E in X. destruct X as (evs & R & N & ->).
    exists (effects evs (effects [EOption o (Some v)] (defaults t positional))). split; [|now apply (front_settings o v l)].
    rewrite <- effects_app. change ([EOption o (Some v)] ++ evs) with (EOption o (Some v) :: evs). apply (parse_reads uni_digit resolve t positional G P).
    + now apply rd_next.
    + intros o' v' [[= <- <-]|J]; [unfold takes in T; congruence|now apply (N o' v')].
  - intros ns' E. destruct (front_reads _ _ _ _ _ L T Q E) as (evs & R & N & ->). exists (effects evs (defaults t positional)).
    split; [now apply (parse_reads uni_digit resolve t positional G P)|now apply (front_settings o v l)].
Qed.
End Front.

(** ** The lines of the scripts *)
Definition location_option : opt := Opt [$"--load-matching-env-location"] $"load_matching_env_location" KStore.
Lemma spelled t s o : existsb (fun p => str_eqb s (fst p)) (option_strings t) = true ->
  dget s (option_strings t) = Some o -> long_check s = true -> long_word t s o None.
Proof.
  intros _ D L. apply spelled_word; [|now apply long_check_sound]. apply strings_in. now apply dget_in.
Qed.
Lemma load_spelled s o : dget s (option_strings load_options) = Some o -> long_check s = true -> long_word load_options s o None.
Proof. intros D L. apply spelled_word; [|now apply long_check_sound]. apply strings_in. now apply dget_in. Qed.
Lemma gen_spelled s o : dget s (option_strings gen_options) = Some o -> long_check s = true -> long_word gen_options s o None.
Proof. intros D L. apply spelled_word; [|now apply long_check_sound]. apply strings_in. now apply dget_in. Qed.
Lemma script_line uni_digit resolve args loc : plain (fun c => digit uni_digit c = true) load_options loc ->
  (forall ns, load_parse uni_digit resolve args = Done ns ->
     exists ns', load_parse uni_digit resolve ($"--load-matching-env-location" :: loc :: args) = Done ns' /\ in_front resolve $"load_matching_env_location" loc ns ns') /\
  (forall ns', load_parse uni_digit resolve ($"--load-matching-env-location" :: loc :: args) = Done ns' ->
     exists ns, load_parse uni_digit resolve args = Done ns /\ in_front resolve $"load_matching_env_location" loc ns ns').
Proof.
  intros Q. destruct (load_table uni_digit) as (G & P). apply (front_accepts uni_digit resolve load_options _ G P $"--load-matching-env-location" location_option loc args); [|reflexivity|exact Q].
  apply load_spelled; reflexivity.
Qed.

Definition flag_word (w : str) : event :=
  if str_eqb w $"--force" then EOption (Opt [$"-f"; $"--force"] $"force" (KFlag true)) None
  else EOption (Opt [$"--ci-mode"] $"do_not_use_this_ci_mode_argument_in_load_env_python_code" (KFlag false)) None.
Lemma saved_reads is_digit sf ef pf options build : (forall o, In o options -> o = $"--force" \/ o = $"--ci-mode") ->
  plain is_digit load_options sf -> plain is_digit load_options ef -> plain is_digit load_options pf -> plain is_digit load_options build ->
  reading is_digit load_options true
    ([$"--supported-systems"; sf; $"--supported-envs"; ef; $"--environment-specs"; pf] ++ options ++ [build])
    ([EOption (Opt [$"--supported-systems"] $"supported_systems_file" KStore) (Some sf);
      EOption (Opt [$"--supported-envs"] $"supported_envs_file" KStore) (Some ef);
      EOption (Opt [$"--environment-specs"] $"environment_specs_file" KStore) (Some pf)] ++ map flag_word options ++ [EBuild build]).
Proof.
  intros OP Q1 Q2 Q3 Q4. cbn [app].
  apply rd_next; [apply load_spelled; reflexivity|reflexivity|exact Q1|].
  apply rd_next; [apply load_spelled; reflexivity|reflexivity|exact Q2|].
  apply rd_next; [apply load_spelled; reflexivity|reflexivity|exact Q3|].
  induction options as [|w l IH]; cbn [map app].
  - apply rd_build; [exact Q4|constructor].
  - assert (R := IH (fun o J => OP o (or_intror J))). destruct (OP w (or_introl eq_refl)) as [->| ->].
    + apply rd_flag; [apply load_spelled; reflexivity|discriminate|exact R].
    + apply rd_flag; [apply load_spelled; reflexivity|discriminate|exact R].
Qed.
Lemma saved_line uni_digit resolve sf ef pf force ci build m : loadenv_command sf ef pf force ci build m ->
  Forall (plain (fun c => digit uni_digit c = true) load_options) [sf; ef; pf; build] ->
  exists ns, load_parse uni_digit resolve m = Done ns /\
    dget $"supported_systems_file" ns = Some (VPath (resolve sf)) /\ dget $"supported_envs_file" ns = Some (VPath (resolve ef)) /\
    dget $"environment_specs_file" ns = Some (VPath (resolve pf)) /\ dget $"build_name" ns = Some (VStr build) /\
    dget $"force" ns = Some (VBool force) /\ dget $"list_envs" ns = Some (VBool false) /\ dget $"output" ns = Some VNone /\
    dget $"load_matching_env_location" ns = Some VNone.
Proof.
  intros (options & -> & HF & _ & _ & OP) F. inversion F as [|? ? Q1 F1]; subst. inversion F1 as [|? ? Q2 F2]; subst.
  inversion F2 as [|? ? Q3 F3]; subst. inversion F3 as [|? ? Q4 _]; subst. destruct (load_table uni_digit) as (G & P).
  assert (R := saved_reads (fun c => digit uni_digit c = true) sf ef pf options build OP Q1 Q2 Q3 Q4).
  set (evs := _ ++ _ ++ [EBuild build]) in R.
  assert (WF : forall w, flag_word w = EOption (Opt [$"-f"; $"--force"] $"force" (KFlag true)) None \/
                         flag_word w = EOption (Opt [$"--ci-mode"] $"do_not_use_this_ci_mode_argument_in_load_env_python_code" (KFlag false)) None).
  { intros w. unfold flag_word. destruct (str_eqb w _); auto. }
  assert (IN : forall e, In e evs -> (e = EOption (Opt [$"--supported-systems"] $"supported_systems_file" KStore) (Some sf) \/
      e = EOption (Opt [$"--supported-envs"] $"supported_envs_file" KStore) (Some ef) \/
      e = EOption (Opt [$"--environment-specs"] $"environment_specs_file" KStore) (Some pf)) \/
      (exists w, In w options /\ e = flag_word w) \/ e = EBuild build).
  { intros e I. unfold evs in I. apply in_app_or in I as [I|I].
    - left. destruct I as [<-|[<-|[<-|[]]]]; auto.
    - right. apply in_app_or in I as [I|[<-|[]]]; [left|now right]. apply in_map_iff in I as (w & <- & I). now exists w. }
  assert (N : no_help evs).
  { intros o v I. destruct (IN _ I) as [[E|[E|E]]|[(w & _ & E)|E]]; try (injection E as -> _; discriminate); [|discriminate].
    destruct (WF w) as [X|X]; rewrite X in E; injection E as -> _; discriminate. }
  destruct (proj2 (parse_accepts uni_digit resolve load_options $"build_name" G P _) (ex_intro _ evs (conj R N))) as (ns & E). exists ns. split; [exact E|].
  destruct (parse_settles uni_digit resolve load_options $"build_name" G P _ evs ns R E N) as [SF SS (SB & _)].
  assert (LV : forall a o v b, evs = a ++ EOption o (Some v) :: b -> o_kind o = KStore -> In o load_options ->
             (forall v', ~ In (EOption o (Some v')) b) -> dget (o_dest o) ns = Some (VPath (resolve v))).
  { intros a o v b E' K I NB. apply (SS o I K). now exists a, b. }
  assert (MF : forall o v, o_kind o = KStore -> ~ In (EOption o v) (map flag_word options ++ [EBuild build])).
  { intros o v K I. apply in_app_or in I as [I|[I|[]]]; [|discriminate]. apply in_map_iff in I as (w & X & _). destruct (WF w) as [Y|Y]; rewrite Y in X; injection X as <- _; discriminate. }
  split; [|split; [|split; [|split; [|split; [|split; [|split]]]]]].
  - refine (LV [] (Opt [$"--supported-systems"] $"supported_systems_file" KStore) sf _ eq_refl eq_refl _ _).
    + apply (nth_In load_options help_option (n := 4)). cbn. lia.
    + intros v' [X|[X|I]]; [discriminate|discriminate|]. now apply MF in I.
  - refine (LV [_] (Opt [$"--supported-envs"] $"supported_envs_file" KStore) ef _ eq_refl eq_refl _ _).
    + apply (nth_In load_options help_option (n := 5)). cbn. lia.
    + intros v' [X|I]; [discriminate|]. now apply MF in I.
  - refine (LV [_; _] (Opt [$"--environment-specs"] $"environment_specs_file" KStore) pf _ eq_refl eq_refl _ _).
    + apply (nth_In load_options help_option (n := 6)). cbn. lia.
    + intros v' I. now apply MF in I.
  - apply SB. unfold evs. apply in_or_app. right. apply in_or_app. right. now left.
  - destruct (SF (Opt [$"-f"; $"--force"] $"force" (KFlag true)) true) as (S1 & S2); [apply (nth_In load_options help_option (n := 3)); cbn; lia|reflexivity|].
    destruct force.
    + apply S1. unfold evs. apply in_or_app. right. apply in_or_app. left. apply in_map_iff. exists $"--force". split; [reflexivity|]. now apply HF.
    + apply S2. intros I. destruct (IN _ I) as [[X|[X|X]]|[(w & W & X)|X]]; try discriminate.
      destruct (OP w W) as [->| ->]; [|discriminate]. assert (false = true) by now apply HF. discriminate.
  - destruct (SF (Opt [$"-l"; $"--list-envs"] $"list_envs" (KFlag true)) true) as (_ & S2); [apply (nth_In load_options help_option (n := 1)); cbn; lia|reflexivity|].
    apply S2. intros I. destruct (IN _ I) as [[X|[X|X]]|[(w & W & X)|X]]; try discriminate. destruct (WF w) as [Y|Y]; rewrite Y in X; discriminate.
  - destruct (SS (Opt [$"-o"; $"--output"] $"output" KStore)) as (_ & S2); [apply (nth_In load_options help_option (n := 2)); cbn; lia|reflexivity|].
    apply S2. intros v I. destruct (IN _ I) as [[X|[X|X]]|[(w & W & X)|X]]; try discriminate. destruct (WF w) as [Y|Y]; rewrite Y in X; discriminate.
  - destruct (SS location_option) as (_ & S2); [apply (nth_In load_options help_option (n := 8)); cbn; lia|reflexivity|].
    apply S2. intros v I. destruct (IN _ I) as [[X|[X|X]]|[(w & W & X)|X]]; try discriminate. destruct (WF w) as [Y|Y]; rewrite Y in X; discriminate.
Qed.
Definition save_option : opt := Opt [$"--save-load-env-args"] $"save_load_env_args" KStore.
Lemma saving_line uni_digit args f evs : reading (fun c => digit uni_digit c = true) gen_options true args evs -> ~ In [45; 45]%N args ->
  plain (fun c => digit uni_digit c = true) gen_options f ->
  reading (fun c => digit uni_digit c = true) gen_options true (args ++ [$"--save-load-env-args"; f]) (evs ++ [EOption save_option (Some f)]).
Proof. intros R N Q. apply reading_append; auto; [apply gen_spelled; reflexivity|reflexivity]. Qed.
