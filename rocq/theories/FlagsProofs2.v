(** * Selected options: the object and its caches. *)
From Coq Require Import String NArith List Bool Arith Lia Sorted Permutation.
Import ListNotations.
From Verif Require Import PyBase PyFacts EnvVar EnvProofs Regex Keyword SpecKeyword KeywordText RegexProofs KeywordProofs SpecFlags FlagsProofs.
Local Open Scope sm_scope.

Section Pure.
Variable conf : str -> res (dict (option str)).

Definition p_sel (flags : list str) (build : str) : res (dict selection) :=
  rbind (all_options conf flags) (fun l =>
    if has_duplicates l then Err SystemExit else select_all conf (words build) flags []).
Definition sel_text (d : dict selection) : str := flat_map (fun kv => selection_str (snd kv)) d.
Definition p_ans (flags : list str) (build : str) (o : kop) : res kans :=
  match o with
  | KSelected => rbind (p_sel flags build) (fun d => Ok (ASel d))
  | KString => rbind (p_sel flags build) (fun d => Ok (AStr (sel_text d)))
  | KDefault x => rbind (default_options conf flags) (fun l => Ok (ABool (str_mem x l)))
  | KParse => rbind (p_sel flags build) (fun _ => Ok ANone)
  | KOptions => rbind (all_options conf flags) (fun l => Ok (AList l))
  | KName _ => Ok ANone
  end.

Record kinv (flags : list str) (build : str) (p : ckp) : Prop := KInv {
  k_build : c_build p = build;
  k_flags : c_flags p = flags;
  k_sel : forall d, c_selected p = Some d -> p_sel flags build = Ok d;
  k_str : forall s, c_string p = Some s -> exists d, p_sel flags build = Ok d /\ s = sel_text d;
  k_opt : forall l, c_options p = Some l -> all_options conf flags = Ok l;
  k_def : forall l, c_defaults p = Some l -> default_options conf flags = Ok l
}.

Lemma options_list_eq p : options_list conf p =
  match c_options p with
  | Some l => (Ok l, p)
  | None => match all_options conf (c_flags p) with
            | Ok l => (Ok l, Ckp (c_build p) (c_flags p) (c_selected p) (c_string p) (Some l) (c_defaults p))
            | Err e => (Err e, p)
            end
  end.
Proof.
  unfold options_list, bind, get. destruct (c_options p); auto.
  all: unfold of_res; destruct (all_options conf (c_flags p)); reflexivity.
Qed.
Lemma parse_eq p : parse_selected_options conf p =
  match c_selected p with
  | Some _ => (Ok tt, p)
  | None =>
      match options_list conf p with
      | (Err e, p1) => (Err e, p1)
      | (Ok l, p1) =>
          if has_duplicates l then (Err SystemExit, p1)
          else match select_all conf (split_on 95%N (c_build p)) (c_flags p) [] with
               | Err e => (Err e, p1)
               | Ok d => (Ok tt, Ckp (c_build p1) (c_flags p1) (Some d) (c_string p1) (c_options p1) (c_defaults p1))
               end
      end
  end.
Proof.
  unfold parse_selected_options, bind, get. destruct (c_selected p); auto.
  destruct (options_list conf p) as [[l|e] p1]; auto. destruct (has_duplicates l); auto.
  all: unfold of_res; destruct (select_all conf (split_on 95%N (c_build p)) (c_flags p) []); reflexivity.
Qed.
Lemma selected_eq p : selected_options conf p =
  match parse_selected_options conf p with
  | (Err e, p1) => (Err e, p1)
  | (Ok _, p1) => match c_selected p1 with Some d => (Ok d, p1) | None => (Err AttributeError, p1) end
  end.
Proof.
  unfold selected_options, bind, get. destruct (parse_selected_options conf p) as [[[]|e] p1]; auto.
  destruct (c_selected p1); reflexivity.
Qed.
Lemma string_eq p : selected_options_str conf p =
  match c_string p with
  | Some s => (Ok s, p)
  | None => match selected_options conf p with
            | (Err e, p1) => (Err e, p1)
            | (Ok d, p1) => (Ok (sel_text d), Ckp (c_build p1) (c_flags p1) (c_selected p1) (Some (sel_text d)) (c_options p1) (c_defaults p1))
            end
  end.
Proof.
  unfold selected_options_str, bind, get. destruct (c_string p); auto.
  all: destruct (selected_options conf p) as [[d|e] p1]; reflexivity.
Qed.
Lemma default_eq x p : is_default_option conf x p =
  match c_defaults p with
  | Some l => (Ok (str_mem x l), p)
  | None => match default_options conf (c_flags p) with
            | Err e => (Err e, p)
            | Ok l => (Ok (str_mem x l), Ckp (c_build p) (c_flags p) (c_selected p) (c_string p) (c_options p) (Some l))
            end
  end.
Proof.
  unfold is_default_option, bind, get. destruct (c_defaults p); auto.
  all: unfold of_res; destruct (default_options conf (c_flags p)); reflexivity.
Qed.

Lemma k_options flags build p : kinv flags build p ->
  fst (options_list conf p) = all_options conf flags /\ kinv flags build (snd (options_list conf p)).
Proof.
  intros K. rewrite options_list_eq. destruct (c_options p) as [l|] eqn:E.
  - split; auto. symmetry. now apply (k_opt _ _ _ K).
  - rewrite (k_flags _ _ _ K). destruct (all_options conf flags) as [l|e] eqn:A; [|auto].
    split; auto. destruct K as [K1 K2 K3 K4 K5 K6]. constructor; cbn; auto. intros ? [= <-]. exact A.
Qed.
Lemma k_parse flags build p : kinv flags build p ->
  fst (parse_selected_options conf p) = rbind (p_sel flags build) (fun _ => Ok tt) /\
  kinv flags build (snd (parse_selected_options conf p)) /\
  (fst (parse_selected_options conf p) = Ok tt -> c_selected (snd (parse_selected_options conf p)) <> None).
Proof.
  intros K. rewrite parse_eq. destruct (c_selected p) as [d|] eqn:E.
  - rewrite (k_sel _ _ _ K _ E). cbn. repeat split; try apply K. congruence.
  - destruct (k_options _ _ _ K) as (A & B).
    destruct (options_list conf p) as [[l|e] p1]; cbn [fst snd] in *.
    + assert (PS : p_sel flags build = if has_duplicates l then Err SystemExit else select_all conf (words build) flags [])
        by (unfold p_sel; rewrite <- A; reflexivity).
      destruct (has_duplicates l) eqn:D.
      * rewrite PS. split; [reflexivity|]. split; [exact B|discriminate].
      * rewrite (k_build _ _ _ K), (k_flags _ _ _ K). fold (words build). rewrite PS.
        destruct (select_all conf (words build) flags []) as [d|e] eqn:S; cbn.
        -- split; auto. split; [|discriminate].
           destruct B as [K1 K2 K3 K4 K5 K6]. constructor; cbn; auto.
           intros ? [= <-]. exact PS.
        -- split; auto. split; [exact B|discriminate].
    + unfold p_sel. rewrite <- A. split; [reflexivity|]. split; [exact B|discriminate].
Qed.
Lemma k_selected flags build p : kinv flags build p ->
  fst (selected_options conf p) = p_sel flags build /\ kinv flags build (snd (selected_options conf p)).
Proof.
  intros K. rewrite selected_eq. destruct (k_parse _ _ _ K) as (A & B & C).
  destruct (parse_selected_options conf p) as [[[]|e] p1]; cbn [fst snd] in *.
  - destruct (c_selected p1) as [d|] eqn:E; [|now destruct (C eq_refl)]. split; auto.
    symmetry. now apply (k_sel _ _ _ B).
  - split; auto. destruct (p_sel flags build); [discriminate|]. cbn in A. congruence.
Qed.
Lemma k_string flags build p : kinv flags build p ->
  fst (selected_options_str conf p) = rbind (p_sel flags build) (fun d => Ok (sel_text d)) /\
  kinv flags build (snd (selected_options_str conf p)).
Proof.
  intros K. rewrite string_eq. destruct (c_string p) as [s|] eqn:E.
  - destruct (k_str _ _ _ K _ E) as (d & D & ->). rewrite D. auto.
  - destruct (k_selected _ _ _ K) as (A & B).
    destruct (selected_options conf p) as [[d|e] p1]; cbn [fst snd] in *; rewrite <- A.
    + split; auto. destruct B as [K1 K2 K3 K4 K5 K6]. constructor; cbn; auto.
      intros ? [= <-]. exists d. auto.
    + auto.
Qed.
Lemma k_default flags build p x : kinv flags build p ->
  fst (is_default_option conf x p) = rbind (default_options conf flags) (fun l => Ok (str_mem x l)) /\
  kinv flags build (snd (is_default_option conf x p)).
Proof.
  intros K. rewrite default_eq. destruct (c_defaults p) as [l|] eqn:E.
  - rewrite (k_def _ _ _ K _ E). auto.
  - rewrite (k_flags _ _ _ K).
    destruct (default_options conf flags) as [l|e] eqn:D; auto. split; auto.
    destruct K as [K1 K2 K3 K4 K5 K6]. constructor; cbn; auto. intros ? [= <-]. exact D.
Qed.

Lemma bind_eq {S A B} (m : SM S A) (k : A -> SM S B) c :
  bind m k c = match m c with (Ok a, c1) => k a c1 | (Err e, c1) => (Err e, c1) end.
Proof. reflexivity. Qed.
Definition next_name (o : kop) (b : str) : str := match o with KName b' => b' | _ => b end.
Lemma kexec_ok flags build p o : kinv flags build p ->
  fst (kexec conf o p) = p_ans flags build o /\ kinv flags (next_name o build) (snd (kexec conf o p)).
Proof.
  intros K. destruct o; cbn [kexec p_ans next_name]; rewrite bind_eq.
  - destruct (k_selected _ _ _ K) as (A & B). destruct (selected_options conf p) as [[d|e] p1]; cbn in *; rewrite <- A; auto.
  - destruct (k_string _ _ _ K) as (A & B). destruct (selected_options_str conf p) as [[d|e] p1]; cbn in *; split; auto.
    + destruct (p_sel flags build); cbn in *; congruence.
    + destruct (p_sel flags build); cbn in *; congruence.
  - destruct (k_default _ _ _ o K) as (A & B). destruct (is_default_option conf o p) as [[d|e] p1]; cbn in *; split; auto.
    + destruct (default_options conf flags); cbn in *; congruence.
    + destruct (default_options conf flags); cbn in *; congruence.
  - destruct (k_parse _ _ _ K) as (A & B & _). destruct (parse_selected_options conf p) as [[d|e] p1]; cbn in *; split; auto.
    + destruct (p_sel flags build); cbn in *; congruence.
    + destruct (p_sel flags build); cbn in *; congruence.
  - destruct (k_options _ _ _ K) as (A & B). destruct (options_list conf p) as [[d|e] p1]; cbn in *; rewrite <- A; auto.
  - cbn. split; auto. destruct K as [K1 K2 K3 K4 K5 K6]. constructor; cbn; auto; discriminate.
Qed.
Lemma kafter_ok flags h : forall build p, kinv flags build p -> kinv flags (last_name h build) (kafter conf h p).
Proof.
  induction h as [|o h IH]; intros build p K; cbn; auto.
  destruct (kexec_ok _ _ _ o K) as (_ & B). destruct o; apply IH; exact B.
Qed.
Lemma new_inv build p : new_ckp conf build = Ok p ->
  exists d, conf flags_section = Ok d /\ kinv (dkeys d) build p.
Proof.
  unfold new_ckp. destruct (conf flags_section) as [d|e]; [|discriminate]. intros [= <-].
  exists d. split; auto. constructor; cbn; auto; discriminate.
Qed.

(** Whatever was read and whichever names were assigned before, the answers are
    those of a new parser for the present name. *)
Lemma flags_history build p h o p' :
  new_ckp conf build = Ok p -> new_ckp conf (last_name h build) = Ok p' ->
  fst (kexec conf o (kafter conf h p)) = fst (kexec conf o p').
Proof.
  intros N N'. apply new_inv in N as (d & D & K). apply new_inv in N' as (d' & D' & K').
  assert (d' = d) by congruence. subst. apply (kafter_ok _ h) in K.
  rewrite (proj1 (kexec_ok _ _ _ o K)), (proj1 (kexec_ok _ _ _ o K')). reflexivity.
Qed.
Lemma new_succeeds build build' p : new_ckp conf build = Ok p -> exists p', new_ckp conf build' = Ok p'.
Proof. unfold new_ckp. destruct (conf flags_section); [cbn; eauto|discriminate]. Qed.
End Pure.

Section Table.
Variable conf : str -> res (dict (option str)).
Variable T : list row.
Hypothesis HD : describes conf T.

Lemma table_sel build p : new_ckp conf build = Ok p ->
  fst (selected_options conf p) = p_sel conf (map fst T) build /\
  fst (selected_options_str conf p) = rbind (p_sel conf (map fst T) build) (fun d => Ok (sel_text d)).
Proof.
  intros N. apply new_inv in N as (d & D & K). destruct HD as ((d' & D' & E) & _).
  unfold flags_section in D. assert (d' = d) by congruence. subst. rewrite <- E.
  split; [apply k_selected|apply k_string]; auto.
Qed.
Lemma table_new build : exists p, new_ckp conf build = Ok p.
Proof. destruct HD as ((d & D & _) & _). unfold new_ckp, flags_section. rewrite D. cbn. eauto. Qed.

Lemma flags_overlap build p : new_ckp conf build = Ok p -> ~ NoDup (flat_map options_of T) ->
  fst (selected_options conf p) = Err SystemExit.
Proof.
  intros N D. rewrite (proj1 (table_sel _ _ N)). unfold p_sel.
  rewrite (all_options_spec conf T HD T (incl_refl T)). cbn [rbind].
  destruct (has_duplicates _) eqn:E; auto. apply has_duplicates_NoDup in E. tauto.
Qed.

Hypothesis HV : valid_table T.
Lemma p_sel_spec build :
  (exists d, p_sel conf (map fst T) build = Ok d /\ selects_all build T d /\ ~ conflict build T) \/
  (p_sel conf (map fst T) build = Err ValueError /\ conflict build T).
Proof.
  unfold p_sel. rewrite (all_options_spec conf T HD T (incl_refl T)). cbn [rbind].
  rewrite (proj2 (has_duplicates_NoDup _) (proj2 (proj2 HV))).
  apply (select_all_spec conf T HD HV build T []); [apply incl_refl|]. cbn. apply HV.
Qed.
Lemma flags_selected build p : new_ckp conf build = Ok p ->
  (exists d, fst (selected_options conf p) = Ok d /\ selects_all build T d /\ ~ conflict build T) \/
  (fst (selected_options conf p) = Err ValueError /\ conflict build T).
Proof. intros N. rewrite (proj1 (table_sel _ _ N)). apply p_sel_spec. Qed.

(** Only the options named in the build name matter. *)
Lemma selects_all_fun b1 b2 (T' : list row) : (forall o, In o (flat_map options_of T') -> (named b1 o <-> named b2 o)) ->
  forall d1 d2, selects_all b1 T' d1 -> selects_all b2 T' d2 -> d1 = d2.
Proof.
  induction T' as [|r T' IH]; intros E d1 d2 S1 S2; inversion S1 as [|? [f1 s1] ? d1' (A1 & B1) C1]; subst;
    inversion S2 as [|? [f2 s2] ? d2' (A2 & B2) C2]; subst; auto.
  cbn in *. f_equal.
  - f_equal; [congruence|]. eapply selects_fun; [|exact B1|exact B2]. intros o I. apply E. apply in_or_app. now left.
  - apply IH; auto. intros o I. apply E. apply in_or_app. now right.
Qed.
Lemma conflict_named b1 b2 : (forall o, In o (flat_map options_of T) -> (named b1 o <-> named b2 o)) ->
  conflict b1 T -> conflict b2 T.
Proof.
  intros E (f & opts & x & y & I & N & Ix & Iy & Nx & Ny). exists f, opts, x, y.
  repeat split; auto; apply E; auto; apply in_flat_map; exists (f, (false, opts)); auto.
Qed.
Lemma p_sel_named b1 b2 : (forall o, In o (flat_map options_of T) -> (named b1 o <-> named b2 o)) ->
  p_sel conf (map fst T) b1 = p_sel conf (map fst T) b2.
Proof.
  intros E. assert (E' : forall o, In o (flat_map options_of T) -> (named b2 o <-> named b1 o)) by (intros; symmetry; auto).
  destruct (p_sel_spec b1) as [(d1 & -> & S1 & C1)|(-> & C1)], (p_sel_spec b2) as [(d2 & -> & S2 & C2)|(-> & C2)]; auto.
  - f_equal. eapply selects_all_fun; [|exact S1|exact S2]. auto.
  - exfalso. apply C1. eapply conflict_named; [|exact C2]. auto.
  - exfalso. apply C2. eapply conflict_named; [|exact C1]. auto.
Qed.
Lemma flags_named b1 b2 p1 p2 : new_ckp conf b1 = Ok p1 -> new_ckp conf b2 = Ok p2 ->
  (forall o, In o (flat_map options_of T) -> (named b1 o <-> named b2 o)) ->
  fst (selected_options conf p1) = fst (selected_options conf p2) /\
  fst (selected_options_str conf p1) = fst (selected_options_str conf p2).
Proof.
  intros N1 N2 E. destruct (table_sel _ _ N1) as (A1 & B1). destruct (table_sel _ _ N2) as (A2 & B2).
  rewrite A1, A2, B1, B2, (p_sel_named b1 b2 E). auto.
Qed.

(** ** The name made of the selected options *)
Definition chosen_list (s : selection) : list str := match s with One o => [o] | Many l => l end.
Definition chosen_all (d : dict selection) : list str := flat_map (fun kv => chosen_list (snd kv)) d.
Lemma sel_text_list d : sel_text d = flat_map (fun o => 95%N :: o) (chosen_all d).
Proof.
  unfold sel_text, chosen_all. induction d as [|[k s] d IH]; auto. cbn. rewrite flat_map_app, IH. f_equal.
  destruct s as [o|l]; cbn; auto. now rewrite app_nil_r.
Qed.
Lemma words_text pre l : Forall (fun o => ~ In 95%N o) l ->
  words (pre ++ flat_map (fun o => 95%N :: o) l) = words pre ++ l.
Proof.
  unfold words. revert pre. induction l as [|o l IH]; intros pre F; cbn.
  - now rewrite !app_nil_r.
  - inversion F; subst. rewrite split_app. f_equal.
    rewrite (IH o) by auto. rewrite split_on_word by auto. reflexivity.
Qed.
Lemma selects_chosen build mo s o : selects build mo s -> In o (snd mo) ->
  (named build o -> In o (chosen_list s)) /\ (In o (chosen_list s) -> named build o \/ (exists x, s = One x /\ forall y, In y (snd mo) -> ~ named build y)).
Proof.
  intros S I. destruct S as [many x opts F|many opts x Ix Nx U|opts l M D St]; cbn in *.
  - split; [intros N; now destruct (F o I)|]. intros _. right. eauto.
  - split; [intros N; left; symmetry; auto|]. intros [<-|[]]. auto.
  - split; [intros N; apply D; auto|]. intros J. left. now apply D.
Qed.
Lemma selects_in build mo s o : selects build mo s -> In o (chosen_list s) -> In o (snd mo).
Proof.
  intros S I. destruct S as [many x opts F|many opts x Ix Nx U|opts l M D St]; cbn in *.
  - destruct I as [<-|[]]. now left.
  - destruct I as [<-|[]]. auto.
  - now apply D in I.
Qed.
(** Selecting again, by a name whose words among the options are the chosen
    ones, gives the same. *)
Lemma reselect b1 b2 mo s : selects b1 mo s ->
  (forall o, In o (snd mo) -> (named b2 o <-> In o (chosen_list s))) -> selects b2 mo s.
Proof.
  intros S E. destruct S as [many x opts F|many opts x Ix Nx U|opts l M D St]; cbn in *.
  - apply sel_one; [now left|apply E; auto|]. intros y I N. apply E in N; auto. destruct N as [<-|[]]. auto.
  - apply sel_one; [auto|apply E; auto|]. intros y I N. apply E in N; auto. destruct N as [<-|[]]. auto.
  - constructor; auto. intros y. split.
    + intros I. assert (In y opts) by now apply D. split; auto. apply E; auto.
    + intros (I & N). apply E; auto.
Qed.
Lemma selects_all_in build (T' : list row) d o : selects_all build T' d -> In o (chosen_all d) -> In o (flat_map options_of T').
Proof.
  unfold chosen_all. induction 1 as [|r [f s] T' d (A & B) S IH]; cbn; auto. intros I.
  apply in_app_iff in I as [I|I]; apply in_or_app; auto. left. eapply selects_in; eauto.
Qed.
Lemma reselect_all b1 b2 (T' : list row) d : selects_all b1 T' d -> NoDup (flat_map options_of T') ->
  (forall o, In o (flat_map options_of T') -> (named b2 o <-> In o (chosen_all d))) -> selects_all b2 T' d.
Proof.
  unfold chosen_all. induction 1 as [|r [f s] T' d (A & B) S IH]; intros N E; [constructor|].
  cbn in *. apply NoDup_app_inv in N as (N1 & N2 & N3). constructor.
  - split; auto. eapply reselect; [exact B|]. intros o I. rewrite E by (apply in_or_app; now left).
    rewrite in_app_iff. split; auto. intros [J|J]; auto. exfalso. apply (N3 o I). eapply selects_all_in; eauto.
  - apply IH; auto. intros o I. rewrite E by (apply in_or_app; now right). rewrite in_app_iff. split; auto.
    intros [J|J]; auto. exfalso. eapply (N3 o); eauto. eapply selects_in; eauto.
Qed.
Lemma reselect_no_conflict b2 (T' : list row) d : selects_all b2 T' d -> ~ conflict b2 T'.
Proof.
  intros S (f & opts & x & y & I & N & Ix & Iy & Nx & Ny). unfold selects_all in S.
  induction S as [|r [f' s] T1 d1 (A & B) S IH]; [destruct I|]. destruct I as [->|I]; [|exact (IH I)]. cbn in B.
  inversion B as [? o' ? F'|? ? o' I' J' U'|]; subst; [apply (F' x); auto|]. apply N. rewrite (U' x), (U' y); auto.
Qed.
Lemma p_sel_of_selects build d : selects_all build T d -> p_sel conf (map fst T) build = Ok d.
Proof.
  intros S. destruct (p_sel_spec build) as [(d' & -> & S' & _)|(_ & C)].
  - f_equal. eapply selects_all_fun; [|exact S'|exact S]. tauto.
  - now apply reselect_no_conflict in S.
Qed.
Lemma flags_canonical build p text pre p' :
  word_options T ->
  new_ckp conf build = Ok p -> fst (selected_options_str conf p) = Ok text ->
  (forall o, In o (flat_map options_of T) -> ~ named pre o) ->
  new_ckp conf (pre ++ text) = Ok p' ->
  fst (selected_options conf p') = fst (selected_options conf p) /\
  fst (selected_options_str conf p') = Ok text.
Proof.
  intros W N E P N'. destruct (table_sel _ _ N) as (A & B). destruct (table_sel _ _ N') as (A' & B').
  destruct (p_sel_spec build) as [(d & D & S & _)|(D & _)]; rewrite D in *; rewrite B in E; [|discriminate].
  cbn in E. injection E as <-.
  assert (R : p_sel conf (map fst T) (pre ++ sel_text d) = Ok d).
  { apply p_sel_of_selects. apply (reselect_all build); auto; [apply HV|]. intros o I.
    rewrite !named_iff, sel_text_list, words_text.
    - rewrite in_app_iff. split; auto. intros [J|J]; auto. apply named_iff in J. now destruct (P o I).
    - apply Forall_forall. intros x J. apply (selects_all_in _ _ _ _ S), W in J. tauto. }
  rewrite A', B', A, R. auto.
Qed.
Lemma flags_default build p x : new_ckp conf build = Ok p ->
  exists b, fst (is_default_option conf x p) = Ok b /\
    (b = true <-> exists f many opts, In (f, (many, x :: opts)) T).
Proof.
  intros N. apply new_inv in N as (d & D & K). destruct HD as ((d' & D' & E) & _).
  unfold flags_section in D. assert (d' = d) by congruence. subst.
  rewrite (proj1 (k_default _ _ _ _ x K)), E, (default_options_spec conf T HD HV T (incl_refl T)). cbn.
  eexists. split; [reflexivity|]. rewrite str_mem_In, in_map_iff. split.
  - intros ([f [many opts]] & H & I). pose proof (proj1 (proj2 HV) _ I) as NE. cbn in *.
    destruct opts as [|o opts]; [tauto|]. cbn in H. subst. eauto.
  - intros (f & many & opts & I). exists (f, (many, x :: opts)). auto.
Qed.
End Table.
