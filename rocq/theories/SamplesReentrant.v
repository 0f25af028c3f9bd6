(** * A class whose handler reads a section, for the examples. *)
From Coq Require Import String NArith ZArith List Bool Lia Arith.
Import ListNotations.
From Verif Require Import PyBase PyFacts Shlex IniView IniRead ExcControl Debuggable Cpe
  SpecText SpecFile SpecShell SpecWalk SpecRun SpecParse SpecApi FileProofs MeaningProofs ApiProofs ApiProofs2 Samples SamplesApi Reentrant SpecReentrant ReentrantProofs.

Definition shared := list (dict (option str)).
(** [look S] reads section [S], raises [KeyError] if it has no option [y], and keeps what
    it read in the shared data. *)
Definition look_body : rbody (Sh := shared) := fun _ hp sh =>
  match hp_params hp with
  | [] => HDone (Ok (Some 0%Z)) sh
  | t :: _ => HRead t (fun r =>
      match r with
      | Ok d => if dmem $"y" d then HDone (Ok (Some 0%Z)) (sh ++ [d]) else HDone (Err KeyError) sh
      | Err e => HDone (Err e) sh
      end)
  end.
Definition look_class : rclass := RClass [($"handler_look", RUser Decorated look_body)] [] no_uni.
Definition told_look (ex : str -> dict (option str)) : pyclass shared unit := told_class ex look_class.

Lemma look_behaves ex : (forall s, dmem $"y" (ex s) = true) -> well_behaved (told_look ex).
Proof.
  intros Y. constructor.
  - intros name kind f E s hp sh us. unfold told_look in E. rewrite find_told in E.
    unfold r_find_attr in E. cbn [look_class rk_over dget] in E.
    destruct (str_eqb name $"handler_look").
    + cbn [option_map told_attr] in E. inversion E; subst. unfold told_body, look_body.
      destruct (hp_params hp) as [|t ps]; cbn [told]; [eauto|]. rewrite Y. cbn [told]. eauto.
    + unfold base_rattrs in E. cbn [dget] in E.
      destruct (str_eqb name $"_handler_use"); [discriminate E|].
      destruct (str_eqb name $"handler_finalize"); [cbn [option_map told_attr] in E; inversion E; subst; cbn; eauto|].
      destruct (str_eqb name $"handler_initialize"); [cbn [option_map told_attr] in E; inversion E; subst; cbn; eauto|discriminate E].
  - intros op. unfold has_attr, told_look. rewrite !find_told. unfold r_find_attr. cbn [look_class rk_over dget].
    destruct (str_eqb_spec (private_name op) $"_handler_use") as [E|N].
    + left. assert (X : op = $"use") by (unfold private_name in E; vm_compute in E; inversion E; reflexivity). subst op. reflexivity.
    + right. assert (X : forall l, str_eqb (private_name op) (104%N :: l) = false) by reflexivity.
      unfold base_rattrs. cbn [dget]. apply str_eqb_neq in N. rewrite N.
      change ($"handler_look") with (104%N :: $"andler_look"). change ($"handler_finalize") with (104%N :: $"andler_finalize").
      change ($"handler_initialize") with (104%N :: $"andler_initialize"). now rewrite !X.
  - eexists _, _. unfold told_look. rewrite find_told. vm_compute. reflexivity.
  - eexists _, _. unfold told_look. rewrite find_told. vm_compute. reflexivity.
Qed.

(** The expansion of a section is what the object answers. *)
Lemma told_expansion_check (K : pyclass shared unit) fs i fuel s (o : obj shared unit) d :
  well_behaved K -> all_parsable K i $"DEFAULT" -> length (ini_sections i) + 3 <= fuel -> opened K fs i $"DEFAULT" o ->
  ini_has_section i s = true -> fst (exec_op K fs fuel (OItem s) o) = Ok (RDict d) ->
  expansion K i $"DEFAULT" s d.
Proof.
  intros WB AP F O H E. pose proof (history_answers K fs i _ fuel WB F AP [] (OItem s) o O (Forall_nil _) H) as A.
  cbn [SpecApi.after] in A. revert A E. generalize (fst (exec_op K fs fuel (OItem s) o)). intros r A E. subst r.
  inversion A as [| |s' d' X' E1 E2| | | | | | | | | | | | | | | | | | | | | | | | |]; subst s'. rewrite <- E2 in *. congruence.
Qed.

Lemma handler_name {Sh Us} (K : pyclass Sh Us) op name a amb : handler_of K op (Some (name, a, amb)) ->
  name = public_name op \/ name = private_name op.
Proof. intros H. inversion H; auto. Qed.

(** What is looked at in the options of a section satisfies [p]. *)
Definition looks (p : str -> bool) (items : list (str * res (option str))) : bool :=
  forallb (fun item => match shlex_split (strip_ws (fst item)) with
                       | Ok (w :: t :: _) => negb (str_eqb (undash w) $"look") || p t
                       | _ => true
                       end) items.
Definition down_root (ex : str -> dict (option str)) (i : ini) (p : str -> bool) (root : str) (T : list str) : bool :=
  let K := told_look ex in
  str_mem root T && (negb (ini_has_section i $"DEFAULT") || str_mem $"DEFAULT" T) &&
  forallb (fun x => forallb (fun y => str_mem y T) (targets K i x)) T &&
  forallb (fun t => match ini_items i t with
                    | Some items => looks (fun u => ini_has_section i u && p u) items
                    | None => true
                    end) T.
Lemma look_check ex i (p : str -> bool) rank n root T : (forall s, dmem $"y" (ex s) = true) -> (forall u, p u = true -> rank u < n) ->
  down_root ex i p root T = true ->
  forall name sec hp k f sh, calls (told_look ex) i $"DEFAULT" root name sec hp ->
    dget name (rk_over look_class) = Some (RUser k f) -> reads_below i ex rank n (f sec hp sh).
Proof.
  intros Y PR D name sec hp k f sh CA FA.
  unfold down_root in D. rewrite !andb_true_iff in D. destruct D as (((D1 & D2) & D3) & D4).
  cbn [look_class rk_over dget] in FA. destruct (str_eqb_spec name $"handler_look") as [EN|]; [|discriminate FA].
  inversion FA; subst k f. clear FA. unfold look_body.
  inversion CA as [sec' items item h kind f k v CO SS IN ME E1 E2 E3|E1 E2 E3|E1 E2 E3].
  - subst sec'. cbn [hp_params]. destruct (h_params h) as [|t ps] eqn:HP; [constructor|].
    assert (TS : In sec T).
    { apply str_mem_In in D1. destruct CO as [C|(_ & HD & C)]; [exact (reaches_closed _ _ T _ _ D3 D1 C)|].
      rewrite HD in D2. cbn [negb orb] in D2. apply str_mem_In in D2. exact (reaches_closed _ _ T _ _ D3 D2 C). }
    rewrite forallb_forall in D4. specialize (D4 sec TS). apply shows_iff in SS. rewrite SS in D4.
    unfold looks in D4. rewrite forallb_forall in D4. specialize (D4 item IN).
    apply meaning_iff in ME. inversion ME as [| | | | |k0 v0 w ps0 nm kd g amb SW OW HO Q1 Q2| | |]; subst.
    cbn [h_params h_name fst] in *. subst. rewrite SW in D4.
    assert (UW : undash w = $"look").
    { assert (X : public_name (undash w) = $"handler_look" \/ private_name (undash w) = $"handler_look") 
        by (destruct (handler_name _ _ _ _ _ HO) as [<-|<-]; auto).
      destruct X as [X|X].
      - exact (app_inv_head $"handler_" (undash w) $"look" X).
      - unfold private_name in X. discriminate X. }
    rewrite UW in D4. rewrite str_eqb_refl in D4. cbn [negb orb] in D4. apply andb_prop in D4 as [A B].
    constructor; auto. rewrite Y. constructor.
  - subst. constructor.
  - subst. constructor.
Qed.
Lemma down_check ex i rank : (forall s, dmem $"y" (ex s) = true) ->
  (forall root, ini_has_section i root = true -> exists T, down_root ex i (fun u => rank u <? rank root) root T = true) ->
  reads_down (Us := unit) i $"DEFAULT" ex rank look_class.
Proof.
  intros Y H root name sec hp k f sh HR CA FA. destruct (H root HR) as (T & D).
  eapply look_check; eauto. intros u B. now apply Nat.ltb_lt in B.
Qed.

(** Two sections that look at each other. *)
Definition file97' : list string :=
  ["[A]"; "x : 1"; "look B"; "y : 2"; "[B]"; "x : 3"; "look A"; "y : 4"]%string.
Definition ini97' : ini := match fst (get_cpd (disk file97') (fresh tt : obj unit unit)) with Ok i => i | Err _ => Ini [] [] [] end.
Definition ex97' (s : str) : dict (option str) :=
  if str_eqb s $"A" then [($"x", Some $"1"); ($"y", Some $"2")] else [($"x", Some $"3"); ($"y", Some $"4")].
Lemma has_y97' s : dmem $"y" (ex97' s) = true.
Proof. unfold ex97'. destruct (str_eqb s $"A"); reflexivity. Qed.
Lemma behaves97' : well_behaved (told_look ex97').
Proof. exact (look_behaves _ has_y97'). Qed.
Lemma parsable97' : all_parsable (told_look ex97') ini97' $"DEFAULT".
Proof. apply (all_parsable_check _ _ _ [$"DEFAULT"]); vm_compute; reflexivity. Qed.
Lemma opened97' : opened (told_look ex97') (disk file97') ini97' $"DEFAULT" (fresh tt).
Proof. constructor; [computed|computed|computed|left; computed|computed|computed]. Qed.
Lemma sections97' s : ini_has_section ini97' s = true -> s = $"A" \/ s = $"B".
Proof.
  assert (L : ini_sections ini97' = [$"A"; $"B"]) by (vm_compute; reflexivity).
  intros Q. apply (proj2 (in_sections _ s)) in Q. rewrite L in Q. destruct Q as [<-|[<-|[]]]; auto.
Qed.
Lemma expansion97' s : ini_has_section ini97' s = true -> expansion (told_look ex97') ini97' $"DEFAULT" s (ex97' s).
Proof.
  intros Q. assert (HF : length (ini_sections ini97') + 3 <= 7) by (vm_compute; lia).
  apply (told_expansion_check _ (disk file97') ini97' 7 s (fresh tt) (ex97' s) behaves97' parsable97' HF opened97' Q).
  destruct (sections97' s Q) as [->| ->]; vm_compute; reflexivity.
Qed.
Lemma reads97' root name sec hp k f sh : ini_has_section ini97' root = true ->
  calls (told_look ex97') ini97' $"DEFAULT" root name sec hp -> dget name (rk_over look_class) = Some (RUser k f) ->
  reads_below ini97' ex97' (fun _ => 0) 1 (f sec hp sh).
Proof.
  intros HR CA FA. assert (D : exists T, down_root ex97' ini97' (fun _ => true) root T = true)
    by (destruct (sections97' root HR) as [->| ->]; [exists [$"A"]|exists [$"B"]]; vm_compute; reflexivity).
  destruct D as (T & D). eapply look_check; [exact has_y97'|intros u _; apply Nat.lt_0_1|exact D|exact CA|exact FA].
Qed.
Lemma read97' : fst (r_read look_class (disk file97') 7 7 $"A" (fresh tt : obj shared unit)) = Err KeyError.
Proof. vm_compute. reflexivity. Qed.

(** [A] looks at [B], and at [C] in [U]; [B] looks at [C]. *)
Definition file97 : list string :=
  ["[A]"; "x : 1"; "look B"; "use U"; "y : 2"; "[B]"; "y : 3"; "look C"; "[C]"; "y : 4"; "[U]"; "look C"; "y : 5"]%string.
Definition ini97 : ini := match fst (get_cpd (disk file97) (fresh tt : obj unit unit)) with Ok i => i | Err _ => Ini [] [] [] end.
Definition ex97 (s : str) : dict (option str) :=
  if str_eqb s $"A" then [($"x", Some $"1"); ($"y", Some $"2")]
  else if str_eqb s $"B" then [($"y", Some $"3")]
  else if str_eqb s $"U" then [($"y", Some $"5")] else [($"y", Some $"4")].
Definition rank97 (s : str) : nat :=
  if str_eqb s $"A" then 2 else if str_eqb s $"C" then 0 else 1.
Lemma has_y97 s : dmem $"y" (ex97 s) = true.
Proof. unfold ex97. destruct (str_eqb s $"A"); [reflexivity|]. destruct (str_eqb s $"B"); [reflexivity|]. destruct (str_eqb s $"U"); reflexivity. Qed.
Lemma behaves97 : well_behaved (told_look ex97).
Proof. exact (look_behaves _ has_y97). Qed.
Lemma parsable97 : all_parsable (told_look ex97) ini97 $"DEFAULT".
Proof. apply (all_parsable_check _ _ _ [$"DEFAULT"]); vm_compute; reflexivity. Qed.
Lemma opened97 : opened (told_look ex97) (disk file97) ini97 $"DEFAULT" (fresh tt).
Proof. constructor; [computed|computed|computed|left; computed|computed|computed]. Qed.
Lemma sections97 s : ini_has_section ini97 s = true -> s = $"A" \/ s = $"B" \/ s = $"C" \/ s = $"U".
Proof.
  assert (L : ini_sections ini97 = [$"A"; $"B"; $"C"; $"U"]) by (vm_compute; reflexivity).
  intros Q. apply (proj2 (in_sections _ s)) in Q. rewrite L in Q. destruct Q as [<-|[<-|[<-|[<-|[]]]]]; auto.
Qed.
Lemma expansion97 s : ini_has_section ini97 s = true -> expansion (told_look ex97) ini97 $"DEFAULT" s (ex97 s) /\ rank97 s <= 2.
Proof.
  intros Q. split; [|unfold rank97; destruct (str_eqb s $"A"); [lia|destruct (str_eqb s $"C"); lia]].
  assert (HF : length (ini_sections ini97) + 3 <= 7) by (vm_compute; lia).
  apply (told_expansion_check _ (disk file97) ini97 7 s (fresh tt) (ex97 s) behaves97 parsable97 HF opened97 Q).
  destruct (sections97 s Q) as [->|[->|[->| ->]]]; vm_compute; reflexivity.
Qed.
Lemma down97 : reads_down (Us := unit) ini97 $"DEFAULT" ex97 rank97 look_class.
Proof.
  apply down_check; [exact has_y97|]. intros s Q.
  destruct (sections97 s Q) as [->|[->|[->| ->]]]; [exists [$"A"; $"U"]|exists [$"B"]|exists [$"C"]|exists [$"U"]]; vm_compute; reflexivity.
Qed.
