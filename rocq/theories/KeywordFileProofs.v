(** * [KeywordParser] on a file. *)
From Coq Require Import String NArith ZArith List Bool Lia Arith.
Import ListNotations.
From Verif Require Import PyBase PyFacts Shlex IniView IniRead ExcControl Debuggable Cpe
  SpecBase SpecWalk SpecRun SpecParse SpecApi BaseProofs Refine RefineRoot RefineOk RunProofs Trace WalkProofs
  ParseProofs ParseProofs2 ParseProofs3 ApiProofs ApiProofs2 EnvVar Regex Keyword KeywordFile.
Local Open Scope sm_scope.

Section H.
Context {Sh Us : Type} (K : pyclass Sh Us) (fs : str -> option str) (i : ini) (dname : str) (fuel : nat).
Notation obj := (obj Sh Us).
Hypothesis WB : well_behaved K.
Hypothesis F : length (ini_sections i) + 3 <= fuel.
Hypothesis GP : all_parsable K i dname.
Let G (s : str) : Prop := ini_has_section i s = true.
Notation inv := (inv K fs i dname G True).
Variables (section : str) (d : dict (option str)).
Hypothesis IN : ini_has_section i section = true.
Hypothesis X : expansion K i dname section d.
Notation conf := (fun _ : str => Ok d).

Lemma item_inv files (o : obj) : inv files o ->
  exists o', getitem K fs fuel section o = (Ok d, o') /\ inv files o'.
Proof.
  intros V. destruct (getitem_good K fs i dname fuel WB F G True GP _ section _ d V IN X) as (o' & E & [A _ _] & _).
  eauto.
Qed.
Lemma option_inv files key (o : obj) : inv files o ->
  exists o', option_on K fs fuel section key o
             = (match dget key d with Some v => Ok v | None => Err KeyError end, o') /\ inv files o'.
Proof.
  intros V. unfold option_on. rewrite bind_eq. destruct (item_inv _ _ V) as (o' & E & V'). rewrite E.
  exists o'. split; auto. destruct (dget key d); reflexivity.
Qed.
Lemma values_inv files key (o : obj) : inv files o ->
  exists o', get_values_on K fs fuel section key o = (get_values conf section key, o') /\ inv files o'.
Proof.
  intros V. unfold get_values_on, get_values. rewrite bind_eq. cbn [rbind].
  destruct (option_inv _ key _ V) as (o1 & E1 & V1). rewrite E1.
  destruct (dget key d) as [v|] eqn:D; [|exists o1; split; [reflexivity|auto]].
  rewrite bind_eq.
  assert (E2 : exists o2, inv files o2 /\
    match v with
    | None => ret []
    | Some _ => w <- option_on K fs fuel section key ;; ret (match w with Some s => s | None => [] end)
    end o1 = (Ok (match v with Some s => s | None => [] end), o2)).
  { destruct v as [s|]; [|exists o1; split; [auto|reflexivity]].
    destruct (option_inv _ key _ V1) as (o2 & E2 & V2). exists o2. split; auto.
    rewrite bind_eq, E2, D. reflexivity. }
  destruct E2 as (o2 & V2 & ->). cbv zeta.
  destruct (has_duplicates _); [exists o2; split; [reflexivity|auto]|].
  destruct (existsb bad_value _); [exists o2; split; [reflexivity|auto]|].
  rewrite bind_eq. destruct (item_inv _ _ V2) as (o3 & E3 & V3). rewrite E3.
  exists o3. split; auto. destruct (existsb _ _); reflexivity.
Qed.
Lemma find_inv files value keys : forall found (o : obj), inv files o ->
  exists o', find_key_on K fs fuel section value keys found o = (find_key conf section value keys found, o') /\ inv files o'.
Proof.
  induction keys as [|k keys IH]; intros found o V; cbn [find_key_on find_key].
  - exists o. split; auto.
  - rewrite bind_eq. destruct (values_inv _ k _ V) as (o1 & E1 & V1). rewrite E1.
    destruct (get_values conf section k) as [l|e]; cbn [rbind]; [|exists o1; split; auto].
    apply IH. exact V1.
Qed.
Lemma key_inv files value (o : obj) : inv files o ->
  fst (get_key_on K fs fuel section value o) = get_key conf section value.
Proof.
  intros V. unfold get_key_on, get_key. rewrite bind_eq. cbn [rbind].
  destruct (item_inv _ _ V) as (o1 & E1 & V1). rewrite E1, bind_eq.
  destruct (find_inv _ value (dkeys d) None _ V1) as (o2 & E2 & V2). rewrite E2.
  destruct (find_key conf section value (dkeys d) None) as [[k|]|e]; reflexivity.
Qed.

Theorem keyword_from_file h (o : obj) : opened K fs i dname o -> Forall (in_file K i dname) h ->
  (forall key, fst (get_values_on K fs fuel section key (after K fs fuel h o)) = get_values conf section key) /\
  (forall value, fst (get_key_on K fs fuel section value (after K fs fuel h o)) = get_key conf section value).
Proof.
  intros O FA. destruct (opened_inv K fs i dname o O) as (files & V).
  pose proof (after_inv K fs i dname fuel WB F GP files h o V FA) as V'. split.
  - intros key. destruct (values_inv _ key _ V') as (o' & E & _). now rewrite E.
  - intros value. now apply (key_inv files).
Qed.
End H.
