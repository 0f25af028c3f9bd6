(** * C28-C30 in the form in which they are stated. *)
From Coq Require Import String NArith ZArith List Bool Lia Arith ZifyBool.
Import ListNotations.
From Verif Require Import PyBase PyFacts Shlex IniView IniRead ExcControl Debuggable Cpe
  SpecBase SpecWalk SpecRun SpecParse SpecApi BaseProofs Refine RefineRoot RefineOk RunProofs Trace WalkProofs
  ParseProofs ParseProofs2 ParseProofs3 ParseProofs4 ApiProofs ApiProofs2 ApiProofs3 ApiProofs4 ApiProofs5.
Local Open Scope sm_scope.

Section P7.
Context {Sh Us : Type} (K : pyclass Sh Us) (fs : str -> option str) (i : ini) (fuel : nat).
Notation obj := (obj Sh Us).

Lemma single_inv s (o : obj) : has_file fs o i -> path_set_of o = true -> level_ok o ->
  (level_of o < 5)%Z \/ acyclic K i (o_defname o) s -> o_edata o = None ->
  exists files, inv K fs i (o_defname o) (fun t => t = s) True files o.
Proof.
  intros A B C D Fd. unfold path_set_of in B. destruct (o_files o) as [files|] eqn:FI; [|discriminate].
  exists files. assert (DO : data_of o = []) by (unfold data_of; now rewrite Fd).
  constructor; auto.
  - destruct D as [D|D]; [now left|right; intros x ->; auto].
  - intros x _. unfold checked_of. rewrite Fd. discriminate.
  - intros x _ _. unfold options_of, section_of. now rewrite DO.
  - intros _ _ x d _. unfold section_of. rewrite DO. discriminate.
  - rewrite DO. constructor.
Qed.

(** What [assert_section_all_options_handled] must answer. *)
Definition section_verdict (dname s : str) (b : bool) (lvl : Z) (r : res (option str)) : Prop :=
  exists d, expansion K i dname s d /\
    match d with
    | [] => r = Ok None
    | _ => if b && (3 <=? lvl)%Z then r = Err ValueError
           else exists m, r = Ok (Some m) /\
                  forall k, In k (dkeys d) -> exists x y, m = x ++ ($"|- '" ++ k ++ $"'") ++ y
    end.

Theorem assert_section_exact s b (o : obj) : well_behaved K -> has_file fs o i -> path_set_of o = true -> level_ok o ->
  (level_of o < 5)%Z \/ acyclic K i (o_defname o) s -> parsable K i (o_defname o) s ->
  length (ini_sections i) + 3 <= fuel -> o_edata o = None ->
  section_verdict (o_defname o) s b (level_of o) (fst (assert_section K fs fuel s b o)).
Proof.
  intros WB H PS L CY PA F ED. destruct (single_inv s o H PS L CY ED) as (files & V).
  destruct (expansion_exists K i (o_defname o) s) as (d & X). exists d. split; auto.
  assert (GP : forall t, t = s -> parsable K i (o_defname o) t) by (intros ? ->; auto).
  destruct (assert_section_good K fs i (o_defname o) fuel WB F _ True GP files s b o d V eq_refl X) as (r & o' & E & _ & A & B).
  rewrite E. cbn [fst]. destruct d as [|kv d]; [auto|]. now apply B.
Qed.

Theorem assert_section_history dname h s b (o : obj) : well_behaved K -> all_parsable K i dname ->
  length (ini_sections i) + 3 <= fuel -> opened K fs i dname o -> Forall (in_file K i dname) h ->
  ini_has_section i s = true ->
  section_verdict dname s b (last_level h (level_of o)) (fst (assert_section K fs fuel s b (after K fs fuel h o))).
Proof.
  intros WB AP F O FA HS. destruct (opened_inv K fs i dname o O) as (files & V).
  pose proof (after_inv K fs i dname fuel WB F AP files h o V FA) as V'.
  destruct (expansion_exists K i dname s) as (d & X). exists d. split; auto.
  destruct (assert_section_good K fs i dname fuel WB F _ True AP files s b _ d V' HS X) as (r & o' & E & _ & A & B).
  rewrite E. cbn [fst]. rewrite (history_level K fs i dname fuel WB F AP h o O FA) in B.
  destruct d as [|kv d]; [auto|]. now apply B.
Qed.

Theorem assert_file_history dname h (o : obj) : well_behaved K -> all_parsable K i dname ->
  length (ini_sections i) + 3 <= fuel -> opened K fs i dname o -> Forall (in_file K i dname) h ->
  let r := fst (assert_file K fs fuel (after K fs fuel h o)) in
  ((forall s, ini_has_section i s = true -> expansion K i dname s []) <-> r = Ok 0%Z) /\
  ((exists s d, ini_has_section i s = true /\ expansion K i dname s d /\ d <> []) <->
     r = if (3 <=? last_level h (level_of o))%Z then Err ValueError else Ok 1%Z).
Proof.
  intros WB AP F O FA r. destruct (opened_inv K fs i dname o O) as (files & V).
  pose proof (after_inv K fs i dname fuel WB F AP files h o V FA) as V'.
  destruct (assert_file_good K fs i dname fuel WB F _ True AP (fun s (H : ini_has_section i s = true) => H) files _ V') as (r' & o' & E & _ & R).
  unfold r. rewrite E. cbn [fst]. rewrite (history_level K fs i dname fuel WB F AP h o O FA) in R.
  assert (XX : (forall s, ini_has_section i s = true -> expansion K i dname s []) ->
    ~ exists s d, ini_has_section i s = true /\ expansion K i dname s d /\ d <> []).
  { intros A (s & d & B & C & D). apply D. eapply expansion_unique; eauto. }
  destruct R as [[A ->]|[A ->]].
  - split; split; intros Q; auto.
    + exfalso. now apply XX.
    + destruct (3 <=? _)%Z; discriminate.
  - split; split; intros Q; auto.
    + exfalso. now apply XX.
    + destruct (3 <=? _)%Z; discriminate.
Qed.

Theorem unroll_history dname h section (b : bool) (o : obj) : well_behaved K -> all_parsable K i dname ->
  length (ini_sections i) + 3 <= fuel -> opened K fs i dname o -> Forall (in_file K i dname) h ->
  let delim := if b then $" : " else $":" in
  let r := fst (unroll_to_str K fs fuel section b false (after K fs fuel h o)) in
  match section with
  | None => exists l, map fst l = ini_sections i /\
      Forall (fun sd => expansion K i dname (fst sd) (snd sd)) l /\ r = Ok (strip_ws (unrolled delim l) ++ newline)
  | Some s => ini_has_section i s = true ->
      exists d, expansion K i dname s d /\ r = Ok (strip_ws (unrolled_section delim s d) ++ newline)
  end.
Proof.
  intros WB AP F O FA delim r. destruct (opened_inv K fs i dname o O) as (files & V).
  pose proof (after_inv K fs i dname fuel WB F AP files h o V FA) as V'.
  assert (U : match section with Some s => ini_has_section i s = true | None => forall s, ini_has_section i s = true -> ini_has_section i s = true end ->
    match section with
    | None => exists l, map fst l = ini_sections i /\
        Forall (fun sd => expansion K i dname (fst sd) (snd sd)) l /\ r = Ok (strip_ws (unrolled delim l) ++ newline)
    | Some s => exists d, expansion K i dname s d /\ r = Ok (strip_ws (unrolled_section delim s d) ++ newline)
    end).
  { intros Q. destruct (unroll_good K fs i dname fuel WB F _ True AP files section b _ V' Q) as (t & o' & E & _ & R).
    unfold r. rewrite E. cbn [fst]. destruct section as [s|].
    - destruct R as (d & X & ->). eauto.
    - destruct R as (sd & A & B & ->). eauto. }
  destruct section as [s|]; auto.
Qed.
End P7.
