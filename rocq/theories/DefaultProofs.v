(** * Parsing the default section itself. *)
From Coq Require Import String NArith ZArith List Bool.
Import ListNotations.
From Verif Require Import PyBase PyFacts Shlex IniView IniRead ExcControl Debuggable Cpe SpecText SpecFile FileProofs MeaningProofs
  SpecBase SpecWalk SpecRun SpecParse BaseProofs Refine RefineRoot RefineOk RunProofs Trace WalkProofs
  ParseProofs ParseProofs2 ParseProofs3 ParseProofs4.
Local Open Scope list_scope.

Section D.
Context {Sh Us : Type} (K : pyclass Sh Us) (fs : str -> option str) (i : ini).
Notation obj := (obj Sh Us).

Theorem default_twice dname fin evs n : ini_has_section i dname = true -> parse_walk K i dname dname true fin evs n ->
  exists w m, walk K i [] dname (Enter dname :: w ++ [Leave dname]) m /\
    evs = Hook dname $"handler_initialize" :: (Enter dname :: w ++ [Leave dname]) ++
          Enter dname :: w ++ (if fin then [Hook dname $"handler_finalize"] else []) ++ [Leave dname].
Proof.
  intros H W. inversion W as [e0 n0 D N|e0 n0 items e m D SS O]; subst; unfold default_walk in D; rewrite H in D.
  - exfalso. apply N. apply present_iff. unfold ini_items, own_options, ini_has_section, dmem in *.
    destruct (str_eqb dname (i_defname i)); [discriminate|]. destruct (dget dname (i_secs i)); discriminate.
  - exists e, (S m). pose proof (walk_section K i [] dname items e m SS O) as W1. split; [exact W1|].
    destruct (proj1 (walk_unique K i) _ _ _ _ D _ _ W1) as [<- _]. reflexivity.
Qed.
Lemma default_ok_self dname init : default_ok K i dname dname init.
Proof. intros _ _ H. now elim H. Qed.

(** What a whole parse of the default section calls and leaves. *)
Theorem default_once_and_twice fuel init fin (o : obj) v o' :
  o_defname o <> [] -> has_file fs o i -> level_ok o -> ini_has_section i (o_defname o) = true ->
  length (ini_sections i) + 3 <= fuel ->
  parse_section_str K fs fuel (o_defname o) init fin o = (Ok v, o') ->
  exists w n, walk K i [] (o_defname o) w n /\
    let once := calls K (o_defname o) w in
    let hook (b : bool) name := if b then calls K (o_defname o) [Hook (o_defname o) name] else [] in
    call_all (hook init $"handler_initialize" ++ (if init then once else []) ++ once ++ hook fin $"handler_finalize")
      (k_empty K) (o_user o) = (v, o_user o') /\
    section_of o' (o_defname o) = Some (write_all (plains w) (options_of o (o_defname o))).
Proof.
  intros NE H L HS F E. set (d := o_defname o) in *.
  destruct (parse_outcome K fs i fuel d init fin o NE H L (default_ok_self _ _) F)
    as (evs & n & r & sh & us & done & o2 & W & R & E2 & P & _).
  rewrite E in E2. destruct r as [[]|x]; [|discriminate].
  pose proof (f_equal fst E2) as Q1. pose proof (f_equal snd E2) as Q2. cbn [fst snd] in Q1, Q2. subst o2. injection Q1 as ->.
  destruct (run_calls _ _ _ _ _ _ _ _ _ _ _ R) as (pre & post & C & A & B). rewrite (B eq_refl) in C. rewrite app_nil_r in C. subst pre.
  rewrite <- (pa_user _ _ _ _ _ _ _ _ _ _ P) in A.
  assert (PR : present i d).
  { apply present_iff. unfold ini_items, own_options, ini_has_section, dmem in *.
    destruct (str_eqb d (i_defname i)); [discriminate|]. destruct (dget d (i_secs i)); discriminate. }
  inversion W as [e0 n0 D N|e0 n0 items e m D SS O]; subst; [now elim N|].
  pose proof (walk_section K i [] d items e m SS O) as W1. exists (Enter d :: e ++ [Leave d]), (S m). split; [exact W1|].
  assert (CE : calls K d (Enter d :: e ++ [Leave d]) = calls K d e).
  { unfold calls. cbn [flat_map call_of app]. rewrite flat_map_app. cbn [flat_map call_of app]. apply app_nil_r. }
  cbv zeta. rewrite CE. split.
  - rewrite <- A. f_equal. rewrite calls_app. rewrite app_assoc. f_equal.
    + destruct init; [|reflexivity]. unfold default_walk in D. fold d in D. rewrite HS in D.
      destruct (proj1 (walk_unique K i) _ _ _ _ W1 _ _ D) as [-> _].
      rewrite <- CE. unfold calls. cbn [flat_map]. rewrite app_nil_r. reflexivity.
    + change (Enter d :: ?l) with ([Enter d : SpecWalk.ev Sh Us] ++ l). rewrite !calls_app. change (calls K d [Enter d]) with (@nil (hkind * hbody Sh Us * str * hparams)).
      change (calls K d [Leave d]) with (@nil (hkind * hbody Sh Us * str * hparams)). rewrite app_nil_r. cbn [app]. f_equal. now destruct fin.
  - destruct init.
    + destruct (default_first K fs i fuel _ fin o sh o' H L HS E) as (e1 & n1 & e2 & n2 & X1 & X2 & S2 & _). fold d in X1, X2, S2.
      destruct (proj1 (walk_unique K i) _ _ _ _ W1 _ _ X1) as [-> _]. destruct (proj1 (walk_unique K i) _ _ _ _ W1 _ _ X2) as [-> _].
      now rewrite S2, write_all_idem.
    + destruct (no_default K fs i fuel _ false fin o sh o' H L (or_introl eq_refl) E) as (e1 & n1 & X1 & S2).
      destruct (proj1 (walk_unique K i) _ _ _ _ W1 _ _ X1) as [-> _]. exact S2.
Qed.
End D.
