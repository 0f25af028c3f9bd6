(** * Values. *)
From Coq Require Import String NArith ZArith Arith List Bool Lia.
Import ListNotations.
From Verif Require Import PyBase PyFacts Shlex IniView IniRead ExcControl Cpe SpecText SpecFile SpecShell ShellProofs FileProofs SpecWalk MeaningProofs SpecRun SpecParse SpecValue
  Refine RefineRoot RefineOk RunProofs WalkProofs ParseProofs ParseProofs2.

(** ** Stored values *)
Section P.
Context {Sh Us : Type} (K : pyclass Sh Us) (fs : str -> option str) (i : ini).
Notation obj := (obj Sh Us).

Lemma last_value_In k l v : last_value k l = Some v -> In (k, v) l.
Proof.
  induction l as [|[k' v'] l IH]; [discriminate|]. rewrite last_value_cons. destruct (last_value k l) as [x|].
  - intros E. inversion E; subst. right. auto.
  - destruct (str_eqb_spec k' k) as [->|]; [|discriminate]. intros E. inversion E; subst. now left.
Qed.

Lemma item_raw t items k r : ini_items i t = Some items -> In (k, r) items ->
  exists own v, own_section i t own /\ raw_option i own k v /\ value_is (scope i own) v r.
Proof.
  unfold ini_items. destruct (own_options i t) as [own|] eqn:OO; [|discriminate].
  intros E. injection E as <-. intros I. apply in_map_iff in I as ([k' v] & E & I). cbn [fst snd] in E.
  injection E as -> <-. exists own, v. split; [now apply own_iff|]. split; [|now apply value_iff].
  unfold section_raw in I. apply in_app_or in I as [I|I]; [now left|].
  apply filter_In in I as [I N]. right. split; auto. cbn [fst] in N. intros X. apply dmem_keys in X. rewrite X in N. discriminate.
Qed.

Theorem stored_value fuel s init fin (o : obj) v o' k w :
  has_file fs o i -> level_ok o -> options_of o s = [] ->
  parse_section_str K fs fuel s init fin o = (Ok v, o') ->
  dget k (options_of o' s) = Some w ->
  exists t own k0 raw v0, contributes K i (o_defname o) s init t /\ own_section i t own /\
    raw_option i own k0 raw /\ trimmed space k0 k /\
    value_is (scope i own) raw (Ok v0) /\ cleaned v0 w.
Proof.
  intros H L F E G. destruct (use_is_inclusion K fs i _ _ _ _ _ _ _ H L E) as (evs & n & W & S).
  destruct (last_wins K fs i _ _ _ _ _ _ _ _ _ H L E W) as [D _]. rewrite D, F in G. cbn [dget] in G.
  destruct (last_value k (plains evs)) as [w'|] eqn:LV; [|discriminate]. inversion G; subst w'.
  apply last_value_In in LV. unfold plains in LV. apply in_flat_map in LV as (e & IE & IP).
  destruct e as [| | |t wd k1 v1| | | | | |]; try destruct IP as [].
  - injection H0 as -> ->.
    destruct (parse_walk_origin K i _ _ _ _ _ _ _ W IE) as [(nm & X)|O]; [discriminate|].
    assert (CT : contributes K i (o_defname o) s init t) by (eapply contributes_of; [exact O|reflexivity]).
    assert (Y : item_of K i t (MStep (SpecWalk.Plain t wd k w))) by (destruct O as [[_ O]|(_ & _ & _ & O)]; exact O).
    destruct Y as (items & [k0 r] & HI & IN & M).
    destruct (item_raw t items k0 r HI IN) as (own & raw & OS & RO & VI).
    assert (Z : exists v0, r = Ok v0 /\ trimmed space k0 k /\ cleaned v0 w).
    { inversion M; subst; eauto. }
    destruct Z as (v0 & -> & T & C). exists t, own, k0, raw, v0. auto 7.
  - destruct H0.
Qed.

(** The file's other sections do not matter for the values of a section. *)
Theorem shows_local j t items : (forall own, own_section i t own <-> own_section j t own) -> i_defs i = i_defs j ->
  (section_shows i t items <-> section_shows j t items).
Proof.
  intros E D. unfold section_shows, scope. rewrite D.
  split; intros (own & more & O & X); exists own, more; (split; [now apply E|exact X]).
Qed.
End P.
