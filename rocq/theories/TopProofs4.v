(** * Proofs about the top-level files (C69): [LoadEnv] and [GenConfig]. *)
From Coq Require Import String NArith ZArith List Bool Lia Arith.
Import ListNotations.
From Verif Require Import PyBase PyFacts EnvVar EnvProofs Shlex IniView IniRead ExcControl Debuggable Cpe
  SpecBase SpecWalk SpecRun SpecParse SpecApi BaseProofs Refine RefineRoot RefineOk RunProofs Trace WalkProofs
  ParseProofs ParseProofs2 ParseProofs3 ParseProofs4 ApiProofs ApiProofs2 ApiProofs3 ApiProofs4 ApiProofs5 ApiProofs6
  Samples TopLevel SpecTop TopProofs TopProofs2 TopProofs3.
Local Open Scope sm_scope.

(** ** The loaded file *)
Lemma read_file_defname delims t i : i_defname (snd (read_file delims t i)) = i_defname i.
Proof. unfold read_file. destruct (read_lines _ _ _ _) as [[[]|e] r]; reflexivity. Qed.
Lemma read_files_defname delims ts : forall i, i_defname (snd (read_files delims ts i)) = i_defname i.
Proof.
  induction ts as [|t ts IH]; intros i; auto. cbn [read_files].
  pose proof (read_file_defname delims t i) as E. destruct (read_file delims t i) as [[[]|e] j]; cbn [snd] in *; auto.
  now rewrite IH.
Qed.

Section Top.
Variables (uniword : pychar -> bool) (fs : str -> option str) (fuel : nat).
Variables (i : IniView.ini) (ini : str) (root : str) (dir : list str) (name : str).
Hypothesis DI : denotes ini (Path root (dir ++ [name])).
Notation K := (base_class uniword).
Notation cpe := (obj unit unit).
Notation o0 := (open_ini ini).
Hypothesis HF : has_file fs o0 i.
Hypothesis F : length (ini_sections i) + 3 <= fuel.

Lemma open_eq : o0 = set_files (Some [path_str (mk_path ini)]) (new_obj tt).
Proof. reflexivity. Qed.
Lemma defname_i : i_defname i = $"CONFIGPARSERENHANCED_COMMON".
Proof.
  pose proof HF as H. unfold has_file, get_cpd in H. rewrite open_eq in H. cbn [o_cpd set_files new_obj o_files set_cpd o_delims o_intname] in H.
  destruct (forallb _ _); [|discriminate].
  match type of H with context [read_files ?a ?b ?c] => pose proof (read_files_defname a b c) as E;
    destruct (read_files a b c) as [[[]|[]] j] end; try discriminate.
  cbn [fst snd] in *. cbn [i_defname] in E. congruence.
Qed.

Variable G : str -> Prop.
Hypothesis GP : forall s, G s -> parsable K i $"DEFAULT" s.
Notation inv := (inv K fs i $"DEFAULT" G True [path_str (mk_path ini)]).

Lemma open_inv : inv o0.
Proof.
  constructor; try (rewrite open_eq; reflexivity).
  - exact HF.
  - rewrite open_eq. unfold level_ok, level_of. cbn. lia.
  - left. rewrite open_eq. cbn. lia.
  - intros s _. rewrite open_eq. discriminate.
  - intros _ _ s d _. rewrite open_eq. discriminate.
  - rewrite open_eq. constructor.
Qed.

(** A section of the file. *)
Lemma there_section s (o : cpe) : inv o -> G s ->
  exists o', check_section uniword fs fuel s o = (Ok tt, o') /\ inv o' /\
    forall t, G t -> str_mem t (checked_of o) = true \/ t = s ->
      exists d, expansion K i $"DEFAULT" t d /\ holds fs i t d o'.
Proof.
  intros V g. unfold check_section. rewrite bind_eq.
  destruct (has_section_good K fs i $"DEFAULT" fuel (base_well_behaved uniword) F G True GP _ s o V g) as (o1 & E & GO & C).
  rewrite E. exists o1. split; [reflexivity|]. pose proof (go_inv _ _ _ _ _ _ _ _ _ GO) as V1. split; auto.
  intros t gt M. assert (C' : str_mem t (checked_of o1) = true).
  { destruct M as [M| ->]; auto. exact (go_checked _ _ _ _ _ _ _ _ _ GO t M). }
  destruct (iv_parsed _ _ _ _ _ _ _ _ V1 t gt C') as (d & X & Sd). exists d. split; auto.
  split; auto. exact (iv_file _ _ _ _ _ _ _ _ V1).
Qed.
(** A section parsed before. *)
Lemma held_section s d (o : cpe) : holds fs i s d o ->
  exists o', check_section uniword fs fuel s o = (Ok tt, o') /\ same fs i o o'.
Proof.
  intros H. unfold check_section. rewrite bind_eq.
  destruct (has_section_run uniword fs fuel i s d o H) as (o1 & E & S). rewrite E. exists o1. split; [reflexivity|exact S].
Qed.
(** A name that is no section of it. *)
Lemma missing_section s (o : cpe) : has_file fs o i -> ini_has_section i s = false -> section_of o s = None ->
  exists o', check_section uniword fs fuel s o = (Err ValueError, o').
Proof.
  intros H N S. unfold check_section. rewrite bind_eq.
  destruct (has_section_missing K fs fuel i s o H N) as (o1 & E & _). rewrite E.
  unfold section_of in S. unfold dmem. rewrite S. eexists. reflexivity.
Qed.
Lemma still_missing s t (o : cpe) : ini_has_section i t = false -> t <> $"CONFIGPARSERENHANCED_COMMON" ->
  has_file fs o i -> o_defname o = $"DEFAULT" -> o_files o <> None -> section_of o t = None ->
  section_of (snd (check_section uniword fs fuel s o)) t = None.
Proof.
  intros N C A B E S. rewrite <- defname_i in C.
  assert (X : keeps (never fs i $"DEFAULT" t) (check_section uniword fs fuel s)).
  { unfold check_section. apply keeps_bind; [exact (k_has_section K fs fuel _ _ _ (closed_never K fs fuel i $"DEFAULT" t N C) s)|].
    intros []; auto with arith; [apply keeps_ret|apply keeps_raise]. }
  apply X. split; auto.
Qed.

(** ** One loop *)
Lemma for_each_run s ks : forall d (o : cpe), holds fs i s d o ->
  exists o', for_each (check_key uniword fs fuel ini s) ks o = (fst (ksteps ini (fun _ => true) d ks), o') /\
    holds fs i s (snd (ksteps ini (fun _ => true) d ks)) o'.
Proof.
  induction ks as [|k ks IH]; intros d o H; [exists o; auto|]. cbn [for_each ksteps]. rewrite bind_eq.
  destruct (check_key_run uniword fs fuel i ini s k d o H) as (o1 & E & H1 & _). rewrite E.
  destruct (value_dec d k) as [[v V]|NV].
  - destruct (key_step_value ini d k v V) as (d1 & K1 & _ & GG). rewrite K1 in *. cbn [fst snd] in *.
    rewrite GG, str_eqb_refl. apply IH. exact H1.
  - rewrite key_step_none in * by auto. exists o1. auto.
Qed.
Lemma check_files_app exd l1 l2 (o : cpe) :
  check_files uniword fs fuel exd ini (l1 ++ l2) o =
  (check_files uniword fs fuel exd ini l1 ;; check_files uniword fs fuel exd ini l2) o.
Proof.
  revert o. induction l1 as [|[s k] l1 IH]; intros o; [reflexivity|]. cbn [app check_files].
  rewrite !bind_eq. destruct (check_key uniword fs fuel ini s k o) as [[[]|e] o1]; [|reflexivity].
  rewrite !bind_eq. destruct (check_exists uniword fs fuel exd s k o1) as [[[]|e] o2]; [|reflexivity].
  rewrite IH, !bind_eq. reflexivity.
Qed.
Lemma check_files_run exd s ks : forall d (o : cpe), holds fs i s d o ->
  exists o', check_files uniword fs fuel exd ini (map (pair s) ks) o = (fst (ksteps ini exd d ks), o') /\
    holds fs i s (snd (ksteps ini exd d ks)) o' /\
    forall t dt, t <> s -> holds fs i t dt o -> holds fs i t dt o'.
Proof.
  induction ks as [|k ks IH]; intros d o H; [exists o; auto|]. cbn [map check_files ksteps]. rewrite bind_eq.
  destruct (check_key_run uniword fs fuel i ini s k d o H) as (o1 & E & H1 & T1). rewrite E.
  destruct (value_dec d k) as [[v V]|NV].
  - destruct (key_step_value ini d k v V) as (d1 & K1 & _ & GG). rewrite K1 in *. cbn [fst snd] in *.
    specialize (GG k) as GK. rewrite str_eqb_refl in GK. rewrite GK, bind_eq. unfold check_exists. rewrite bind_eq.
    destruct (get_item_run uniword fs fuel i s k d1 o1 H1) as (o2 & E2 & S2). rewrite E2, GK.
    destruct (exd (mk_path (final ini v))).
    + destruct (IH d1 o2 (S2 _ _ H1)) as (o3 & E3 & H3 & T3). exists o3. split; [exact E3|]. split; auto.
    + exists o2. split; [reflexivity|]. split; [now apply S2|]. intros t dt N Ht. apply S2. auto.
  - rewrite key_step_none in * by auto. exists o1. auto.
Qed.

(** ** [LoadEnv] *)
End Top.

Section LoadEnv.
Variables (uniword : pychar -> bool) (fs : str -> option str) (fuel : nat).
Variables (i : IniView.ini) (ini : str) (root : str) (dir : list str) (name : str).
Hypothesis DI : denotes ini (Path root (dir ++ [name])).
Notation K := (base_class uniword).
Notation cpe := (obj unit unit).
Notation o0 := (open_ini ini).
Hypothesis HF : has_file fs o0 i.
Hypothesis F : length (ini_sections i) + 3 <= fuel.

Lemma env_nodup : NoDup env_keys.
Proof. unfold env_keys. repeat constructor; cbn; intuition discriminate. Qed.
Lemma gen_nodup : NoDup gen_keys.
Proof. unfold gen_keys. repeat constructor; cbn; intuition discriminate. Qed.

Theorem load_env_no_section : ini_has_section i $"load-env" = false ->
  fst (parse_top_level uniword fs fuel ini o0) = Err ValueError.
Proof.
  intros N. unfold parse_top_level. rewrite bind_eq.
  destruct (missing_section uniword fs fuel i $"load-env" o0 HF N eq_refl) as (o' & E). now rewrite E.
Qed.

Lemma load_env_run d : parsable K i $"DEFAULT" $"load-env" -> expansion K i $"DEFAULT" $"load-env" d ->
  exists o', parse_top_level uniword fs fuel ini o0 = (fst (ksteps ini (fun _ => true) d env_keys), o') /\
    holds fs i $"load-env" (snd (ksteps ini (fun _ => true) d env_keys)) o'.
Proof.
  intros P X. unfold parse_top_level. rewrite bind_eq.
  assert (GP : forall s, s = $"load-env" -> parsable K i $"DEFAULT" s) by (intros ? ->; auto).
  destruct (there_section uniword fs fuel i ini F _ GP $"load-env" o0 (open_inv uniword fs fuel i ini HF F _) eq_refl)
    as (o1 & E & _ & H). rewrite E.
  destruct (H $"load-env" eq_refl (or_intror eq_refl)) as (d' & X' & H').
  rewrite (expansion_unique K i $"DEFAULT" _ _ _ X X').
  exact (for_each_run uniword fs fuel i ini $"load-env" env_keys d' o1 H').
Qed.

Theorem load_env_outcome d : parsable K i $"DEFAULT" $"load-env" -> expansion K i $"DEFAULT" $"load-env" d ->
  let (r, o') := parse_top_level uniword fs fuel ini o0 in
  ((forall k, In k env_keys -> exists v, value_of d k v) ->
     r = Ok tt /\ exists d', completed ini env_keys d d' /\
       forall h, spares $"load-env" h -> fst (getitem K fs fuel $"load-env" (after K fs fuel h o')) = Ok d') /\
  ((exists k, In k env_keys /\ forall v, ~ value_of d k v) -> r = Err ValueError).
Proof.
  intros P X. destruct (load_env_run d P X) as (o' & E & H). rewrite E.
  pose proof (ksteps_spec ini root dir name DI (fun _ => true) env_keys env_nodup d) as S.
  destruct (ksteps ini (fun _ => true) d env_keys) as [r d']. cbn [fst snd] in *.
  assert (NT : forall k, names_a_file (fun _ => true) ini d k <-> exists v, value_of d k v)
    by (intros k; now apply (names_true ini root dir name)).
  destruct S as [(-> & A & C)|(-> & k & I & A)].
  - split; [|intros (k & I & N); apply A in I; apply NT in I as (v & V); destruct (N v V)].
    intros _. split; auto. exists d'. split; auto. intros h Q.
    destruct (holds_read K fs fuel i _ d' _ (holds_after K fs fuel i $"load-env" d' h o' H Q)) as (R & _). exact R.
  - split; [|reflexivity]. intros B. exfalso. apply A, NT. auto.
Qed.

Variables (File : Type) (resolve : path -> File).

(** One file of the result, from a completed section. *)
Lemma chosen_env ks d d' (o : cpe) given k : holds fs i $"load-env" d' o -> completed ini ks d d' -> In k ks ->
  exists f o', le_file uniword fs fuel File resolve given k o = (Ok f, o') /\
    chosen_file resolve ini given d k f /\ same fs i o o'.
Proof.
  intros H (_ & _ & C) I. unfold le_file, chosen_file. destruct given as [c|].
  - exists (resolve (mk_path c)), o. split; [reflexivity|]. split; [exists (mk_path c); split; [apply denotes_mk|auto]|].
    intros t dt; auto.
  - destruct (C k I) as (v & w & p & V & L & Gw & D & _). rewrite bind_eq.
    destruct (get_item_run uniword fs fuel i $"load-env" k d' o H) as (o1 & E & S). rewrite E, Gw.
    apply denotes_iff in D. exists (resolve (mk_path w)), o1. split; [reflexivity|]. split; auto.
    exists v, p. split; auto. split; auto. now rewrite D.
Qed.

Theorem load_env_files d g : parsable K i $"DEFAULT" $"load-env" -> expansion K i $"DEFAULT" $"load-env" d ->
  let r := fst (le_files uniword fs fuel File resolve ini g o0) in
  ((forall k, In k env_keys -> exists v, value_of d k v) ->
     exists a b c, r = Ok [a; b; c] /\
       chosen_file resolve ini (v_systems g) d $"supported-systems" a /\
       chosen_file resolve ini (v_envs g) d $"supported-envs" b /\
       chosen_file resolve ini (v_envspecs g) d $"environment-specs" c) /\
  ((exists k, In k env_keys /\ forall v, ~ value_of d k v) -> r = Err ValueError).
Proof.
  intros P X r. subst r. unfold le_files. rewrite bind_eq.
  destruct (load_env_run d P X) as (o1 & E & H). rewrite E.
  pose proof (ksteps_spec ini root dir name DI (fun _ => true) env_keys env_nodup d) as S.
  destruct (ksteps ini (fun _ => true) d env_keys) as [r d']. cbn [fst snd] in *.
  assert (NT : forall k, names_a_file (fun _ => true) ini d k <-> exists v, value_of d k v)
    by (intros k; now apply (names_true ini root dir name)).
  destruct S as [(-> & A & C)|(-> & k & I & A)].
  - split; [|intros (k & I & N); apply A in I; apply NT in I as (v & V); destruct (N v V)].
    intros _. rewrite bind_eq.
    destruct (chosen_env _ d d' o1 (v_systems g) $"supported-systems" H C) as (a & o2 & E2 & C2 & S2); [now left|].
    rewrite E2, bind_eq. pose proof (S2 _ _ H) as H2.
    destruct (chosen_env _ d d' o2 (v_envs g) $"supported-envs" H2 C) as (b & o3 & E3 & C3 & S3); [right; now left|].
    rewrite E3, bind_eq. pose proof (S3 _ _ H2) as H3.
    destruct (chosen_env _ d d' o3 (v_envspecs g) $"environment-specs" H3 C) as (c & o4 & E4 & C4 & S4); [right; right; now left|].
    rewrite E4. exists a, b, c. auto.
  - split; [|reflexivity]. intros B. exfalso. apply A, NT. auto.
Qed.
End LoadEnv.

(** ** [GenConfig] *)
Section GenConfig.
Variables (uniword : pychar -> bool) (fs : str -> option str) (fuel : nat).
Variables (i : IniView.ini) (ini : str) (root : str) (dir : list str) (name : str).
Hypothesis DI : denotes ini (Path root (dir ++ [name])).
Notation K := (base_class uniword).
Notation cpe := (obj unit unit).
Notation o0 := (open_ini ini).
Hypothesis HF : has_file fs o0 i.
Hypothesis F : length (ini_sections i) + 3 <= fuel.
Variable there : path -> bool.
Notation gdata := (gen_data uniword fs fuel there ini).

Lemma sections_ne : $"gen-config" <> $"load-env".
Proof. discriminate. Qed.

Theorem gen_no_section :
  (ini_has_section i $"gen-config" = true -> parsable K i $"DEFAULT" $"gen-config") ->
  ini_has_section i $"gen-config" = false \/ ini_has_section i $"load-env" = false ->
  fst (gdata o0) = Err ValueError.
Proof.
  intros P N. unfold gen_data. rewrite bind_eq.
  destruct (ini_has_section i $"gen-config") eqn:HG.
  - destruct N as [N|N]; [discriminate|].
    assert (GP : forall s, s = $"gen-config" -> parsable K i $"DEFAULT" s) by (intros ? ->; auto).
    destruct (there_section uniword fs fuel i ini F _ GP $"gen-config" o0 (open_inv uniword fs fuel i ini HF F _) eq_refl)
      as (o1 & E & V & _). rewrite E, bind_eq.
    assert (D : $"load-env" <> $"CONFIGPARSERENHANCED_COMMON") by discriminate.
    assert (FN : o_files o0 <> None) by discriminate.
    pose proof (still_missing uniword fs fuel i ini HF $"gen-config" $"load-env" o0 N D HF eq_refl FN eq_refl) as S.
    rewrite E in S. cbn [snd] in S.
    destruct (missing_section uniword fs fuel i $"load-env" o1 (iv_file _ _ _ _ _ _ _ _ V) N S) as (o' & E'). now rewrite E'.
  - destruct (missing_section uniword fs fuel i $"gen-config" o0 HF HG eq_refl) as (o' & E). now rewrite E.
Qed.

(** The loop on two sections at hand. *)
Definition both dg dl (o : cpe) : Prop := holds fs i $"gen-config" dg o /\ holds fs i $"load-env" dl o.
Definition two_steps dg dl : res unit * dict (option str) * dict (option str) :=
  let (r, dg') := ksteps ini there dg gen_keys in
  match r with
  | Ok _ => let (r', dl') := ksteps ini there dl env_keys in (r', dg', dl')
  | Err e => (Err e, dg', dl)
  end.
Definition all_files : list (str * str) := map (pair $"gen-config") gen_keys ++ map (pair $"load-env") env_keys.
Lemma two_run dg dl (o : cpe) : both dg dl o ->
  let '(r, dg', dl') := two_steps dg dl in
  exists o', check_files uniword fs fuel there ini all_files o = (r, o') /\ both dg' dl' o'.
Proof.
  intros [HG HL]. unfold two_steps, all_files. rewrite check_files_app, bind_eq.
  destruct (check_files_run uniword fs fuel i ini there $"gen-config" gen_keys dg o HG) as (o1 & E1 & H1 & T1).
  rewrite E1. destruct (ksteps ini there dg gen_keys) as [[[]|e] dg']; cbn [fst snd] in *.
  - assert (L1 : holds fs i $"load-env" dl o1) by (apply T1; [discriminate|auto]).
    destruct (check_files_run uniword fs fuel i ini there $"load-env" env_keys dl o1 L1) as (o2 & E2 & H2 & T2).
    rewrite E2. destruct (ksteps ini there dl env_keys) as [r dl']. cbn [fst snd] in *.
    exists o2. split; auto. split; auto.
    apply T2; [exact sections_ne|exact H1].
  - exists o1. split; auto. split; auto. apply T1; [discriminate|auto].
Qed.
Lemma gen_run dg dl (o : cpe) : both dg dl o ->
  let '(r, dg', dl') := two_steps dg dl in exists o', gdata o = (r, o') /\ both dg' dl' o'.
Proof.
  intros [HG HL]. unfold gen_data. rewrite bind_eq.
  destruct (held_section uniword fs fuel i $"gen-config" dg o HG) as (o1 & E1 & S1). rewrite E1, bind_eq.
  destruct (held_section uniword fs fuel i $"load-env" dl o1 (S1 _ _ HL)) as (o2 & E2 & S2). rewrite E2.
  apply (two_run dg dl o2). split; [apply S2, S1, HG|apply S2, S1, HL].
Qed.
Lemma gen_first dg dl : parsable K i $"DEFAULT" $"gen-config" -> parsable K i $"DEFAULT" $"load-env" ->
  expansion K i $"DEFAULT" $"gen-config" dg -> expansion K i $"DEFAULT" $"load-env" dl ->
  let '(r, dg', dl') := two_steps dg dl in exists o', gdata o0 = (r, o') /\ both dg' dl' o'.
Proof.
  intros PG PL XG XL. unfold gen_data. rewrite bind_eq.
  assert (GP : forall s, s = $"gen-config" \/ s = $"load-env" -> parsable K i $"DEFAULT" s) by (intros ? [->| ->]; auto).
  destruct (there_section uniword fs fuel i ini F _ GP $"gen-config" o0 (open_inv uniword fs fuel i ini HF F _) (or_introl eq_refl))
    as (o1 & E1 & V1 & H1). rewrite E1, bind_eq.
  destruct (H1 $"gen-config" (or_introl eq_refl) (or_intror eq_refl)) as (d1 & X1 & Q1).
  destruct (there_section uniword fs fuel i ini F _ GP $"load-env" o1 V1 (or_intror eq_refl))
    as (o2 & E2 & V2 & H2). rewrite E2.
  apply (two_run dg dl o2). split.
  - destruct (H2 $"gen-config" (or_introl eq_refl)) as (d & X & H); [left; apply Q1|].
    now rewrite (expansion_unique K i $"DEFAULT" _ _ _ XG X).
  - destruct (H2 $"load-env" (or_intror eq_refl) (or_intror eq_refl)) as (d & X & H).
    now rewrite (expansion_unique K i $"DEFAULT" _ _ _ XL X).
Qed.
Lemma two_spec dg dl : let '(r, dg', dl') := two_steps dg dl in
  (r = Ok tt /\ (forall k, In k gen_keys -> names_a_file there ini dg k) /\ (forall k, In k env_keys -> names_a_file there ini dl k) /\
     completed ini gen_keys dg dg' /\ completed ini env_keys dl dl') \/
  (r = Err ValueError /\ ((exists k, In k gen_keys /\ ~ names_a_file there ini dg k) \/
                          (exists k, In k env_keys /\ ~ names_a_file there ini dl k))).
Proof.
  unfold two_steps. pose proof (ksteps_spec ini root dir name DI there gen_keys gen_nodup dg) as S.
  pose proof (ksteps_spec ini root dir name DI there env_keys env_nodup dl) as T.
  destruct (ksteps ini there dg gen_keys) as [r dg'], (ksteps ini there dl env_keys) as [r2 dl'].
  destruct S as [(-> & A & C)|(-> & X)]; [|auto]. destruct T as [(-> & A' & C')|(-> & X)]; auto 8.
Qed.

Variables (dg dl : dict (option str)).
Hypothesis PG : parsable K i $"DEFAULT" $"gen-config".
Hypothesis PL : parsable K i $"DEFAULT" $"load-env".
Hypothesis XG : expansion K i $"DEFAULT" $"gen-config" dg.
Hypothesis XL : expansion K i $"DEFAULT" $"load-env" dl.

Lemma both_read dg' dl' (o : cpe) h : both dg' dl' o -> spares $"gen-config" h -> spares $"load-env" h ->
  both dg' dl' (after K fs fuel h o).
Proof. intros [A B] Q1 Q2. split; now apply holds_after. Qed.

Theorem gen_outcome :
  let (r, o') := gdata o0 in
  ((forall k, In k gen_keys -> names_a_file there ini dg k) -> (forall k, In k env_keys -> names_a_file there ini dl k) ->
     r = Ok tt /\ exists dg' dl', completed ini gen_keys dg dg' /\ completed ini env_keys dl dl' /\
       forall h, spares $"gen-config" h -> spares $"load-env" h ->
         fst (getitem K fs fuel $"gen-config" (after K fs fuel h o')) = Ok dg' /\
         fst (getitem K fs fuel $"load-env" (after K fs fuel h o')) = Ok dl') /\
  ((exists k, In k gen_keys /\ ~ names_a_file there ini dg k) \/
   (exists k, In k env_keys /\ ~ names_a_file there ini dl k) -> r = Err ValueError).
Proof.
  pose proof (gen_first dg dl PG PL XG XL) as R. pose proof (two_spec dg dl) as S.
  destruct (two_steps dg dl) as [[r dg'] dl']. destruct R as (o' & E & B). rewrite E.
  destruct S as [(-> & A1 & A2 & C1 & C2)|(-> & X)].
  - split; [|intros [(k & I & N)|(k & I & N)]; exfalso; auto].
    intros _ _. split; auto. exists dg', dl'. split; auto. split; auto. intros h Q1 Q2.
    destruct (both_read _ _ _ h B Q1 Q2) as [B1 B2].
    split; [now destruct (holds_read K fs fuel i _ _ _ B1)|now destruct (holds_read K fs fuel i _ _ _ B2)].
  - split; auto. intros Y Z. exfalso. destruct X as [(k & I & N)|(k & I & N)]; auto.
Qed.

Hypothesis ABS : root <> [].
Lemma two_again dg' dl' : (forall k, In k gen_keys -> names_a_file there ini dg k) ->
  (forall k, In k env_keys -> names_a_file there ini dl k) -> completed ini gen_keys dg dg' -> completed ini env_keys dl dl' ->
  two_steps dg' dl' = (Ok tt, dg', dl').
Proof.
  intros A B C D. unfold two_steps.
  rewrite (ksteps_again ini root dir name DI there gen_keys dg ABS dg' A C).
  rewrite (ksteps_again ini root dir name DI there env_keys dl ABS dl' B D). reflexivity.
Qed.

Theorem gen_stable o1 hs h : gdata o0 = (Ok tt, o1) ->
  Forall (fun h => spares $"gen-config" h /\ spares $"load-env" h) (h :: hs) ->
  let o2 := after K fs fuel h (accesses uniword fs fuel there ini hs o1) in
  fst (gdata o2) = Ok tt /\
  fst (getitem K fs fuel $"gen-config" o2) = fst (getitem K fs fuel $"gen-config" o1) /\
  fst (getitem K fs fuel $"load-env" o2) = fst (getitem K fs fuel $"load-env" o1).
Proof.
  intros E Q. pose proof (gen_first dg dl PG PL XG XL) as R. pose proof (two_spec dg dl) as S.
  destruct (two_steps dg dl) as [[r dg'] dl']. destruct R as (o' & E' & B).
  rewrite E in E'. injection E' as <- <-. destruct S as [(_ & A1 & A2 & C1 & C2)|(X & _)]; [|discriminate].
  inversion Q as [|? ? [Q1 Q2] QS]; subst. clear Q.
  assert (ST : forall o, both dg' dl' o -> exists o', gdata o = (Ok tt, o') /\ both dg' dl' o').
  { intros o Bo. pose proof (gen_run dg' dl' o Bo) as X. rewrite (two_again dg' dl' A1 A2 C1 C2) in X. exact X. }
  assert (V : both dg' dl' (accesses uniword fs fuel there ini hs o1)).
  { clear E Q1 Q2. revert o1 B. induction hs as [|h' hs' IH]; intros o B; auto. cbn [accesses].
    inversion QS as [|? ? [Q1 Q2] QS']; subst. apply IH; auto.
    destruct (ST _ (both_read _ _ _ h' B Q1 Q2)) as (o' & E & B'). now rewrite E. }
  intros o2. pose proof (both_read _ _ _ h V Q1 Q2) as V2. fold o2 in V2.
  destruct (ST _ V2) as (o3 & E3 & _). split; [now rewrite E3|].
  destruct V2 as [V2 V3], B as [B1 B2].
  destruct (holds_read K fs fuel i _ _ _ V2) as (-> & _), (holds_read K fs fuel i _ _ _ V3) as (-> & _).
  destruct (holds_read K fs fuel i _ _ _ B1) as (-> & _), (holds_read K fs fuel i _ _ _ B2) as (-> & _). auto.
Qed.

Variables (File : Type) (resolve : path -> File).
Lemma chosen_gen ks d d' (o : cpe) given k : completed ini ks d d' -> In k ks ->
  exists f, gen_file File resolve given d' k o = (Ok f, o) /\ chosen_file resolve ini given d k f.
Proof.
  intros (_ & _ & C) I. unfold gen_file, chosen_file. destruct given as [c|].
  - exists (resolve (mk_path c)). split; [reflexivity|]. exists (mk_path c). split; [apply denotes_mk|auto].
  - destruct (C k I) as (v & w & p & V & L & Gw & D & _). rewrite Gw. apply denotes_iff in D.
    exists (resolve (mk_path w)). split; [reflexivity|]. exists v, p. split; auto. split; auto. now rewrite D.
Qed.

Theorem gen_files_outcome g :
  let r := fst (gen_files uniword fs fuel there File resolve ini g o0) in
  ((forall k, In k gen_keys -> names_a_file there ini dg k) -> (forall k, In k env_keys -> names_a_file there ini dl k) ->
     exists a b x y z, r = Ok [a; b; x; y; z] /\
       chosen_file resolve ini (v_flags g) dg $"supported-config-flags" a /\
       chosen_file resolve ini (v_specs g) dg $"config-specs" b /\
       chosen_file resolve ini (v_systems g) dl $"supported-systems" x /\
       chosen_file resolve ini (v_envs g) dl $"supported-envs" y /\
       chosen_file resolve ini (v_envspecs g) dl $"environment-specs" z) /\
  ((exists k, In k gen_keys /\ ~ names_a_file there ini dg k) \/
   (exists k, In k env_keys /\ ~ names_a_file there ini dl k) -> r = Err ValueError).
Proof.
  intros r. subst r. unfold gen_files. rewrite bind_eq.
  pose proof (gen_first dg dl PG PL XG XL) as R. pose proof (two_spec dg dl) as S.
  destruct (two_steps dg dl) as [[r dg'] dl']. destruct R as (o1 & E & B). rewrite E.
  destruct S as [(-> & A1 & A2 & C1 & C2)|(-> & X)].
  - split; [|intros [(k & I & N)|(k & I & N)]; exfalso; auto].
    intros _ _. rewrite bind_eq.
    destruct (getitem_run uniword fs fuel i $"gen-config" dg' o1 (proj1 B)) as (o2 & E2 & S2). rewrite E2.
    assert (B2 : both dg' dl' o2) by (split; apply S2; apply B).
    destruct (chosen_gen gen_keys dg dg' o2 (v_flags g) $"supported-config-flags" C1) as (a & Ea & Ca); [now left|].
    rewrite bind_eq, Ea.
    destruct (chosen_gen gen_keys dg dg' o2 (v_specs g) $"config-specs" C1) as (b & Eb & Cb); [right; now left|].
    rewrite bind_eq, Eb.
    pose proof (gen_run dg' dl' o2 B2) as X. rewrite (two_again dg' dl' A1 A2 C1 C2) in X. destruct X as (o3 & E3 & B3).
    rewrite bind_eq, E3, bind_eq.
    destruct (getitem_run uniword fs fuel i $"load-env" dl' o3 (proj2 B3)) as (o4 & E4 & S4). rewrite E4.
    destruct (chosen_gen env_keys dl dl' o4 (v_systems g) $"supported-systems" C2) as (x & Ex & Cx); [now left|].
    destruct (chosen_gen env_keys dl dl' o4 (v_envs g) $"supported-envs" C2) as (y & Ey & Cy); [right; now left|].
    destruct (chosen_gen env_keys dl dl' o4 (v_envspecs g) $"environment-specs" C2) as (z & Ez & Cz); [right; right; now left|].
    rewrite bind_eq, Ex, bind_eq, Ey, bind_eq, Ez. exists a, b, x, y, z. auto 8.
  - split; [|reflexivity]. intros Y Z. exfalso. destruct X as [(k & I & N)|(k & I & N)]; auto.
Qed.
End GenConfig.

(** ** The file that is read *)
Theorem ini_opened ini p : denotes ini p -> exists w, o_files (open_ini ini) = Some [w] /\ denotes w p.
Proof.
  intros D. apply denotes_iff in D. subst p. exists (path_str (mk_path ini)). split; [reflexivity|].
  apply denotes_iff. symmetry. apply mk_path_str; [apply root_good|apply names_good].
Qed.
Theorem ini_absent uniword fs fuel ini there : fs (path_str (mk_path ini)) = None ->
  fst (parse_top_level uniword fs fuel ini (open_ini ini)) = Err IOError /\
  fst (gen_data uniword fs fuel there ini (open_ini ini)) = Err IOError.
Proof.
  intros E.
  assert (X : forall s, exists o', check_section uniword fs fuel s (open_ini ini) = (Err IOError, o')).
  { intros s. unfold check_section, has_section, data_has_section. rewrite !bind_eq.
    assert (Y : exists o', get_cpd fs (open_ini ini) = (Err IOError, o')).
    { unfold get_cpd, open_ini. cbn. unfold file_exists. rewrite E. eexists. reflexivity. }
    destruct Y as (o' & Y). rewrite Y. eexists. reflexivity. }
  split; [unfold parse_top_level|unfold gen_data]; rewrite bind_eq; edestruct X as (o' & Y); rewrite Y; reflexivity.
Qed.
