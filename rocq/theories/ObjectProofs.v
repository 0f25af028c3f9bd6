(** * Objects that look things up in a file answer as if they had a table. *)
From Coq Require Import String NArith ZArith List Bool Lia Arith.
Import ListNotations.
From Verif Require Import PyBase PyFacts Shlex IniView IniRead ExcControl Debuggable Cpe
  SpecBase SpecWalk SpecRun SpecParse SpecApi BaseProofs Refine RefineRoot RefineOk RunProofs Trace WalkProofs
  ParseProofs ParseProofs2 ParseProofs3 ApiProofs ApiProofs2 ApiProofs4 Samples EnvVar Regex Keyword KeywordFile KeywordFileProofs
  DetSys EnvKeyword LoadEnv TopLevel FileObjects SpecFlags SpecLoadEnv SpecObjects.
Local Open Scope sm_scope.

(** ** Two state machines in step *)
Section Sim.
Context {T X : Type} (R : T -> X -> Prop).
Definition sim {A} (m : SM T A) (m' : SM X A) : Prop :=
  forall p x, R p x -> fst (m p) = fst (m' x) /\ R (snd (m p)) (snd (m' x)).

Lemma sim_ret {A} (a : A) : sim (ret a) (ret a).
Proof. intros p x H. now split. Qed.
Lemma sim_raise {A} e : sim (@raise _ A e) (raise e).
Proof. intros p x H. now split. Qed.
Lemma sim_of_res {A} (r : res A) : sim (of_res r) (of_res r).
Proof. intros p x H. unfold of_res. now split. Qed.
Lemma sim_bind {A B} (m : SM T A) m' (k : A -> SM T B) k' :
  sim m m' -> (forall a, sim (k a) (k' a)) -> sim (bind m k) (bind m' k').
Proof.
  intros H1 H2 p x r. unfold bind. destruct (H1 p x r) as [E1 R1].
  destruct (m p) as [a p1], (m' x) as [a' x1]. cbn [fst snd] in *. subst a'.
  destruct a as [a|e]; [|now split]. now apply H2.
Qed.
Lemma sim_if {A} (b : bool) (m n : SM T A) m' n' : sim m m' -> sim n n' ->
  sim (if b then m else n) (if b then m' else n').
Proof. now destruct b. Qed.
Lemma sim_replies {O A} (exec : O -> SM T A) exec' : (forall o, sim (exec o) (exec' o)) ->
  forall h p x, R p x -> replies exec h p = replies exec' h x.
Proof.
  intros H h. induction h as [|o h IH]; intros p x r; cbn [replies]; [reflexivity|].
  destruct (H o p x r) as [E r']. f_equal; auto.
Qed.
End Sim.

(** A table that agrees on the section gives the same values. *)
Lemma get_values_ext conf conf' s k : conf s = conf' s -> get_values conf s k = get_values conf' s k.
Proof. intros E. unfold get_values. now rewrite E. Qed.
Lemma find_key_ext conf conf' s v keys : conf s = conf' s -> forall found,
  find_key conf s v keys found = find_key conf' s v keys found.
Proof.
  intros E. induction keys as [|k keys IH]; intros found; cbn [find_key]; [reflexivity|].
  rewrite (get_values_ext _ _ _ _ E). destruct (get_values conf' s k); cbn [rbind]; auto.
Qed.

Section File.
Variable uniword : pychar -> bool.
Variable fs : str -> option str.
Variable fuel : nat.
Variable other_re : str -> str -> res bool.
Variable hostname : str.
Notation K := (base_class uniword).
Notation cpe := (obj unit unit).

(** ** One file *)
Section One.
Variable file : str.
Variable i : ini.
Hypothesis RD : readable uniword fs fuel file i.
Let WB : well_behaved K := base_well_behaved uniword.
Let F : length (ini_sections i) + 3 <= fuel := proj1 (proj2 RD).
Let AP : all_parsable K i $"DEFAULT" := proj2 (proj2 RD).

Definition gf (o : cpe) : Prop :=
  exists files, inv K fs i $"DEFAULT" (fun s => ini_has_section i s = true) True files o.

Lemma gf_open : gf (open_ini file).
Proof.
  apply (opened_inv K fs i $"DEFAULT"). pose proof (proj1 RD) as H. constructor; auto.
  - vm_compute. split; discriminate.
  - left. reflexivity.
Qed.

(** On a parser for the file the call gives [r]. *)
Definition gives {A} (m : SM cpe A) (r : res A) : Prop :=
  forall o, gf o -> exists o', m o = (r, o') /\ gf o'.

Lemma gives_ret {A} (a : A) : gives (ret a) (Ok a).
Proof. intros o H. exists o. now split. Qed.
Lemma gives_raise {A} e : gives (@raise _ A e) (Err e).
Proof. intros o H. exists o. now split. Qed.
Lemma gives_of_res {A} (r : res A) : gives (of_res r) r.
Proof. intros o H. exists o. now split. Qed.
Lemma gives_bind {A B} (m : SM cpe A) r (k : A -> SM cpe B) k' :
  gives m r -> (forall a, r = Ok a -> gives (k a) (k' a)) -> gives (bind m k) (rbind r k').
Proof.
  intros H1 H2 o g. unfold bind. destruct (H1 o g) as (o1 & E & g1). rewrite E.
  destruct r as [a|e]; cbn [rbind]; [now apply H2|]. exists o1. now split.
Qed.

Lemma gives_keys : gives (data_keys fs) (Ok (ini_sections i)).
Proof.
  intros o [files V].
  destruct (data_keys_good K fs i $"DEFAULT" (fun s => ini_has_section i s = true) True _ _ V)
    as (o' & E & G). exists o'. split; auto. exists files. apply (go_inv _ _ _ _ _ _ _ _ _ G).
Qed.

Section Table.
Variable conf : str -> res (dict (option str)).
Hypothesis TB : table_of uniword i conf.

Lemma table_present s : ini_has_section i s = true -> exists d, expansion K i $"DEFAULT" s d /\ conf s = Ok d.
Proof. apply TB. Qed.

Lemma gives_item s : ini_has_section i s = true -> gives (getitem K fs fuel s) (conf s).
Proof.
  intros HS o [files V]. destruct (table_present s HS) as (d & X & E). rewrite E.
  destruct (item_inv K fs i $"DEFAULT" fuel WB F AP s d HS X files o V) as (o' & E' & V'). exists o'. split; auto.
  now exists files.
Qed.
Lemma gives_values s k : ini_has_section i s = true -> gives (get_values_on K fs fuel s k) (get_values conf s k).
Proof.
  intros HS o [files V]. destruct (table_present s HS) as (d & X & E).
  rewrite (get_values_ext conf (fun _ => Ok d) s k E).
  destruct (values_inv K fs i $"DEFAULT" fuel WB F AP s d HS X files k o V) as (o' & E' & V'). exists o'. split; auto.
  now exists files.
Qed.
Lemma gives_key s v : ini_has_section i s = true -> gives (get_key_on K fs fuel s v) (get_key conf s v).
Proof.
  intros HS. unfold get_key_on, get_key. apply gives_bind; [now apply gives_item|].
  intros d E. apply gives_bind.
  - intros o [files V]. destruct (table_present s HS) as (d' & X & E'). rewrite E' in E. injection E as <-.
    rewrite (find_key_ext conf (fun _ => Ok d') s v _ E').
    destruct (find_inv K fs i $"DEFAULT" fuel WB F AP s d' HS X files v (dkeys d') None o V) as (o' & Eo & V').
    exists o'. split; auto. now exists files.
  - intros [k|] _; [apply gives_ret|apply gives_raise].
Qed.

Lemma item_absent s : ini_has_section i s = false -> fst (getitem K fs fuel s (open_ini file)) = Err KeyError.
Proof. intros N. eapply getitem_missing; [apply RD|exact N|reflexivity]. Qed.

Definition step_file {Y} (p : cpe * Y) (x : Y) : Prop := snd p = x /\ gf (fst p).
Lemma sim_file {Y A} (m : SM cpe A) r : gives m r -> sim (@step_file Y) (on_file m) (of_res r).
Proof.
  intros H [o y] x [E g]. cbn [fst snd] in *. subst y. unfold on_file, of_res. cbn [fst snd].
  destruct (H o g) as (o' & -> & g'). cbn [fst snd]. split; [reflexivity|]. now split.
Qed.
Lemma sim_object {Y A} (m : SM Y A) : sim (@step_file Y) (on_object m) m.
Proof.
  intros [o y] x [E g]. cbn [fst snd] in *. subst y. unfold on_object. cbn [fst snd].
  destruct (m x) as [r x']. cbn [fst snd]. split; [reflexivity|]. now split.
Qed.

(** *** [ConfigKeywordParser] *)
Section Flags.
Hypothesis PF : ini_has_section i flags_section = true.

Lemma gives_flag f : gives (f_flag_options uniword fs fuel f) (flag_options conf f).
Proof.
  unfold f_flag_options, flag_options. apply gives_bind; [now apply gives_values|].
  intros [|t l] _; [apply gives_raise|]. destruct (str_mem t _); [apply gives_ret|apply gives_raise].
Qed.
Lemma gives_select w f : gives (f_select uniword fs fuel w f) (select conf w f).
Proof.
  unfold f_select, select. apply gives_bind; [apply gives_flag|]. intros [l t] _. cbv zeta.
  destruct (_ && _); [apply gives_raise|]. destruct (_ && _); [apply gives_ret|].
  destruct (filter _ l); [|apply gives_ret]. destruct l; [apply gives_raise|apply gives_ret].
Qed.
Lemma gives_select_all w l : forall acc, gives (f_select_all uniword fs fuel w l acc) (select_all conf w l acc).
Proof.
  induction l as [|f l IH]; intros acc; cbn [f_select_all select_all]; [apply gives_ret|].
  apply gives_bind; [apply gives_select|]. intros s _. apply IH.
Qed.
Lemma gives_all_options l : gives (f_all_options uniword fs fuel l) (all_options conf l).
Proof.
  induction l as [|f l IH]; cbn [f_all_options all_options]; [apply gives_ret|].
  apply gives_bind; [apply gives_flag|]. intros s _. apply gives_bind; [apply IH|]. intros; apply gives_ret.
Qed.
Lemma gives_default_options l : gives (f_default_options uniword fs fuel l) (default_options conf l).
Proof.
  induction l as [|f l IH]; cbn [f_default_options default_options]; [apply gives_ret|].
  apply gives_bind; [apply gives_flag|]. intros s _. destruct (fst s); [apply gives_raise|].
  apply gives_bind; [apply IH|]. intros; apply gives_ret.
Qed.

Lemma sim_options_list : sim step_file (f_options_list uniword fs fuel) (options_list conf).
Proof.
  unfold f_options_list, options_list. apply sim_bind; [apply sim_object|]. intros p.
  destruct (c_options p); [apply sim_ret|]. apply sim_bind; [apply sim_file, gives_all_options|]. intros l.
  apply sim_bind; [apply sim_object|]. intros; apply sim_ret.
Qed.
Lemma sim_parse_selected : sim step_file (f_parse_selected_options uniword fs fuel) (parse_selected_options conf).
Proof.
  unfold f_parse_selected_options, parse_selected_options. apply sim_bind; [apply sim_object|]. intros p.
  destruct (c_selected p); [apply sim_ret|]. apply sim_bind; [apply sim_options_list|]. intros l.
  apply sim_if; [apply sim_raise|]. apply sim_bind; [apply sim_file, gives_select_all|]. intros d.
  apply sim_object.
Qed.
Lemma sim_selected : sim step_file (f_selected_options uniword fs fuel) (selected_options conf).
Proof.
  unfold f_selected_options, selected_options. apply sim_bind; [apply sim_parse_selected|]. intros [].
  apply sim_bind; [apply sim_object|]. intros p. destruct (c_selected p); [apply sim_ret|apply sim_raise].
Qed.
Lemma sim_selected_str : sim step_file (f_selected_options_str uniword fs fuel) (selected_options_str conf).
Proof.
  unfold f_selected_options_str, selected_options_str. apply sim_bind; [apply sim_object|]. intros p.
  destruct (c_string p); [apply sim_ret|]. apply sim_bind; [apply sim_selected|]. intros d. cbv zeta.
  apply sim_bind; [apply sim_object|]. intros; apply sim_ret.
Qed.
Lemma sim_is_default x : sim step_file (f_is_default_option uniword fs fuel x) (is_default_option conf x).
Proof.
  unfold f_is_default_option, is_default_option. apply sim_bind; [apply sim_object|]. intros p.
  destruct (c_defaults p); [apply sim_ret|]. apply sim_bind; [apply sim_file, gives_default_options|]. intros l.
  apply sim_bind; [apply sim_object|]. intros; apply sim_ret.
Qed.
Lemma sim_kexec o : sim step_file (fkexec uniword fs fuel o) (kexec conf o).
Proof.
  destruct o; cbn [fkexec kexec]; (apply sim_bind; [|intros; apply sim_ret]).
  - apply sim_selected.
  - apply sim_selected_str.
  - apply sim_is_default.
  - apply sim_parse_selected.
  - apply sim_options_list.
  - apply sim_object.
Qed.
End Flags.

Lemma new_ckp_same build :
  match f_new_ckp uniword fs fuel file build, new_ckp conf build with
  | Ok p, Ok k => step_file p k /\ ini_has_section i flags_section = true
  | Err e, Err e' => e = e'
  | _, _ => False
  end.
Proof.
  unfold f_new_ckp, new_ckp. destruct (ini_has_section i flags_section) eqn:P.
  - destruct (gives_item _ P _ gf_open) as (o' & -> & g). destruct (conf flags_section) as [d|e]; cbn [rbind]; [|reflexivity].
    split; [split; [reflexivity|exact g]|reflexivity].
  - pose proof (item_absent _ P) as E. rewrite (proj2 TB _ P). cbn [rbind].
    destruct (getitem _ _ _ _ _) as [[d|e] o]; cbn [fst] in E; [discriminate|]. now injection E.
Qed.

(** *** [EnvKeywordParser] *)
Section Env.
Variable system : str.
Hypothesis PS : ini_has_section i system = true.
Lemma gives_all_values keys : gives (f_all_values uniword fs fuel system keys) (all_values conf system keys).
Proof.
  induction keys as [|k keys IH]; cbn [f_all_values all_values]; [apply gives_ret|].
  apply gives_bind; [now apply gives_values|]. intros l _. apply gives_bind; [apply IH|]. intros; apply gives_ret.
Qed.
Lemma gives_aliases : gives (f_get_aliases uniword fs fuel system) (get_aliases conf system).
Proof.
  unfold f_get_aliases, get_aliases. apply gives_bind; [now apply gives_item|]. intros d _.
  apply gives_bind; [apply gives_all_values|]. intros l _. destruct (has_duplicates l); [apply gives_raise|apply gives_ret].
Qed.
End Env.
Lemma gives_matched k : ini_has_section i (e_system k) = true ->
  gives (f_matched_env uniword fs fuel other_re k) (matched_env other_re conf k).
Proof.
  intros P. unfold f_matched_env, matched_env. apply gives_bind; [apply gives_of_res|]. intros [n|] _; [apply gives_ret|].
  apply gives_bind; [apply gives_of_res|]. intros [a|] _; [now apply gives_key|apply gives_raise].
Qed.
Definition step_ekp (p : cpe * ekp) (x : ekp) : Prop :=
  snd p = x /\ gf (fst p) /\ ini_has_section i (e_system x) = true.
Lemma sim_qualified : sim step_ekp (f_qualified_env_name uniword fs fuel other_re) (qualified_env_name other_re conf).
Proof.
  intros [o y] x (E & g & P). cbn [fst snd] in *. subst y.
  unfold f_qualified_env_name, qualified_env_name, bind, on_object, on_file, get, modify. cbn [fst snd]. cbv beta iota.
  cbn [fst snd]. destruct (e_qualified x) as [q|] eqn:Q.
  - cbn [ret fst snd]. split; [reflexivity|]. repeat split; auto.
  - cbn [fst snd]. destruct (gives_matched x P o g) as (o' & -> & g'). unfold of_res.
    destruct (matched_env other_re conf x) as [n|e]; cbn; split; try reflexivity; repeat split; auto.
Qed.
Lemma new_ekp_same build system :
  match f_new_ekp uniword fs fuel file build system, new_ekp conf build system with
  | Ok p, Ok k => step_ekp p k
  | Err e, Err e' => e = e'
  | _, _ => False
  end.
Proof.
  unfold f_new_ekp. destruct (ini_has_section i system) eqn:P.
  - assert (H : gives (d <- getitem K fs fuel system ;; l <- f_get_aliases uniword fs fuel system ;;
                       ret (Ekp build system (by_length (dkeys d)) (by_length l) None)) (new_ekp conf build system)).
    { unfold new_ekp. apply gives_bind; [now apply gives_item|]. intros d _.
      apply gives_bind; [now apply gives_aliases|]. intros; apply gives_ret. }
    destruct (H _ gf_open) as (o' & -> & g). clear H.
    destruct (new_ekp conf build system) as [k|e] eqn:N; [|reflexivity].
    repeat split; auto. unfold new_ekp in N. destruct (conf system) as [d|]; [|discriminate]. cbn [rbind] in N.
    destruct (get_aliases conf system) as [l|]; [|discriminate]. cbn [rbind] in N. injection N as <-. exact P.
  - unfold new_ekp. rewrite (proj2 TB _ P). cbn [rbind]. unfold bind at 1.
    pose proof (item_absent _ P) as E. destruct (getitem _ _ _ _ _) as [[d|e] o]; cbn [fst] in E; [discriminate|]. now injection E.
Qed.
End Table.

(** *** [DetermineSystem] *)
Section Systems.
Variable systems : list (str * list str).
Hypothesis SY : keys_of uniword i systems.

Lemma gives_names : gives (f_sys_names uniword fs fuel) (Ok (sys_names systems)).
Proof.
  unfold f_sys_names, sys_names. rewrite (proj1 SY). intros o g. rewrite bind_eq. cbn [data_sections].
  destruct (gives_keys o g) as (o' & -> & g'). exists o'. split; [reflexivity|exact g'].
Qed.
Lemma gives_first l : (forall s k, In (s, k) l -> In (s, k) systems) ->
  gives (f_first_system uniword fs fuel other_re hostname (filter (fun s => negb (str_eqb s $"DEFAULT")) (map fst l)))
        (first_system other_re hostname l).
Proof.
  induction l as [|[s keys] l IH]; intros H; cbn [map fst filter first_system]; [apply gives_ret|].
  assert (IH' := IH (fun s k I => H s k (or_intror I))). clear IH.
  destruct (str_eqb s $"DEFAULT"); cbn [negb]; [exact IH'|]. cbn [f_first_system].
  destruct (proj2 SY s keys (H s keys (or_introl eq_refl))) as (d & X & ->).
  assert (P : ini_has_section i s = true).
  { apply in_sections. rewrite <- (proj1 SY). apply in_map_iff. exists (s, map fst d). split; auto. apply H. now left. }
  intros o [files V]. rewrite bind_eq.
  destruct (item_inv K fs i $"DEFAULT" fuel WB F AP s d P X files o V) as (o' & -> & V').
  rewrite bind_eq. unfold of_res. change (dkeys d) with (map fst d).
  assert (g' : gf o') by now exists files.
  destruct (any_matches other_re hostname (map fst d)) as [b|e]; cbn [rbind]; [|now exists o'].
  destruct b; [now exists o'|]. exact (IH' o' g').
Qed.
Lemma gives_hostname : gives (f_sys_from_hostname uniword fs fuel other_re hostname) (sys_from_hostname other_re systems hostname).
Proof.
  intros o g. unfold f_sys_from_hostname. rewrite bind_eq. destruct (gives_names o g) as (o' & -> & g').
  apply gives_first; auto.
Qed.
Lemma gives_build b : gives (f_sys_from_build uniword fs fuel b) (sys_from_build systems b).
Proof.
  intros o g. unfold f_sys_from_build, sys_from_build. rewrite bind_eq. destruct (gives_names o g) as (o' & -> & g').
  cbv zeta. exists o'. split; auto. destruct (filter _ _) as [|s [|]]; reflexivity.
Qed.
Lemma sim_determine : sim step_file (f_determine_system uniword fs fuel other_re hostname) (determine_system other_re systems hostname).
Proof.
  unfold f_determine_system, determine_system. apply sim_bind; [apply sim_object|]. intros p.
  destruct (d_name p); [apply sim_ret|]. apply sim_bind; [apply sim_file, gives_hostname|]. intros h.
  apply sim_bind; [apply sim_object|]. intros []. apply sim_bind; [apply sim_file, gives_build|]. intros b.
  destruct h as [h|], b as [b|]; try apply sim_ret; try apply sim_raise;
    (apply sim_bind; [apply sim_object|]; intros []; apply sim_if; [apply sim_raise|apply sim_ret]).
Qed.
Lemma sim_system : sim step_file (f_system_name uniword fs fuel other_re hostname) (system_name other_re systems hostname).
Proof.
  unfold f_system_name, system_name. apply sim_bind; [apply sim_determine|]. intros [].
  apply sim_bind; [apply sim_object|]. intros p. destruct (d_name p); [apply sim_ret|apply sim_raise].
Qed.
Lemma new_detsys_same build force : step_file (f_new_detsys file build force) (new_detsys build force).
Proof. split; [reflexivity|]. apply gf_open. Qed.
Lemma gives_not_systems l : gives (f_not_systems uniword fs fuel l) (Ok (filter (fun w => negb (str_mem w (sys_names systems))) l)).
Proof.
  induction l as [|w l IH]; cbn [f_not_systems filter]; [apply gives_ret|]. intros o g. rewrite bind_eq.
  destruct (gives_names o g) as (o1 & -> & g1). rewrite bind_eq. destruct (IH o1 g1) as (o2 & -> & g2).
  exists o2. split; auto. unfold ret. destruct (str_mem w (sys_names systems)); reflexivity.
Qed.
End Systems.
End One.
End File.
