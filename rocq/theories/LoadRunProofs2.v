(** * Proofs about loading an environment: the program. *)
From Coq Require Import String NArith ZArith List Bool Lia.
Import ListNotations.
From Verif Require Import PyBase PyFacts Shlex IniView IniRead ExcControl Cpe EnvVar SetEnv Regex Keyword DetSys EnvKeyword LoadEnv
  LoadRun SpecWalk SpecRun SpecParse SpecApi SpecEnv SpecSetEnv SpecLoadEnv SpecLoadRun RefineRoot ApiProofs EnvProofs
  SetEnvProofs SetEnvProofs2 SetEnvProofs3 PyScriptProofs LoadEnvProofs LoadRunProofs.
Local Open Scope sm_scope.

Section Run.
Variable other_re : str -> str -> res bool.
Variable systems : list (str * list str).
Variable hostname : str.
Variable envs : str -> res (dict (option str)).
Variable which : environ -> str -> option str.
Variable mods : list str -> environ -> res Z * environ.
Variable other : str -> environ -> res Z * environ.
Variable uniword : pychar -> bool.
Variable fs : str -> option str.
Variable fuel : nat.
Variable header : str -> str.
Variable specs_file tmp_file : str.
Variable output location : option str.
Variable list_flag : bool.
Variable writable : str -> bool.
Notation K := (SetEnvironment uniword).
Notation env_name := (env_name other_re systems hostname envs).
Notation load_set := (load_set uniword fs fuel specs_file).
Notation need_set := (need_set uniword fs fuel specs_file).
Notation apply_env := (apply_env other_re systems hostname envs which mods other uniword fs fuel specs_file).
Notation write_one := (write_one other_re systems hostname envs uniword fs fuel header writable).
Notation write_each := (write_each other_re systems hostname envs uniword fs fuel header writable).
Notation write_env := (write_env other_re systems hostname envs uniword fs fuel header specs_file tmp_file output writable).
Notation load_main := (load_main other_re systems hostname envs which mods other uniword fs fuel header specs_file tmp_file
  output location list_flag writable).
Notation new_set := (new_set specs_file).
Notation name_of := (fun build force => fst (lexec other_re systems hostname envs LParsed (new_loadenv build force))).

(** ** The name *)
Lemma name_known p n p1 : le_parsed_env_name other_re systems hostname envs p = (Ok n, p1) -> l_parsed p1 = Some n.
Proof.
  rewrite le_parsed_eq. destruct (l_parsed p) as [m|] eqn:E; [intros [= <- <-]; exact E|].
  destruct (le_ekp other_re systems hostname envs p) as [[k|x] q]; [|discriminate].
  destruct (qualified_env_name other_re envs k) as [[m|x] k']; [intros [= <- <-]|discriminate]. reflexivity.
Qed.
Lemma env_name_known w n : l_parsed (r_le w) = Some n -> env_name w = (Ok n, w).
Proof.
  intros E. unfold LoadRun.env_name, on_names. rewrite le_parsed_eq, E. destruct w; reflexivity.
Qed.

(** ** What each step leaves alone *)
Definition same_env (w w' : lworld) : Prop := r_env w' = r_env w.
Definition same_out (w w' : lworld) : Prop := r_out w' = r_out w.
Definition steps {A} (R : lworld -> lworld -> Prop) (m : SM lworld A) : Prop := forall w, R w (snd (m w)).
Section Steps.
Variable R : lworld -> lworld -> Prop.
Hypothesis refl : forall w, R w w.
Hypothesis trans : forall a b c, R a b -> R b c -> R a c.
Lemma st_ret {A} (a : A) : steps R (ret a).
Proof. intros w. apply refl. Qed.
Lemma st_raise {A} x : steps R (@raise lworld A x).
Proof. intros w. apply refl. Qed.
Lemma st_bind {A B} (m : SM lworld A) (k : A -> SM lworld B) : steps R m -> (forall a, steps R (k a)) -> steps R (bind m k).
Proof.
  intros M Kk w. specialize (M w). unfold bind. destruct (m w) as [[a|x] w1]; cbn [snd] in *; auto.
  eapply trans; [exact M|apply Kk].
Qed.
End Steps.

Definition frame (w w' : lworld) : Prop := r_env w' = r_env w /\ r_out w' = r_out w.
Lemma frame_refl w : frame w w.
Proof. now split. Qed.
Lemma frame_trans a b c : frame a b -> frame b c -> frame a c.
Proof. intros [] []. split; congruence. Qed.
Hint Resolve frame_refl frame_trans : core.

Lemma on_names_frame {A} (m : SM loadenv A) : steps frame (on_names m).
Proof. intros w. unfold on_names. destruct (m (r_le w)). now split. Qed.
Lemma on_obj_frame {A} (m : SM sobj A) : steps frame (on_set (on_obj m)).
Proof.
  intros w. unfold on_set, on_obj. destruct (r_set w) as [o|]; [|now split]. cbn [w_obj w_env].
  destruct (m o). now split.
Qed.
Lemma load_set_frame : steps frame load_set.
Proof.
  apply st_bind; eauto.
  - intros w. unfold modify. cbn. destruct (r_set w); now split.
  - intros _. apply st_bind; eauto; [apply on_obj_frame|]. intros _. apply st_bind; eauto; [apply on_obj_frame|].
    intros _. now apply st_ret.
Qed.
Lemma need_set_frame : steps frame need_set.
Proof.
  apply st_bind; eauto.
  - intros w. apply frame_refl.
  - intros w. destruct (r_set w); [now apply st_ret|apply load_set_frame].
Qed.
Lemma env_name_frame : steps frame env_name.
Proof. apply on_names_frame. Qed.

Lemma on_set_out {A} (m : SM world A) : steps same_out (on_set m).
Proof. intros w. unfold on_set. destruct (r_set w); [|reflexivity]. destruct (m _). reflexivity. Qed.
Lemma frame_out {A} (m : SM lworld A) : steps frame m -> steps same_out m.
Proof. intros H w. apply (H w). Qed.
Lemma frame_env {A} (m : SM lworld A) : steps frame m -> steps same_env m.
Proof. intros H w. apply (H w). Qed.
Lemma so_refl w : same_out w w.
Proof. reflexivity. Qed.
Lemma so_trans a b c : same_out a b -> same_out b c -> same_out a c.
Proof. unfold same_out. congruence. Qed.
Hint Resolve so_refl so_trans : core.
Lemma apply_env_out : steps same_out apply_env.
Proof.
  apply st_bind; eauto; [apply frame_out, need_set_frame|]. intros _.
  apply st_bind; eauto; [apply frame_out, env_name_frame|]. intros n.
  apply st_bind; eauto; [apply on_set_out|]. intros z. destruct (z =? 0)%Z; [now apply st_ret|].
  apply st_bind; eauto; [apply frame_out, env_name_frame|]. intros _. now apply st_raise.
Qed.

(** Only these files are written. *)
Definition touched : list str := tmp_file :: match output with Some p => [p] | None => [] end ++
  match location with Some p => [p] | None => [] end.
Definition only (l : list str) (w w' : lworld) : Prop := forall p, ~ In p l -> dget p (r_out w') = dget p (r_out w).
Lemma only_refl l w : only l w w.
Proof. intros p _. reflexivity. Qed.
Lemma only_trans l a b c : only l a b -> only l b c -> only l a c.
Proof. intros A B p N. rewrite (B p N). now apply A. Qed.
Hint Resolve only_refl only_trans : core.
Lemma only_out {A} l (m : SM lworld A) : steps same_out m -> steps (only l) m.
Proof. intros H w p _. now rewrite (H w). Qed.
Lemma set_out_only f p l : In p l -> (forall q d, q <> p -> dget q (f p d) = dget q d) -> steps (only l) (set_out f p).
Proof. intros I F w q N. unfold set_out, modify. cbn. apply F. intros ->. contradiction. Qed.
Lemma write_one_only l p : In p l -> steps (only l) (write_one p).
Proof.
  intros I. unfold LoadRun.write_one.
  apply st_bind; eauto. { apply set_out_only; auto. intros q d N. now apply dget_ddel_other. }
  intros _. apply st_bind; eauto. { destruct (writable p); [apply st_ret|apply st_raise]; auto. }
  intros _. apply st_bind; eauto. { apply only_out, frame_out, env_name_frame. }
  intros n. apply st_bind; eauto. { apply only_out, on_set_out. }
  intros t. apply st_bind; eauto.
  { destruct (fst t); [|apply st_ret; auto]. apply set_out_only; auto. intros q d N. now apply dget_dset_other. }
  intros _. apply st_bind; eauto. { apply only_out, frame_out, env_name_frame. }
  intros m. apply set_out_only; auto. intros q d N. now apply dget_dset_other.
Qed.
Lemma write_each_only l ps : incl ps l -> steps (only l) (write_each ps).
Proof.
  induction ps as [|p ps IH]; intros I; cbn [LoadRun.write_each]; [apply st_ret; auto|].
  apply st_bind; eauto; [apply write_one_only, I; now left|]. intros _. apply IH. intros q J. apply I. now right.
Qed.
Theorem others_untouched : steps (only touched) load_main.
Proof.
  unfold LoadRun.load_main. apply st_bind; eauto.
  { destruct list_flag; [|apply st_ret; auto]. apply st_bind; eauto.
    - apply only_out, frame_out, on_names_frame.
    - intros _. apply st_raise; auto. }
  intros _. apply st_bind; eauto; [apply only_out, apply_env_out|].
  intros _. apply st_bind; eauto; [apply only_out, frame_out, env_name_frame|].
  intros _. apply st_bind; eauto.
  { apply st_bind; eauto; [apply only_out, frame_out, need_set_frame|]. intros _.
    apply write_each_only. unfold touched, out_files. intros q [<-|J]; [now left|right; apply in_or_app; auto]. }
  intros _. destruct location as [p|] eqn:EL; [|apply st_ret; auto]. destruct (writable p); [|apply st_raise; auto].
  apply set_out_only; [|intros q d N; now apply dget_dset_other].
  unfold touched. rewrite EL. right. apply in_or_app. right. now left.
Qed.

Theorem files_written w : r_out (snd (apply_env w)) = r_out w /\
  forall p, p <> tmp_file -> output <> Some p -> location <> Some p ->
    dget p (r_out (snd (load_main w))) = dget p (r_out w).
Proof.
  split; [apply apply_env_out|]. intros p T O L. apply others_untouched. intros I. unfold touched in I.
  destruct I as [<-|I]; [congruence|]. apply in_app_or in I as [I|I].
  - destruct output; [destruct I as [<-|[]]; congruence|destruct I].
  - destruct location; [destruct I as [<-|[]]; congruence|destruct I].
Qed.

(** ** Success *)
Section Ok.
Variable i : ini.
Hypothesis HF : has_file fs new_set i.
Hypothesis NF : no_finalize_options i.
Notation loaded := (loaded uniword fs i).

Lemma start_loaded : exists o, set_level 5 new_set = (Ok tt, o) /\ loaded o.
Proof.
  eexists. split; [reflexivity|]. constructor.
  - unfold has_file in *. rewrite <- HF. now apply get_cpd_fst_ext.
  - reflexivity.
  - reflexivity.
  - intros t H. discriminate.
  - intros t H. discriminate.
  - intros t _. split; reflexivity.
Qed.
(** Everything is read and every option is an operation. *)
Definition ready (o : sobj) : Prop :=
  loaded o /\ forall s, ini_has_section i s = true -> str_mem s (checked_of o) = true /\ section_of o s = Some [].
Lemma ready_operations o : ready o -> all_operations uniword i.
Proof.
  intros [L R] s H. destruct (R s H) as [C S]. destruct (lo_read _ _ _ _ L s C) as (evs & n & l & W & _ & _ & E).
  exists evs, n. split; auto. congruence.
Qed.
Lemma load_set_ok w w' : r_set w = None -> load_set w = (Ok tt, w') ->
  r_le w' = r_le w /\ exists o, r_set w' = Some o /\ ready o.
Proof.
  intros N E. unfold LoadRun.load_set in E. unfold bind at 1, modify in E. rewrite N in E.
  unfold bind at 1, on_set at 1, on_obj at 1 in E. cbn [r_set r_env w_obj w_env r_le r_out] in E.
  destruct start_loaded as (o & E1 & L). rewrite E1 in E. unfold bind, on_set, on_obj in E. cbn [r_set r_env w_obj w_env r_le r_out] in E.
  destruct (assert_file K fs fuel o) as [[z|x] o2] eqn:A; [|discriminate].
  destruct (assert_file_loaded uniword fs i fuel NF o z o2 L A) as (L2 & _ & R).
  unfold ret in E. injection E as <-. split; [reflexivity|]. exists o2. split; [reflexivity|]. split; auto.
  intros s H. apply R. now apply in_sections.
Qed.
Lemma load_set_fails w w' r : r_set w = None -> ~ all_operations uniword i -> load_set w = (r, w') -> exists x, r = Err x.
Proof.
  intros N NA E. destruct r as [[]|x]; eauto. exfalso. destruct (load_set_ok w w' N E) as (_ & o & _ & R).
  exact (NA (ready_operations o R)).
Qed.

Lemma getitem_absent n (o : sobj) : has_file fs o i -> ini_has_section i n = false ->
  o_user (snd (getitem K fs fuel n o)) = o_user o.
Proof.
  intros H HS. unfold getitem, bind, has_section, data_has_section, bind, data_section.
  rewrite (get_cpd_ready fs i) by exact H. rewrite HS. unfold ret, get_edata, bind. cbn [o_edata set_cpd].
  destruct (o_edata o) as [d|] eqn:ED; [|reflexivity].
  unfold dmem. destruct (dget n (d_data d)); [|reflexivity]. cbn [o_edata set_cpd]. rewrite ED. destruct (dget n (d_data d)); reflexivity.
Qed.
(** [apply] of the name. *)
Lemma apply_ready o n e z w1 : ready o -> apply which mods other uniword fs fuel n (World o e) = (Ok z, w1) ->
  ini_has_section i n = true /\ exists l, section_asks uniword i n l /\ dget n (o_user o) = Some l /\
    (Forall plain_action l -> z = 0%Z /\ all_done which mods l e (w_env w1) /\ dget n (o_user (w_obj w1)) = Some l).
Proof.
  intros [L R] E. destruct (str_mem n (checked_of o)) eqn:C.
  - destruct (lo_read _ _ _ _ L n C) as (evs & m & l & W & RM & D & S).
    assert (HS : ini_has_section i n = true) by (apply in_sections; exact (lo_in _ _ _ _ L n C)).
    split; auto. exists l. split; [exists evs, m; auto|]. split; auto. intros PA.
    pose proof (remain_asked _ _ RM) as AA.
    assert (LV : (2 <= level_of o)%Z) by (rewrite (lo_level _ _ _ _ L); lia).
    destruct (apply_again which mods other uniword fs i fuel n o _ l (lo_file _ _ _ _ L) C S D AA PA e) as (r & e' & o' & E2 & P & U & _).
    destruct (apply_result which mods other uniword fs i fuel n o _ l e (lo_file _ _ _ _ L) C S D AA PA LV) as [Q _].
    destruct (Q z w1 E) as [Z0 AD]. split; auto. split; auto. rewrite E2 in E.
    replace w1 with (World o' e') by congruence. cbn [w_obj]. now rewrite U.
  - exfalso. destruct (ini_has_section i n) eqn:HS; [destruct (R n HS); congruence|].
    destruct (lo_unread _ _ _ _ L n C) as [_ D].
    destruct (apply_without_actions which mods other uniword fs fuel n o e) as (x & o' & X).
    { rewrite (getitem_absent n o (lo_file _ _ _ _ L) HS). exact D. }
    rewrite X in E. discriminate.
Qed.

Lemma need_set_new w w' r : r_set w = None -> need_set w = (r, w') -> load_set w = (r, w').
Proof. intros N E. unfold LoadRun.need_set, bind, get in E. now rewrite N in E. Qed.
Lemma need_set_there w o : r_set w = Some o -> need_set w = (Ok tt, w).
Proof. intros N. unfold LoadRun.need_set, bind, get. now rewrite N. Qed.

Lemma apply_env_ok w w' : r_set w = None -> apply_env w = (Ok tt, w') ->
  all_operations uniword i /\
  exists n l, fst (le_parsed_env_name other_re systems hostname envs (r_le w)) = Ok n /\
    l_parsed (r_le w') = Some n /\ ini_has_section i n = true /\ section_asks uniword i n l /\
    (Forall plain_action l -> all_done which mods l (r_env w) (r_env w') /\
       exists o, r_set w' = Some o /\ dget n (o_user o) = Some l).
Proof.
  intros N E. unfold LoadRun.apply_env in E. unfold bind at 1 in E.
  destruct (need_set w) as [[[]|x] w1] eqn:E1; [|discriminate].
  pose proof (need_set_frame w) as F1. rewrite E1 in F1. cbn [snd] in F1. apply need_set_new in E1; auto.
  destruct (load_set_ok w w1 N E1) as (LE & o & SO & R). split; [exact (ready_operations o R)|].
  unfold bind at 1, LoadRun.env_name at 1, on_names in E. rewrite LE in E.
  destruct (le_parsed_env_name other_re systems hostname envs (r_le w)) as [[n|x] le] eqn:NM; [|discriminate].
  unfold bind at 1, on_set in E. cbn [r_set r_env r_le r_out] in E. rewrite SO in E.
  destruct (apply which mods other uniword fs fuel n (World o (r_env w1))) as [[z|x] w2] eqn:A; [|discriminate].
  destruct (apply_ready o n (r_env w1) z w2 R A) as (HS & l & SA & D & PL).
  exists n, l. split; [reflexivity|].
  assert (w' = LWorld le (Some (w_obj w2)) (w_env w2) (r_out w1)) as ->.
  { destruct (z =? 0)%Z; [unfold ret in E; congruence|]. unfold bind in E. destruct (env_name _) as [[?|?] ?] in E; discriminate. }
  cbn [r_le r_set r_env r_out]. split; [now apply (name_known (r_le w))|]. split; auto. split; auto.
  intros PA. destruct (PL PA) as (_ & AD & D2). rewrite (proj1 F1) in AD. split; auto. eauto.
Qed.

Lemma write_one_ok p n o T w w' : l_parsed (r_le w) = Some n -> r_set w = Some o ->
  generate_script uniword fs fuel header n true true true $"bash" o = (Ok T, o) -> write_one p w = (Ok tt, w') ->
  r_le w' = r_le w /\ r_set w' = Some o /\ r_env w' = r_env w /\
  dget p (r_out w') = Some (T ++ $"export LOADED_ENV_NAME=" ++ n).
Proof.
  intros N SO G E. unfold LoadRun.write_one in E. unfold bind at 1, set_out at 1, modify in E.
  unfold bind at 1 in E. destruct (writable p); [|discriminate]. unfold ret at 1 in E. unfold bind at 1 in E.
  rewrite (env_name_known _ n) in E by exact N. unfold bind at 1, on_set, on_obj in E. cbn [r_set r_env r_le r_out w_obj w_env] in E.
  rewrite SO in E. unfold write_actions, bind in E. cbn [w_obj w_env] in E.
  change (negb (str_mem $"bash" [$"bash"; $"python"])) with false in E. cbv iota beta in E. rewrite G in E.
  unfold ret in E. cbn [fst] in E. unfold set_out at 1, modify in E. rewrite (env_name_known _ n) in E by exact N.
  unfold set_out, modify in E. cbn [r_set r_env r_le r_out w_obj w_env] in E. rewrite dget_dset_same in E.
  assert (W : w' = LWorld (r_le w) (Some o) (r_env w)
    (dset p (T ++ $"export LOADED_ENV_NAME=" ++ n) (dset p T (ddel p (r_out w))))) by congruence.
  rewrite W. cbn [r_set r_env r_le r_out]. rewrite dget_dset_same. auto.
Qed.
Lemma write_each_ok n o T ps : forall w w', l_parsed (r_le w) = Some n -> r_set w = Some o ->
  generate_script uniword fs fuel header n true true true $"bash" o = (Ok T, o) -> write_each ps w = (Ok tt, w') ->
  r_env w' = r_env w /\ forall p, In p ps -> dget p (r_out w') = Some (T ++ $"export LOADED_ENV_NAME=" ++ n).
Proof.
  induction ps as [|p ps IH]; intros w w' N SO G E; cbn [LoadRun.write_each] in E.
  - unfold ret in E. replace w' with w by congruence. split; auto. intros p [].
  - unfold bind in E. destruct (write_one p w) as [[[]|x] w1] eqn:W1; [|discriminate].
    destruct (write_one_ok p n o T w w1 N SO G W1) as (LE & S1 & EN & D).
    destruct (IH w1 w') as (EN2 & D2); auto; [now rewrite LE|]. split; [congruence|].
    intros q [<-|J]; [|auto]. destruct (str_mem p ps) eqn:M; [apply D2; now apply str_mem_In|].
    rewrite <- D. pose proof (write_each_only ps ps (incl_refl ps) w1 p) as O. rewrite E in O. cbn [snd] in O. apply O.
    intros J. apply str_mem_In in J. congruence.
Qed.

Lemma done_complete l e e' : all_done which mods l e e' -> ~ Exists incomplete l.
Proof.
  induction 1 as [e|a l e e1 e' PF A IH]; intros X; inversion X as [? ? Y|? ? Y]; subst; auto.
  exact (performs_complete _ _ _ _ _ _ PF Y).
Qed.

Definition results (e : environ) (l : list action) (n : str) (w : lworld) : Prop :=
  all_done which mods l e (r_env w) /\
  exists t, script_lines $"bash" l t /\
    (forall p, p = tmp_file \/ output = Some p -> location <> Some p ->
       dget p (r_out w) = Some (heading header $"bash" true true ++ commands t n)) /\
    (forall p, location = Some p -> dget p (r_out w) = Some tmp_file).

Theorem main_success build force e out w :
  load_main (new_lworld build force e out) = (Ok tt, w) ->
  list_flag = false /\ all_operations uniword i /\
  exists n l, name_of build force = Ok n /\ ini_has_section i n = true /\ section_asks uniword i n l /\
    (Forall plain_action l -> results e l n w).
Proof.
  intros E. unfold LoadRun.load_main in E. unfold bind at 1 in E. destruct list_flag.
  { exfalso. unfold list_envs, bind in E. destruct (on_names _ _) as [[?|?] ?] in E; discriminate. }
  split; auto. unfold ret at 1 in E. unfold bind at 1 in E.
  destruct (apply_env (new_lworld build force e out)) as [[[]|x] w1] eqn:E1; [|discriminate].
  destruct (apply_env_ok (new_lworld build force e out) w1 eq_refl E1) as (AO & n & l & NM & N1 & HS & SA & PL). split; auto.
  exists n, l. split; [exact NM|]. split; auto. split; auto. intros PA.
  destruct (PL PA) as (AD & o & SO & D). cbn [new_lworld r_env] in AD.
  unfold bind at 1 in E. rewrite (env_name_known w1 n N1) in E.
  unfold bind at 1 in E. unfold LoadRun.write_env, bind at 1 in E. rewrite (need_set_there w1 o SO) in E.
  destruct (write_each (out_files tmp_file output) w1) as [[[]|x] w2] eqn:W2; [|discriminate].
  destruct SA as (evs & k & W & RM).
  destruct (script_known uniword fs fuel header n l true true $"bash" o D (remain_asked _ _ RM) (or_intror eq_refl))
    as [[X _]|(_ & t & T & G)]; [now apply done_complete in AD|].
  destruct (write_each_ok n o _ _ w1 w2 N1 SO G W2) as (EN & DP).
  assert (F : r_env w = r_env w2 /\ (forall p, location = Some p -> dget p (r_out w) = Some tmp_file) /\
     (forall p, location <> Some p -> dget p (r_out w) = dget p (r_out w2))).
  { destruct location as [p|]; [destruct (writable p); [|discriminate]|].
    - unfold set_out, modify in E. assert (WE : w = LWorld (r_le w2) (r_set w2) (r_env w2) (dset p tmp_file (r_out w2))) by congruence.
      rewrite WE. cbn [r_env r_out]. split; auto. split; intros q Q.
      + injection Q as <-. apply dget_dset_same.
      + apply dget_dset_other. congruence.
    - unfold ret in E. replace w with w2 by congruence. repeat split; auto. discriminate. }
  destruct F as (EE & FL & FO). unfold results. rewrite EE, EN. split; auto. exists t. split; auto. split; auto.
  intros p P NL. rewrite FO; auto. unfold commands. rewrite DP.
  - f_equal. now rewrite <- !app_assoc.
  - unfold out_files. destruct P as [->|P]; [now left|rewrite P; right; now left].
Qed.

(** The program gets to the end. *)
Lemma write_one_works p n o T w : l_parsed (r_le w) = Some n -> r_set w = Some o ->
  generate_script uniword fs fuel header n true true true $"bash" o = (Ok T, o) -> writable p = true ->
  exists w', write_one p w = (Ok tt, w').
Proof.
  intros N SO G WR. unfold LoadRun.write_one. unfold bind at 1, set_out at 1, modify.
  unfold bind at 1. rewrite WR. unfold ret at 1. unfold bind at 1.
  rewrite (env_name_known _ n) by exact N. unfold bind at 1, on_set, on_obj. cbn [r_set r_env r_le r_out w_obj w_env].
  rewrite SO. unfold write_actions, bind. cbn [w_obj w_env].
  change (negb (str_mem $"bash" [$"bash"; $"python"])) with false. cbv iota beta. rewrite G.
  unfold ret. cbn [fst]. unfold set_out at 1, modify. rewrite (env_name_known _ n) by exact N.
  unfold set_out, modify. eauto.
Qed.
Lemma write_each_works n o T ps : forall w, l_parsed (r_le w) = Some n -> r_set w = Some o ->
  generate_script uniword fs fuel header n true true true $"bash" o = (Ok T, o) -> (forall p, In p ps -> writable p = true) ->
  exists w', write_each ps w = (Ok tt, w').
Proof.
  induction ps as [|p ps IH]; intros w N SO G WR; cbn [LoadRun.write_each]; [eexists; reflexivity|].
  destruct (write_one_works p n o T w N SO G (WR p (or_introl eq_refl))) as [w1 W1].
  destruct (write_one_ok p n o T w w1 N SO G W1) as (LE & S1 & _).
  destruct (IH w1) as [w2 W2]; auto; [now rewrite LE|intros q J; apply WR; now right|].
  exists w2. unfold bind. now rewrite W1.
Qed.
Theorem main_works build force e out n l e' z o2 :
  assert_file K fs fuel (snd (set_level 5 new_set)) = (Ok z, o2) -> list_flag = false ->
  name_of build force = Ok n -> ini_has_section i n = true -> section_asks uniword i n l -> Forall plain_action l ->
  all_done which mods l e e' ->
  (forall p, p = tmp_file \/ output = Some p \/ location = Some p -> writable p = true) ->
  exists w, load_main (new_lworld build force e out) = (Ok tt, w).
Proof.
  intros AF LF NM HS SA PA AD WR.
  assert (LS : exists w1, load_set (new_lworld build force e out) = (Ok tt, w1)).
  { unfold LoadRun.load_set. unfold bind at 1, modify at 1. cbn [new_lworld r_set r_le r_env r_out].
    unfold bind at 1, on_set at 1, on_obj at 1. cbn [r_set r_env w_obj w_env r_le r_out].
    destruct (set_level 5 new_set) as [r0 o0] eqn:E0. assert (r0 = Ok tt) by (unfold set_level, modify in E0; congruence). subst r0.
    unfold bind, on_set, on_obj. cbn [r_set r_env w_obj w_env r_le r_out snd] in AF |- *. rewrite AF. eexists; reflexivity. }
  destruct LS as [w1 LS]. destruct (load_set_ok (new_lworld build force e out) w1 eq_refl LS) as (LE & o & SO & R).
  pose proof (load_set_frame (new_lworld build force e out)) as F. rewrite LS in F. destruct F as [FE FO]. cbn [snd new_lworld r_env r_out] in FE, FO.
  destruct R as [L R]. destruct (R n HS) as [C _].
  destruct (lo_read _ _ _ _ L n C) as (evs & m & l' & W & RM & D & SE). destruct SA as (evs' & m' & W' & RM').
  destruct (parse_walk_unique K i _ _ _ _ _ _ _ _ W W') as [-> ->]. pose proof (remain_det _ _ _ RM RM') as ->.
  assert (LV : (2 <= level_of o)%Z) by (rewrite (lo_level _ _ _ _ L); lia).
  pose proof (remain_asked _ _ RM) as AA.
  destruct (apply_result which mods other uniword fs i fuel n o _ l e (lo_file _ _ _ _ L) C SE D AA PA LV) as [_ Q].
  destruct (Q e' AD) as [o3 A]. clear Q.
  destruct (apply_again which mods other uniword fs i fuel n o _ l (lo_file _ _ _ _ L) C SE D AA PA e) as (r & e2 & o4 & A2 & _ & U & _).
  rewrite A in A2. assert (o4 = o3) by congruence. subst o4. clear A2.
  cbn [lexec] in NM. destruct (le_parsed_env_name other_re systems hostname envs (new_loadenv build force)) as [r1 le] eqn:NE.
  cbn [fst] in NM. subst r1.
  set (w2 := LWorld le (Some o3) e' out).
  assert (AE : apply_env (new_lworld build force e out) = (Ok tt, w2)).
  { unfold LoadRun.apply_env, bind at 1. unfold LoadRun.need_set, bind at 1, get. cbn [new_lworld r_set].
    change (LWorld (new_loadenv build force) None e out) with (new_lworld build force e out). rewrite LS.
    unfold bind at 1, LoadRun.env_name, on_names. rewrite LE. cbn [new_lworld r_le]. rewrite NE.
    unfold bind, on_set. cbn [r_set r_env r_le r_out]. rewrite SO, FE, A. cbn [Z.eqb w_obj w_env]. unfold ret. now rewrite FO. }
  assert (N2 : l_parsed (r_le w2) = Some n) by exact (name_known _ _ _ NE).
  assert (D3 : dget n (o_user o3) = Some l) by now rewrite U.
  destruct (script_known uniword fs fuel header n l true true $"bash" o3 D3 AA (or_intror eq_refl)) as [[X _]|(_ & t & T & G)];
    [now apply done_complete in AD|].
  destruct (write_each_works n o3 _ (out_files tmp_file output) w2 N2 eq_refl G) as [w3 W3].
  { intros p I. apply WR. unfold out_files in I. destruct I as [<-|I]; auto.
    destruct output; [destruct I as [<-|[]]; auto|destruct I]. }
  unfold LoadRun.load_main. unfold bind at 1. rewrite LF. unfold ret at 1. unfold bind at 1. rewrite AE.
  unfold bind at 1. rewrite (env_name_known w2 n N2). unfold bind at 1. unfold LoadRun.write_env, bind at 1.
  rewrite (need_set_there w2 o3 eq_refl), W3.
  destruct location as [p|] eqn:EL; [rewrite (WR p) by auto|]; eexists; reflexivity.
Qed.

(** ** Failure *)
Theorem invalid_file build force e out : ~ all_operations uniword i -> exists x w,
  load_main (new_lworld build force e out) = (Err x, w) /\ r_env w = e /\ r_out w = out.
Proof.
  intros NA. unfold LoadRun.load_main. unfold bind at 1. destruct list_flag.
  - pose proof (on_names_frame (le_ekp other_re systems hostname envs) (new_lworld build force e out)) as F.
    unfold list_envs, bind. destruct (on_names _ _) as [[?|?] w]; destruct F; eexists; exists w; split; try reflexivity; split; auto.
  - unfold ret at 1. unfold bind at 1. unfold LoadRun.apply_env at 1, bind at 1.
    pose proof (need_set_frame (new_lworld build force e out)) as F.
    destruct (need_set (new_lworld build force e out)) as [r w] eqn:E1.
    destruct (load_set_fails (new_lworld build force e out) w r eq_refl NA) as [x ->]; [now apply need_set_new|].
    destruct F. exists x, w. repeat split; auto.
Qed.
End Ok.

(** A file that cannot be read. *)
Theorem unreadable_file build force e out : (forall i, ~ has_file fs new_set i) -> exists x w,
  load_main (new_lworld build force e out) = (Err x, w) /\ r_env w = e /\ r_out w = out.
Proof.
  intros NI. unfold LoadRun.load_main. unfold bind at 1. destruct list_flag.
  - pose proof (on_names_frame (le_ekp other_re systems hostname envs) (new_lworld build force e out)) as F.
    unfold list_envs, bind. destruct (on_names _ _) as [[?|?] w]; destruct F; eexists; exists w; split; try reflexivity; split; auto.
  - unfold ret at 1. unfold bind at 1. unfold LoadRun.apply_env at 1, bind at 1.
    pose proof (need_set_frame (new_lworld build force e out)) as F.
    destruct (need_set (new_lworld build force e out)) as [r w] eqn:E1. apply need_set_new in E1; [|reflexivity].
    assert (X : exists x, r = Err x).
    { revert E1. unfold LoadRun.load_set. unfold bind at 1, modify at 1. cbn [new_lworld r_set r_le r_env r_out].
      unfold bind at 1, on_set at 1, on_obj at 1. cbn [r_set r_env w_obj w_env r_le r_out].
      unfold set_level, modify. unfold bind at 1, on_set, on_obj. cbn [r_set r_env w_obj w_env r_le r_out].
      set (o := set_ec _ _).
      assert (G : exists x, fst (get_cpd fs o) = Err x).
      { replace (fst (get_cpd fs o)) with (fst (get_cpd fs new_set)) by now apply get_cpd_fst_ext.
        destruct (fst (get_cpd fs new_set)) as [i|x] eqn:G; [now destruct (NI i)|eauto]. }
      unfold assert_file. cbn [data_sections]. unfold data_keys, bind.
      destruct (get_cpd fs o) as [[i|x] o1]; destruct G as [y G]; [discriminate|]. intros [= <- _]. eauto. }
    destruct X as [x ->]. destruct F. exists x, w. repeat split; auto.
Qed.
End Run.
