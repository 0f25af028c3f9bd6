(** * Proofs about [SetEnvironment]: commands, [apply] and scripts. *)
From Coq Require Import String NArith ZArith List Bool Lia.
Import ListNotations.
From Verif Require Import PyBase PyFacts Shlex IniView IniRead ExcControl Cpe EnvVar SetEnv
  SpecBase BaseProofs SpecWalk SpecRun SpecParse SpecEnv EnvProofs SpecSetEnv RefineRoot WalkProofs RunProofs
  ParseProofs ParseProofs3 ParseProofs4 SetEnvProofs.

(** ** Quoting *)
Lemma plain_not_bad c : plain_char c -> bad_source c = false /\ N.eqb c 34 = false /\ N.eqb c 92 = false.
Proof.
  intros [A B]. unfold bad_source. cbn [In] in A.
  destruct (N.eqb_spec c 0); [subst; tauto|]. destruct (N.eqb_spec c 10); [subst; tauto|].
  destruct (N.eqb_spec c 13); [subst; tauto|]. destruct (N.eqb_spec c 34); [subst; tauto|].
  destruct (N.eqb_spec c 92); [subst; tauto|]. cbn [orb]. split; auto.
  destruct (N.leb_spec 55296 c); cbn; auto. apply N.leb_gt. lia.
Qed.

Lemma py_literal_plain s rest : plain_text s -> py_literal (s ++ 34%N :: rest) = Some (s, rest).
Proof.
  induction 1 as [|c s P F IH]; cbn [app py_literal].
  - reflexivity.
  - destruct (plain_not_bad c P) as (A & B & C). rewrite A, B, C, IH. reflexivity.
Qed.

Lemma py_args_plain l : l <> [] -> Forall plain_text l -> forall fuel, length l <= fuel ->
  py_args fuel (join $"," (map dquoted l) ++ $")") = Some l.
Proof.
  intros NE F. induction F as [|x l P F IH]; [congruence|]. intros fuel L.
  destruct fuel as [|fuel]; [cbn in L; lia|]. cbn [length] in L.
  assert (Q : forall d r, (d = 44%N \/ d = 41%N) ->
    starts_with [34; 34]%N (x ++ 34%N :: d :: r) = false).
  { intros d r D. destruct x as [|c x]; cbn [app starts_with].
    - destruct D; subst; reflexivity.
    - inversion P; subst. destruct (plain_not_bad c H1) as (_ & B & _). rewrite N.eqb_sym, B. reflexivity. }
  destruct l as [|y l].
  - change (join $"," (map dquoted [x]) ++ $")") with ((34%N :: x ++ [34%N]) ++ [41%N]).
    cbn [app py_args]. rewrite <- app_assoc. cbn [app].
    rewrite Q by auto. cbn [N.eqb Pos.eqb negb andb]. rewrite py_literal_plain by auto. reflexivity.
  - change (join $"," (map dquoted (x :: y :: l)))
      with ((34%N :: x ++ [34%N]) ++ [44%N] ++ join $"," (map dquoted (y :: l))).
    cbn [app py_args]. rewrite <- !app_assoc. cbn [app].
    rewrite Q by auto. cbn [N.eqb Pos.eqb negb andb]. rewrite py_literal_plain by auto.
    change (lstrip blank (44%N :: ?r)) with (44%N :: r). cbv iota. cbn [N.eqb Pos.eqb].
    assert (E : lstrip blank (join $"," (map dquoted (y :: l)) ++ $")") = join $"," (map dquoted (y :: l)) ++ $")")
      by (destruct l; reflexivity).
    transitivity (option_map (cons x) (py_args fuel (join $"," (map dquoted (y :: l)) ++ $")"))).
    + exact (f_equal (fun z => option_map (cons x) (py_args fuel z)) E).
    + rewrite IH; [reflexivity|discriminate|]. cbn [length] in *. lia.
Qed.

Lemma starts_with_self p s : starts_with p (p ++ s) = true.
Proof. apply starts_with_app. eauto. Qed.
Lemma skipn_self {A} (p s : list A) : skipn (length p) (p ++ s) = s.
Proof. rewrite skipn_app, skipn_all, Nat.sub_diag. reflexivity. Qed.

Lemma args_length l : length l <= length (join $"," (map dquoted l) ++ $")").
Proof.
  rewrite app_length. induction l as [|x l IH]; cbn [map length]; [lia|].
  destruct l as [|y l].
  - change (length $")") with 1. cbn [length]. lia.
  - change (join $"," (dquoted x :: map dquoted (y :: l)))
      with (dquoted x ++ [44%N] ++ join $"," (map dquoted (y :: l))).
    rewrite app_length. cbn [app length]. change (length $")") with 1 in *.
    revert IH. generalize (join $"," (map dquoted (y :: l))). intros z. cbn [length]. lia.
Qed.
Lemma py_call_plain f l : l <> [] -> Forall plain_text l ->
  py_call f (f ++ join $"," (map dquoted l) ++ $")") = Some l.
Proof.
  intros NE F. unfold py_call. rewrite starts_with_self, skipn_self. apply py_args_plain; auto.
  rewrite app_length. pose proof (args_length l). lia.
Qed.

Lemma str_plain (s : string) : forallb (fun c => negb (existsb (N.eqb c) [0; 10; 13; 34; 92]%N) && (c <? 55296)%N) (lit s) = true -> plain_text (lit s).
Proof.
  intros H. apply Forall_forall. intros c I. apply forallb_forall with (x := c) in H; auto.
  apply andb_true_iff in H as [A B]. apply N.ltb_lt in B. split; [|lia].
  intros X. apply negb_true_iff in A. apply not_true_iff_false in A. apply A. apply existsb_exists.
  exists c. split; auto. apply N.eqb_refl.
Qed.

(** ** The commands *)

(** The actions a section can ask for. *)
Lemma remain_asked l r : remain l r -> Forall asked_action r.
Proof. induction 1; auto. constructor; auto. now exists q. Qed.

(** The arguments an action passes on, or [None] if one is missing. *)
Inductive passes : action -> option (str * list str) -> Prop :=
| ps_envvar op n v : In op documented_ops -> op <> $"unset" ->
    passes (AEnv ($"envvar_" ++ op) n (Some v)) (Some ($"envvar_op(", [op; n; v]))
| ps_novalue op n : In op documented_ops -> op <> $"unset" -> passes (AEnv ($"envvar_" ++ op) n None) None
| ps_unset n v : passes (AEnv $"envvar_unset" n v) (Some ($"envvar_op(", [$"unset"; n]))
| ps_purge n v : passes (AMod $"module_purge" n v) (Some ($"ModuleHelper.module(", [$"purge"]))
| ps_use n p : passes (AMod $"module_use" n (Some p)) (Some ($"ModuleHelper.module(", [$"use"; p]))
| ps_use_none n : passes (AMod $"module_use" n None) None
| ps_load n v : v = None \/ v = Some [] ->
    passes (AMod $"module_load" (Some n) v) (Some ($"ModuleHelper.module(", [$"load"; n]))
| ps_load_version n v : v <> [] ->
    passes (AMod $"module_load" (Some n) (Some v)) (Some ($"ModuleHelper.module(", [$"load"; n ++ $"/" ++ v]))
| ps_load_none v : passes (AMod $"module_load" None v) None
| ps_unload n v : passes (AMod $"module_unload" (Some n) v) (Some ($"ModuleHelper.module(", [$"unload"; n]))
| ps_unload_none v : passes (AMod $"module_unload" None v) None
| ps_swap n v : passes (AMod $"module_swap" (Some n) (Some v)) (Some ($"ModuleHelper.module(", [$"swap"; n; v]))
| ps_swap_none n v : n = None \/ v = None -> passes (AMod $"module_swap" n v) None.

Lemma asked_passes a : asked_action a -> exists p, passes a p.
Proof.
  intros [q H]. destruct H as [op n ps v I|n ps v|n ps|op ps v I].
  - assert (X : op = $"envvar_unset" \/ exists d, op = $"envvar_" ++ d /\ In d documented_ops /\ d <> $"unset").
    { unfold envvar_requests in I. cbn [In] in I.
      repeat (destruct I as [<-|I]; [first [left; reflexivity | right;
        match goal with |- exists d, lit (String.append ?a ?b) = _ /\ _ => idtac | _ => idtac end;
        eexists; split; [reflexivity|]; split; [|discriminate]; apply str_mem_In; reflexivity]|]).
      contradiction. }
    destruct X as [->|(d & -> & D & N)]; [eexists; constructor|].
    destruct v; eexists; [now apply ps_envvar|now apply ps_novalue].
  - eexists. apply (ps_envvar $"assert_not_empty"); [apply str_mem_In; reflexivity|discriminate].
  - eexists. apply (ps_envvar $"assert_not_empty"); [apply str_mem_In; reflexivity|discriminate].
  - unfold module_requests in I. cbn [In] in I. destruct I as [<-|[<-|[<-|[<-|[<-|[]]]]]].
    + destruct ps as [|n ps]; [eexists; constructor|]. destruct v as [[|c v]|].
      * eexists. constructor. auto.
      * eexists. apply ps_load_version. discriminate.
      * eexists. constructor. auto.
    + eexists. constructor.
    + destruct ps as [|n ps]; [eexists; constructor; auto|].
      destruct v; [eexists; apply ps_swap|eexists; constructor; auto].
    + destruct ps as [|n ps]; eexists; [apply ps_unload_none|apply ps_unload].
    + destruct v; eexists; constructor.
Qed.

Definition py_text (p : str * list str) : str := fst p ++ join $"," (map dquoted (snd p)) ++ $")".

Lemma gen_python a p (o : sobj) : passes a p ->
  gen_action a $"python" o = (match p with Some c => Ok (py_text c) | None => Err TypeError end, o).
Proof.
  intros P. destruct P as [op n v I N|op n I N|n v|n v|n p|n|n v V|n v V|v|n v|v|n v|n v V]; cbn [gen_action].
  - unfold documented_ops in I. cbn [In] in I.
    repeat (destruct I as [<-|I]; [try congruence; reflexivity|]). contradiction.
  - unfold documented_ops in I. cbn [In] in I.
    repeat (destruct I as [<-|I]; [try congruence; reflexivity|]). contradiction.
  - reflexivity.
  - reflexivity.
  - reflexivity.
  - reflexivity.
  - destruct V as [->| ->]; reflexivity.
  - destruct v as [|c v]; [congruence|]. reflexivity.
  - destruct v as [[|c v]|]; reflexivity.
  - reflexivity.
  - reflexivity.
  - reflexivity.
  - destruct V as [->| ->]; [reflexivity|]. destruct n; reflexivity.
Qed.

Lemma passes_plain a f args : passes a (Some (f, args)) -> plain_action a ->
  args <> [] /\ Forall plain_text args /\ (f = $"envvar_op(" \/ f = $"ModuleHelper.module(").
Proof.
  intros P A. inversion P; subst; cbn [plain_action plain_opt] in A; destruct A as [A B];
    (split; [discriminate|]); (split; [|auto]);
    repeat match goal with
    | |- Forall plain_text (_ :: _) => apply Forall_cons
    | |- Forall plain_text [] => apply Forall_nil
    end; auto; try (apply str_plain; reflexivity).
  - unfold documented_ops in *. cbn [In] in *.
    repeat (match goal with H : _ \/ _ |- _ => destruct H as [<-|H] end; [apply str_plain; reflexivity|]). contradiction.
  - apply Forall_app. split; auto. apply (proj2 (Forall_app _ [47%N] v)). split; auto. apply (str_plain "/"). reflexivity.
Qed.

Section Apply.
Variable which : environ -> str -> option str.
Variable mods : list str -> environ -> res Z * environ.
Variable other : str -> environ -> res Z * environ.
Variables (uniword : pychar -> bool) (fs : str -> option str) (fuel : nat).
Notation K := (SetEnvironment uniword).

Definition call (p : str * list str) : SM environ Z :=
  if str_eqb (fst p) $"envvar_op(" then
    match snd p with
    | [op; name] => envvar_op which op name [] true
    | [op; name; value] => envvar_op which op name value true
    | _ => raise TypeError
    end
  else mods (snd p).

Lemma exec_plain f args : args <> [] -> Forall plain_text args ->
  f = $"envvar_op(" \/ f = $"ModuleHelper.module(" ->
  exec_command which mods other (py_text (f, args)) = call (f, args).
Proof.
  intros NE F [->| ->]; unfold exec_command, py_text; cbn [fst snd].
  - rewrite py_call_plain by auto. reflexivity.
  - replace (py_call $"envvar_op(" _) with (@None (list str)) by reflexivity.
    rewrite py_call_plain by auto. reflexivity.
Qed.

(** What one action does. *)
Lemma performs_call a p e r e' : passes a p ->
  (match p with Some c => call c e | None => (Err TypeError, e) end) = (r, e') ->
  performs which mods a e r e'.
Proof.
  intros P E. inversion P; subst; cbn in E.
  - now constructor.
  - inversion E; subst. now constructor.
  - now constructor.
  - now constructor.
  - now constructor.
  - inversion E; subst. now constructor.
  - now constructor.
  - now constructor.
  - inversion E; subst. now constructor.
  - now constructor.
  - inversion E; subst. now constructor.
  - now constructor.
  - inversion E; subst. now constructor.
Qed.
Lemma performs_det a e r e' r' e'' : performs which mods a e r e' -> performs which mods a e r' e'' ->
  r = r' /\ e' = e''.
Proof.
  assert (U : forall op, op <> $"unset" -> $"envvar_" ++ op <> $"envvar_unset").
  { intros op N X. apply N. apply (app_inv_head $"envvar_"). exact X. }
  intros A B. inversion A; subst; inversion B; subst;
  repeat match goal with
  | H : $"envvar_" ++ _ = $"envvar_" ++ _ |- _ => apply app_inv_head in H; subst
  | H : $"envvar_" ++ ?op = $"envvar_unset" |- _ => exfalso; exact (U op ltac:(assumption) H)
  | H : $"envvar_unset" = $"envvar_" ++ ?op |- _ => exfalso; exact (U op ltac:(assumption) (eq_sym H))
  | H : _ \/ _ |- _ => destruct H; subst
  end; try (split; congruence); auto;
  try (match goal with H : _ <> $"unset" |- _ => exfalso; apply H; reflexivity end).
Qed.

(** ** [apply] *)
Definition event_code (lvl : Z) : res unit := if (2 <=? lvl)%Z then Err RuntimeError else Ok tt.
Lemma critical (o : sobj) : exists out,
  event $"CRITICAL" RuntimeError o = (event_code (level_of o), add_out out o).
Proof.
  unfold event. pose proof (event_raise_iff (o_ec o) $"CRITICAL" 2 RuntimeError true ltac:(constructor)) as X.
  destruct (ec_event (o_ec o) $"CRITICAL" (XClass RuntimeError) true) as [r out]. cbn [fst] in X. subst r.
  eexists. reflexivity.
Qed.

(** Outcomes of [apply] differ from the object before only in what is printed. *)
Definition same_obj (o o' : sobj) : Prop := exists out, o' = add_out out o.
Lemma same_refl o : same_obj o o.
Proof. exists []. unfold add_out. rewrite app_nil_r. now destruct o. Qed.
Lemma same_trans a b c : same_obj a b -> same_obj b c -> same_obj a c.
Proof. intros [x ->] [y ->]. exists (x ++ y). unfold add_out. cbn. now rewrite app_assoc. Qed.

Lemma apply_action_spec a o e : asked_action a -> plain_action a ->
  exists r1 e1 r o', performs which mods a e r1 e1 /\
    apply_action which mods other a (World o e) = (r, World o' e1) /\ same_obj o o' /\
    match r1 with
    | Err x => r = Err x
    | Ok z => if (z =? 0)%Z then r = Ok 0%Z
              else if (2 <=? level_of o)%Z then r = Err RuntimeError
              else r = Ok (match a with AEnv _ _ _ => 1%Z | AMod _ _ _ => z end)
    end.
Proof.
  intros AA PA. destruct (asked_passes a AA) as [p P].
  unfold apply_action, bind, on_obj. cbn [w_obj w_env]. rewrite (gen_python a p o P).
  destruct p as [[f args]|].
  - destruct (passes_plain _ _ _ P PA) as (NE & F & FF). unfold on_env. cbn [w_obj w_env].
    rewrite exec_plain by auto. destruct (call (f, args) e) as [r1 e1] eqn:C.
    exists r1, e1. pose proof (performs_call a _ e r1 e1 P C) as PF.
    destruct r1 as [z|x].
    + destruct (Z.eqb_spec z 0) as [->|NZ].
      * eexists _, _. split; [exact PF|]. split; [reflexivity|]. split; [apply same_refl|reflexivity].
      * destruct (critical o) as [out E]. cbn [w_obj w_env]. rewrite E. unfold event_code.
        destruct (2 <=? level_of o)%Z; eexists _, _; (split; [exact PF|]; split; [reflexivity|]; split; [now exists out|reflexivity]).
    + eexists _, _. split; [exact PF|]. split; [reflexivity|]. split; [apply same_refl|reflexivity].
  - eexists _, e, _, _. split; [eapply performs_call; [exact P|reflexivity]|].
    split; [reflexivity|]. split; [apply same_refl|reflexivity].
Qed.

Lemma performs_env_zero op n v e z e' : performs which mods (AEnv op n v) e (Ok z) e' -> z = 0%Z.
Proof. intros P. inversion P; subst; eauto using op_zero. Qed.

Lemma apply_all_spec l : Forall asked_action l -> Forall plain_action l -> forall m o e,
  exists r e' o', apply_all which mods other l m (World o e) = (r, World o' e') /\ same_obj o o' /\
    performs_all which mods (level_of o) l m e r e'.
Proof.
  intros AA PA. induction l as [|a l IH]; intros m o e.
  - exists (Ok m), e, o. split; [reflexivity|]. split; [apply same_refl|constructor].
  - inversion AA; subst. inversion PA; subst.
    destruct (apply_action_spec a o e) as (r1 & e1 & r & o1 & P & E & S & X); auto.
    cbn [apply_all]. unfold bind. rewrite E.
    assert (LV : level_of o1 = level_of o) by (destruct S as [out ->]; reflexivity).
    destruct r1 as [z|x].
    + destruct (Z.eqb_spec z 0) as [->|NZ].
      * subst r. destruct (IH ltac:(auto) ltac:(auto) (Z.max m 0) o1 e1) as (r & e' & o' & E' & S' & P').
        exists r, e', o'. split; [exact E'|]. split; [eapply same_trans; eauto|].
        rewrite LV in P'. eapply pa_next; eauto.
      * destruct (Z.leb_spec 2 (level_of o)).
        -- subst r. exists (Err RuntimeError), e1, o1. split; [reflexivity|]. split; auto. eapply pa_code; eauto.
        -- destruct a as [op n v|op n v]; [apply performs_env_zero in P; congruence|]. subst r.
           destruct (IH ltac:(auto) ltac:(auto) (Z.max m z) o1 e1) as (r & e' & o' & E' & S' & P').
           exists r, e', o'. split; [exact E'|]. split; [eapply same_trans; eauto|].
           rewrite LV in P'. eapply pa_next; eauto.
    + subst r. exists (Err x), e1, o1. split; [reflexivity|]. split; auto. now apply pa_raise.
Qed.

Lemma performs_all_det lvl l m e r e' : performs_all which mods lvl l m e r e' ->
  forall r' e'', performs_all which mods lvl l m e r' e'' -> r = r' /\ e' = e''.
Proof.
  assert (D : forall a e r e' r' e'', performs which mods a e r e' -> performs which mods a e r' e'' -> r = r' /\ e' = e'')
    by (intros; eapply performs_det; eauto).
  induction 1 as [m e|a l m e x e' P|a l m e z e' P NZ L|a l m e z e1 r e' P OK PA IH];
    intros r' e'' Q; inversion Q; subst;
    try (match goal with A : performs _ _ ?a ?e _ _, B : performs _ _ ?a ?e _ _ |- _ => destruct (D _ _ _ _ _ _ A B) as [X Y] end;
         inversion X; subst); auto; try lia; try (split; congruence).
Qed.

(** The object after the lookup with which [apply] begins. *)
Theorem apply_spec s (o : sobj) e d o1 l :
  getitem K fs fuel s o = (Ok d, o1) -> dget s (o_user o1) = Some l ->
  Forall asked_action l -> Forall plain_action l ->
  exists r e' o', apply which mods other uniword fs fuel s (World o e) = (r, World o' e') /\
    same_obj o1 o' /\ performs_all which mods (level_of o1) l 0 e r e'.
Proof.
  intros G D AA PA. destruct (apply_all_spec l AA PA 0%Z o1 e) as (r & e' & o' & E & S & P).
  exists r, e', o'. split; auto. unfold apply, on_obj. cbn [w_obj w_env]. rewrite G.
  unfold bind, actions_get. cbn [w_obj w_env]. rewrite D. exact E.
Qed.
End Apply.

(** The lookup. *)
Section Lookup.
Variables (uniword : pychar -> bool) (fs : str -> option str) (i : ini) (fuel : nat).
Notation K := (SetEnvironment uniword).

(** A section read before. *)
Lemma lookup_again s (o : sobj) : has_file fs o i -> str_mem s (checked_of o) = true ->
  getitem K fs fuel s o =
  (match section_of o s with Some d => Ok d | None => Err KeyError end, set_cpd (Some i) o).
Proof.
  intros H CH. unfold getitem, has_section, data_has_section, bind, data_section, section_of, data_of.
  rewrite (get_cpd_ready fs i) by exact H.
  unfold checked_of in CH. destruct (o_edata o) as [d|] eqn:ED; [|discriminate].
  destruct (ini_has_section i s); unfold get_edata, ret; cbn [o_edata set_cpd]; rewrite ED; rewrite ?CH;
    cbn [o_edata set_cpd]; rewrite ?ED; unfold dmem; destruct (dget s (d_data d)) eqn:G; unfold bind; cbn [o_edata set_cpd]; rewrite ?ED, ?G; reflexivity.
Qed.

(** A section that has not been read: the lookup parses it. *)
Lemma lookup_first s (o : sobj) d o1 : has_file fs o i -> level_ok o -> ini_has_section i s = true ->
  str_mem s (checked_of o) = false -> getitem K fs fuel s o = (Ok d, o1) ->
  exists evs n l, parse_walk K i (o_defname o) s true true evs n /\ remain (requests evs) l /\
    dget s (o_user o1) = Some l /\ level_of o1 = level_of o /\
    has_file fs o1 i /\ str_mem s (checked_of o1) = true /\ section_of o1 s = Some d /\
    (forall t, t <> s -> ~ finalizes t evs -> dget t (o_user o1) = dget t (o_user o)).
Proof.
  intros H L HS CH G. unfold getitem in G.
  destruct (has_section K fs fuel s o) as [[b|x] o2] eqn:E; unfold bind in G; rewrite E in G; [|discriminate].
  assert (U : o1 = o2 /\ section_of o2 s = Some d).
  { destruct b; [|discriminate]. unfold data_section, bind, get_edata in G. unfold section_of, data_of.
    destruct (o_edata o2) as [ed|] eqn:ED; [|cbn in G; discriminate].
    destruct (dget s (d_data ed)); inversion G; subst; auto. }
  destruct U as [-> SE]. clear G.
  unfold has_section, data_has_section, bind in E. rewrite (get_cpd_ready fs i) in E by exact H. rewrite HS in E.
  set (oc := set_cpd (Some i) o) in *.
  assert (EDc : exists ed oe, get_edata oc = (Ok ed, oe) /\ d_checked ed = checked_of o /\
     o_edata oe = Some ed /\ o_user oe = o_user o /\ o_ec oe = o_ec o /\ o_defname oe = o_defname o /\
     o_files oe = o_files o /\ o_delims oe = o_delims o /\ o_cpd oe = Some i).
  { unfold get_edata, checked_of. subst oc. cbn [o_edata set_cpd]. destruct (o_edata o) as [ed|] eqn:ED; eexists _, _; (split; [reflexivity|]); cbn; rewrite ?ED; cbn; auto 10. }
  destruct EDc as (ed & oe & GE & CE & E1 & E2 & E3 & E4 & E5 & E6 & E7).
  rewrite GE, CE, CH in E. unfold parse_owner, bind in E. unfold get_edata at 1 in E. rewrite E1, CE, CH in E.
  cbn [negb orb] in E. unfold set_owner_options, get_edata in E. rewrite E1 in E. cbn [o_edata set_edata] in E.
  unfold put_edata, modify in E. unfold owner_parse, bind in E.
  match type of E with context [parse_section_str K fs fuel s true true ?op] => set (o3 := op) in * end.
  assert (H3 : has_file fs o3 i) by (unfold has_file, get_cpd; subst o3; cbn; now rewrite E7).
  assert (L3 : level_of o3 = level_of o) by (unfold level_of; subst o3; cbn; now rewrite E3).
  destruct (parse_section_str K fs fuel s true true o3) as [[v|x] o4] eqn:P; [|discriminate].
  assert (LK : level_ok o3) by (unfold level_ok; now rewrite L3).
  destruct (recorded uniword fs i fuel s o3 v o4 H3 LK P) as (evs & n & l & W & R & _ & D & F).
  destruct (parse_section_Ok K fs i _ _ _ _ _ _ _ H3 (proj1 LK) P) as (_ & _ & ? & ? & us & _ & _ & PA).
  pose proof (pa_ec _ _ _ _ _ _ _ _ _ _ PA) as EC.
  pose proof (pa_checked _ _ _ _ _ _ _ _ _ _ PA) as CK.
  pose proof (pa_file _ _ _ _ _ _ _ _ _ _ PA) as HF.
  assert (C4 : str_mem s (checked_of o4) = true) by (rewrite CK; apply str_mem_In, In_sadd; now left).
  assert (O2 : o2 = o4).
  { unfold ret, get_edata in E. unfold checked_of in C4. destruct (o_edata o4); inversion E; subst; auto. discriminate C4. }
  subst o2. exists evs, n, l.
  replace (o_defname o3) with (o_defname o) in W by (subst o3; cbn; auto).
  replace (o_user o3) with (o_user o) in F by (subst o3; cbn; auto).
  split; auto. split; auto. split; auto. split; [unfold level_of in *; rewrite EC; exact L3|]. auto.
Qed.
End Lookup.

(** ** [apply] from the text of a section *)
Section Whole.
Variable which : environ -> str -> option str.
Variable mods : list str -> environ -> res Z * environ.
Variable other : str -> environ -> res Z * environ.
Variables (uniword : pychar -> bool) (fs : str -> option str) (i : ini) (fuel : nat).
Notation K := (SetEnvironment uniword).
Notation apply := (apply which mods other uniword fs fuel).

Theorem apply_again s (o : sobj) d l : has_file fs o i -> str_mem s (checked_of o) = true ->
  section_of o s = Some d -> dget s (o_user o) = Some l -> Forall asked_action l -> Forall plain_action l ->
  forall e, exists r e' o', apply s (World o e) = (r, World o' e') /\
    performs_all which mods (level_of o) l 0 e r e' /\
    o_user o' = o_user o /\ level_of o' = level_of o /\ has_file fs o' i /\
    str_mem s (checked_of o') = true /\ section_of o' s = Some d.
Proof.
  intros H C S D AA PA e. pose proof (lookup_again uniword fs i fuel s o H C) as G. rewrite S in G.
  destruct (apply_spec which mods other uniword fs fuel s o e d _ l G D AA PA) as (r & e' & o' & E & [out ->] & P).
  exists r, e', (add_out out (set_cpd (Some i) o)). split; [exact E|]. split; [exact P|].
  split; [reflexivity|]. split; [reflexivity|]. split; [reflexivity|]. split; assumption.
Qed.

Theorem apply_first s (o : sobj) d o1 : has_file fs o i -> level_ok o -> ini_has_section i s = true ->
  str_mem s (checked_of o) = false -> getitem K fs fuel s o = (Ok d, o1) ->
  exists evs n l, parse_walk K i (o_defname o) s true true evs n /\ remain (requests evs) l /\
    (Forall plain_action l -> forall e, exists r e' o',
       apply s (World o e) = (r, World o' e') /\ performs_all which mods (level_of o) l 0 e r e' /\
       (* and again, whatever the environment is by then *)
       forall e2, exists r2 e2' o2, apply s (World o' e2) = (r2, World o2 e2') /\
         performs_all which mods (level_of o) l 0 e2 r2 e2').
Proof.
  intros H L HS C G.
  destruct (lookup_first uniword fs i fuel s o d o1 H L HS C G) as (evs & n & l & W & R & D & LV & HF & C1 & S1 & _).
  exists evs, n, l. split; auto. split; auto. intros PA e.
  pose proof (remain_asked _ _ R) as AA.
  destruct (apply_spec which mods other uniword fs fuel s o e d o1 l G D AA PA) as (r & e' & o' & E & [out ->] & P).
  exists r, e', (add_out out o1). split; auto. rewrite LV in P. split; auto. intros e2.
  assert (HF1 : has_file fs (add_out out o1) i) by (unfold has_file; rewrite <- HF; now apply get_cpd_fst_ext).
  destruct (apply_again s (add_out out o1) d l HF1 C1 S1 D AA PA e2) as (r2 & e2' & o2 & E2 & P2 & _).
  exists r2, e2', o2. split; auto. change (level_of (add_out out o1)) with (level_of o1) in P2. now rewrite LV in P2.
Qed.
End Whole.

(** ** Return values *)
Section Codes.
Variable which : environ -> str -> option str.
Variable mods : list str -> environ -> res Z * environ.

Lemma strict_success lvl l m e z e' : (2 <= lvl)%Z -> performs_all which mods lvl l m e (Ok z) e' ->
  all_done which mods l e e'.
Proof.
  intros L P. remember (Ok z) as r eqn:R. revert R.
  induction P as [m e|a l m e x e' P|a l m e y e' P NZ _|a l m e y e1 r e' P OK PA IH]; intros R.
  - constructor.
  - discriminate.
  - discriminate.
  - destruct OK as [->|]; [|lia]. econstructor; eauto.
Qed.
Lemma strict_value lvl l m e z e' : (2 <= lvl)%Z -> performs_all which mods lvl l m e (Ok z) e' -> (0 <= m)%Z -> z = m.
Proof.
  intros L P. remember (Ok z) as r eqn:R. revert R.
  induction P as [m e|a l m e x e' P|a l m e y e' P NZ _|a l m e y e1 r e' P OK PA IH]; intros R M.
  - now inversion R.
  - discriminate.
  - discriminate.
  - destruct OK as [->|]; [|lia]. rewrite Z.max_l in IH by lia. auto.
Qed.
Theorem success_means_done lvl l e z e' : (2 <= lvl)%Z ->
  performs_all which mods lvl l 0 e (Ok z) e' <-> z = 0%Z /\ all_done which mods l e e'.
Proof.
  intros L. split.
  - intros P. pose proof (strict_value _ _ _ _ _ _ L P ltac:(lia)) as Z0. split; auto.
    eapply strict_success; eauto.
  - intros [-> A]. induction A as [e|a l e e1 e' P A IH]; [constructor|].
    eapply pa_next; eauto.
Qed.
(** At any level: the result is at least every return code. *)
Lemma result_at_least lvl l m e z e' : performs_all which mods lvl l m e (Ok z) e' -> (m <= z)%Z.
Proof.
  intros P. remember (Ok z) as r eqn:R. revert R.
  induction P as [m e|a l m e x e' P|a l m e y e' P NZ _|a l m e y e1 r e' P OK PA IH]; intros R.
  - inversion R. lia.
  - discriminate.
  - discriminate.
  - specialize (IH R). lia.
Qed.
End Codes.

(** ** Scripts *)
Section Scripts.
Variables (uniword : pychar -> bool) (fs : str -> option str) (fuel : nat) (header : str -> str).
Notation K := (SetEnvironment uniword).

Lemma gen_line a interp (o : sobj) : asked_action a -> interp = $"python" \/ interp = $"bash" ->
  (incomplete a /\ gen_action a interp o = (Err TypeError, o)) \/
  (~ incomplete a /\ exists t, script_line interp a t /\ gen_action a interp o = (Ok t, o)).
Proof.
  intros A I. destruct (asked_passes a A) as [p P]. pose proof (gen_python a p o P) as G.
  destruct P as [op n v J N|op n J N|n v|n v|n p|n|n v V|n v V|v|n v|v|n v|n v V];
    unfold py_text in G; cbn [fst snd map join] in G; unfold dquoted in G.
  - right. split; [intros [_ X]; discriminate|]. destruct I as [->| ->].
    + eexists. split; [left; split; [reflexivity|apply py_envvar; auto]|]. rewrite G.
      unfold quoted. rewrite <- ?app_assoc. reflexivity.
    + eexists. split; [right; split; [reflexivity|apply ba_envvar; auto]|].
      unfold documented_ops in J. cbn [In] in J.
      repeat (destruct J as [<-|J]; [try congruence; reflexivity|]). contradiction.
  - left. split.
    + split; auto. intros X. apply N. apply (app_inv_head $"envvar_"). exact X.
    + unfold documented_ops in J. cbn [In] in J.
      repeat (destruct J as [<-|J]; [try congruence; destruct I as [->| ->]; reflexivity|]). contradiction.
  - right. split; [intros [X _]; congruence|]. destruct I as [->| ->]; eexists.
    + split; [left; split; [reflexivity|apply py_unset]|]. rewrite G.
      unfold quoted. rewrite <- ?app_assoc. reflexivity.
    + split; [right; split; [reflexivity|apply ba_unset]|]. reflexivity.
  - right. split; [intros [[X _]|[[[X|X] _]|[X _]]]; discriminate|].
    destruct I as [->| ->]; eexists.
    + split; [left; split; [reflexivity|constructor]|]. reflexivity.
    + split; [right; split; [reflexivity|constructor]|]. reflexivity.
  - right. split; [intros [[_ X]|[[[X|X] _]|[X _]]]; discriminate|].
    destruct I as [->| ->]; eexists.
    + split; [left; split; [reflexivity|apply py_use]|]. rewrite G.
      unfold quoted. rewrite <- ?app_assoc. reflexivity.
    + split; [right; split; [reflexivity|apply ba_use]|]. reflexivity.
  - left. split; [left; auto|]. destruct I as [->| ->]; reflexivity.
  - right. split; [intros [[X _]|[[_ X]|[X _]]]; discriminate|].
    destruct I as [->| ->]; eexists.
    + split; [left; split; [reflexivity|apply py_load; auto]|]. rewrite G.
      unfold quoted. rewrite <- ?app_assoc. reflexivity.
    + split; [right; split; [reflexivity|apply ba_load; auto]|]. destruct V as [->| ->]; reflexivity.
  - right. split; [intros [[X _]|[[_ X]|[X _]]]; discriminate|].
    destruct I as [->| ->]; eexists.
    + split; [left; split; [reflexivity|apply py_load_version; auto]|]. rewrite G.
      unfold quoted. rewrite <- ?app_assoc. reflexivity.
    + split; [right; split; [reflexivity|apply ba_load_version; auto]|].
      destruct v as [|c v]; [congruence|]. reflexivity.
  - left. split; [right; left; auto|]. destruct I as [->| ->]; destruct v as [[|c v]|]; reflexivity.
  - right. split; [intros [[X _]|[[_ X]|[X _]]]; discriminate|].
    destruct I as [->| ->]; eexists.
    + split; [left; split; [reflexivity|apply py_unload]|]. rewrite G.
      unfold quoted. rewrite <- ?app_assoc. reflexivity.
    + split; [right; split; [reflexivity|apply ba_unload]|]. reflexivity.
  - left. split; [right; left; auto|]. destruct I as [->| ->]; reflexivity.
  - right. split; [intros [[X _]|[[[X|X] _]|[_ [X|X]]]]; discriminate|].
    destruct I as [->| ->]; eexists.
    + split; [left; split; [reflexivity|apply py_swap]|]. rewrite G.
      unfold quoted. rewrite <- ?app_assoc. reflexivity.
    + split; [right; split; [reflexivity|apply ba_swap]|]. reflexivity.
  - left. split; [right; right; auto|].
    destruct I as [->| ->]; destruct V as [->| ->]; try reflexivity; destruct n; reflexivity.
Qed.

Lemma gen_lines_spec l interp (o : sobj) : Forall asked_action l -> interp = $"python" \/ interp = $"bash" ->
  (Exists incomplete l /\ gen_lines l interp o = (Err TypeError, o)) \/
  (~ Exists incomplete l /\ exists t, script_lines interp l t /\ gen_lines l interp o = (Ok t, o)).
Proof.
  intros AA I. induction AA as [|a l A AA IH].
  - right. split; [intros X; inversion X|]. exists []. split; [constructor|reflexivity].
  - cbn [gen_lines]. unfold bind. destruct (gen_line a interp o A I) as [[N E]|(N & t & T & E)]; rewrite E.
    + left. split; auto.
    + destruct IH as [[X E2]|(X & u & U & E2)]; rewrite E2.
      * left. split; auto.
      * right. split; [intros Y; inversion Y; auto|]. exists (t ++ newline ++ u). split; [now constructor|reflexivity].
Qed.


(** A script for a section whose actions are known. *)
Theorem script_known s l hdr bang interp (o : sobj) : dget s (o_user o) = Some l -> Forall asked_action l ->
  interp = $"python" \/ interp = $"bash" ->
  (Exists incomplete l /\ generate_script uniword fs fuel header s hdr true bang interp o = (Err TypeError, o)) \/
  (~ Exists incomplete l /\ exists t, script_lines interp l t /\
     generate_script uniword fs fuel header s hdr true bang interp o =
       (Ok (heading header interp hdr bang ++ banner ++ t ++ newline ++ newline), o)).
Proof.
  intros D AA I. unfold generate_script, bind.
  replace (str_mem interp [$"bash"; $"python"]) with true by (symmetry; apply str_mem_In; cbn; destruct I; auto).
  cbn [negb]. unfold get, dmem, actions_get, ret.
  change (@o_user shared (dict (list action))) with (@o_user shared cache).
  rewrite D. cbv iota beta. rewrite D.
  destruct (gen_lines_spec l interp o AA I) as [[X E]|(X & t & T & E)]; rewrite E; [left; auto|right].
  split; auto. exists t. split; auto. do 2 f_equal. unfold heading, shebang.
  destruct hdr, bang; cbn [andb negb app]; rewrite <- ?app_assoc, ?app_nil_r; reflexivity.
Qed.

(** A script for a section that has not been parsed with success: it is parsed first. *)
Theorem script_first i s hdr bang interp (o : sobj) v o1 : has_file fs o i -> level_ok o ->
  dget s (o_user o) = None -> parse_section_str K fs fuel s true true o = (Ok v, o1) ->
  interp = $"python" \/ interp = $"bash" ->
  exists evs n l, parse_walk K i (o_defname o) s true true evs n /\ remain (requests evs) l /\
  ((Exists incomplete l /\ generate_script uniword fs fuel header s hdr true bang interp o = (Err TypeError, o1)) \/
   (~ Exists incomplete l /\ exists t, script_lines interp l t /\
     generate_script uniword fs fuel header s hdr true bang interp o =
       (Ok (heading header interp hdr bang ++ banner ++ t ++ newline ++ newline), o1))).
Proof.
  intros H L D E I. destruct (recorded uniword fs i fuel s o v o1 H L E) as (evs & n & l & W & R & _ & D1 & _).
  exists evs, n, l. split; auto. split; auto.
  assert (X : generate_script uniword fs fuel header s hdr true bang interp o =
              generate_script uniword fs fuel header s hdr true bang interp o1).
  { unfold generate_script, bind.
    replace (str_mem interp [$"bash"; $"python"]) with true by (symmetry; apply str_mem_In; cbn; destruct I; auto).
    cbn [negb]. unfold get, dmem. change (@o_user shared (dict (list action))) with (@o_user shared cache).
    rewrite D, D1, E. reflexivity. }
  rewrite X. apply (script_known s l hdr bang interp o1 D1 (remain_asked _ _ R) I).
Qed.

Lemma script_line_det interp a t t' : script_line interp a t -> script_line interp a t' -> t = t'.
Proof.
  assert (U : forall op, op <> $"unset" -> $"envvar_" ++ op <> $"envvar_unset").
  { intros op N X. apply N. apply (app_inv_head $"envvar_"). exact X. }
  intros [[-> A]|[-> A]] [[I B]|[I B]]; try discriminate I; inversion A; subst; inversion B; subst;
  repeat match goal with
  | H : $"envvar_" ++ _ = $"envvar_" ++ _ |- _ => apply app_inv_head in H; subst
  | H : _ \/ _ |- _ => destruct H; subst
  end; try congruence; auto;
  try (match goal with H : _ <> $"unset" |- _ => exfalso; apply H; reflexivity end).
Qed.

(** Assigning [inifilepath] or the delimiters does not change the script. *)
Lemma append_paths_user l : forall (o : sobj), o_user (snd (append_paths l o)) = o_user o.
Proof.
  induction l as [|[p|] l IH]; intros o; cbn [append_paths]; auto.
  unfold bind, modify. now rewrite IH.
Qed.
Lemma set_inifilepath_user a (o : sobj) : o_user (snd (set_inifilepath a o)) = o_user o.
Proof.
  destruct a as [p|l|]; unfold set_inifilepath; [| |unfold event; now destruct (ec_event _ _ _ _)];
    unfold bind, modify; rewrite append_paths_user; cbn; now destruct (o_files o).
Qed.
Lemma set_delims_user v (o : sobj) : o_user (snd (set_configparser_delimiters v o)) = o_user o.
Proof. destruct v; [reflexivity|]. unfold set_configparser_delimiters, event. now destruct (ec_event _ _ _ _). Qed.

End Scripts.

Theorem script_is_kept uniword fs fs' fuel fuel' header s l hdr bang interp (o o1 : sobj) :
  dget s (o_user o) = Some l -> Forall asked_action l -> interp = $"python" \/ interp = $"bash" ->
  (exists a, o1 = snd (set_inifilepath a o)) \/ (exists v, o1 = snd (set_configparser_delimiters v o)) ->
  fst (generate_script uniword fs' fuel' header s hdr true bang interp o1) =
  fst (generate_script uniword fs fuel header s hdr true bang interp o).
Proof.
  intros D AA I S.
  assert (D1 : dget s (o_user o1) = Some l).
  { destruct S as [[a ->]|[v ->]].
    - rewrite <- D. f_equal. apply set_inifilepath_user.
    - rewrite <- D. f_equal. apply set_delims_user. }
  destruct (script_known uniword fs fuel header s l hdr bang interp o D AA I) as [[X E]|(X & t & T & E)];
  destruct (script_known uniword fs' fuel' header s l hdr bang interp o1 D1 AA I) as [[X' E']|(X' & t' & T' & E')];
    try contradiction; rewrite E, E'; auto.
  cbn [fst]. do 4 f_equal. clear - T T'. revert t' T'. induction T as [|a t l u L T IH]; intros t' T'; inversion T'; subst; auto.
  rewrite (script_line_det _ _ _ _ L H1), (IH _ H3). reflexivity.
Qed.
