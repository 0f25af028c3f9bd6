(** * Proofs about the functions of the bash scripts: words, variables, and the
    effect of each operation. *)
From Coq Require Import String NArith ZArith List Bool Lia.
Import ListNotations.
From Verif Require Import PyBase PyFacts EnvVar Bash Cpe SetEnv SpecEnv SpecSetEnv SpecBash EnvProofs.
Local Open Scope sm_scope.

Lemma seq_ok {S A B} (m : SM S A) (k : A -> SM S B) s a s' : m s = (Ok a, s') -> bind m k s = k a s'.
Proof. intros E. unfold bind. now rewrite E. Qed.
Lemma seq_err {S A B} (m : SM S A) (k : A -> SM S B) s x s' : m s = (Err x, s') -> bind m k s = (Err x, s').
Proof. intros E. unfold bind. now rewrite E. Qed.

(** ** Names *)
Lemma name_start_spec c : name_start c = true <-> word_char c /\ ~ (48 <= c <= 57)%N.
Proof.
  unfold name_start. rewrite andb_true_iff, negb_true_iff, ascii_word_spec, andb_false_iff, !N.leb_gt.
  split; intros [A B]; split; auto; lia.
Qed.
Lemma identifier_spec n : identifier n = true <-> shell_name n.
Proof.
  destruct n as [|c s]; cbn [identifier shell_name]; [split; [discriminate|tauto]|].
  rewrite andb_true_iff, name_start_spec, forallb_forall, Forall_forall.
  setoid_rewrite ascii_word_spec. tauto.
Qed.
Lemma name_word n : shell_name n -> n <> [] /\ Forall word_char n.
Proof. destruct n as [|c s]; cbn; [tauto|]. intros (A & _ & B). split; [discriminate|auto]. Qed.
Lemma word_plain c : word_char c -> ~ In c [0; 9; 10; 13; 32; 34; 36; 42; 61; 63; 91; 92; 96; 125]%N /\ (c < 128)%N.
Proof. unfold word_char. intros W. split; [|lia]. intros I. cbn [In] in I. lia. Qed.
Lemma name_unsplit n : shell_name n -> unsplit n.
Proof.
  intros S c I J. apply name_word in S as [_ F]. rewrite Forall_forall in F. apply F, word_plain in I as [I _].
  apply I. cbn in *. tauto.
Qed.
Lemma name_no_equals n : shell_name n -> ~ In 61%N n.
Proof.
  intros S I. apply name_word in S as [_ F]. rewrite Forall_forall in F. apply F, word_plain in I as [I _].
  apply I. cbn. tauto.
Qed.
Lemma name_valid n : shell_name n -> valid_name n.
Proof.
  intros S. split; [now apply name_word|]. split; [now apply name_no_equals|].
  intros I. apply name_word in S as [_ F]. rewrite Forall_forall in F. apply F, word_plain in I as [I _].
  apply I. cbn. tauto.
Qed.

(** ** Words *)
Lemma unsplit_char c s : unsplit (c :: s) -> ifs c = false /\ glob_char c = false /\ unsplit s.
Proof.
  intros U. assert (H := U c (or_introl eq_refl)). repeat split.
  - apply not_true_is_false. intros E. apply existsb_exists in E as (x & I & E). apply N.eqb_eq in E. subst x.
    apply H. cbn in *. tauto.
  - apply not_true_is_false. intros E. apply existsb_exists in E as (x & I & E). apply N.eqb_eq in E. subst x.
    apply H. cbn in *. tauto.
  - intros d I. apply U. now right.
Qed.
Lemma split_value_some s : unsplit s -> forall t g, split_value s (Some (t, g)) = ([], Some (t ++ s, g)).
Proof.
  induction s as [|c s IH]; intros U t g; cbn [split_value]; [now rewrite app_nil_r|].
  apply unsplit_char in U as (A & B & U). rewrite A, B, orb_false_r, IH by auto. now rewrite <- app_assoc.
Qed.
Lemma split_value_none s : unsplit s -> s <> [] -> split_value s None = ([], Some (s, false)).
Proof.
  destruct s as [|c s]; [congruence|]. intros U _. apply unsplit_char in U as (A & B & U). cbn [split_value].
  rewrite A, B, split_value_some by auto. reflexivity.
Qed.

Section Functions.
Variable glob : str -> list str.
Variable subst_pattern : str -> str -> str.
Variable sed_other : list str -> str -> str.
Variable echo_option : list str -> str.
Variable which_prints : environ -> list str -> str.
Notation fields := (fields glob).
Notation bash_envvar_op := (bash_envvar_op glob subst_pattern sed_other echo_option which_prints).

Lemma fields_quoted y : fields [Q y] = [y].
Proof. reflexivity. Qed.
Lemma fields_one s : unsplit s -> s <> [] -> fields [U s] = [s].
Proof.
  intros U N. unfold Bash.fields. cbn [split_word]. rewrite split_value_none by auto. reflexivity.
Qed.
Lemma fields_assign n v : shell_name n -> fields [U n; Q $"="; Q v] = [n ++ $"=" ++ v].
Proof.
  intros S. unfold Bash.fields. cbn [split_word].
  rewrite split_value_none by (now apply name_unsplit || now apply name_word). cbn [app flat_map snd fst].
  now rewrite <- app_assoc.
Qed.
Lemma fields_assign_value n v : shell_name n -> unsplit v -> fields [U n; Q $"="; U v] = [n ++ $"=" ++ v].
Proof.
  intros S V. unfold Bash.fields. cbn [split_word].
  rewrite split_value_none by (now apply name_unsplit || now apply name_word). cbn [app].
  rewrite split_value_some by auto. cbn [app flat_map snd fst]. now rewrite <- app_assoc.
Qed.

(** ** Variables *)
Lemma at_equals_name n v : ~ In 61%N n -> at_equals (n ++ $"=" ++ v) = Some (n, v).
Proof.
  induction n as [|c n IH]; intros I; [reflexivity|]. cbn [app at_equals].
  destruct (N.eqb_spec c 61) as [->|_]; [exfalso; apply I; now left|].
  rewrite IH; auto. intros J. apply I. now right.
Qed.
Lemma export_one n v b : shell_name n -> export [n ++ $"=" ++ v] b = (Ok tt, assign n (Some v) b).
Proof.
  intros S. cbn [export]. unfold export_word. rewrite at_equals_name by now apply name_no_equals.
  assert (E := proj2 (identifier_spec n) S). rewrite E. reflexivity.
Qed.

(** Frames that hold variables of the functions only. *)
Definition own (l : list (dict (option str))) : Prop :=
  forall f x, In f l -> In x (dkeys f) -> In x reserved_names.
Lemma dget_keys {A} x (d : dict A) v : dget x d = Some v -> In x (dkeys d).
Proof.
  induction d as [|[k w] d IH]; cbn; [discriminate|]. destruct (str_eqb_spec x k); subst; auto.
Qed.
Lemma local_none n l : own l -> ~ In n reserved_names -> local_of n l = None.
Proof.
  intros O N. induction l as [|f l IH]; cbn [local_of]; auto.
  destruct (dget n f) as [v|] eqn:E.
  - exfalso. apply N, (O f); [now left|]. eapply dget_keys; eauto.
  - apply IH. intros g x I. apply O. now right.
Qed.
Lemma var_env n l e : own l -> ~ In n reserved_names -> var n (Shell l e) = dget n e.
Proof. intros O N. unfold var. cbn [sh_frames sh_env]. now rewrite local_none. Qed.
Lemma assign_env n v l e : own l -> ~ In n reserved_names ->
  assign n (Some v) (Shell l e) = Shell l (dset n v e).
Proof. intros O N. unfold assign. cbn [sh_frames sh_env]. now rewrite local_none. Qed.
Lemma unset_env n l e : own l -> ~ In n reserved_names -> assign n None (Shell l e) = Shell l (ddel n e).
Proof. intros O N. unfold assign. cbn [sh_frames sh_env]. now rewrite local_none. Qed.
Lemma own_cons f l : forallb (fun x => str_mem x reserved_names) (dkeys f) = true -> own l -> own (f :: l).
Proof.
  intros F O g x [<-|I] J; [|now apply (O g)]. rewrite forallb_forall in F. apply str_mem_In, F, J.
Qed.
Lemma own_nil : own [].
Proof. intros f x []. Qed.

(** The state in which the branches of [envvar_op] run. *)
Definition op_frame (op n t : str) : dict (option str) :=
  [($"op", Some op); ($"arg1", Some n); ($"arg2", Some t)].
Lemma op_own op n t : own [op_frame op n t].
Proof. apply own_cons; [reflexivity|apply own_nil]. Qed.

Lemma required_some s b : s <> [] -> required (Some s) b = (Ok s, b).
Proof. destruct s; [congruence|reflexivity]. Qed.
Lemma called (f : str -> str -> bash unit) x y l e r e' g :
  f x y (Shell ([] :: l) e) = (r, Shell (g :: l) e') -> with2 f ([x] ++ [y]) (Shell l e) = (r, Shell l e').
Proof. intros E. unfold with2, call, nth_arg, nth_error, app, value_or_empty. cbn [sh_frames sh_env]. now rewrite E. Qed.

Lemma set_or_create n v l e : variable n -> own l ->
  envvar_set_or_create glob n v (Shell l e) = (Ok tt, Shell l (dset n v e)).
Proof.
  intros [S N] O. unfold envvar_set_or_create. erewrite seq_ok by (apply required_some; now apply name_word).
  rewrite fields_assign, export_one, assign_env; auto.
Qed.
Lemma append_or_create n v l e : variable n -> own l ->
  envvar_append_or_create glob n v (Shell l e) =
  (Ok tt, Shell l (dset n (match dget n e with Some t => t ++ $":" ++ v | None => v end) e)).
Proof.
  intros [S N] O. unfold envvar_append_or_create. erewrite seq_ok by reflexivity.
  rewrite var_env by auto. destruct (dget n e); rewrite fields_assign, export_one, assign_env; auto.
Qed.
Lemma prepend_or_create n v l e : variable n -> own l ->
  envvar_prepend_or_create glob n v (Shell l e) =
  (Ok tt, Shell l (dset n (match dget n e with Some t => v ++ $":" ++ t | None => v end) e)).
Proof.
  intros [S N] O. unfold envvar_prepend_or_create. erewrite seq_ok by reflexivity.
  rewrite var_env by auto. destruct (dget n e); rewrite fields_assign, export_one, assign_env; auto.
Qed.
Lemma declare_to x v f f' l e : dset x (Some v) f = f' ->
  declare x v (Shell (f :: l) e) = (Ok tt, Shell (f' :: l) e).
Proof. now intros <-. Qed.
Lemma read_local x v f l e : dget x f = Some (Some v) ->
  read x (Shell (f :: l) e) = (Ok (Some v), Shell (f :: l) e).
Proof. intros E. unfold read, var. cbn [sh_frames local_of]. now rewrite E. Qed.
Lemma read_env n l e : own l -> ~ In n reserved_names -> read n (Shell l e) = (Ok (dget n e), Shell l e).
Proof. intros O N. unfold read. now rewrite var_env. Qed.
Lemma assign_to x v f f' l e : dmem x f = true -> dset x (Some v) f = f' ->
  assign x (Some v) (Shell (f :: l) e) = Shell (f' :: l) e.
Proof.
  intros M <-. unfold assign. cbn [sh_frames local_of sh_env local_set]. unfold dmem in *.
  now destruct (dget x f).
Qed.

Lemma assert_not_empty n v l e : variable n -> own l -> exists f,
  envvar_assert_not_empty n v (Shell ([] :: l) e) =
  (match dget n e with None | Some [] => Err ScriptExit | Some _ => Ok tt end, Shell (f :: l) e).
Proof.
  intros [S N] O. pose (f := [($"envvar", Some n); ($"message", Some v)]). exists f. unfold envvar_assert_not_empty.
  erewrite seq_ok by (apply (declare_to _ _ _ [($"envvar", Some n)]); reflexivity).
  erewrite seq_ok by (apply (declare_to _ _ _ f); reflexivity).
  erewrite seq_ok by (apply read_local; reflexivity). cbn [value_or_empty].
  erewrite seq_ok by (apply read_env; auto; now apply own_cons).
  destruct (dget n e) as [[|c s]|]; reflexivity.
Qed.
Lemma set_if_empty n v l e : variable n -> own l -> exists f,
  bash_set_if_empty glob n v (Shell ([] :: l) e) =
  (Ok tt, Shell (f :: l) (match dget n e with None | Some [] => dset n v e | Some _ => e end)).
Proof.
  intros [S N] O. pose (f := [($"ENVVAR_NAME", Some n); ($"ENVVAR_VALUE", Some v)]). exists f.
  assert (OW : own (f :: l)) by now apply own_cons.
  unfold bash_set_if_empty.
  erewrite seq_ok by (apply required_some; now apply name_word).
  erewrite seq_ok by (apply (declare_to _ _ _ [($"ENVVAR_NAME", Some n)]); reflexivity).
  erewrite seq_ok by (apply (declare_to _ _ _ f); reflexivity).
  erewrite seq_ok by (apply read_local; reflexivity). cbn [value_or_empty].
  erewrite seq_ok by (apply read_env; auto).
  destruct (dget n e) as [[|c s]|]; try reflexivity;
  (erewrite seq_ok by (apply read_local; reflexivity); cbn [value_or_empty];
   rewrite fields_assign, export_one, assign_env; auto).
Qed.

(** [envvar_op] *)
Lemma op_starts op n rest e : op <> [] -> shell_name n ->
  bash_envvar_op (op :: n :: rest) (Shell [[]] e) =
  op_branches glob subst_pattern sed_other echo_option which_prints op
    (Shell [op_frame op n (nth_arg 0 rest)] e).
Proof.
  intros O S. unfold Bash.bash_envvar_op. cbn [nth_error].
  erewrite seq_ok by (now apply required_some).
  erewrite seq_ok by (apply (declare_to _ _ _ [($"op", Some op)]); reflexivity).
  erewrite seq_ok by (apply required_some; now apply name_word).
  erewrite seq_ok by (apply (declare_to _ _ _ [($"op", Some op); ($"arg1", Some n)]); reflexivity).
  erewrite seq_ok by (apply (declare_to _ _ _ (op_frame op n (nth_arg 0 rest))); reflexivity).
  erewrite seq_ok by (erewrite seq_ok by (apply read_local; reflexivity); now apply required_some).
  reflexivity.
Qed.

Lemma read_arg1 op n t e : shell_name n ->
  (v <- read $"arg1" ;; required v) (Shell [op_frame op n t] e) = (Ok n, Shell [op_frame op n t] e).
Proof.
  intros S. erewrite seq_ok by (apply read_local; reflexivity). apply required_some. now apply name_word.
Qed.
Lemma read_arg2 op n t e :
  (v <- read $"arg2" ;; ret (value_or_empty v)) (Shell [op_frame op n t] e) = (Ok t, Shell [op_frame op n t] e).
Proof. erewrite seq_ok by (apply read_local; reflexivity). reflexivity. Qed.
Lemma read_arg2_required op n t e : t <> [] ->
  (v <- read $"arg2" ;; required v) (Shell [op_frame op n t] e) = (Ok t, Shell [op_frame op n t] e).
Proof. intros T. erewrite seq_ok by (apply read_local; reflexivity). now apply required_some. Qed.

(** One [envvar_op] command. *)
Definition op_call (args : list str) (e : environ) : res unit * shell :=
  call (bash_envvar_op args) (Shell [] e).
Definition out (p : res unit * environ) : res unit * shell := (fst p, Shell [] (snd p)).
Lemma op_call_is op n rest e r e' f : op <> [] -> shell_name n ->
  op_branches glob subst_pattern sed_other echo_option which_prints op
    (Shell [op_frame op n (nth_arg 0 rest)] e) = (r, Shell [f] e') ->
  op_call (op :: n :: rest) e = out (r, e').
Proof. intros O S E. unfold op_call, call. cbn [sh_frames sh_env]. rewrite op_starts, E by auto. reflexivity. Qed.

Ltac choose_branch := unfold op_branches; cbv zeta;
  repeat match goal with |- context [str_eqb (lit ?a) (lit ?b)] =>
    let v := eval vm_compute in (str_eqb (lit a) (lit b)) in change (str_eqb (lit a) (lit b)) with v end;
  cbv iota.
Ltac arguments := unfold nth_arg; cbn [nth_error value_or_empty];
  erewrite seq_ok by (now apply read_arg1);
  try (erewrite seq_ok by (apply read_arg2 || now apply read_arg2_required));
  rewrite ?fields_one by (now apply name_unsplit || now apply name_word); rewrite ?fields_quoted.
Ltac start V := eapply op_call_is; [discriminate|apply V|]; choose_branch;
  let S := fresh "S" in let N := fresh "N" in destruct V as [S N]; arguments.
Lemma op_own2 op n t : own [[]; op_frame op n t].
Proof. apply own_cons; auto. apply op_own. Qed.
Hint Resolve op_own op_own2 : core.

Lemma op_set n t e : variable n -> op_call [$"set"; n; t] e = out (Ok tt, dset n t e).
Proof.
  intros V. assert (W := V). start V. eapply called, set_or_create; auto.
Qed.
Lemma op_unset n rest e : variable n -> op_call ($"unset" :: n :: rest) e = out (Ok tt, ddel n e).
Proof.
  intros V. start V. cbn [unset]. rewrite (proj2 (identifier_spec n) S).
  erewrite seq_ok by reflexivity. rewrite unset_env; auto. reflexivity.
Qed.
Lemma op_append n t e : variable n -> t <> [] ->
  op_call [$"append"; n; t] e =
  out (Ok tt, dset n (match dget n e with Some v => v ++ $":" ++ t | None => t end) e).
Proof.
  intros V T. assert (W := V). start V. eapply called, append_or_create; auto.
Qed.
Lemma op_prepend n t e : variable n -> t <> [] ->
  op_call [$"prepend"; n; t] e =
  out (Ok tt, dset n (match dget n e with Some v => t ++ $":" ++ v | None => t end) e).
Proof.
  intros V T. assert (W := V). start V. eapply called, prepend_or_create; auto.
Qed.
Lemma op_find n t e : variable n -> t <> [] -> unsplit t ->
  op_call [$"find_in_path"; n; t] e = out (Ok tt, dset n (chomp (which_prints e [t])) e).
Proof.
  intros V T U. assert (W := V). start V. erewrite seq_ok by reflexivity. cbn [sh_env].
  rewrite (fields_one t), fields_quoted by auto.
  eapply called, set_or_create; auto.
Qed.
Lemma op_assert n t e : variable n ->
  op_call [$"assert_not_empty"; n; t] e =
  out (match dget n e with None | Some [] => Err ScriptExit | Some _ => Ok tt end, e).
Proof.
  intros V. assert (W := V). start V.
  destruct (assert_not_empty n t [op_frame $"assert_not_empty" n t] e W (op_own _ _ _)) as [f E].
  eapply called, E.
Qed.
Lemma op_set_if_empty n t e : variable n ->
  op_call [$"set_if_empty"; n; t] e =
  out (Ok tt, match dget n e with None | Some [] => dset n t e | Some _ => e end).
Proof.
  intros V. assert (W := V). start V.
  destruct (set_if_empty n t [op_frame $"set_if_empty" n t] e W (op_own _ _ _)) as [f E].
  eapply called, E.
Qed.

(** ** [remove_path_entry] *)
Lemma glob_free s : unsplit s -> existsb glob_char s = false.
Proof.
  intros U. apply not_true_is_false. intros E. apply existsb_exists in E as (c & I & E).
  induction s as [|d s IH]; [destruct I|]. apply unsplit_char in U as (_ & G & U).
  destruct I as [->|I]; [congruence|auto].
Qed.
Definition removed (t old : str) : str :=
  drop_back $":1" (drop_front $":1" (subst_from ($":" ++ t ++ $":") 0 ($":" ++ old ++ $":"))).

Lemma remove_path_entry n t l e : variable n -> own l -> t <> [] ->
  existsb glob_char t = false -> unsplit (removed t (value_or_empty (dget n e))) -> exists f,
  envvar_remove_path_entry glob subst_pattern n t (Shell ([] :: l) e) =
  (Ok tt, Shell (f :: l) (dset n (removed t (value_or_empty (dget n e))) e)).
Proof.
  intros [S N] O T G R. set (old := value_or_empty (dget n e)) in *.
  pose (f x := [($"envvar", Some n); ($"to_remove", Some t); ($"new_value", Some x)]).
  assert (OW : forall x, own (f x :: l)) by (intros x; now apply own_cons).
  eexists. unfold envvar_remove_path_entry.
  erewrite seq_ok by (apply required_some; now apply name_word).
  erewrite seq_ok by (apply (declare_to _ _ _ [($"envvar", Some n)]); reflexivity).
  erewrite seq_ok by (now apply required_some).
  erewrite seq_ok by (apply (declare_to _ _ _ [($"envvar", Some n); ($"to_remove", Some t)]); reflexivity).
  erewrite seq_ok by (apply read_local; reflexivity). cbn [value_or_empty].
  erewrite seq_ok by (apply read_env; auto; now apply own_cons).
  fold old.
  erewrite seq_ok by (apply (declare_to _ _ _ (f old)); reflexivity).
  erewrite seq_ok by (apply read_local; reflexivity). cbn [value_or_empty].
  erewrite seq_ok by (unfold modify; erewrite (assign_to _ _ _ (f _)) by reflexivity; reflexivity).
  erewrite seq_ok by (apply read_local; reflexivity). cbn [value_or_empty].
  erewrite seq_ok by (apply read_local; reflexivity). cbn [value_or_empty]. cbv zeta.
  replace (existsb glob_char ($":" ++ t ++ $":")) with false
    by (rewrite !existsb_app, G; reflexivity).
  erewrite seq_ok by (unfold modify; erewrite (assign_to _ _ _ (f _)) by reflexivity; reflexivity).
  erewrite seq_ok by (apply read_local; reflexivity). cbn [value_or_empty].
  erewrite seq_ok by (unfold modify; erewrite (assign_to _ _ _ (f _)) by reflexivity; reflexivity).
  erewrite seq_ok by (apply read_local; reflexivity). cbn [value_or_empty].
  erewrite seq_ok by (unfold modify; erewrite (assign_to _ _ _ (f _)) by reflexivity; reflexivity).
  erewrite seq_ok by (apply read_local; reflexivity). cbn [value_or_empty].
  fold (removed t old).
  rewrite fields_assign_value, export_one, assign_env; auto.
Qed.
Lemma op_remove_path_entry n t e : variable n -> t <> [] -> existsb glob_char t = false ->
  unsplit (removed t (value_or_empty (dget n e))) ->
  op_call [$"remove_path_entry"; n; t] e = out (Ok tt, dset n (removed t (value_or_empty (dget n e))) e).
Proof.
  intros V T G R. assert (W := V). start V.
  destruct (remove_path_entry n t [op_frame $"remove_path_entry" n t] e W (op_own _ _ _) T G R) as [f E].
  eapply called, E.
Qed.

(** ** [remove_substr] *)
Lemma fields_sed t : unsplit t -> fields [Q $"s#"; U t; Q $"##g"] = [$"s#" ++ t ++ $"##g"].
Proof.
  intros U. unfold Bash.fields. cbn [split_word]. rewrite split_value_some by auto. cbn [app flat_map snd fst].
  now rewrite <- app_assoc.
Qed.
Lemma sed_literal t input : t <> [] -> sed_text t ->
  sed sed_other [$"s#" ++ t ++ $"##g"] input = erase t input.
Proof.
  intros T X. unfold sed. set (a := $"s#" ++ t ++ $"##g").
  assert (L : length a - 3 = length ($"s#" ++ t)).
  { unfold a. rewrite !app_length. cbn [length lit map list_ascii_of_string]. lia. }
  rewrite L. unfold a. rewrite app_assoc, firstn_app, firstn_all, Nat.sub_diag, firstn_O, app_nil_r.
  rewrite skipn_app, skipn_all, Nat.sub_diag. cbn [app].
  change (skipn 2 ($"s#" ++ t)) with t. change (skipn 0 $"##g") with $"##g". rewrite str_eqb_refl.
  change (starts_with $"s#" (($"s#" ++ t) ++ $"##g")) with true.
  assert (R : regex_literal t = true).
  { unfold regex_literal. apply negb_true_iff, not_true_is_false. intros E.
    apply existsb_exists in E as (c & I & E). apply existsb_exists in E as (d & J & E). apply N.eqb_eq in E. subst d.
    now apply (X c). }
  rewrite R. destruct t; [congruence|]. reflexivity.
Qed.
Lemma prefix_before {A} (a : A) (t r s : list A) : ~ In a t -> t ++ r = s ++ [a] -> exists q, s = t ++ q.
Proof.
  revert s. induction t as [|x t IH]; intros s I E; [now exists s|]. destruct s as [|y s].
  - cbn in E. inversion E; subst. exfalso. apply I. now left.
  - cbn in E. inversion E; subst. destruct (IH s) as [q ->]; [intros J; apply I; now right|auto|]. now exists q.
Qed.
Lemma erases_newline t s u : t <> [] -> ~ In 10%N t -> erases t s u -> erases t (s ++ newline) (u ++ newline).
Proof.
  intros T I E. induction E as [|s u E IH|c s u M E IH].
  - apply (er_miss t 10%N [] []); [|constructor]. intros r X. destruct t as [|x t]; [congruence|].
    inversion X; subst. apply I. now left.
  - rewrite <- app_assoc. now apply er_hit.
  - cbn [app]. apply er_miss; auto. intros r X. symmetry in X. change (c :: s ++ newline) with ((c :: s) ++ [10%N]) in X.
    apply prefix_before in X as [q Q']; auto. now apply (M q).
Qed.
Lemma erase_newline t s : t <> [] -> ~ In 10%N t -> erase t (s ++ newline) = erase t s ++ newline.
Proof.
  intros T I. symmetry. apply erase_spec; auto. apply erases_newline; auto. now apply erase_spec.
Qed.
Lemma erases_in t s u c : erases t s u -> In c u -> In c s.
Proof.
  intros E. induction E as [|s u E IH|d s u M E IH]; auto.
  - intros I. apply in_or_app. right. auto.
  - intros [->|I]; [now left|right; auto].
Qed.
Lemma erase_unsplit t s : t <> [] -> unsplit s -> unsplit (erase t s).
Proof. intros T U c I. apply U. apply (erases_in t s (erase t s)); auto. now apply erase_spec. Qed.
Lemma chomp_line s : ~ In 10%N s -> chomp (s ++ newline) = s.
Proof.
  intros I. unfold chomp, rstrip. unfold newline. rewrite rev_app_distr. cbn [rev app lstrip].
  change (N.eqb 10 10) with true. cbv iota.
  assert (L : lstrip (N.eqb 10) (rev s) = rev s).
  { destruct (rev s) as [|c r] eqn:E; auto. cbn [lstrip]. destruct (N.eqb_spec 10 c) as [<-|_]; auto.
    exfalso. apply I. apply in_rev. rewrite E. now left. }
  rewrite L. apply rev_involutive.
Qed.
Lemma unsplit_no_newline s : unsplit s -> ~ In 10%N s.
Proof. intros U I. apply (U _ I). cbn. tauto. Qed.
Lemma echo_line old : unsplit old -> hd 0%N old <> 45%N -> echo echo_option (fields [U old]) = old ++ newline.
Proof.
  intros O D. destruct old as [|c r]; [reflexivity|]. rewrite fields_one by (auto; discriminate).
  cbn [hd] in D. unfold echo. cbn [join].
  destruct (N.eq_dec c 45) as [->|_]; [congruence|].
  destruct c as [|p]; [reflexivity|]. do 6 (destruct p as [p|p|]; try reflexivity). congruence.
Qed.

Lemma remove_substr n t l e : variable n -> own l -> t <> [] -> sed_text t -> unsplit t ->
  let old := value_or_empty (dget n e) in unsplit old -> hd 0%N old <> 45%N -> exists f,
  envvar_remove_substr glob sed_other echo_option n t (Shell ([] :: l) e) =
  (Ok tt, Shell (f :: l) (dset n (erase t old) e)).
Proof.
  intros [S N] O T X U old OU D. pose (f := [($"envvar", Some n); ($"substr", Some t)]). exists f.
  assert (OW : own (f :: l)) by now apply own_cons.
  unfold envvar_remove_substr.
  erewrite seq_ok by (apply required_some; now apply name_word).
  erewrite seq_ok by (apply (declare_to _ _ _ [($"envvar", Some n)]); reflexivity).
  erewrite seq_ok by (now apply required_some).
  erewrite seq_ok by (apply (declare_to _ _ _ f); reflexivity).
  erewrite seq_ok by (apply read_local; reflexivity). cbn [value_or_empty].
  replace (char_mem 35%N t) with false.
  2: { symmetry. apply not_true_is_false. intros E. apply existsb_exists in E as (c & I & E). apply N.eqb_eq in E. subst c.
       apply (X _ I). cbn. tauto. }
  erewrite seq_ok by (apply read_local; reflexivity). cbn [value_or_empty].
  erewrite seq_ok by (apply read_env; auto). fold old. cbv zeta.
  rewrite echo_line, fields_sed, sed_literal by auto.
  rewrite erase_newline by (auto; now apply unsplit_no_newline).
  rewrite chomp_line by (apply unsplit_no_newline; now apply erase_unsplit).
  rewrite fields_assign_value, export_one, assign_env; auto. now apply erase_unsplit.
Qed.
Lemma op_remove_substr n t e : variable n -> t <> [] -> sed_text t -> unsplit t ->
  let old := value_or_empty (dget n e) in unsplit old -> hd 0%N old <> 45%N ->
  op_call [$"remove_substr"; n; t] e = out (Ok tt, dset n (erase t old) e).
Proof.
  intros V T X U old OU D. assert (W := V). start V.
  destruct (remove_substr n t [op_frame $"remove_substr" n t] e W (op_own _ _ _) T X U OU D) as [f E].
  eapply called, E.
Qed.
End Functions.

(** ** The entries that bash keeps *)
Lemma subst_skip p k s : subst_from p (length k) (k ++ s) = subst_from p 0 s.
Proof. induction k as [|c k IH]; [reflexivity|]. exact IH. Qed.
Lemma subst_cons p c s : subst_from p 0 (c :: s) =
  if starts_with p (c :: s) then 58%N :: subst_from p (pred (length p)) s else c :: subst_from p 0 s.
Proof. reflexivity. Qed.
Lemma subst_word (t w s : str) : ~ In 58%N w -> subst_from ($":" ++ t ++ $":") 0 (w ++ s) = w ++ subst_from ($":" ++ t ++ $":") 0 s.
Proof.
  induction w as [|c w IH]; intros I; [reflexivity|]. cbn [app]. rewrite subst_cons.
  match goal with |- context [if ?b then _ else _] => destruct b eqn:E end.
  - apply starts_with_spec in E as (r & E). cbn in E. inversion E; subst. exfalso. apply I. now left.
  - f_equal. apply IH. intros J. apply I. now right.
Qed.
Lemma same_word (x t s r : str) : ~ In 58%N x -> ~ In 58%N t -> x ++ 58%N :: s = t ++ 58%N :: r -> x = t /\ s = r.
Proof.
  revert t. induction x as [|c x IH]; intros [|d t] X T E; cbn in E; inversion E; subst; auto.
  - exfalso. apply T. now left.
  - exfalso. apply X. now left.
  - destruct (IH t) as [-> ->]; auto; intros J; [apply X|apply T]; now right.
Qed.
Lemma subst_hit t s : subst_from ($":" ++ t ++ $":") 0 (58%N :: t ++ 58%N :: s) = 58%N :: subst_from ($":" ++ t ++ $":") 0 s.
Proof.
  rewrite subst_cons. change (58%N :: t ++ 58%N :: s) with ($":" ++ t ++ $":" ++ s).
  replace ($":" ++ t ++ $":" ++ s) with (($":" ++ t ++ $":") ++ s) by now rewrite <- !app_assoc.
  rewrite (proj2 (starts_with_spec _ _)) by now exists s. f_equal.
  replace (t ++ 58%N :: s) with ((t ++ $":") ++ s) by now rewrite <- app_assoc.
  rewrite <- (subst_skip _ (t ++ $":") s). reflexivity.
Qed.
Lemma subst_miss (t x s : str) : ~ In 58%N t -> ~ In 58%N x -> x <> t ->
  subst_from ($":" ++ t ++ $":") 0 (58%N :: x ++ 58%N :: s) = 58%N :: x ++ subst_from ($":" ++ t ++ $":") 0 (58%N :: s).
Proof.
  intros T X D. rewrite subst_cons.
  match goal with |- context [if ?b then _ else _] => destruct b eqn:E end.
  - exfalso. apply starts_with_spec in E as (r & E). cbn in E. inversion E as [E'].
    rewrite <- app_assoc in E'. cbn in E'. apply same_word in E' as [E' _]; auto.
  - f_equal. now apply subst_word.
Qed.
Lemma subst_entries (t : str) l l' : ~ In 58%N t -> Forall (fun x => ~ In 58%N x) l -> skips t l l' ->
  subst_from ($":" ++ t ++ $":") 0 ($":" ++ terminated l) = $":" ++ terminated l'.
Proof.
  intros T F K. induction K as [|x l l' D K IH| |x l l' K IH].
  - cbn [terminated flat_map]. destruct t; reflexivity.
  - inversion F; subst. cbn [terminated flat_map]. fold (terminated l). fold (terminated l').
    change ($":" ++ (x ++ $":") ++ terminated l) with (58%N :: (x ++ $":") ++ terminated l).
    rewrite <- app_assoc. change ($":" ++ terminated l) with (58%N :: terminated l).
    rewrite subst_miss by auto. change (58%N :: terminated l) with ($":" ++ terminated l).
    rewrite IH by auto. cbn. now rewrite <- app_assoc.
  - cbn [terminated flat_map]. rewrite app_nil_r. exact (subst_hit t []).
  - inversion F as [|? ? F1 F2]; subst. inversion F2; subst. cbn [terminated flat_map].
    fold (terminated l). fold (terminated l').
    transitivity (subst_from ($":" ++ t ++ $":") 0 (58%N :: t ++ 58%N :: x ++ $":" ++ terminated l));
      [f_equal; cbn; now rewrite <- !app_assoc|].
    etransitivity; [exact (subst_hit t _)|]. rewrite subst_word by auto.
    etransitivity; [apply f_equal, f_equal; exact (IH H2)|]. cbn. now rewrite <- app_assoc.
Qed.
Lemma terminated_join l : l <> [] -> join $":" l ++ $":" = terminated l.
Proof.
  induction l as [|x l IH]; [congruence|]. intros _. destruct l as [|y l].
  - cbn [join terminated flat_map]. now rewrite app_nil_r.
  - change (join $":" (x :: y :: l)) with (x ++ $":" ++ join $":" (y :: l)).
    rewrite <- !app_assoc, IH by discriminate. cbn [terminated flat_map]. now rewrite <- !app_assoc.
Qed.
Lemma terminated_end l : l <> [] -> exists s, terminated l = s ++ $":".
Proof. intros N. exists (join $":" l). symmetry. now apply terminated_join. Qed.
Lemma drop_back_colon s : drop_back $":1" (s ++ $":") = s ++ $":".
Proof.
  unfold drop_back. change (rev $":1") with $"1:". rewrite rev_app_distr. cbn [rev app lit map list_ascii_of_string].
  change (rev (58%N :: rev s) = s ++ $":"). cbn [rev]. now rewrite rev_involutive.
Qed.
Lemma skips_total t l : exists l', skips t l l'.
Proof.
  assert (H : forall k l, length l <= k -> exists l', skips t l l').
  { induction k as [|k IH]; intros [|x m] L; cbn in L; try lia; try (eexists; now constructor).
    destruct (str_eqb_spec x t) as [->|D].
    - destruct m as [|y m]; [eexists; apply sk_last|]. cbn in L. destruct (IH m) as [m' M]; [lia|].
      eexists. apply sk_hit, M.
    - destruct (IH m) as [m' M]; [lia|]. eexists. apply (sk_keep _ _ _ _ D M). }
  now apply (H (length l)).
Qed.
Lemma skips_det t l a : skips t l a -> forall b, skips t l b -> a = b.
Proof.
  intros A. induction A as [|x l l' D A IH| |x l l' A IH]; intros b B; inversion B; subst; auto; try congruence.
  - f_equal. auto.
  - f_equal. auto.
Qed.
Lemma removed_path (t old new : str) : ~ In 58%N t -> bash_path t old new -> removed t old = new.
Proof.
  intros T P. unfold removed.
  assert (G : forall l l', entries l old -> skips t l l' ->
    subst_from ($":" ++ t ++ $":") 0 ($":" ++ old ++ $":") = $":" ++ terminated l').
  { intros l l' (N & F & ->) K. rewrite terminated_join by auto. now apply subst_entries with (l := l). }
  destruct P as [l l' new E K H ->|l l' new E K H]; rewrite (G l l' E K).
  - assert (D : drop_front $":1" ($":" ++ terminated l') = $":" ++ terminated l').
    { unfold drop_front. destruct (starts_with $":1" ($":" ++ terminated l')) eqn:X; auto.
      apply starts_with_spec in X as (r & X). exfalso. apply (H r). now inversion X. }
    rewrite D. destruct l' as [|x l']; [reflexivity|]. destruct (terminated_end (x :: l')) as (s & ->); [discriminate|].
    rewrite app_assoc. apply drop_back_colon.
  - rewrite H. change (drop_front $":1" ($":" ++ $"1" ++ new)) with new.
    assert (NE : l' <> []) by (intros ->; discriminate).
    destruct (terminated_end l' NE) as (s & Z). rewrite Z in H.
    destruct new as [|c r] using rev_ind.
    + destruct s as [|d s]; [discriminate|]. inversion H as [[H1 H2]]. destruct s; discriminate.
    + rewrite app_assoc in H. apply app_inj_tail in H as [_ <-]. apply drop_back_colon.
Qed.
Lemma bash_path_total t old : exists new, bash_path t old new.
Proof.
  destruct (skips_total t (split_on 58%N old)) as [l' K].
  destruct (starts_with $"1" (terminated l')) eqn:E.
  - apply starts_with_spec in E as (r & E). exists r. eapply bp_one; eauto. apply entries_split.
  - exists ($":" ++ terminated l'). eapply bp_value; eauto; [apply entries_split|].
    intros r X. assert (Y : starts_with $"1" (terminated l') = true) by (apply starts_with_spec; eauto). congruence.
Qed.
Lemma skips_in t l l' x : skips t l l' -> In x l' -> In x l.
Proof.
  intros K. induction K as [|y l l' D K IH| |y l l' K IH]; cbn [In]; intuition.
Qed.
Lemma terminated_in l c : In c (terminated l) -> c = 58%N \/ exists x, In x l /\ In c x.
Proof.
  unfold terminated. intros I. apply in_flat_map in I as (x & J & I). apply in_app_or in I as [I|I].
  - right. now exists x.
  - left. cbn in I. intuition.
Qed.
Lemma bash_path_unsplit t old new : unsplit old -> bash_path t old new -> unsplit new.
Proof.
  intros U P.
  assert (G : forall l l', entries l old -> skips t l l' -> forall c, In c (terminated l') -> ~ In c [9; 10; 32; 42; 63; 91; 92]%N).
  { intros l l' (N & F & ->) K c I. apply terminated_in in I as [->|(x & J & I)]; [cbn; lia|].
    apply U. destruct (N.eq_dec c 58) as [->|C].
    - rewrite Forall_forall in F. exfalso. apply (F x); auto. eapply skips_in; eauto.
    - apply join_In; auto. exists x. split; auto. eapply skips_in; eauto. }
  destruct P as [l l' new E K H ->|l l' new E K H]; intros c I.
  - apply in_app_or in I as [I|I]; [|now apply (G l l')]. cbn in I. cbn. lia.
  - apply (G l l'); auto. rewrite H. apply in_or_app. now right.
Qed.
Lemma bash_path_det (t old a b : str) : ~ In 58%N t -> bash_path t old a -> bash_path t old b -> a = b.
Proof. intros T A B. apply removed_path in A, B; auto. congruence. Qed.
Lemma no_neighbours_without t l : no_neighbours t l -> forall l', skips t l l' <-> without t l l'.
Proof.
  intros N.
  assert (G : exists l', skips t l l' /\ without t l l').
  { induction N as [|x|x y l D N IH].
    - exists []. split; constructor.
    - destruct (str_eqb_spec x t) as [->|D]; [exists []|exists [x]]; split; repeat constructor; auto.
    - destruct (str_eqb_spec x t) as [->|D'].
      + destruct D as [D|D]; [congruence|]. destruct IH as (l' & K & W). inversion W; subst; [congruence|].
        inversion K; subst; try congruence.
        match goal with K1 : skips t l ?a, W1 : without t l ?b |- _ => exists (y :: a) end.
        split; [now apply sk_hit|]. constructor. now constructor.
      + destruct IH as (l' & K & W). exists (x :: l'). split; constructor; auto. }
  destruct G as (l1 & K1 & W1). intros l'. split; intros H.
  - now rewrite <- (skips_det _ _ _ K1 _ H).
  - apply without_det in W1, H. now subst.
Qed.
