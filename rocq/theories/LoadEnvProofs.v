(** * The names of a [LoadEnv] object do not depend on its history. *)
From Coq Require Import String NArith List Bool Arith Lia.
Import ListNotations.
From Verif Require Import PyBase PyFacts EnvVar EnvProofs Regex Keyword DetSys EnvKeyword LoadEnv SpecKeyword KeywordText RegexProofs
  KeywordProofs FlagsProofs SpecFlags SpecSystem SpecLoadEnv SearchProofs SystemProofs EnvNameProofs.

Section LoadEnv.
Variable other_re : str -> str -> res bool.
Variable systems : list (str * list str).
Variable hostname : str.
Variable envs : str -> res (dict (option str)).

(** What a new object answers. *)
Definition q_system (b : str) (f : bool) : res str :=
  rbind (fst (system_name other_re systems hostname (new_detsys b f)))
    (fun n => match n with Some s => Ok s | None => Err TypeError end).
Definition q_ekp (b : str) (f : bool) : res ekp := rbind (q_system b f) (new_ekp envs b).
Definition q_parsed (b : str) (f : bool) : res str :=
  rbind (q_ekp b f) (fun k => fst (qualified_env_name other_re envs k)).
Definition strip_words (k : ekp) (b : str) : str :=
  join [95%N] (filter (fun w => negb (str_mem w (sys_names systems)))
    (filter (fun w => negb (str_mem w (e_aliases k))) (filter (fun w => negb (str_mem w (e_names k))) (words b)))).
Definition q_stripped (b : str) (f : bool) : res str :=
  rbind (q_ekp b f) (fun k => Ok (strip_words k b)).
Definition q_ans (b : str) (f : bool) (o : lop) : res str :=
  match o with
  | LSystem => q_system b f
  | LParsed => q_parsed b f
  | LStripped => q_stripped b f
  | LName b' => Ok b'
  end.

Record linv (b : str) (f : bool) (p : loadenv) : Prop := LInv {
  i_build : l_build p = b;
  i_force : l_force p = f;
  i_system : forall s, l_system p = Some s -> q_system b f = Ok s;
  i_parsed : forall s, l_parsed p = Some s -> q_parsed b f = Ok s;
  i_stripped : forall s, l_stripped p = Some s -> q_stripped b f = Ok s;
  i_ekp : forall k, l_ekp p = Some k -> exists k0, q_ekp b f = Ok k0 /\
            (k = k0 \/ (exists n, qualified_env_name other_re envs k0 = (Ok n, k)))
}.
Lemma linv_new b f : linv b f (new_loadenv b f).
Proof. constructor; cbn; auto; discriminate. Qed.

Lemma le_system_eq p : le_system_name other_re systems hostname p =
  match l_system p with
  | Some s => (Ok s, p)
  | None => match q_system (l_build p) (l_force p) with
            | Ok s => (Ok s, LoadEnv (l_build p) (l_force p) (Some s) (l_parsed p) (l_stripped p) (l_ekp p))
            | Err e => (Err e, p)
            end
  end.
Proof.
  cbv [le_system_name bind get of_res modify ret raise q_system rbind]. destruct (l_system p); auto.
  destruct (fst (system_name other_re systems hostname (new_detsys (l_build p) (l_force p)))) as [[s|]|e]; reflexivity.
Qed.
Lemma i_system_ok b f p : linv b f p ->
  fst (le_system_name other_re systems hostname p) = q_system b f /\ linv b f (snd (le_system_name other_re systems hostname p)).
Proof.
  intros I. rewrite le_system_eq. destruct (l_system p) as [s|] eqn:E.
  - split; auto. symmetry. now apply (i_system _ _ _ I).
  - rewrite (i_build _ _ _ I), (i_force _ _ _ I). destruct (q_system b f) as [s|e] eqn:Q; auto.
    split; auto. destruct I as [I1 I2 I3 I4 I5 I6]. constructor; cbn; auto. congruence.
Qed.
Lemma le_ekp_eq p : le_ekp other_re systems hostname envs p =
  match l_ekp p with
  | Some k => (Ok k, p)
  | None =>
      match le_system_name other_re systems hostname p with
      | (Err e, p1) => (Err e, p1)
      | (Ok s, p1) => match new_ekp envs (l_build p) s with
                      | Ok k => (Ok k, LoadEnv (l_build p1) (l_force p1) (l_system p1) (l_parsed p1) (l_stripped p1) (Some k))
                      | Err e => (Err e, p1)
                      end
      end
  end.
Proof.
  cbv [le_ekp le_load_ekp bind get of_res modify ret]. destruct (l_ekp p); auto.
  all: destruct (le_system_name other_re systems hostname p) as [[s|e] p1]; auto; destruct (new_ekp envs (l_build p) s); reflexivity.
Qed.
Lemma i_ekp_ok b f p : linv b f p ->
  (exists k k0, fst (le_ekp other_re systems hostname envs p) = Ok k /\ q_ekp b f = Ok k0 /\
     (k = k0 \/ exists n, qualified_env_name other_re envs k0 = (Ok n, k)) /\
     linv b f (snd (le_ekp other_re systems hostname envs p))) \/
  (exists e, fst (le_ekp other_re systems hostname envs p) = Err e /\ q_ekp b f = Err e /\
     linv b f (snd (le_ekp other_re systems hostname envs p))).
Proof.
  intros I. rewrite le_ekp_eq. destruct (l_ekp p) as [k|] eqn:E.
  - left. destruct (i_ekp _ _ _ I _ E) as (k0 & Q & C). exists k, k0. auto.
  - destruct (i_system_ok _ _ _ I) as (A & B). unfold q_ekp. rewrite <- A. rewrite (i_build _ _ _ I).
    destruct (le_system_name other_re systems hostname p) as [[s|e] p1]; cbn [fst snd rbind] in *.
    + destruct (new_ekp envs b s) as [k|e] eqn:N.
      * left. exists k, k. repeat split; auto; cbn [fst snd]; destruct B as [I1 I2 I3 I4 I5 I6]; cbn; auto.
        intros k' [= <-]. exists k. split; auto. unfold q_ekp. rewrite <- A. exact N.
      * right. exists e. split; [|split]; auto.
    + right. exists e. split; [|split]; auto.
Qed.
Lemma le_parsed_eq p : le_parsed_env_name other_re systems hostname envs p =
  match l_parsed p with
  | Some n => (Ok n, p)
  | None =>
      match le_ekp other_re systems hostname envs p with
      | (Err e, p1) => (Err e, p1)
      | (Ok k, p1) =>
          match qualified_env_name other_re envs k with
          | (Ok n, k') => (Ok n, LoadEnv (l_build p1) (l_force p1) (l_system p1) (Some n) (l_stripped p1) (Some k'))
          | (Err e, k') => (Err e, LoadEnv (l_build p1) (l_force p1) (l_system p1) (l_parsed p1) (l_stripped p1) (Some k'))
          end
      end
  end.
Proof.
  cbv [le_parsed_env_name bind get of_res modify ret]. destruct (l_parsed p); auto.
  destruct (le_ekp other_re systems hostname envs p) as [[k|e] p1]; auto.
  destruct (qualified_env_name other_re envs k) as [[n|e] k']; reflexivity.
Qed.
Lemma qualified_state k e k' : qualified_env_name other_re envs k = (Err e, k') -> k' = k.
Proof.
  destruct k as [b s ns al [m|]]; [discriminate|].
  rewrite qualified_eq by reflexivity. destruct (matched_env _ _ _); intros [=]; auto.
Qed.
Lemma i_parsed_ok b f p : linv b f p ->
  fst (le_parsed_env_name other_re systems hostname envs p) = q_parsed b f /\
  linv b f (snd (le_parsed_env_name other_re systems hostname envs p)).
Proof.
  intros I. rewrite le_parsed_eq. destruct (l_parsed p) as [n|] eqn:E.
  - split; auto. symmetry. now apply (i_parsed _ _ _ I).
  - unfold q_parsed.
    destruct (i_ekp_ok _ _ _ I) as [(k & k0 & A & Q & C & J)|(e & A & Q & J)];
      destruct (le_ekp other_re systems hostname envs p) as [r p1]; cbn [fst snd] in *; subst r; rewrite Q; cbn [rbind]; auto.
    assert (F : fst (qualified_env_name other_re envs k) = fst (qualified_env_name other_re envs k0) /\
                forall n k', qualified_env_name other_re envs k = (Ok n, k') -> qualified_env_name other_re envs k0 = (Ok n, k')).
    { destruct C as [->|(n & C)]; auto. pose proof (env_again _ _ _ _ _ C) as C'. rewrite C, C'. split; auto. }
    destruct F as (F & G). rewrite <- F. destruct (qualified_env_name other_re envs k) as [[n|e] k'] eqn:K; cbn [fst snd] in *.
    + split; auto. destruct J as [I1 I2 I3 I4 I5 I6]. constructor; cbn; auto.
      * intros s [= <-]. unfold q_parsed. rewrite Q. cbn [rbind]. auto.
      * intros k1 [= <-]. exists k0. split; auto. right. eauto.
    + split; auto. apply qualified_state in K. subst. destruct J as [I1 I2 I3 I4 I5 I6]. constructor; cbn; auto.
      intros k1 [= <-]. exists k0. auto.
Qed.
Lemma le_stripped_eq p : le_stripped other_re systems hostname envs p =
  match l_stripped p with
  | Some n => (Ok n, p)
  | None =>
      match le_ekp other_re systems hostname envs p with
      | (Err e, p1) => (Err e, p1)
      | (Ok k, p1) => (Ok (strip_words k (l_build p)),
                       LoadEnv (l_build p1) (l_force p1) (l_system p1) (l_parsed p1) (Some (strip_words k (l_build p))) (l_ekp p1))
      end
  end.
Proof.
  cbv [le_stripped bind get modify ret]. destruct (l_stripped p); auto.
  all: destruct (le_ekp other_re systems hostname envs p) as [[k|e] p1]; reflexivity.
Qed.
Lemma strip_same k k0 b : (k = k0 \/ exists n, qualified_env_name other_re envs k0 = (Ok n, k)) -> strip_words k b = strip_words k0 b.
Proof.
  intros [->|(n & H)]; auto. destruct k0 as [b0 s ns al [m|]].
  - injection H as H1 H2; subst. reflexivity.
  - rewrite qualified_eq in H by reflexivity. destruct (matched_env _ _ _); [|discriminate]. injection H as H1 H2; subst. reflexivity.
Qed.
Lemma i_stripped_ok b f p : linv b f p ->
  fst (le_stripped other_re systems hostname envs p) = q_stripped b f /\
  linv b f (snd (le_stripped other_re systems hostname envs p)).
Proof.
  intros I. rewrite le_stripped_eq. destruct (l_stripped p) as [n|] eqn:E.
  - split; auto. symmetry. now apply (i_stripped _ _ _ I).
  - unfold q_stripped. rewrite (i_build _ _ _ I).
    destruct (i_ekp_ok _ _ _ I) as [(k & k0 & A & Q & C & J)|(e & A & Q & J)];
      destruct (le_ekp other_re systems hostname envs p) as [r p1]; cbn [fst snd] in *; subst r; rewrite Q; cbn [rbind]; auto.
    rewrite (strip_same _ _ b C). split; auto.
    destruct J as [I1 I2 I3 I4 I5 I6]. constructor; cbn; auto.
    intros s [= <-]. unfold q_stripped. rewrite Q. reflexivity.
Qed.

Definition next_build (o : lop) (b : str) : str := match o with LName b' => b' | _ => b end.
Lemma lexec_ok b f p o : linv b f p ->
  fst (lexec other_re systems hostname envs o p) = q_ans b f o /\
  linv (next_build o b) f (snd (lexec other_re systems hostname envs o p)).
Proof.
  intros I. destruct o; cbn [lexec q_ans next_build].
  - now apply i_system_ok.
  - now apply i_parsed_ok.
  - now apply i_stripped_ok.
  - cbn. split; auto. constructor; cbn; try discriminate; auto. apply I.
Qed.
Lemma lafter_ok f h : forall b p, linv b f p -> linv (last_build h b) f (lafter other_re systems hostname envs h p).
Proof.
  induction h as [|o h IH]; intros b p I; cbn; auto.
  destruct (lexec_ok _ _ _ o I) as (_ & B). destruct o; apply IH; exact B.
Qed.
Lemma load_history b f h o :
  fst (lexec other_re systems hostname envs o (lafter other_re systems hostname envs h (new_loadenv b f)))
  = fst (lexec other_re systems hostname envs o (new_loadenv (last_build h b) f)).
Proof.
  rewrite (proj1 (lexec_ok _ _ _ o (lafter_ok f h b _ (linv_new b f)))).
  now rewrite (proj1 (lexec_ok _ _ _ o (linv_new (last_build h b) f))).
Qed.

(** ** The answers *)
Section Answers.
Variable build : str.
Variable force : bool.
Hypothesis D : NoDup (map fst systems).
Hypothesis R : readable_keys other_re systems hostname.

Lemma q_system_of s : q_system build force = Ok s <-> system_of other_re systems hostname build force (Ok (Some s)).
Proof.
  unfold q_system. rewrite <- (system_of_iff other_re systems hostname D R).
  destruct (fst (system_name other_re systems hostname (new_detsys build force))) as [[x|]|e]; cbn; split; intros H; congruence.
Qed.
Lemma system_never_none : ~ system_of other_re systems hostname build force (Ok None).
Proof. intros H. inversion H. destruct force; discriminate. Qed.
Lemma q_system_err e : q_system build force = Err e <-> system_of other_re systems hostname build force (Err e).
Proof.
  pose proof system_never_none as N. unfold q_system. rewrite <- (system_of_iff other_re systems hostname D R) in *.
  destruct (fst (system_name other_re systems hostname (new_detsys build force))) as [[x|]|e']; cbn; split; intros H; congruence.
Qed.
Lemma parsed_spec s E :
  system_of other_re systems hostname build force (Ok (Some s)) ->
  env_describes envs s E -> valid_envs E ->
  readable_names other_re (map fst E) build -> readable_names other_re (flat_map snd E) build ->
  forall r, (fst (lexec other_re systems hostname envs LParsed (new_loadenv build force)) = qualified s r <-> env_of other_re E build r).
Proof.
  intros S De V RN RA r. rewrite (proj1 (lexec_ok _ _ _ LParsed (linv_new _ _))). cbn [q_ans].
  unfold q_parsed, q_ekp. rewrite (proj2 (q_system_of s) S). cbn [rbind].
  destruct (env_made envs s E build De) as [(_ & k & K)|(N & _)]; [|exfalso; apply N, V].
  rewrite K. cbn [rbind]. now apply env_name_spec.
Qed.
Lemma kept_filter (f : str -> bool) (P : str -> Prop) l : (forall w, f w = true <-> P w) -> kept P l (filter f l).
Proof.
  intros H. induction l as [|x l IH]; cbn; [constructor|]. destruct (f x) eqn:E.
  - constructor; auto. now apply H.
  - constructor; auto. rewrite <- H. congruence.
Qed.
Lemma filter_filter {A} (f g : A -> bool) l : filter f (filter g l) = filter (fun x => g x && f x) l.
Proof.
  induction l as [|x l IH]; auto. cbn. destruct (g x); cbn; auto. destruct (f x); cbn; now rewrite IH.
Qed.
Lemma stripped_spec s E :
  system_of other_re systems hostname build force (Ok (Some s)) ->
  env_describes envs s E -> valid_envs E ->
  exists l, fst (lexec other_re systems hostname envs LStripped (new_loadenv build force)) = Ok (join [95%N] l) /\
    kept (other_word systems E) (words build) l.
Proof.
  intros S De V. rewrite (proj1 (lexec_ok _ _ _ LStripped (linv_new _ _))). cbn [q_ans].
  unfold q_stripped, q_ekp. rewrite (proj2 (q_system_of s) S). cbn [rbind].
  rewrite (new_ekp_eq build envs s E De), (proj2 (has_duplicates_NoDup _) (proj2 V)). cbn [rbind].
  eexists. split; [reflexivity|]. rewrite !filter_filter. apply kept_filter. intros w.
  cbn [e_names e_aliases]. rewrite !andb_true_iff, !negb_true_iff, <- !not_true_iff_false, !str_mem_In, !by_length_in, (sys_names_in other_re systems hostname).
  unfold other_word. tauto.
Qed.
End Answers.
End LoadEnv.
