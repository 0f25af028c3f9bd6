(** * Files of flags with a defect. *)
From Coq Require Import String NArith List Bool Arith Lia Sorted Permutation.
Import ListNotations.
From Verif Require Import PyBase PyFacts EnvVar EnvProofs Regex Keyword SpecKeyword KeywordText RegexProofs KeywordProofs SpecFlags FlagsProofs FlagsProofs2.
Local Open Scope sm_scope.

Lemma typed_check t : str_mem t [$"SELECT_ONE"; $"SELECT_MANY"] = true <-> t = select_one \/ t = select_many.
Proof. rewrite str_mem_In. split; [intros [<-|[<-|[]]]; auto|intros [->| ->]; [now left|right; now left]]. Qed.

Theorem flags_untyped conf build p d pre f post :
  new_ckp conf build = Ok p -> conf $"configure-flags" = Ok d -> dkeys d = pre ++ f :: post ->
  (forall g, In g pre -> exists t opts, get_values conf $"configure-flags" g = Ok (t :: opts) /\ (t = select_one \/ t = select_many)) ->
  (forall e, get_values conf $"configure-flags" f = Err e -> fst (selected_options conf p) = Err e) /\
  (get_values conf $"configure-flags" f = Ok [] -> fst (selected_options conf p) = Err IndexError) /\
  (forall t opts, get_values conf $"configure-flags" f = Ok (t :: opts) -> t <> select_one -> t <> select_many ->
     fst (selected_options conf p) = Err ValueError).
Proof.
  intros N D K PRE. apply new_inv in N as (d' & D' & KI). unfold flags_section in D'. rewrite D in D'. injection D' as <-.
  rewrite (proj1 (k_selected _ _ _ _ KI)), K.
  assert (E : forall e, flag_options conf f = Err e -> p_sel conf (pre ++ f :: post) build = Err e).
  { intros e FE. unfold p_sel. enough (X : all_options conf (pre ++ f :: post) = Err e) by (rewrite X; reflexivity).
    clear K. induction pre as [|g pre IH]; cbn [app all_options].
    - rewrite FE. reflexivity.
    - destruct (PRE g (or_introl eq_refl)) as (t & opts & G & TY). unfold flag_options at 1. unfold flags_section. rewrite G. cbn [rbind].
      rewrite (proj2 (typed_check t) TY). cbn [rbind]. rewrite IH by (intros; apply PRE; now right). reflexivity. }
  split; [|split].
  - intros e G. apply E. unfold flag_options, flags_section. now rewrite G.
  - intros G. apply E. unfold flag_options, flags_section. now rewrite G.
  - intros t opts G A B. apply E. unfold flag_options, flags_section. rewrite G. cbn [rbind].
    destruct (str_mem t _) eqn:X; [apply typed_check in X; tauto|reflexivity].
Qed.

Theorem flags_empty conf T : describes conf T -> forall build p T1 f many T2, new_ckp conf build = Ok p ->
  T = T1 ++ (f, (many, [])) :: T2 -> NoDup (flat_map options_of T) -> (forall r, In r T1 -> options_of r <> []) ->
  (~ conflict build T1 -> fst (selected_options conf p) = Err IndexError) /\
  (conflict build T1 -> fst (selected_options conf p) = Err ValueError).
Proof.
  intros HD build p T1 f many T2 N ET ND NE. rewrite (proj1 (table_sel conf T HD _ _ N)). unfold p_sel.
  rewrite (all_options_spec conf T HD T (incl_refl T)). cbn [rbind]. rewrite (proj2 (has_duplicates_NoDup _) ND).
  assert (R : forall T0 acc, incl T0 T1 -> (forall r, In r T0 -> NoDup (options_of r)) ->
    (~ conflict build T0 -> select_all conf (words build) (map fst T0 ++ f :: map fst T2) acc = Err IndexError) /\
    (conflict build T0 -> select_all conf (words build) (map fst T0 ++ f :: map fst T2) acc = Err ValueError)).
  { induction T0 as [|[g [m opts]] T0 IH]; intros acc Inc NR; cbn [map fst app select_all].
    - split; [|intros (a & b & x & y & [] & _)]. intros _. unfold select. rewrite (flag_options_row conf T HD f many []) by (rewrite ET; apply in_app_iff; right; now left).
      cbn [rbind filter length Nat.ltb]. rewrite !andb_false_r. reflexivity.
    - assert (I : In (g, (m, opts)) T1) by (apply Inc; now left).
      assert (IT : In (g, (m, opts)) T) by (rewrite ET; apply in_app_iff; now left).
      destruct (select_spec conf T HD build g m opts IT) as [(s & E & _ & NC)|(E & -> & x & y & Q)].
      + exact (NE _ I).
      + exact (NR _ (or_introl eq_refl)).
      + rewrite E. cbn [rbind]. destruct (IH (dset g s acc) (fun r J => Inc r (or_intror J)) (fun r J => NR r (or_intror J))) as [A B]. split.
        * intros C. apply A. intros (a & b & x & y & J & L). apply C. exists a, b, x, y. split; [now right|exact L].
        * intros (a & b & x & y & [J|J] & L); [|apply B; exists a, b, x, y; auto]. exfalso. inversion J; subst. apply NC. split; auto. exists x, y. tauto.
      + rewrite E. split; [|reflexivity]. intros C. exfalso. apply C. exists g, opts, x, y. split; [now left|tauto]. }
  assert (MT : map fst T = map fst T1 ++ f :: map fst T2) by (rewrite ET, map_app; reflexivity). rewrite MT.
  apply (R T1 []); [apply incl_refl|]. intros r I. rewrite ET, flat_map_app in ND. apply NoDup_app_inv in ND as (ND & _).
  clear - I ND. induction T1 as [|r' T1 IH]; [destruct I|]. cbn [flat_map] in ND. apply NoDup_app_inv in ND as (A & B & _). destruct I as [<-|I]; auto.
Qed.
