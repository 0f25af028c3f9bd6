(** * The text of [unroll_to_str] read back. *)
From Coq Require Import String NArith ZArith Arith List Bool Lia.
Import ListNotations.
From Verif Require Import PyBase PyFacts Shlex IniView IniRead ExcControl Cpe SpecWalk SpecRun SpecParse SpecApi
  SpecRead SpecText SpecFile FileProofs SpecUnroll Refine WalkProofs ReadProofs3 ReadProofs5 ValueProofs.
Local Arguments is_space : simpl never.

Section Text.
Variable delims : list str.
Variable dn : str.
Hypothesis GD : good_delims delims.
Hypothesis CO : In [58%N] delims.
Variable delim : str.
Hypothesis DE : delim = $" : " \/ delim = $":".

Definition header (s : str) : str := 91%N :: s ++ [93%N].
Definition uline (kv : str * option str) : str :=
  strip_ws (fst kv ++ delim ++ match snd kv with Some s => s | None => [] end).
Definition block (sd : str * options) : list str := header (fst sd) :: map uline (snd sd).
Fixpoint ulines (l : list (str * options)) : list str :=
  match l with
  | [] => []
  | [sd] => block sd
  | sd :: l' => block sd ++ [] :: ulines l'
  end.

Lemma last_app (a s : str) : s <> [] -> match rev s with [] => True | c :: _ => is_space c = false end ->
  match rev (a ++ s) with [] => True | c :: _ => is_space c = false end.
Proof.
  intros NE H. rewrite rev_app_distr. destruct (rev s) as [|c r] eqn:R; [|exact H].
  apply (f_equal (@rev _)) in R. rewrite rev_involutive in R. cbn in R. congruence.
Qed.

(** One option. *)
Lemma plain_line kv : plain_option delims kv ->
  exists x b y, snd kv = Some x /\ forallb is_space b = true /\ strip_ws y = x /\
    uline kv = fst kv ++ b ++ 58%N :: y.
Proof.
  intros (x & E & (KN & (KH & KL) & _) & _ & _ & EX & _). unfold uline. rewrite E. exists x.
  assert (SX : strip_ws x = x) by now apply strip_edge.
  assert (T : exists b y, delim = b ++ 58%N :: y /\ forallb is_space b = true /\ forallb is_space y = true).
  { destruct DE as [-> | ->]; [exists $" ", $" "|exists [], []]; repeat split; reflexivity. }
  destruct T as (b & y & -> & B & Y). destruct (fst kv) as [|c k]; [congruence|].
  destruct x as [|d x].
  - exists b, []. split; auto. split; auto. split; [reflexivity|]. rewrite app_nil_r.
    unfold strip_ws, strip. cbn [app]. rewrite lstrip_fix by exact KH.
    change (c :: k ++ b ++ 58%N :: y) with ((c :: k) ++ b ++ 58%N :: y).
    rewrite app_assoc. rewrite rstrip_keep by reflexivity.
    rewrite <- app_assoc. repeat f_equal. unfold rstrip. rewrite lstrip_all by now rewrite forallb_rev. reflexivity.
  - exists b, (y ++ d :: x). split; auto. split; auto. split.
    + unfold strip_ws, strip. rewrite lstrip_blanks by auto. exact SX.
    + unfold strip_ws, strip. cbn [app]. rewrite lstrip_fix by exact KH.
      destruct EX as [EH EL]. rewrite rstrip_edge.
      * rewrite <- app_assoc. reflexivity.
      * pose proof (last_app ((c :: k) ++ (b ++ 58%N :: y)) (d :: x) ltac:(discriminate) EL) as Q.
        rewrite <- app_assoc in Q. exact Q.
Qed.

Lemma option_one kv : plain_option delims kv -> option_block delims kv [uline kv].
Proof.
  intros P. destruct (plain_line kv P) as (x & b & y & E & B & Y & U). destruct P as (x' & E' & PK & _).
  destruct kv as [k v]. cbn [fst snd] in *. subst v. injection E as ->.
  rewrite U. replace (Some x) with (Some (rstrip_ws (join newline [strip_ws y]))).
  - apply ob_value with (ts := []); auto; [now apply ol_value|constructor].
  - f_equal. cbn [join]. rewrite Y. unfold rstrip_ws. rewrite <- Y. unfold strip_ws, strip. now rewrite rstrip_idem.
Qed.

(** A blank line after an option. *)
Lemma more_app ls ts : more ls ts -> more (ls ++ [[]]) (ts ++ [[]]).
Proof.
  induction 1 as [|l ls ts C M IH|l ls ts B M IH|b x b' ls ts B1 B2 B3 N EX NC M IH]; cbn [app].
  - apply more_blank; [reflexivity|constructor].
  - now apply more_comment.
  - now apply more_blank.
  - now apply more_text.
Qed.
Lemma join_app_nil x ts : join newline (x :: ts ++ [[]]) = join newline (x :: ts) ++ newline.
Proof.
  revert x. induction ts as [|y ts IH]; intros x; cbn [app].
  - cbn [join]. now rewrite app_nil_r.
  - change (join newline (x :: y :: ts ++ [[]])) with (x ++ newline ++ join newline (y :: ts ++ [[]])).
    rewrite IH. change (join newline (x :: y :: ts)) with (x ++ newline ++ join newline (y :: ts)).
    now rewrite <- !app_assoc.
Qed.
Lemma option_blank kv ls : option_block delims kv ls -> option_block delims kv (ls ++ [[]]).
Proof.
  intros H. inversion H as [k l ls' PK OL F|k x l ls' ts PK OL M]; subst; cbn [app].
  - apply ob_none; auto. apply Forall_app. split; auto. constructor; [left; reflexivity|constructor].
  - replace (rstrip_ws (join newline (strip_ws x :: ts))) with (rstrip_ws (join newline (strip_ws x :: ts ++ [[]]))).
    + apply ob_value; auto. now apply more_app.
    + rewrite join_app_nil. unfold rstrip_ws. now rewrite rstrip_blanks.
Qed.

Lemma options_lines d : Forall (plain_option delims) d -> options_block delims d (map uline d).
Proof.
  induction 1 as [|kv d P F IH]; [constructor|]. cbn [map]. change (uline kv :: map uline d) with ([uline kv] ++ map uline d).
  constructor; auto. now apply option_one.
Qed.
Lemma options_lines_blank d : Forall (plain_option delims) d -> d <> [] -> options_block delims d (map uline d ++ [[]]).
Proof.
  induction 1 as [|kv d P F IH]; [congruence|]. intros _. cbn [map]. destruct d as [|kv' d].
  - cbn [map app]. change ([uline kv; []]) with ([uline kv] ++ [[]]). rewrite <- (app_nil_r ([uline kv] ++ [[]])).
    constructor; [|constructor]. apply option_blank. now apply option_one.
  - change ((uline kv :: map uline (kv' :: d)) ++ [[]]) with ([uline kv] ++ (map uline (kv' :: d) ++ [[]])).
    constructor; [now apply option_one|]. apply IH. discriminate.
Qed.

Lemma header_ok s : s <> [] -> header_line s (header s).
Proof. intros N. split; auto. exists []. auto. Qed.

Lemma ulines_block l : Forall (plain_section delims) l -> sections_block delims l (ulines l).
Proof.
  induction 1 as [|sd l (SN & _ & PO) F IH]; [constructor|]. destruct sd as [s d]. cbn [fst snd] in *.
  destruct l as [|sd' l].
  - cbn [ulines]. unfold block. cbn [fst snd].
    replace (map uline d) with ([] ++ map uline d ++ []) by now rewrite app_nil_r.
    apply sb_cons; auto using header_ok, options_lines.
  - change (ulines ((s, d) :: sd' :: l)) with (block (s, d) ++ [] :: ulines (sd' :: l)). unfold block. cbn [fst snd app].
    destruct d as [|kv d].
    + cbn [map app]. change ([] :: ulines (sd' :: l)) with ([[]] ++ [] ++ ulines (sd' :: l)).
      apply sb_cons; auto using header_ok; [|constructor]. constructor; [left; reflexivity|constructor].
    + replace (map uline (kv :: d) ++ [] :: ulines (sd' :: l)) with ([] ++ (map uline (kv :: d) ++ [[]]) ++ ulines (sd' :: l)).
      * apply sb_cons; auto using header_ok. apply options_lines_blank; auto. discriminate.
      * cbn [app]. now rewrite <- app_assoc.
Qed.

(** The text and its lines. *)
Lemma text_of_app a b : text_of (a ++ b) = text_of a ++ text_of b.
Proof. apply flat_map_app. Qed.
Lemma section_text sd : unrolled_section delim (fst sd) (snd sd) = text_of (block sd).
Proof.
  destruct sd as [s d]. unfold unrolled_section, block, header. cbn [fst snd].
  assert (X : flat_map (unrolled_option delim) d = text_of (map uline d)).
  { induction d as [|kv d IH]; [reflexivity|]. cbn [map flat_map]. rewrite IH. reflexivity. }
  rewrite X. unfold text_of at 2. cbn [flat_map]. cbn [app]. f_equal. rewrite <- !app_assoc. reflexivity.
Qed.
Lemma unrolled_text l : l <> [] -> unrolled delim l = text_of (ulines l) ++ newline.
Proof.
  induction l as [|sd l IH]; [congruence|]. intros _. unfold unrolled in *. cbn [flat_map]. rewrite section_text.
  destruct l as [|sd' l].
  - cbn [flat_map ulines]. now rewrite app_nil_r.
  - rewrite IH by discriminate. change (ulines (sd :: sd' :: l)) with (block sd ++ [[]] ++ ulines (sd' :: l)).
    rewrite !text_of_app. rewrite <- !app_assoc. reflexivity.
Qed.

Definition solid (l : str) : Prop := exists c r, rev l = c :: r /\ is_space c = false.
Lemma block_solid sd : plain_section delims sd -> Forall solid (block sd).
Proof.
  intros (_ & _ & PO). constructor.
  - exists 93%N, (rev (91%N :: fst sd)). split; [|reflexivity]. unfold header.
    change (91%N :: fst sd ++ [93%N]) with ((91%N :: fst sd) ++ [93%N]). now rewrite rev_app_distr.
  - apply Forall_forall. intros x I. apply in_map_iff in I as (kv & <- & I). rewrite Forall_forall in PO. specialize (PO _ I).
    destruct (plain_line kv PO) as (v & b & y & _ & _ & _ & U). pose proof (strip_last is_space (fst kv ++ delim ++
      match snd kv with Some s => s | None => [] end)) as SL. fold (strip_ws (fst kv ++ delim ++
      match snd kv with Some s => s | None => [] end)) in SL. fold (uline kv) in SL. unfold solid.
    destruct (rev (uline kv)) as [|c r] eqn:R; [|eauto]. apply (f_equal (@rev _)) in R. rewrite rev_involutive in R.
    rewrite R in U. destruct (fst kv); [destruct b; discriminate|discriminate].
Qed.
Lemma solid_last l : l <> [] -> Forall (plain_section delims) l -> exists ls x, ulines l = ls ++ [x] /\ solid x.
Proof.
  intros NE F. induction F as [|sd l P F IH]; [congruence|]. destruct l as [|sd' l].
  - cbn [ulines]. pose proof (block_solid sd P) as B. destruct (block sd) as [|y r] eqn:E using rev_ind; [discriminate E|].
    clear IHr. exists r, y. split; auto. apply Forall_app in B as [_ B]. now inversion B.
  - destruct IH as (ls & x & E & S); [discriminate|]. exists (block sd ++ [] :: ls), x. split; auto.
    change (ulines (sd :: sd' :: l)) with (block sd ++ [] :: ulines (sd' :: l)). rewrite E. now rewrite <- app_assoc.
Qed.
Lemma text_last ls x : text_of (ls ++ [x]) = (text_of ls ++ x) ++ newline.
Proof. rewrite text_of_app, <- app_assoc. cbn [text_of flat_map]. now rewrite app_nil_r. Qed.

Lemma strip_solid ls x e : ls = [] /\ (exists y, x = 91%N :: y) \/ (exists y ls', ls = (91%N :: y) :: ls') -> solid x ->
  forallb is_space e = true ->
  strip_ws (text_of (ls ++ [x]) ++ e) ++ newline = text_of (ls ++ [x]).
Proof.
  intros HD (c & r & R & C) E. rewrite text_last. f_equal. apply trimmed_iff. exists [], (newline ++ e).
  split; [now rewrite <- app_assoc|]. split; [constructor|]. split.
  { apply Forall_impl with (P := fun c => is_space c = true); [intros y Y; now apply space_iff|].
    apply Forall_app. split; [repeat constructor|now apply forallb_Forall]. }
  assert (H : exists z, text_of ls ++ x = 91%N :: z).
  { destruct HD as [[-> (y & ->)]|(y & ls' & ->)]; [eexists; reflexivity|]. cbn [text_of flat_map app]. eexists. reflexivity. }
  split.
  - destruct H as [z ->]. intros X. apply space_iff in X. discriminate.
  - rewrite rev_app_distr, R. intros X. apply space_iff in X. congruence.
Qed.

Lemma ulines_head l : l <> [] -> exists y ls, ulines l = (91%N :: y) :: ls.
Proof.
  destruct l as [|sd l]; [congruence|]. intros _.
  destruct l; unfold ulines, block, header; cbn [app]; do 2 eexists; reflexivity.
Qed.

Lemma no_newline_app a b : no_newline a -> no_newline b -> no_newline (a ++ b).
Proof. intros [A1 A2] [B1 B2]. split; intros X; apply in_app_or in X; tauto. Qed.
Lemma no_newline_strip s : no_newline s -> no_newline (strip_ws s).
Proof.
  intros [A B]. destruct (strip_decomp is_space s) as (a & b & E & _). fold (strip_ws s) in E.
  split; intros X; [apply A|apply B]; rewrite E; apply in_or_app; right; apply in_or_app; now left.
Qed.
Lemma uline_no_newline kv : plain_option delims kv -> no_newline (uline kv).
Proof.
  intros (x & E & _ & NK & NX & _). unfold uline. rewrite E. apply no_newline_strip. apply no_newline_app; auto.
  apply no_newline_app; auto. destruct DE as [-> | ->]; split; vm_compute; intuition discriminate.
Qed.
Lemma block_no_newline sd : plain_section delims sd -> Forall no_newline (block sd).
Proof.
  intros (_ & NS & PO). constructor.
  - unfold header. change (91%N :: fst sd ++ [93%N]) with ([91%N] ++ fst sd ++ [93%N]).
    apply no_newline_app; [split; vm_compute; intuition discriminate|]. apply no_newline_app; auto.
    split; vm_compute; intuition discriminate.
  - apply Forall_forall. intros x I. apply in_map_iff in I as (kv & <- & I). rewrite Forall_forall in PO.
    now apply uline_no_newline, PO.
Qed.
Lemma ulines_no_newline l : Forall (plain_section delims) l -> Forall no_newline (ulines l).
Proof.
  induction 1 as [|sd l P F IH]; [constructor|]. destruct l as [|sd' l].
  - now apply block_no_newline.
  - change (ulines (sd :: sd' :: l)) with (block sd ++ [] :: ulines (sd' :: l)). apply Forall_app. split; [now apply block_no_newline|].
    constructor; auto. split; intros [].
Qed.

Lemma stripped_text l : l <> [] -> Forall (plain_section delims) l -> forall e, forallb is_space e = true ->
  strip_ws (text_of (ulines l) ++ e) ++ newline = text_of (ulines l).
Proof.
  intros NE F e E. destruct (solid_last l NE F) as (ls & x & UL & S). destruct (ulines_head l NE) as (y & ls' & UH).
  rewrite UL in UH |- *. apply strip_solid; auto. destruct ls as [|z ls].
  - left. split; auto. inversion UH. eauto.
  - right. inversion UH. eauto.
Qed.

Theorem unrolled_reads l : Forall (plain_section delims) l -> NoDup (dkeys l) ->
  Forall (fun so => NoDup (dkeys (snd so))) l -> ~ In dn (dkeys l) ->
  read_file delims (strip_ws (unrolled delim l) ++ newline) (empty_ini dn) = (Ok tt, Ini l [] dn).
Proof.
  intros F N1 N2 ND. destruct l as [|sd l'].
  - apply layout_read with (ls := [[]]); auto.
    + apply lines_iff. reflexivity.
    + exists [[]], []. split; auto. split; [constructor; [left; reflexivity|constructor]|constructor].
  - set (l := sd :: l') in *. assert (NE : l <> []) by discriminate.
    rewrite (unrolled_text l NE), (stripped_text l NE F newline eq_refl).
    apply layout_read with (ls := ulines l); auto.
    + apply lines_text_of. now apply ulines_no_newline.
    + exists [], (ulines l). split; auto. split; [constructor|]. now apply ulines_block.
Qed.

Theorem unrolled_section_reads s d : plain_section delims (s, d) -> NoDup (dkeys d) -> s <> dn ->
  read_file delims (strip_ws (unrolled_section delim s d) ++ newline) (empty_ini dn) = (Ok tt, Ini [(s, d)] [] dn).
Proof.
  intros P ND NE. change (unrolled_section delim s d) with (unrolled_section delim (fst (s, d)) (snd (s, d))).
  rewrite section_text. change (block (s, d)) with (ulines [(s, d)]).
  assert (F : Forall (plain_section delims) [(s, d)]) by (constructor; [auto|constructor]).
  rewrite <- (app_nil_r (text_of (ulines [(s, d)]))).
  rewrite (stripped_text [(s, d)] ltac:(discriminate) F [] eq_refl).
  apply layout_read with (ls := ulines [(s, d)]); auto.
  - apply lines_text_of. now apply ulines_no_newline.
  - exists [], (ulines [(s, d)]). split; auto. split; [constructor|]. now apply ulines_block.
  - constructor; [intros []|constructor].
  - intros [X|[]]. now apply NE.
Qed.
End Text.
