(** * Proofs about command lines: whole lines. *)
From Coq Require Import String NArith List Bool Arith Lia.
Import ListNotations.
From Verif Require Import PyBase PyFacts SpecText ArgParse SpecArgs ArgProofs.

Lemma obind_done {A B} (x : outcome A) (f : A -> outcome B) a : x = Done a -> obind x f = f a.
Proof. now intros ->. Qed.
Lemma obind_assoc {A B C} (x : outcome A) (f : A -> outcome B) (g : B -> outcome C) : obind (obind x f) g = obind x (fun a => obind (f a) g).
Proof. now destruct x. Qed.
Lemma takes_value_iff o : takes_value o = true <-> takes o.
Proof. unfold takes_value, takes. destruct (o_kind o); split; congruence. Qed.
Lemma takes_value_not o : takes_value o = false <-> ~ takes o.
Proof. rewrite <- takes_value_iff. destruct (takes_value o); split; congruence. Qed.

(** Actions as events. *)
Definition said (l : list (opt * option str)) : list event := map (fun p => EOption (fst p) (snd p)) l.

Section Whole.
Variable uni_digit : pychar -> bool.
Variable resolve : str -> str.
Variable t : list opt.
Variable positional : str.
Notation is_digit := (fun c => digit uni_digit c = true).
Notation parse_optional := (parse_optional uni_digit t).
Notation long_word := (long_word t).
Notation letters := (letters t).
Notation plain := (plain is_digit t).
Notation reading := (reading is_digit t).
Notation consume_optional := (consume_optional resolve t).
Notation take_actions := (take_actions resolve).
Notation classify := (classify uni_digit t).
Notation parse_loop := (parse_loop resolve t positional).
Hypothesis G : good_table is_digit t.
Hypothesis P : ~ In positional (map o_dest t).

(** ** Letters *)
Definition finish (x : list (opt * option str) * list str * option opt) : list (opt * option str) * list str * option opt :=
  match snd x with
  | Some o => if takes_value o then x else (fst (fst x) ++ [(o, None)], snd (fst x), None)
  | None => x
  end.
Definition run_raw (o : opt) (c : pychar) (r : str) : outcome (list (opt * option str) * list str * option opt) :=
  match r with
  | [] => Done ([], [], Some o)
  | d :: v => if N.eqb d 61 then explicit_loop t o [45%N; c] $"=" v else explicit_loop t o [45%N; c] [] r
  end.
Definition run (o : opt) (c : pychar) (r : str) := obind (run_raw o c r) (fun x => Done (finish x)).
Lemma explicit_takes o os sep e : takes o -> explicit_loop t o os sep e = Done ([(o, Some e)], [], None).
Proof. intros T. apply takes_value_iff in T. destruct e; cbn [explicit_loop]; now rewrite T. Qed.
Lemma explicit_flag o x sep (c : pychar) (r : str) : ~ takes o -> x <> 45%N -> explicit_loop t o [45%N; x] sep (c :: r) =
  if negb (str_eqb sep []) || N.eqb c 45 then Exit 2 else
  match dget [45%N; c] (option_strings t) with
  | Some o' => obind (run_raw o' c r) (fun x => Done ((o, None) :: fst (fst x), snd (fst x), snd x))
  | None => Done ([(o, None)], [45%N :: c :: r], None)
  end.
Proof.
  intros T X. apply takes_value_not in T. cbn [explicit_loop nth]. rewrite T. rewrite (proj2 (N.eqb_neq _ _) X). reflexivity.
Qed.
Lemma run_nil o c : run o c [] = if takes_value o then Done ([], [], Some o) else Done ([(o, None)], [], None).
Proof. unfold run, run_raw. cbn [obind]. unfold finish. cbn [snd fst app]. now destruct (takes_value o). Qed.
Lemma run_equals o c v : takes o -> run o c (61%N :: v) = Done ([(o, Some v)], [], None).
Proof. intros T. unfold run, run_raw. cbn [N.eqb Pos.eqb]. now rewrite (explicit_takes _ _ _ _ T). Qed.
Lemma run_value o c (d : pychar) (r : str) : takes o -> d <> 61%N -> run o c (d :: r) = Done ([(o, Some (d :: r))], [], None).
Proof. intros T D. unfold run, run_raw. rewrite (proj2 (N.eqb_neq _ _) D). now rewrite (explicit_takes _ _ _ _ T). Qed.
Lemma run_flag_equals o c v : ~ takes o -> c <> 45%N -> run o c (61%N :: v) = Exit 2.
Proof.
  intros T C. unfold run, run_raw. cbn [N.eqb Pos.eqb]. destruct v as [|d v].
  - cbn [explicit_loop]. apply takes_value_not in T. now rewrite T.
  - now rewrite (explicit_flag _ _ _ _ _ T C).
Qed.
Lemma finish_cons p l m q : finish (p :: l, m, q) = (p :: fst (fst (finish (l, m, q))), snd (fst (finish (l, m, q))), snd (finish (l, m, q))).
Proof. unfold finish. cbn [fst snd]. destruct q as [o|]; [|reflexivity]. now destruct (takes_value o). Qed.
Lemma run_flags o c (d : pychar) (r : str) : ~ takes o -> c <> 45%N -> d <> 61%N -> run o c (d :: r) =
  if N.eqb d 45 then Exit 2 else
  match dget [45%N; d] (option_strings t) with
  | Some o' => obind (run o' d r) (fun x => Done ((o, None) :: fst (fst x), snd (fst x), snd x))
  | None => Done ([(o, None)], [45%N :: d :: r], None)
  end.
Proof.
  intros T C D. unfold run at 1, run_raw at 1. rewrite (proj2 (N.eqb_neq _ _) D), (explicit_flag _ _ _ _ _ T C). cbn [str_eqb negb orb].
  change (str_eqb [] []) with true. cbn [negb orb].
  destruct (N.eqb d 45); [reflexivity|]. destruct (dget [45%N; d] (option_strings t)) as [o'|]; [|reflexivity].
  unfold run. rewrite !obind_assoc. destruct (run_raw o' d r) as [((l & m) & q)| |]; [|reflexivity..]. cbn [obind fst snd].
  now rewrite finish_cons.
Qed.
Lemma letter_not_dash (c : pychar) o : spelling t [45%N; c] o -> c <> 45%N.
Proof. intros S. apply (short_letter uni_digit t G) in S. intros ->. apply S. now left. Qed.
Lemma letter_not_equals (c : pychar) o : spelling t [45%N; c] o -> c <> 61%N.
Proof. intros S. apply (short_letter uni_digit t G) in S. intros ->. apply S. right. right. now left. Qed.
Lemma letters_run w evs p : letters w evs p -> exists c r o l, w = c :: r /\ spelling t [45%N; c] o /\ evs = said l /\ run o c r = Done (l, [], p).
Proof.
  induction 1 as [c o S T|c o d r evs p S T D L IH|c o v S T|c o d r S T D|c o S T].
  - exists c, [], o, [(o, None)]. rewrite run_nil. apply takes_value_not in T. rewrite T. auto.
  - destruct IH as (c' & r' & o' & l & [= <- <-] & S' & -> & R). exists c, (d :: r), o, ((o, None) :: l).
    split; [reflexivity|]. split; [exact S|]. split; [reflexivity|].
    rewrite run_flags; [|exact T|now apply letter_not_dash in S|intros ->; apply D; right; now left].
    destruct (N.eqb_spec d 45) as [->|_]; [exfalso; apply D; now left|].
    rewrite (proj2 (dget_strings uni_digit t G _ _) S'), R. reflexivity.
  - exists c, (61%N :: v), o, [(o, Some v)]. rewrite (run_equals _ _ _ T). auto.
  - exists c, (d :: r), o, [(o, Some (d :: r))]. rewrite (run_value _ _ _ _ T D). auto.
  - exists c, [], o, []. rewrite run_nil. apply takes_value_iff in T. rewrite T. auto.
Qed.
Notation asks_letter := (asks_letter t).
Definition sound_action (q : opt * option str) : Prop := In (fst q) t /\ (takes (fst q) <-> snd q <> None).
Lemma run_inv : forall n c r o, length r < n -> spelling t [45%N; c] o ->
  run o c r = Exit 2 \/ exists l m p, run o c r = Done (l, m, p) /\ Forall sound_action l /\
    (forall o', p = Some o' -> In o' t /\ takes o') /\
    (m = [] -> letters (c :: r) (said l) p) /\ (forall o' v, In (o', v) l -> ~ takes o' -> asks_letter (c :: r) o').
Proof.
  induction n as [|n IH]; intros c r o L S; [lia|].
  assert (I : In o t) by apply S.
  assert (A0 : asks_letter (c :: r) o) by (exists [], c, r; repeat split; auto; apply S).
  destruct (takes_value o) eqn:TV.
  - assert (T := proj1 (takes_value_iff _) TV). destruct r as [|d r].
    + right. exists [], [], (Some o). rewrite run_nil, TV. split; [reflexivity|]. split; [constructor|]. split; [intros o' [= <-]; auto|].
      split; [|intros o' v []]. intros _. now constructor.
    + right. destruct (N.eq_dec d 61) as [->|D].
      * exists [(o, Some r)], [], None. rewrite (run_equals _ _ _ T). split; [reflexivity|].
        split; [constructor; [|constructor]; split; [exact I|]; cbn; split; [discriminate|auto]|].
        split; [discriminate|]. split; [intros _; now constructor|]. intros o' v [[= <- <-]|[]] NT. now elim NT.
      * exists [(o, Some (d :: r))], [], None. rewrite (run_value _ _ _ _ T D). split; [reflexivity|].
        split; [constructor; [|constructor]; split; [exact I|]; cbn; split; [discriminate|auto]|].
        split; [discriminate|]. split; [intros _; now constructor|]. intros o' v [[= <- <-]|[]] NT. now elim NT.
  - assert (T := proj1 (takes_value_not _) TV).
    assert (Q : sound_action (o, None)) by (split; [exact I|]; cbn; split; [intros X; now elim T|congruence]).
    destruct r as [|d r].
    + right. exists [(o, None)], [], None. rewrite run_nil, TV. split; [reflexivity|]. split; [constructor; [exact Q|constructor]|].
      split; [discriminate|]. split; [intros _; now constructor|]. intros o' v [[= <- <-]|[]] _. exact A0.
    + destruct (N.eq_dec d 61) as [->|D].
      { left. apply run_flag_equals; [exact T|now apply letter_not_dash in S]. }
      rewrite run_flags; [|exact T|now apply letter_not_dash in S|exact D].
      destruct (N.eqb_spec d 45) as [->|D']; [now left|].
      destruct (dget [45%N; d] (option_strings t)) as [o'|] eqn:DG.
      * apply (dget_strings uni_digit t G) in DG. cbn [length] in L. destruct (IH d r o' ltac:(lia) DG) as [->|(l & m & p & -> & F & PP & LL & AA)]; [now left|].
        right. cbn [obind fst snd]. exists ((o, None) :: l), m, p. split; [reflexivity|]. split; [now constructor|]. split; [exact PP|]. split.
        -- intros ->. cbn [said map fst snd]. constructor; [exact S|exact T|intros [X|[X|[]]]; congruence|now apply LL].
        -- intros o1 v [[= <- <-]|J] NT; [exact A0|]. destruct (AA _ _ J NT) as (a & x & b & E & S1 & FA). exists (c :: a), x, b.
           split; [cbn [app]; now f_equal|]. split; [exact S1|]. constructor; [now exists o|exact FA].
      * right. exists [(o, None)], [45%N :: d :: r], None. split; [reflexivity|]. split; [constructor; [exact Q|constructor]|].
        split; [discriminate|]. split; [discriminate|]. intros o' v [[= <- <-]|[]] _. exact A0.
Qed.

(** ** Option words *)
Inductive opt_word : str -> list event -> option opt -> Prop :=
| ow_flag w o : long_word w o None -> ~ takes o -> opt_word w [EOption o None] None
| ow_value w o v : long_word w o (Some v) -> takes o -> opt_word w [EOption o (Some v)] None
| ow_open w o : long_word w o None -> takes o -> opt_word w [] (Some o)
| ow_letters r evs p : letters r evs p -> opt_word (45%N :: r) evs p.
Definition after (x : list (opt * option str) * list str * option opt) (rest : list (str * cls)) (extras : list str) (ns : namespace) :
    outcome (list (str * cls) * list str * namespace) :=
  let '(l, more, p) := x in
  match p with
  | None => obind (take_actions l ns) (fun ns => Done (rest, extras ++ more, ns))
  | Some o => match rest with
              | (v, CA) :: rest => obind (take_actions (l ++ [(o, Some v)]) ns) (fun ns => Done (rest, extras ++ more, ns))
              | _ => Exit 2%N
              end
  end.
Lemma consume_short w o c r rest extras ns : consume_optional w (tuple_short o c r) rest extras ns = obind (run o c r) (fun x => after x rest extras ns).
Proof.
  unfold run. rewrite obind_assoc. cbn [obind].
  assert (E : forall x, (let '(l, more, last) := x in
      match last with
      | None => obind (take_actions l ns) (fun ns => Done (rest, extras ++ more, ns))
      | Some o =>
          if takes_value o then
            match rest with
            | (v, CA) :: rest => obind (take_actions (l ++ [(o, Some v)]) ns) (fun ns => Done (rest, extras ++ more, ns))
            | _ => Exit 2%N
            end
          else obind (take_actions (l ++ [(o, None)]) ns) (fun ns => Done (rest, extras ++ more, ns))
      end) = after (finish x) rest extras ns).
  { intros ((l & m) & q). unfold finish. cbn [snd fst]. destruct q as [q|]; [|reflexivity]. destruct (takes_value q) eqn:T; [|reflexivity]. reflexivity. }
  unfold tuple_short, run_raw, ArgParse.consume_optional. destruct r as [|d v].
  - cbn [obind]. exact (E ([], [], Some o)).
  - destruct (N.eqb d 61).
    + destruct (explicit_loop t o [45%N; c] $"=" v) as [x| |]; [exact (E x)|reflexivity..].
    + destruct (explicit_loop t o [45%N; c] [] (d :: v)) as [x| |]; [exact (E x)|reflexivity..].
Qed.
Lemma consume_long w o s sep e rest extras ns : nth 1 s 0%N = 45%N ->
  consume_optional w (Some o, s, sep, e) rest extras ns =
  match e with
  | None => if takes_value o then after ([], [], Some o) rest extras ns else after ([(o, None)], [], None) rest extras ns
  | Some v => if takes_value o then after ([(o, Some v)], [], None) rest extras ns else Exit 2
  end.
Proof.
  intros S. unfold ArgParse.consume_optional. destruct e as [v|].
  - destruct (takes_value o) eqn:T.
    + rewrite explicit_takes by now apply takes_value_iff. reflexivity.
    + destruct v as [|c v]; cbn [explicit_loop]; rewrite T; [reflexivity|].
      assert (S' : N.eqb (@nth pychar 1 s 0%N) 45 = true) by (apply N.eqb_eq; exact S). rewrite S'. reflexivity.
  - cbn [obind]. destruct (takes_value o); reflexivity.
Qed.
Lemma word_says w evs p : opt_word w evs p -> w <> [45; 45]%N /\ exists l tp, evs = said l /\ parse_optional w = Done (Some tp) /\
  forall rest extras ns, consume_optional w tp rest extras ns = after (l, [], p) rest extras ns.
Proof.
  intros [w' o L T|w' o v L T|w' o L T|r evs' p' L].
  - destruct (parse_long uni_digit t G _ _ _ L) as (D & s & sep & E & S). split; [exact D|]. exists [(o, None)]. eexists.
    split; [reflexivity|]. split; [exact E|]. intros. rewrite (consume_long _ _ _ _ _ _ _ _ S). apply takes_value_not in T. now rewrite T.
  - destruct (parse_long uni_digit t G _ _ _ L) as (D & s & sep & E & S). split; [exact D|]. exists [(o, Some v)]. eexists.
    split; [reflexivity|]. split; [exact E|]. intros. rewrite (consume_long _ _ _ _ _ _ _ _ S). apply takes_value_iff in T. now rewrite T.
  - destruct (parse_long uni_digit t G _ _ _ L) as (D & s & sep & E & S). split; [exact D|]. exists []. eexists.
    split; [reflexivity|]. split; [exact E|]. intros. rewrite (consume_long _ _ _ _ _ _ _ _ S). apply takes_value_iff in T. now rewrite T.
  - destruct (letters_run _ _ _ L) as (c & r' & o & l & -> & S & -> & R). split; [intros [= -> _]; now apply letter_not_dash in S|].
    exists l. eexists. split; [reflexivity|]. split; [apply (parse_short uni_digit t G _ _ _ S)|]. intros. rewrite consume_short, R. reflexivity.
Qed.
Notation asks_help := (asks_help t).
Lemma word_step w tp : w <> [45; 45]%N -> parse_optional w = Done (Some tp) ->
  (forall rest extras ns, consume_optional w tp rest extras ns = Exit 2) \/
  (forall rest extras ns, consume_optional w tp rest extras ns = Done (rest, extras ++ [w], ns)) \/
  exists l m p, (forall rest extras ns, consume_optional w tp rest extras ns = after (l, m, p) rest extras ns) /\ Forall sound_action l /\
    (forall o', p = Some o' -> In o' t /\ takes o') /\ (m = [] -> opt_word w (said l) p) /\
    (forall o' v, In (o', v) l -> o_kind o' = KHelp -> asks_help w).
Proof.
  intros D E. destruct (word_cases uni_digit t G w D) as [(_ & E2)|[(o & s & sep & e & L & S & E2)|[(o & c & r & -> & S & E2)|[(_ & E2)|E2]]]]; rewrite E in E2.
  - discriminate.
  - injection E2 as ->. assert (I : In o t) by (destruct L as [? ? ? ? ? [X|(_ & _ & _ & ? & _ & X & _)]|? ? ? ? ? [X|(_ & _ & _ & ? & _ & X & _)]]; apply X).
    destruct (takes_value o) eqn:T.
    + assert (T' := proj1 (takes_value_iff _) T). right. right. destruct e as [v|].
      * exists [(o, Some v)], [], None. split; [intros; rewrite (consume_long _ _ _ _ _ _ _ _ S), T; reflexivity|].
        split; [constructor; [|constructor]; split; [exact I|]; cbn; split; [discriminate|auto]|]. split; [discriminate|]. split; [intros _; now constructor|].
        intros o' v' [[= <- <-]|[]] K. unfold takes in T'. congruence.
      * exists [], [], (Some o). split; [intros; rewrite (consume_long _ _ _ _ _ _ _ _ S), T; reflexivity|].
        split; [constructor|]. split; [intros o' [= <-]; auto|]. split; [intros _; now constructor|]. intros o' v' [].
    + assert (T' := proj1 (takes_value_not _) T). destruct e as [v|].
      * left. intros. now rewrite (consume_long _ _ _ _ _ _ _ _ S), T.
      * right. right. exists [(o, None)], [], None. split; [intros; rewrite (consume_long _ _ _ _ _ _ _ _ S), T; reflexivity|].
        split; [constructor; [|constructor]; split; [exact I|]; cbn; split; [intros X; now elim T'|congruence]|]. split; [discriminate|]. split; [intros _; now constructor|].
        intros o' v' [[= <- <-]|[]] K. exists o. auto.
  - injection E2 as ->. destruct (run_inv (Datatypes.S (length r)) c r o (Nat.lt_succ_diag_r _) S) as [R|(l & m & p & R & F & PP & LL & AA)].
    + left. intros. now rewrite consume_short, R.
    + right. right. exists l, m, p. split; [intros; rewrite consume_short, R; reflexivity|]. split; [exact F|]. split; [exact PP|].
      split; [intros M; constructor; now apply LL|]. intros o' v J K. exists o'. split; [exact K|]. right. exists (c :: r). split; [reflexivity|].
      apply (AA _ _ J). unfold takes. congruence.
  - discriminate.
  - injection E2 as ->. right. left. reflexivity.
Qed.

(** ** What the actions do *)
Definition effect (e : event) (ns : namespace) : namespace :=
  match e with
  | EOption o v =>
      match o_kind o, v with
      | KFlag b, _ => dset (o_dest o) (VBool b) ns
      | KStore, Some v => dset (o_dest o) (VPath (resolve v)) ns
      | _, _ => ns
      end
  | EBuild w => dset positional (VStr w) ns
  end.
Definition effects (evs : list event) (ns : namespace) : namespace := fold_left (fun ns e => effect e ns) evs ns.
Lemma effects_app a b ns : effects (a ++ b) ns = effects b (effects a ns).
Proof. apply fold_left_app. Qed.
Lemma said_app a b : said (a ++ b) = said a ++ said b.
Proof. apply map_app. Qed.
Lemma said_in l o v : In (EOption o v) (said l) <-> In (o, v) l.
Proof.
  unfold said. rewrite in_map_iff. split.
  - intros ((o' & v') & [= -> ->] & I). exact I.
  - intros I. now exists (o, v).
Qed.
Lemma actions_cases l : Forall sound_action l -> forall ns,
  (no_help (said l) /\ take_actions l ns = Done (effects (said l) ns)) \/
  ((exists o v, In (o, v) l /\ o_kind o = KHelp) /\ take_actions l ns = Exit 0).
Proof.
  induction 1 as [|(o & v) l (I & TV) F IH]; intros ns; [left; split; [intros o v []|reflexivity]|].
  cbn [ArgParse.take_actions]. unfold take_action. cbn [fst snd] in TV. unfold takes in TV. destruct (o_kind o) as [b| |] eqn:K.
  - cbn [obind]. destruct (IH (dset (o_dest o) (VBool b) ns)) as [(N & ->)|((o' & v' & J & K') & ->)].
    + left. split.
      * intros o' v' [[= <- <-]|J]; [congruence|]. now apply (N o' v').
      * unfold effects. cbn [said map fold_left effect fst snd]. now rewrite K.
    + right. split; [|reflexivity]. exists o', v'. split; [now right|exact K'].
  - destruct v as [v|]; [|exfalso; now apply (proj1 TV)]. cbn [obind].
    destruct (IH (dset (o_dest o) (VPath (resolve v)) ns)) as [(N & ->)|((o' & v' & J & K') & ->)].
    + left. split.
      * intros o' v' [[= <- <-]|J]; [congruence|]. now apply (N o' v').
      * unfold effects. cbn [said map fold_left effect fst snd]. now rewrite K.
    + right. split; [|reflexivity]. exists o', v'. split; [now right|exact K'].
  - right. split; [|reflexivity]. exists o, v. split; [now left|exact K].
Qed.
Lemma actions_done l ns : Forall sound_action l -> no_help (said l) -> take_actions l ns = Done (effects (said l) ns).
Proof.
  intros F N. destruct (actions_cases l F ns) as [(_ & E)|((o & v & I & K) & _)]; [exact E|]. exfalso. apply (N o v); [now apply said_in|exact K].
Qed.
Lemma effects_positional l ns : Forall sound_action l -> dget positional (effects (said l) ns) = dget positional ns.
Proof.
  intros F. revert ns. induction F as [|(o & v) l (I & _) F IH]; intros ns; [reflexivity|].
  change (effects (said ((o, v) :: l)) ns) with (effects (said l) (effect (EOption o v) ns)). rewrite IH.
  assert (D : positional <> o_dest o) by (intros E; apply P; rewrite E; now apply in_map).
  unfold effect. destruct (o_kind o); [|destruct v|]; try reflexivity; now apply dget_dset_other.
Qed.

(** ** The pattern *)
Lemma no_options_after l : existsb is_option (map (fun x : str => (x, CA)) l) = false.
Proof. induction l as [|w l IH]; [reflexivity|]. exact IH. Qed.
(** How a line of words begins. *)
Lemma classify_cases l cl : classify l = Done cl ->
  (l = [] /\ cl = []) \/
  (exists l', l = [45; 45]%N :: l' /\ cl = ([45; 45]%N, CDash) :: map (fun x => (x, CA)) l') \/
  (exists w l' cl', l = w :: l' /\ cl = (w, CA) :: cl' /\ w <> [45; 45]%N /\ plain w /\ classify l' = Done cl') \/
  (exists w tp l' cl', l = w :: l' /\ cl = (w, CO tp) :: cl' /\ w <> [45; 45]%N /\ parse_optional w = Done (Some tp) /\ classify l' = Done cl').
Proof.
  destruct l as [|w l]; cbn [ArgParse.classify].
  - intros [= <-]. now left.
  - destruct (str_eqb w $"--") eqn:E.
    + apply str_eqb_eq in E. subst w. intros [= <-]. right. left. now exists l.
    + assert (D : w <> [45; 45]%N) by (intros ->; discriminate). destruct (parse_optional w) as [q| |] eqn:PO; [|discriminate..]. cbn [obind].
      destruct (classify l) as [cl'| |] eqn:CL; [|discriminate..]. cbn [obind]. intros [= <-]. destruct q as [tp|].
      * right. right. right. exists w, tp, l, cl'. repeat split; auto.
      * right. right. left. exists w, l, cl'. repeat split; auto.
        destruct (word_cases uni_digit t G w D) as [(Q & _)|[(o & s & sep & e & _ & _ & X)|[(o & c & r & _ & _ & X)|[(_ & X)|X]]]];
          [exact Q|rewrite PO in X; discriminate..].
Qed.
Lemma classify_length l : forall cl, classify l = Done cl -> length cl = length l.
Proof.
  induction l as [|w l IH]; intros cl E.
  - injection E as <-. reflexivity.
  - cbn [ArgParse.classify] in E. destruct (str_eqb w $"--").
    + injection E as <-. cbn [length]. now rewrite map_length.
    + destruct (parse_optional w); [|discriminate..]. cbn [obind] in E. destruct (classify l) as [cl'| |]; [|discriminate..]. injection E as <-.
      cbn [length]. now rewrite (IH cl').
Qed.
Lemma classify_option_head l cl : classify l = Done cl -> existsb is_option cl = true ->
  exists l1 w tp l2 cl2, l = l1 ++ w :: l2 /\ before_option cl = (l1, (w, CO tp) :: cl2) /\ classify l2 = Done cl2 /\
    w <> [45; 45]%N /\ parse_optional w = Done (Some tp) /\ length cl = length l1 + S (length cl2) /\ ~ In [45; 45]%N l1.
Proof.
  revert cl. induction l as [|x l IH]; intros cl C E.
  - injection C as <-. discriminate.
  - destruct (classify_cases _ _ C) as [(X & _)|[(l' & X & ->)|[(w & l' & cl' & X & -> & D & _ & C')|(w & tp & l' & cl' & X & -> & D & PO & C')]]].
    + discriminate.
    + cbn [existsb is_option snd orb] in E. now rewrite no_options_after in E.
    + injection X as -> ->. cbn [existsb is_option snd orb] in E. destruct (IH _ C' E) as (l1 & w1 & tp & l2 & cl2 & -> & B & C2 & D2 & PO & L & ND).
      exists (w :: l1), w1, tp, l2, cl2. cbn [before_option is_option snd fst]. rewrite B. split; [reflexivity|]. split; [reflexivity|]. split; [exact C2|]. split; [exact D2|]. split; [exact PO|]. split.
      * cbn [length]. now rewrite L.
      * intros [E1|J]; [now elim D|now apply ND].
    + injection X as -> ->. exists [], w, tp, l', cl'. cbn [before_option is_option snd]. repeat split; auto.
Qed.

(** ** Lines *)
Lemma reading_word f w evs1 l evs : opt_word w evs1 None -> reading f l evs -> reading f (w :: l) (evs1 ++ evs).
Proof.
  intros O R. inversion O as [w' o L T|w' o v L T| |r evs' p' L]; subst; cbn [app].
  - now constructor.
  - now constructor.
  - now constructor.
Qed.
Lemma reading_next f w evs1 o v l evs : opt_word w evs1 (Some o) -> plain v -> reading f l evs ->
  reading f (w :: v :: l) (evs1 ++ EOption o (Some v) :: evs).
Proof.
  intros O Q R. inversion O as [| |w' o' L T|r evs' p' L]; subst; cbn [app].
  - now constructor.
  - now constructor.
Qed.
Lemma no_help_app a b : no_help a -> no_help b -> no_help (a ++ b).
Proof. intros A B o v I. apply in_app_or in I as [I|I]; [now apply (A o v)|now apply (B o v)]. Qed.
Lemma no_help_app_l a b : no_help (a ++ b) -> no_help a.
Proof. intros A o v I. apply (A o v). apply in_or_app. now left. Qed.
Lemma no_help_app_r a b : no_help (a ++ b) -> no_help b.
Proof. intros A o v I. apply (A o v). apply in_or_app. now right. Qed.
Notation help_asked := (help_asked t).
Lemma help_asked_cons w l : w <> [45; 45]%N -> help_asked l -> help_asked (w :: l).
Proof.
  intros D (a & x & b & -> & N & A). exists (w :: a), x, b. split; [reflexivity|]. split; [|exact A]. intros [E|I]; [now elim D|now apply N].
Qed.
Lemma help_asked_app a l : ~ In [45; 45]%N a -> help_asked l -> help_asked (a ++ l).
Proof.
  induction a as [|w a IH]; intros N H; [exact H|]. cbn [app]. apply help_asked_cons.
  - intros ->. apply N. now left.
  - apply IH; [|exact H]. intros I. apply N. now right.
Qed.
Definition good_result (l : list str) (left : bool) (extras : list str) (ns : namespace) (x : outcome (namespace * list str)) : Prop :=
  match x with
  | Done (ns', ex) => (exists tail, ex = extras ++ tail) /\
      (ex = [] -> exists evs, reading left l evs /\ no_help evs /\ ns' = effects evs ns)
  | Exit n => n = 2%N \/ n = 0%N /\ help_asked l
  | Stuck => False
  end.
Definition loop_good (fuel : nat) : Prop := forall l cl left extras ns, classify l = Done cl -> length cl < fuel ->
  (left = true -> dget positional ns = Some (VStr [])) -> good_result l left extras ns (parse_loop fuel cl left extras ns).
Lemma app_not_nil {A} (a : list A) x b : (a ++ [x]) ++ b <> [].
Proof. now destruct a. Qed.
Lemma step_good fuel w tp l2 cl2 left extras ns : loop_good fuel -> classify l2 = Done cl2 -> length cl2 < fuel ->
  w <> [45; 45]%N -> parse_optional w = Done (Some tp) -> (left = true -> dget positional ns = Some (VStr [])) ->
  good_result (w :: l2) left extras ns
    (obind (consume_optional w tp cl2 extras ns) (fun x => let '(rest, extras, ns) := x in parse_loop fuel rest left extras ns)).
Proof.
  intros LG C L D PO IV. destruct (word_step w tp D PO) as [E|[E|(l & m & p & E & F & PP & OW & HH)]]; rewrite E; clear E.
  - now left.
  - cbn [obind]. assert (X := LG l2 cl2 left (extras ++ [w]) ns C L IV). unfold good_result in *.
    destruct (parse_loop fuel cl2 left (extras ++ [w]) ns) as [(ns' & ex)|n|]; [|destruct X as [X|(X & H)]; [now left|]|exact X].
    + destruct X as ((tail & X) & _). split; [exists ([w] ++ tail); now rewrite app_assoc|]. intros ->. symmetry in X. now apply app_not_nil in X.
    + right. split; [exact X|]. now apply help_asked_cons.
  - assert (K : forall l' w' evs2 cl' l3 pre, w' :: pre ++ l3 = w :: l2 -> ~ In [45; 45]%N pre -> l' = l ++ evs2 -> Forall sound_action l' -> classify l3 = Done cl' -> length cl' < fuel ->
         (forall o v, In (o, v) evs2 -> o_kind o = KHelp -> False) ->
         (m = [] -> forall evs, reading left l3 evs -> reading left (w :: l2) (said l' ++ evs)) ->
         good_result (w :: l2) left extras ns (obind (obind (take_actions l' ns) (fun ns => Done (cl', extras ++ m, ns)))
           (fun x => let '(rest, extras, ns) := x in parse_loop fuel rest left extras ns))).
    { intros l' w' evs2 cl' l3 pre EQ NP EL F' C' L' NH RD. destruct (actions_cases l' F' ns) as [(N & ->)|((o & v & I & KK) & ->)].
      - cbn [obind]. assert (IV' : left = true -> dget positional (effects (said l') ns) = Some (VStr [])).
        { intros LT. rewrite effects_positional by exact F'. now apply IV. }
        assert (X := LG l3 cl' left (extras ++ m) _ C' L' IV'). unfold good_result in *.
        destruct (parse_loop fuel cl' left (extras ++ m) (effects (said l') ns)) as [(ns' & ex)|n|]; [|destruct X as [X|(X & H)]; [now left|]|exact X].
        + destruct X as ((tail & X) & Y). split; [exists (m ++ tail); now rewrite app_assoc|]. intros Z.
          assert (M : m = []). { subst ex. apply app_eq_nil in Z as [Z _]. now apply app_eq_nil in Z. }
          destruct (Y Z) as (evs & R & NE & ->). exists (said l' ++ evs). split; [now apply RD|]. split; [now apply no_help_app|]. now rewrite effects_app.
        + right. split; [exact X|]. rewrite <- EQ. injection EQ as -> _. apply help_asked_cons; [exact D|]. now apply help_asked_app.
      - cbn [obind]. right. split; [reflexivity|]. exists [], w, l2. split; [reflexivity|]. split; [intros []|].
        rewrite EL in I. apply in_app_or in I as [I|I]; [now apply (HH o v)|]. now elim (NH o v I KK). }
    unfold after. destruct p as [o|].
    + destruct (PP o eq_refl) as (IO & TO).
      destruct (classify_cases _ _ C) as [(-> & ->)|[(l' & -> & ->)|[(v & l' & cl' & -> & -> & DV & QV & C')|(v & tp' & l' & cl' & -> & -> & DV & QV & C')]]];
        [now left|now left| |now left].
      cbn [length] in L. apply (K (l ++ [(o, Some v)]) w [(o, Some v)] cl' l' [v]); auto.
      * intros [->|[]]. now elim DV.
      * apply Forall_app. split; [exact F|]. constructor; [|constructor]. split; [exact IO|]. cbn. split; [discriminate|auto].
      * lia.
      * intros o' v' [[= <- <-]|[]] KK. unfold takes in TO. congruence.
      * intros M evs R. rewrite said_app, <- app_assoc. cbn [said map fst snd app]. apply reading_next; [now apply OW|exact QV|exact R].
    + apply (K l w [] cl2 l2 []); auto.
      * now rewrite app_nil_r.
      * intros M evs R. apply reading_word; [now apply OW|exact R].
Qed.
Lemma dashes_words (l : list str) : dashes (map (fun x => (x, CA)) l) = 0.
Proof. now destruct l. Qed.
Lemma dashes_before_option l cl : classify l = Done cl -> existsb is_option cl = true -> dashes cl = 0.
Proof.
  intros C E. destruct (classify_cases _ _ C) as [(-> & ->)|[(l' & -> & ->)|[(v & l' & cl' & -> & -> & _)|(v & tp' & l' & cl' & -> & -> & _)]]]; try reflexivity.
  cbn [existsb is_option snd orb] in E. now rewrite no_options_after in E.
Qed.
Lemma first_words (l : list str) : map fst (map (fun x => (x, CA)) l) = l.
Proof. rewrite map_map. cbn [fst]. apply map_id. Qed.
Lemma loop_is_good : forall fuel, loop_good fuel.
Proof.
  induction fuel as [|fuel IH]; intros l cl left extras ns C L IV; [lia|].
  cbn [ArgParse.parse_loop]. destruct (existsb is_option cl) eqn:EO; cbn [negb].
  - (* an option is left *)
    destruct (classify_option_head l cl C EO) as (l1 & w & tp & l2 & cl2 & EL & B & C2 & D & PO & LE & N1).
    assert (L2 : length cl2 < fuel) by lia.
    destruct (classify_cases _ _ C) as [(-> & ->)|[(l' & -> & ->)|[(v & l' & cl' & -> & -> & DV & QV & C')|(v & tp' & l' & cl' & -> & -> & DV & PV & C')]]].
    + discriminate.
    + cbn [existsb is_option snd orb] in EO. now rewrite no_options_after in EO.
    + (* a word *)
      destruct left.
      * unfold consume_positionals, match_optional. cbn [dashes skipn]. cbn [existsb is_option snd orb] in EO.
        rewrite (dashes_before_option _ _ C' EO). cbn [Nat.add skipn firstn map fst length].
        rewrite (proj2 (Nat.ltb_lt _ _)) by lia. cbn [length] in L.
        assert (V : positional_value [v] = VStr v).
        { unfold positional_value. cbn [remove_dashes]. destruct (str_eqb v $"--") eqn:E; [|reflexivity]. apply str_eqb_eq in E. now elim DV. }
        rewrite V. assert (X := IH l' cl' false extras (dset positional (VStr v) ns) C' ltac:(lia) ltac:(discriminate)). unfold good_result in *.
        destruct (parse_loop fuel cl' false extras (dset positional (VStr v) ns)) as [(ns' & ex)|n|]; [|destruct X as [X|(X & H)]; [now left|]|exact X].
        -- destruct X as (X & Y). split; [exact X|]. intros Z. destruct (Y Z) as (evs & R & NH & ->). exists (EBuild v :: evs).
           split; [now constructor|]. split; [|reflexivity]. intros o u [J|J]; [discriminate|]. now apply (NH o u).
        -- right. split; [exact X|]. now apply help_asked_cons.
      * unfold consume_positionals. rewrite Nat.ltb_irrefl, B.
        assert (N : l1 <> []).
        { intros ->. cbn [before_option is_option snd] in B. destruct (before_option cl'). discriminate. }
        assert (X := step_good fuel w tp l2 cl2 false (extras ++ l1) ns IH C2 L2 D PO IV). unfold good_result in *.
        destruct (obind _ _) as [(ns' & ex)|n|]; [|destruct X as [X|(X & H)]; [now left|]|exact X].
        -- destruct X as ((tail & X) & _). split; [exists (l1 ++ tail); now rewrite app_assoc|]. intros ->. exfalso. symmetry in X.
           apply app_eq_nil in X as [X _]. apply app_eq_nil in X as [_ X]. now elim N.
        -- right. split; [exact X|]. rewrite EL. now apply help_asked_app.
    + (* the option first *)
      cbn [before_option is_option snd] in B. injection B as <- <- <- <-. cbn [before_option is_option snd].
      rewrite app_nil_r. now apply step_good.
  - (* no option is left *)
    destruct left; cbn [consume_positionals].
    + specialize (IV eq_refl).
      destruct (classify_cases _ _ C) as [(-> & ->)|[(l' & -> & ->)|[(v & l' & cl' & -> & -> & DV & QV & C')|(v & tp' & l' & cl' & -> & -> & DV & PV & C')]]].
      * cbn [match_optional dashes skipn firstn map fst Nat.add]. split; [now exists []|]. intros _. exists []. split; [constructor|]. split; [intros o v []|].
        unfold positional_value. cbn [remove_dashes]. apply dset_same_id. exact IV.
      * destruct l' as [|v l'].
        -- cbn [map]. unfold match_optional. cbn [dashes skipn firstn map fst Nat.add]. split; [now exists []|]. intros _. exists [].
           split; [constructor|]. split; [intros o v []|]. apply dset_same_id. exact IV.
        -- cbn [map]. unfold match_optional. cbn [dashes skipn Nat.add]. rewrite dashes_words. cbn [skipn firstn map fst]. rewrite first_words.
           split; [now exists l'|]. intros Z. apply app_eq_nil in Z as [_ ->]. exists [EBuild v]. split; [constructor|]. split; [intros o u [J|[]]; discriminate|]. reflexivity.
      * cbn [existsb is_option snd orb] in EO. unfold match_optional. cbn [dashes skipn Nat.add].
        assert (V : forall r : list str, (r = [] \/ r = [[45; 45]%N]) -> positional_value (v :: r) = VStr v).
        { intros r R. unfold positional_value. cbn [remove_dashes]. destruct (str_eqb v $"--") eqn:E; [apply str_eqb_eq in E; now elim DV|]. now destruct R as [->| ->]. }
        destruct (classify_cases _ _ C') as [(-> & ->)|[(l2 & -> & ->)|[(v2 & l2 & cl2 & -> & -> & _)|(v2 & tp2 & l2 & cl2 & -> & -> & _)]]].
        -- cbn [dashes skipn firstn map fst Nat.add]. rewrite (V []) by now left. split; [now exists []|]. intros _. exists [EBuild v].
           split; [constructor; [exact QV|constructor]|]. split; [intros o u [J|[]]; discriminate|]. reflexivity.
        -- cbn [dashes]. rewrite dashes_words. cbn [skipn firstn map fst]. rewrite first_words, V by (right; reflexivity).
           split; [now exists l2|]. intros Z. apply app_eq_nil in Z as [_ ->]. exists [EBuild v]. split; [now constructor|]. split; [intros o u [J|[]]; discriminate|]. reflexivity.
        -- cbn [dashes skipn firstn map fst]. split; [now eexists|]. intros Z. apply app_eq_nil in Z as [_ Z]. discriminate.
        -- cbn [existsb is_option snd orb] in EO. discriminate.
      * cbn [existsb is_option snd orb] in EO. discriminate.
    + split; [now exists (map fst cl)|]. intros Z. apply app_eq_nil in Z as [_ Z]. apply map_eq_nil in Z. subst cl. apply classify_length in C.
      destruct l; [|discriminate]. exists []. split; [constructor|]. split; [intros o v []|reflexivity].
Qed.

(** ** Every line that can be read is accepted *)
Definition sound_event (e : event) : Prop := match e with EOption o v => In o t /\ (takes o <-> v <> None) | EBuild _ => True end.
Lemma sound_said l : Forall sound_event (said l) <-> Forall sound_action l.
Proof.
  unfold said. rewrite Forall_map. split; intros F; (eapply Forall_impl; [|exact F]); now intros (o & v).
Qed.
Lemma flag_event o : In o t -> ~ takes o -> sound_event (EOption o None).
Proof. intros I T. split; [exact I|]. split; [intros X; now elim T|congruence]. Qed.
Lemma value_event o v : In o t -> takes o -> sound_event (EOption o (Some v)).
Proof. intros I T. split; [exact I|]. split; [discriminate|auto]. Qed.
Lemma letters_sound r evs p : letters r evs p -> Forall sound_event evs /\ forall o, p = Some o -> In o t /\ takes o.
Proof.
  induction 1 as [c o S T|c o d r evs p S T D L IH|c o v S T|c o d r S T D|c o S T].
  - split; [|discriminate]. constructor; [|constructor]. apply flag_event; [apply S|exact T].
  - split; [|apply IH]. constructor; [|apply IH]. apply flag_event; [apply S|exact T].
  - split; [|discriminate]. constructor; [|constructor]. apply value_event; [apply S|exact T].
  - split; [|discriminate]. constructor; [|constructor]. apply value_event; [apply S|exact T].
  - split; [constructor|]. intros o' [= <-]. split; [apply S|exact T].
Qed.
Lemma long_in w o e : long_word w o e -> In o t.
Proof. intros L. destruct L as [? ? ? ? ? [X|(_ & _ & _ & ? & _ & X & _)]|? ? ? ? ? [X|(_ & _ & _ & ? & _ & X & _)]]; apply X. Qed.
Lemma word_sound w evs p : opt_word w evs p -> Forall sound_event evs /\ forall o, p = Some o -> In o t /\ takes o.
Proof.
  intros [w' o L T|w' o v L T|w' o L T|r evs' p' L].
  - split; [|discriminate]. constructor; [|constructor]. apply flag_event; [now apply long_in in L|exact T].
  - split; [|discriminate]. constructor; [|constructor]. apply value_event; [now apply long_in in L|exact T].
  - split; [constructor|]. intros o' [= <-]. split; [now apply long_in in L|exact T].
  - now apply letters_sound in L.
Qed.
Lemma option_step w evs : opt_word w evs None -> no_help evs -> w <> [45; 45]%N /\ exists tp, parse_optional w = Done (Some tp) /\
  forall fuel cl left extras ns, parse_loop (S fuel) ((w, CO tp) :: cl) left extras ns = parse_loop fuel cl left extras (effects evs ns).
Proof.
  intros O N. destruct (word_says _ _ _ O) as (D & l & tp & -> & PO & K). split; [exact D|]. exists tp. split; [exact PO|].
  intros. cbn [ArgParse.parse_loop existsb is_option snd orb negb before_option]. rewrite K. unfold after.
  rewrite (actions_done l) by (try exact N; now apply sound_said, (word_sound _ _ _ O)). cbn [obind]. now rewrite !app_nil_r.
Qed.
Lemma option_next w evs o v : opt_word w evs (Some o) -> no_help evs -> w <> [45; 45]%N /\ exists tp, parse_optional w = Done (Some tp) /\
  forall fuel cl left extras ns, parse_loop (S fuel) ((w, CO tp) :: (v, CA) :: cl) left extras ns =
    parse_loop fuel cl left extras (effects (evs ++ [EOption o (Some v)]) ns).
Proof.
  intros O N. destruct (word_says _ _ _ O) as (D & l & tp & -> & PO & K). split; [exact D|]. exists tp. split; [exact PO|].
  destruct (word_sound _ _ _ O) as (F & T). destruct (T o eq_refl) as (I & TO).
  intros. cbn [ArgParse.parse_loop existsb is_option snd orb negb before_option]. rewrite K. unfold after.
  change [EOption o (Some v)] with (said [(o, Some v)]). rewrite <- said_app.
  rewrite (actions_done (l ++ [(o, Some v)])); [cbn [obind]; now rewrite !app_nil_r| |].
  - apply sound_said. rewrite said_app. apply Forall_app. split; [exact F|]. constructor; [|constructor]. now apply value_event.
  - rewrite said_app. apply no_help_app; [exact N|]. intros o' v' [[= <- <-]|[]]. unfold takes in TO. congruence.
Qed.
Lemma classify_option (w : str) tp l cl : w <> [45; 45]%N -> parse_optional w = Done (Some tp) -> classify l = Done cl -> classify (w :: l) = Done ((w, CO tp) :: cl).
Proof.
  intros D PO C. cbn [ArgParse.classify]. destruct (str_eqb w $"--") eqn:E; [apply str_eqb_eq in E; now elim D|]. now rewrite PO, C.
Qed.
Lemma classify_plain w l cl : plain w -> classify l = Done cl -> classify (w :: l) = Done ((w, CA) :: cl).
Proof.
  intros Q C. destruct (parse_plain uni_digit t G w Q) as (D & PO). cbn [ArgParse.classify].
  destruct (str_eqb w $"--") eqn:E; [apply str_eqb_eq in E; now elim D|]. now rewrite PO, C.
Qed.
Lemma plain_value w (r : list str) : plain w -> (r = [] \/ r = [[45; 45]%N]) -> positional_value (w :: r) = VStr w.
Proof.
  intros Q R. destruct (parse_plain uni_digit t G w Q) as (D & _). unfold positional_value. cbn [remove_dashes].
  destruct (str_eqb w $"--") eqn:E; [apply str_eqb_eq in E; now elim D|]. now destruct R as [->| ->].
Qed.
Lemma no_help_cons e evs : no_help (e :: evs) -> no_help evs.
Proof. intros N o v I. apply (N o v). now right. Qed.
(** [reading], with one kind of option word. *)
Lemma reading_ind2 (R : bool -> list str -> list event -> Prop) :
  (forall f, R f [] []) ->
  (forall f w evs1 l evs, opt_word w evs1 None -> reading f l evs -> R f l evs -> R f (w :: l) (evs1 ++ evs)) ->
  (forall f w evs1 o v l evs, opt_word w evs1 (Some o) -> plain v -> reading f l evs -> R f l evs -> R f (w :: v :: l) (evs1 ++ EOption o (Some v) :: evs)) ->
  (forall w l evs, plain w -> reading false l evs -> R false l evs -> R true (w :: l) (EBuild w :: evs)) ->
  (forall w, plain w -> R true [w; [45; 45]%N] [EBuild w]) ->
  R true [[45; 45]%N] [] -> (forall w, R true [[45; 45]%N; w] [EBuild w]) ->
  forall f l evs, reading f l evs -> R f l evs.
Proof.
  intros H1 H2 H3 H4 H5 H6 H7 f l evs RD.
  induction RD as [f|f w o l evs L T RD IH|f w o v l evs L T RD IH|f w o v l evs L T Q RD IH|f r evs1 l evs L RD IH|f r evs1 o v l evs L Q RD IH|w l evs Q RD IH|w Q| |w].
  - apply H1.
  - apply (H2 f w [EOption o None]); [now constructor|exact RD|exact IH].
  - apply (H2 f w [EOption o (Some v)]); [now constructor|exact RD|exact IH].
  - apply (H3 f w []); [now constructor|exact Q|exact RD|exact IH].
  - apply H2; [now constructor|exact RD|exact IH].
  - apply H3; [now constructor|exact Q|exact RD|exact IH].
  - now apply H4.
  - now apply H5.
  - exact H6.
  - apply H7.
Qed.
Lemma loop_reads left l evs : reading left l evs -> no_help evs -> exists cl, classify l = Done cl /\
  forall fuel ns, length cl < fuel -> (left = true -> dget positional ns = Some (VStr [])) -> parse_loop fuel cl left [] ns = Done (effects evs ns, []).
Proof.
  revert left l evs. apply (reading_ind2 (fun left l evs => no_help evs -> exists cl, classify l = Done cl /\
  forall fuel ns, length cl < fuel -> (left = true -> dget positional ns = Some (VStr [])) -> parse_loop fuel cl left [] ns = Done (effects evs ns, []))).
  - intros left _. exists []. split; [reflexivity|]. intros [|fuel] ns L IV; [cbn [length] in L; lia|]. cbn [ArgParse.parse_loop existsb negb consume_positionals].
    destruct left; [|reflexivity]. cbn. now rewrite dset_same_id by auto.
  - intros left w evs1 l evs O RD IH N. destruct (IH (no_help_app_r _ _ N)) as (cl & C & K).
    destruct (option_step w evs1 O (no_help_app_l _ _ N)) as (D & tp & PO & E).
    exists ((w, CO tp) :: cl). split; [now apply classify_option|]. intros [|fuel] ns L IV; [cbn [length] in L; lia|]. cbn [length] in L.
    rewrite E, effects_app. apply K; [lia|]. intros LT. destruct (word_says _ _ _ O) as (_ & l1 & _ & -> & _). rewrite effects_positional; [now apply IV|].
    apply sound_said. now apply (word_sound _ _ _ O).
  - intros left w evs1 o v l evs O Q RD IH N. destruct (IH (no_help_cons _ _ (no_help_app_r _ _ N))) as (cl & C & K).
    destruct (option_next w evs1 o v O (no_help_app_l _ _ N)) as (D & tp & PO & E).
    exists ((w, CO tp) :: (v, CA) :: cl). split; [apply classify_option; auto; now apply classify_plain|].
    intros [|fuel] ns L IV; [cbn [length] in L; lia|]. cbn [length] in L.
    rewrite E. change (evs1 ++ EOption o (Some v) :: evs) with (evs1 ++ [EOption o (Some v)] ++ evs). rewrite app_assoc, (effects_app (evs1 ++ [EOption o (Some v)])). apply K; [lia|].
    intros LT. destruct (word_says _ _ _ O) as (_ & l1 & _ & -> & _). destruct (word_sound _ _ _ O) as (F & T). destruct (T o eq_refl) as (I & TO).
    change [EOption o (Some v)] with (said [(o, Some v)]). rewrite <- said_app, effects_positional; [now apply IV|].
    apply sound_said. rewrite said_app. apply Forall_app. split; [exact F|]. constructor; [now apply value_event|constructor].
  - intros w l evs Q RD IH N. destruct (IH (no_help_cons _ _ N)) as (cl & C & K). exists ((w, CA) :: cl). split; [now apply classify_plain|].
    intros [|fuel] ns L IV; [cbn [length] in L; lia|]. cbn [length] in L. cbn [ArgParse.parse_loop existsb is_option snd orb].
    change (effects (EBuild w :: evs) ns) with (effects evs (dset positional (VStr w) ns)).
    destruct (existsb is_option cl) eqn:EO; cbn [negb].
    + unfold consume_positionals, match_optional. cbn [dashes skipn]. rewrite (dashes_before_option _ _ C EO). cbn [Nat.add skipn firstn map fst length].
      rewrite (proj2 (Nat.ltb_lt _ _)) by lia. rewrite (plain_value w [] Q) by now left. apply K; [lia|discriminate].
    + specialize (K (S (length cl)) (dset positional (VStr w) ns) ltac:(lia) ltac:(discriminate)). cbn [ArgParse.parse_loop] in K. rewrite EO in K. cbn [negb consume_positionals app] in K.
      injection K as K KC. apply map_eq_nil in KC. subst cl. rewrite <- K.
      unfold consume_positionals, match_optional. cbn [dashes skipn Nat.add firstn map fst app]. now rewrite (plain_value w [] Q) by now left.
  - intros w Q N. exists [(w, CA); ([45; 45]%N, CDash)]. split; [now apply classify_plain|].
    intros [|fuel] ns L IV; [cbn [length] in L; lia|]. cbn [ArgParse.parse_loop existsb is_option snd orb negb].
    unfold consume_positionals, match_optional. cbn [dashes skipn Nat.add firstn map fst app]. rewrite plain_value; [reflexivity|exact Q|now right].
  - intros N. exists [([45; 45]%N, CDash)]. split; [reflexivity|]. intros [|fuel] ns L IV; [cbn [length] in L; lia|].
    cbn [ArgParse.parse_loop existsb is_option snd orb negb]. unfold consume_positionals, match_optional. cbn [dashes skipn Nat.add firstn map fst app].
    change (positional_value [[45; 45]%N]) with (VStr []). now rewrite dset_same_id by auto.
  - intros w N. exists [([45; 45]%N, CDash); (w, CA)]. split; [reflexivity|]. intros [|fuel] ns L IV; [cbn [length] in L; lia|]. reflexivity.
Qed.

End Whole.
