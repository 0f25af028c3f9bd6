(** * Proofs about command lines: single words. *)
From Coq Require Import String NArith List Bool Arith Lia.
Import ListNotations.
From Verif Require Import PyBase PyFacts SpecText ArgParse SpecArgs.

(** ** Texts *)
Lemma flat_map_ext_in {A B} (f g : A -> list B) l : (forall x, In x l -> f x = g x) -> flat_map f l = flat_map g l.
Proof.
  induction l as [|x l IH]; [reflexivity|]. intros H. cbn [flat_map]. rewrite (H x) by now left. f_equal. apply IH. intros y I. apply H. now right.
Qed.
Lemma starts_with_iff n : forall s, starts_with n s = true <-> starts n s.
Proof.
  induction n as [|c n IH]; intros s.
  - split; [intros _; now exists s|reflexivity].
  - destruct s as [|d s]; cbn [starts_with].
    + split; [discriminate|]. intros (r & E). discriminate.
    + rewrite andb_true_iff, N.eqb_eq, IH. split.
      * intros (-> & r & ->). now exists r.
      * intros (r & [= -> ->]). split; [reflexivity|now exists r].
Qed.
Lemma partition_none s : ~ In 61%N s -> partition_eq s = (s, None).
Proof.
  induction s as [|c s IH]; intros N; [reflexivity|]. cbn [partition_eq].
  destruct (N.eqb_spec c 61) as [->|D]; [exfalso; apply N; now left|]. rewrite IH; [reflexivity|]. intros I. apply N. now right.
Qed.
Lemma partition_some n v : ~ In 61%N n -> partition_eq (n ++ 61%N :: v) = (n, Some v).
Proof.
  induction n as [|c s IH]; intros N; [reflexivity|]. cbn [partition_eq app].
  destruct (N.eqb_spec c 61) as [->|D]; [exfalso; apply N; now left|]. rewrite IH; [reflexivity|]. intros I. apply N. now right.
Qed.
Lemma partition_cases s : (~ In 61%N s /\ partition_eq s = (s, None)) \/
  exists n v, ~ In 61%N n /\ s = n ++ 61%N :: v /\ partition_eq s = (n, Some v).
Proof.
  induction s as [|c s IH]; [left; split; [intros []|reflexivity]|]. cbn [partition_eq].
  destruct (N.eqb_spec c 61) as [->|D].
  - right. exists [], s. split; [intros []|split; reflexivity].
  - destruct IH as [(N & ->)|(n & v & N & -> & ->)].
    + left. split; [|reflexivity]. intros [E|I]; [congruence|auto].
    + right. exists (c :: n), v. split; [|split; reflexivity]. intros [E|I]; [congruence|auto].
Qed.
Lemma char_mem_In c s : char_mem c s = true <-> In c s.
Proof.
  unfold char_mem. rewrite existsb_exists. split.
  - intros (x & I & E). apply N.eqb_eq in E. now subst.
  - intros I. exists c. split; [exact I|apply N.eqb_refl].
Qed.

Section Words.
Variable uni_digit : pychar -> bool.
Variable t : list opt.
Notation is_digit := (fun c => digit uni_digit c = true).
Notation strings := (option_strings t).
Notation parse_optional := (parse_optional uni_digit t).
Notation long_word := (long_word t).
Notation plain := (plain is_digit t).
Hypothesis G : good_table is_digit t.

(** ** The table *)
Lemma strings_keys : map fst strings = flat_map o_strings t.
Proof.
  clear G. unfold option_strings. induction t as [|o l IH]; [reflexivity|]. cbn [flat_map]. rewrite map_app, IH, map_map.
  cbn [fst]. now rewrite map_id.
Qed.
Lemma strings_in s o : In (s, o) strings <-> spelling t s o.
Proof.
  unfold option_strings, spelling. rewrite in_flat_map. split.
  - intros (o' & I & M). apply in_map_iff in M as (s' & [= -> ->] & I'). auto.
  - intros (I & I'). exists o. split; [exact I|]. apply in_map_iff. now exists s.
Qed.
Lemma dget_in {A} k (v : A) d : dget k d = Some v -> In (k, v) d.
Proof.
  induction d as [|[k' v'] d IH]; [discriminate|]. cbn [dget]. destruct (str_eqb k k') eqn:E.
  - intros [= ->]. apply str_eqb_eq in E. subst. now left.
  - intros H. right. auto.
Qed.
Lemma dget_not_in {A} k (d : dict A) : dget k d = None -> forall v, ~ In (k, v) d.
Proof.
  induction d as [|[k' v'] d IH]; [intros _ v []|]. cbn [dget]. destruct (str_eqb k k') eqn:E; [discriminate|].
  intros H v [[= -> ->]|I]; [now rewrite str_eqb_refl in E|]. now apply (IH H v).
Qed.
Lemma dget_strings s o : dget s strings = Some o <-> spelling t s o.
Proof.
  split; [intros D; now apply strings_in, dget_in|]. intros S. destruct (dget s strings) as [o'|] eqn:D.
  - f_equal. apply (gt_apart _ _ G s); [now apply strings_in, dget_in|exact S].
  - exfalso. apply strings_in in S. now apply (dget_not_in _ _ D o).
Qed.
Lemma dget_no_string s : dget s strings = None <-> forall o, ~ spelling t s o.
Proof.
  split.
  - intros D o S. apply dget_strings in S. congruence.
  - intros N. destruct (dget s strings) as [o|] eqn:D; [|reflexivity]. apply dget_strings in D. now apply N in D.
Qed.

(** The number of entries with a property. *)
Lemma flat_filter {A B} (p : A -> bool) (f : A -> B) l : flat_map (fun x => if p x then [f x] else []) l = map f (filter p l).
Proof. induction l as [|x l IH]; [reflexivity|]. cbn [flat_map filter]. rewrite IH. now destruct (p x). Qed.
Lemma filter_none {A} (p : A -> bool) l : filter p l = [] <-> forall x, In x l -> p x = false.
Proof.
  split.
  - intros E x I. destruct (p x) eqn:P; [|reflexivity]. assert (J : In x (filter p l)) by now apply filter_In. now rewrite E in J.
  - induction l as [|x l IH]; [reflexivity|]. intros H. cbn [filter]. rewrite (H x) by now left. apply IH. intros y I. apply H. now right.
Qed.
Lemma filter_single {A} (p : str * A -> bool) l x : NoDup (map fst l) -> In x l -> p x = true ->
  (forall y, In y l -> p y = true -> fst y = fst x) -> filter p l = [x].
Proof.
  induction l as [|y l IH]; [intros _ []|]. cbn [map filter]. intros N I P U. inversion N as [|k m N1 N2]; subst.
  destruct I as [->|I].
  - rewrite P. f_equal. apply filter_none. intros z Z. destruct (p z) eqn:PZ; [|reflexivity]. exfalso. apply N1.
    rewrite <- (U z) by (try right; auto). now apply in_map.
  - destruct (p y) eqn:PY.
    + exfalso. apply N1. rewrite (U y) by (auto; now left). now apply in_map.
    + apply IH; auto. intros z Z. apply U. now right.
Qed.
Lemma filter_one {A} (p : A -> bool) l x : filter p l = [x] -> In x l /\ p x = true /\ forall y, In y l -> p y = true -> y = x.
Proof.
  intros E. assert (J : In x (filter p l)) by (rewrite E; now left). apply filter_In in J as [I P]. split; [exact I|]. split; [exact P|].
  intros y Y PY. assert (K : In y (filter p l)) by now apply filter_In. rewrite E in K. destruct K as [->|[]]. reflexivity.
Qed.

(** ** Numbers *)
Lemma digit_not c : In c [10; 45; 46; 61; 32]%N -> digit uni_digit c = false.
Proof. intros [<-|[<-|[<-|[<-|[<-|[]]]]]]; reflexivity. Qed.
Lemma some_digits_iff s : some_digits uni_digit s = true <-> s <> [] /\ Forall is_digit s.
Proof.
  unfold some_digits. destruct s as [|c s]; [split; [discriminate|intros (H & _); congruence]|].
  rewrite forallb_forall, <- Forall_forall. split; [split; [discriminate|assumption]|tauto].
Qed.
Lemma point_digits_iff s : point_digits uni_digit s = true <->
  exists a d, s = a ++ 46%N :: d /\ Forall is_digit a /\ d <> [] /\ Forall is_digit d.
Proof.
  induction s as [|c s IH]; cbn [point_digits].
  - split; [discriminate|]. intros (a & d & E & _). now destruct a.
  - destruct (N.eqb_spec c 46) as [->|D].
    + rewrite some_digits_iff. split.
      * intros (N & F). exists [], s. repeat split; auto.
      * intros (a & d & E & FA & N & FD). destruct a as [|x a].
        -- injection E as ->. auto.
        -- injection E as <- ->. inversion FA as [|? ? X Y]; subst. now rewrite digit_not in X by (cbn; tauto).
    + rewrite andb_true_iff, IH. split.
      * intros (C & a & d & -> & FA & N & FD). exists (c :: a), d. repeat split; auto.
      * intros (a & d & E & FA & N & FD). destruct a as [|x a]; [injection E as -> _; congruence|].
        injection E as <- ->. inversion FA; subst. split; [assumption|]. now exists a, d.
Qed.
Lemma but_newline_same (s : str) : (forall r : str, s <> r ++ [10%N]) -> but_newline s = s.
Proof.
  intros N. unfold but_newline. destruct (rev s) as [|c r] eqn:E; [reflexivity|]. destruct (N.eqb_spec c 10) as [->|D]; [|reflexivity].
  exfalso. apply (N (rev r)). rewrite <- (rev_involutive s), E. reflexivity.
Qed.
Lemma but_newline_drop (s : str) : but_newline (s ++ [10%N]) = s.
Proof. unfold but_newline. rewrite rev_app_distr. cbn [rev app]. cbn. apply rev_involutive. Qed.
Lemma but_newline_cases (s : str) : but_newline s = s \/ s = but_newline s ++ [10%N].
Proof.
  unfold but_newline. destruct (rev s) as [|c r] eqn:E; [now left|]. destruct (N.eqb_spec c 10) as [->|D]; [|now left].
  right. rewrite <- (rev_involutive s), E. reflexivity.
Qed.
Lemma digits_end l : Forall is_digit l -> forall r, l <> r ++ [10%N].
Proof.
  intros F r ->. apply Forall_app in F as [_ F]. inversion F as [|? ? X Y]; subst. now rewrite digit_not in X by (cbn; tauto).
Qed.
Lemma negative_number_iff s : negative_number uni_digit s = true <-> number_text is_digit s.
Proof.
  unfold negative_number, number_text. split.
  - destruct s as [|c r]; [discriminate|]. rewrite andb_true_iff, orb_true_iff, N.eqb_eq, some_digits_iff, point_digits_iff.
    intros (-> & H).
    assert (K : exists e, (e = [] \/ e = [10%N]) /\ r = but_newline r ++ e).
    { destruct (but_newline_cases r) as [E|E]; [exists []|exists [10%N]]; split; auto. now rewrite app_nil_r. }
    destruct K as (e & EE & R). destruct H as [(N & F)|(a & d & E & FA & ND & FD)].
    + exists (but_newline r), [], e. split; [now left|]. split; [exact F|]. split; [exact EE|]. cbn [app]. now rewrite <- R.
    + exists a, (46%N :: d), e. split; [right; now exists d|]. split; [exact FA|]. split; [exact EE|].
      f_equal. rewrite R, E. now rewrite <- app_assoc.
  - intros (a & b & e & B & FA & EE & ->). rewrite andb_true_iff. split; [reflexivity|]. rewrite orb_true_iff, some_digits_iff, point_digits_iff.
    assert (X : but_newline (a ++ b ++ e) = a ++ b).
    { destruct EE as [->| ->].
      - rewrite app_nil_r. apply but_newline_same. destruct B as [(-> & N)|(d & -> & N & FD)].
        + rewrite app_nil_r. now apply digits_end.
        + intros r E. destruct (exists_last N) as (d' & x & ->).
          change (46%N :: d' ++ [x]) with ((46%N :: d') ++ [x]) in E. rewrite app_assoc in E. apply app_inj_tail in E as [_ ->].
          apply (digits_end _ FD d'). reflexivity.
      - rewrite app_assoc. apply but_newline_drop. }
    rewrite X. destruct B as [(-> & N)|(d & -> & N & FD)].
    + left. rewrite app_nil_r. auto.
    + right. exists a, d. auto.
Qed.
Lemma no_number_options : has_negative_number_optionals uni_digit t = false.
Proof.
  unfold has_negative_number_optionals. destruct (existsb _ strings) eqn:E; [|reflexivity].
  exfalso. apply existsb_exists in E as ((s & o) & I & N). cbn [fst] in N. apply strings_in in I. apply negative_number_iff in N.
  destruct N as (a & b & e & B & FA & EE & ->). destruct (gt_form _ _ G _ _ I) as [(c & n & X & _)|(c & X & C)].
  - injection X as X. destruct a as [|x a].
    + destruct B as [(-> & N)|(d & -> & _)]; [congruence|]. discriminate.
    + injection X as -> _. inversion FA as [|? ? Y Z]; subst. now rewrite digit_not in Y by (cbn; tauto).
  - injection X as X. destruct a as [|x a].
    + destruct B as [(-> & N)|(d & -> & _)]; [congruence|]. injection X as <- _. apply C. cbn. tauto.
    + injection X as -> X. inversion FA as [|? ? Y Z]; subst. apply app_eq_nil in X as [-> X]. apply app_eq_nil in X as [-> ->].
      now apply (gt_digit _ _ G c o I).
Qed.

(** ** Kinds of words *)
Lemma tuples_long n w e : w = 45%N :: 45%N :: n -> partition_eq w = e ->
  get_option_tuples t w = map (fun p => (Some (snd p), fst p, match snd e with Some _ => Some $"=" | None => None end, snd e))
    (filter (fun p => starts_with (fst e) (fst p)) strings).
Proof. intros -> <-. unfold get_option_tuples. cbn [nth N.eqb Pos.eqb]. rewrite <- flat_filter. now destruct (partition_eq _). Qed.
Lemma tuples_short (c : pychar) (r : str) : c <> 45%N -> forall o, spelling t [45%N; c] o ->
  get_option_tuples t (45%N :: c :: r) = match r with [] => get_option_tuples t (45%N :: c :: r) | _ => [(Some o, [45%N; c], Some [], Some r)] end.
Proof.
  intros C o S. destruct r as [|d r]; [reflexivity|]. unfold get_option_tuples. cbn [nth firstn skipn].
  destruct (N.eqb_spec c 45); [congruence|].
  transitivity (map (fun p : str * opt => (Some (snd p), fst p, Some (@nil N), Some (d :: r))) (filter (fun p => str_eqb (fst p) [45%N; c]) strings)).
  - rewrite <- flat_filter. apply flat_map_ext_in. intros (s & o') I. cbn [fst snd]. destruct (str_eqb s _) eqn:E; [reflexivity|].
    destruct (starts_with (45%N :: c :: d :: r) s) eqn:W; [|reflexivity]. exfalso.
    apply starts_with_iff in W as (q & ->). apply strings_in in I. destruct (gt_form _ _ G _ _ I) as [(x & y & X & _)|(x & X & _)]; [|discriminate].
    injection X as -> _. congruence.
  - rewrite (filter_single _ _ ([45%N; c], o)); [reflexivity| | | |].
    + rewrite strings_keys. apply (gt_once _ _ G).
    + now apply strings_in.
    + apply str_eqb_refl.
    + intros (s & o') _ E. now apply str_eqb_eq in E.
Qed.
Lemma tuples_none (c : pychar) (r : str) : c <> 45%N -> (forall o, ~ spelling t [45%N; c] o) -> (forall o, ~ spelling t (45%N :: c :: r) o) ->
  get_option_tuples t (45%N :: c :: r) = [].
Proof.
  intros C N N'. unfold get_option_tuples. cbn [nth firstn skipn]. destruct (N.eqb_spec c 45); [congruence|].
  rewrite (flat_map_ext_in _ (fun _ => [])).
  - now induction strings.
  - intros (s & o) I. cbn [fst]. apply strings_in in I. destruct (str_eqb s _) eqn:E.
    + apply str_eqb_eq in E. subst. now apply N in I.
    + destruct (starts_with (45%N :: c :: r) s) eqn:W; [|reflexivity]. exfalso. apply starts_with_iff in W as (q & ->).
      destruct (gt_form _ _ G _ _ I) as [(x & y & X & _)|(x & X & _)].
      * injection X as -> _. congruence.
      * injection X as -> X. apply app_eq_nil in X as [-> ->]. now apply N in I.
Qed.

(** ** Words *)
Definition tuple_short (o : opt) (c : pychar) (r : str) : tuple :=
  match r with
  | [] => (Some o, [45%N; c], None, None)
  | d :: v => if N.eqb d 61 then (Some o, [45%N; c], Some $"=", Some v) else (Some o, [45%N; c], Some [], Some r)
  end.
Lemma short_letter (c : pychar) o : spelling t [45%N; c] o -> ~ In c [45; 46; 61; 32]%N.
Proof.
  intros S. destruct (gt_form _ _ G _ _ S) as [(x & n & X & _)|(x & X & C)]; [discriminate|]. now injection X as ->.
Qed.
Lemma no_equals s o : spelling t s o -> ~ In 61%N s.
Proof.
  intros S. destruct (gt_form _ _ G _ _ S) as [(x & n & -> & C)|(x & -> & C)]; [exact C|].
  intros [E|[E|[]]]; [discriminate|]. subst. apply C. cbn. tauto.
Qed.
Lemma no_dashes o : ~ spelling t [45; 45]%N o.
Proof. intros S. apply short_letter in S. apply S. cbn. tauto. Qed.
Lemma not_long_letter (c : pychar) (r : str) o : c <> 45%N -> spelling t (45%N :: c :: r) o -> r = [].
Proof.
  intros C S. destruct (gt_form _ _ G _ _ S) as [(x & n & X & _)|(x & X & _)].
  - injection X as -> _. congruence.
  - now injection X.
Qed.
Lemma parse_short (c : pychar) (r : str) o : spelling t [45%N; c] o -> parse_optional (45%N :: c :: r) = Done (Some (tuple_short o c r)).
Proof.
  intros S. assert (C := short_letter _ _ S). assert (C1 : c <> 45%N) by (intros ->; apply C; cbn; tauto).
  assert (C2 : c <> 61%N) by (intros ->; apply C; cbn; tauto).
  unfold ArgParse.parse_optional. change (negb (N.eqb 45 45)) with false. cbv iota. destruct r as [|d v].
  - now rewrite (proj2 (dget_strings _ _) S).
  - rewrite (proj2 (dget_no_string _)) by (intros o' S'; now apply not_long_letter in S').
    unfold tuple_short. destruct (N.eqb_spec d 61) as [->|D].
    + change (45%N :: c :: 61%N :: v) with ([45%N; c] ++ 61%N :: v) at 1. rewrite partition_some.
      * now rewrite (proj2 (dget_strings _ _) S).
      * intros [E|[E|[]]]; congruence.
    + destruct (partition_cases (45%N :: c :: d :: v)) as [(N & ->)|(n & u & N & E & ->)].
      * now rewrite (tuples_short c (d :: v) C1 o S).
      * rewrite (proj2 (dget_no_string n)).
        -- now rewrite (tuples_short c (d :: v) C1 o S).
        -- intros o' S'. destruct n as [|x [|y [|z n]]].
           ++ discriminate.
           ++ injection E as _ E _. congruence.
           ++ injection E as _ _ E _. congruence.
           ++ injection E as <- <- <- _. now apply not_long_letter in S'.
Qed.
Lemma long_matches n s o (e : option str) : starts n s -> spelling t s o -> (forall s' o', spelling t s' o' -> starts n s' -> s' = s) ->
  map (fun p : str * opt => (Some (snd p), fst p, match e with Some _ => Some $"=" | None => None end, e))
    (filter (fun p => starts_with n (fst p)) strings) = [(Some o, s, match e with Some _ => Some $"=" | None => None end, e)].
Proof.
  intros W S U. rewrite (filter_single _ _ (s, o)); [reflexivity| | | |].
  - rewrite strings_keys. apply (gt_once _ _ G).
  - now apply strings_in.
  - now apply starts_with_iff.
  - intros (s' & o') I E. cbn [fst] in *. apply (U s' o'); [now apply strings_in|now apply starts_with_iff].
Qed.
Lemma parse_long w o e : long_word w o e -> w <> [45; 45]%N /\
  exists s sep, parse_optional w = Done (Some (Some o, s, sep, e)) /\ nth 1 s 0%N = 45%N.
Proof.
  intros L. destruct L as [n o (m & ->) D N T|n v o (m & ->) N T]; cbn [app] in *.
  - split; [exact D|]. unfold ArgParse.parse_optional. change (negb (N.eqb 45 45)) with false. cbv iota.
    destruct T as [S|(NS & m' & _ & s & W & S & U)].
    + rewrite (proj2 (dget_strings _ _) S). exists (45%N :: 45%N :: m), None. split; reflexivity.
    + rewrite (proj2 (dget_no_string _) NS). erewrite (tuples_long m) by reflexivity; cbv iota; rewrite (partition_none _ N). cbn [fst snd].
      rewrite (long_matches _ s o None W S U). exists s, None. split; [reflexivity|]. destruct W as (q & ->). reflexivity.
  - split; [intros [= E]; now destruct m|]. unfold ArgParse.parse_optional. change (negb (N.eqb 45 45)) with false. cbv iota.
    rewrite (proj2 (dget_no_string _)).
    2:{ intros o' S. apply no_equals in S. apply S. cbn. right. right. apply in_or_app. right. now left. }
    change (45%N :: 45%N :: m ++ 61%N :: v) with ((45%N :: 45%N :: m) ++ 61%N :: v).
    rewrite (partition_some _ _ N). destruct T as [S|(NS & m' & _ & s & W & S & U)].
    + rewrite (proj2 (dget_strings _ _) S). exists (45%N :: 45%N :: m), (Some $"="). split; reflexivity.
    + rewrite (proj2 (dget_no_string _) NS). erewrite (tuples_long (m ++ 61%N :: v)) by reflexivity; cbv iota; rewrite (partition_some _ _ N). cbn [fst snd].
      rewrite (long_matches _ s o (Some v) W S U). exists s, (Some $"="). split; [reflexivity|]. destruct W as (q & ->). reflexivity.
Qed.
Lemma no_tuples w : w <> [45%N] -> starts [45%N] w -> w <> [45; 45]%N ->
  (forall m n v s o, w = 45%N :: 45%N :: m -> ~ In 61%N n -> (n = w \/ w = n ++ 61%N :: v) -> spelling t s o -> ~ starts n s) ->
  (forall c r o, w = 45%N :: c :: r -> ~ spelling t [45%N; c] o) ->
  parse_optional w = (if negative_number uni_digit w then Done None else if char_mem 32%N w then Done None else Done (Some (None, w, None, None))) /\
  get_option_tuples t w = [].
Proof.
  intros N1 (r & ->) N2 L S. cbn [app] in *. change pychar with N in *. unfold ArgParse.parse_optional. change (negb (N.eqb 45 45)) with false. cbv iota.
  rewrite no_number_options, andb_true_r. destruct r as [|c r]; [now elim N1|].
  assert (D : forall o, ~ spelling t (45%N :: c :: r) o).
  { intros o X. destruct (N.eq_dec c 45) as [->|C].
    - apply (L r (45%N :: 45%N :: r) [] (45%N :: 45%N :: r) o); [reflexivity|now apply no_equals in X|now left|exact X|]. exists []. now rewrite app_nil_r.
    - assert (r = []) by now apply not_long_letter in X. subst. now apply (S c [] o). }
  rewrite (proj2 (dget_no_string _)) by exact D.
  assert (T : get_option_tuples t (45%N :: c :: r) = []).
  { destruct (N.eq_dec c 45) as [->|C].
    - erewrite (tuples_long r) by reflexivity; cbv iota. rewrite (proj2 (filter_none _ _)); [reflexivity|].
      intros (s & o) I. cbn [fst]. destruct (starts_with _ s) eqn:E; [|reflexivity]. exfalso. apply strings_in in I. apply starts_with_iff in E.
      destruct (partition_cases (45%N :: 45%N :: r)) as [(N & P)|(n & u & N & P & Q)].
      + rewrite P in E. cbn [fst] in E. now apply (L r (45%N :: 45%N :: r) [] s o eq_refl N (or_introl eq_refl)).
      + rewrite Q in E. cbn [fst] in E. now apply (L r n u s o eq_refl N (or_intror P)).
    - apply tuples_none; [exact C| |exact D]. intros o. now apply (S c r o). }
  split; [|exact T]. rewrite T. destruct (partition_cases (45%N :: c :: r)) as [(N & ->)|(n & u & N & P & ->)].
  - reflexivity.
  - rewrite (proj2 (dget_no_string n)); [reflexivity|]. intros o X. destruct (N.eq_dec c 45) as [->|C].
    + apply (L r n u n o eq_refl N (or_intror P) X). exists []. now rewrite app_nil_r.
    + destruct n as [|x [|y n]].
      * discriminate.
      * injection P as <- _. destruct (gt_form _ _ G _ _ X) as [(? & ? & ? & _)|(? & ? & _)]; discriminate.
      * injection P as <- <- _. assert (n = []) by now apply not_long_letter in X. subst. now apply (S c r o).
Qed.
Lemma parse_plain w : plain w -> w <> [45; 45]%N /\ parse_optional w = Done None.
Proof.
  intros [N|[->|(D & K & L & S)]].
  - split; [intros ->; apply N; now exists [45%N]|]. destruct w as [|c r]; [reflexivity|]. unfold ArgParse.parse_optional.
    destruct (N.eqb_spec c 45) as [->|C]; [|reflexivity]. exfalso. apply N. now exists r.
  - split; [discriminate|]. unfold ArgParse.parse_optional. change (negb (N.eqb 45 45)) with false. cbv iota.
    rewrite (proj2 (dget_no_string _)); [reflexivity|].
    intros o X. destruct (gt_form _ _ G _ _ X) as [(? & ? & ? & _)|(? & ? & _)]; discriminate.
  - split; [exact D|]. change str with (list N) in *. destruct w as [|c r].
    { reflexivity. }
    destruct (N.eq_dec c 45) as [->|C].
    + assert (N1 : 45%N :: r <> [45%N]).
      { intros [= ->]. destruct K as [(a & b & e & B & _ & _ & E)|[E|[]]]; [|discriminate].
        injection E as E. symmetry in E. apply app_eq_nil in E as [-> E]. apply app_eq_nil in E as [-> _].
        destruct B as [(_ & B)|(d & B & _)]; [now elim B|discriminate]. }
      destruct (no_tuples (45%N :: r) N1 (ex_intro _ r eq_refl) D L S) as [-> _].
      destruct K as [K|K].
      * now rewrite (proj2 (negative_number_iff _) K).
      * rewrite (proj2 (char_mem_In _ _) K). now destruct (negative_number _ _).
    + unfold ArgParse.parse_optional. now rewrite (proj2 (N.eqb_neq _ _) C).
Qed.

Notation ambiguous := (ambiguous t).
(** What a word may be. *)
Lemma word_cases w : w <> [45; 45]%N ->
  (plain w /\ parse_optional w = Done None) \/
  (exists o s sep e, long_word w o e /\ nth 1 s 0%N = 45%N /\ parse_optional w = Done (Some (Some o, s, sep, e))) \/
  (exists o c r, w = 45%N :: c :: r /\ spelling t [45%N; c] o /\ parse_optional w = Done (Some (tuple_short o c r))) \/
  (ambiguous w /\ parse_optional w = Exit 2) \/
  parse_optional w = Done (Some (None, w, None, None)).
Proof.
  intros D. change str with (list N) in *. destruct w as [|c r].
  { left. split; [|reflexivity]. left. intros (r & E). discriminate. }
  destruct (N.eq_dec c 45) as [->|C].
  2:{ left. split; [left; intros (q & E); injection E as -> _; congruence|]. unfold ArgParse.parse_optional. now rewrite (proj2 (N.eqb_neq _ _) C). }
  destruct r as [|c r].
  { left. assert (P : plain [45%N]) by (right; now left). split; [exact P|]. now apply parse_plain in P. }
  destruct (dget [45%N; c] strings) as [o|] eqn:E.
  { apply dget_strings in E. right. right. left. exists o, c, r. split; [reflexivity|]. split; [exact E|]. now apply parse_short. }
  assert (E' := proj1 (dget_no_string _) E).
  destruct (N.eq_dec c 45) as [->|C].
  - (* two dashes *)
    assert (X : exists n e, ~ In 61%N n /\ starts [45; 45]%N n /\ ((n = 45%N :: 45%N :: r /\ e = None) \/
                  exists v, e = Some v /\ 45%N :: 45%N :: r = n ++ 61%N :: v) /\ partition_eq (45%N :: 45%N :: r) = (n, e)).
    { destruct (partition_cases (45%N :: 45%N :: r)) as [(N & Q)|(n & u & N & P & Q)].
      - exists (45%N :: 45%N :: r), None. split; [exact N|]. split; [now exists r|]. split; [now left|exact Q].
      - exists n, (Some u). split; [exact N|]. split; [|split; [right; now exists u|exact Q]].
        destruct n as [|x [|y n]]; [discriminate|injection P as _ P; discriminate|]. injection P as <- <- _. now exists n. }
    destruct X as (n & e & NE & W & F & Q).
    assert (LW : forall o, stands t n o -> long_word (45%N :: 45%N :: r) o e).
    { intros o T. destruct F as [(F & ->)|(v & -> & F)].
      - rewrite <- F. constructor; auto. now rewrite F.
      - rewrite F. now constructor. }
    destruct (dget n strings) as [o|] eqn:DN.
    { apply dget_strings in DN. right. left. destruct (parse_long _ _ _ (LW o (or_introl DN))) as (_ & s & sep & P & S1).
      exists o, s, sep, e. split; [apply LW; now left|]. split; [exact S1|exact P]. }
    assert (DN' := proj1 (dget_no_string _) DN).
    assert (DW : dget (45%N :: 45%N :: r) strings = None).
    { apply dget_no_string. intros o S. destruct F as [(F & _)|(v & _ & F)].
      - rewrite <- F in S. now apply DN' in S.
      - apply no_equals in S. apply S. rewrite F. apply in_or_app. right. now left. }
    destruct (filter (fun p => starts_with n (fst p)) strings) as [|p1 [|p2 l]] eqn:FL.
    + assert (L : forall m n v s o, 45%N :: 45%N :: r = 45%N :: 45%N :: m -> ~ In 61%N n -> (n = 45%N :: 45%N :: r \/ 45%N :: 45%N :: r = n ++ 61%N :: v) ->
              spelling t s o -> ~ starts n s).
      { intros m n' v s o _ N' O S W'. assert (n' = n).
        { destruct F as [(F & F2)|(u & F2 & F)].
          - destruct O as [->|O]; [now rewrite F|]. exfalso. apply NE. rewrite F, O. apply in_or_app. right. now left.
          - destruct O as [O|O].
            + exfalso. apply N'. rewrite O, F. apply in_or_app. right. now left.
            + assert (Y := partition_some n' v N'). rewrite <- O, Q in Y. congruence. }
        subst n'. apply strings_in in S. apply starts_with_iff in W'. apply (proj1 (filter_none _ _) FL) in S. cbn [fst] in S. congruence. }
      assert (S : forall c r' o, 45%N :: 45%N :: r = 45%N :: c :: r' -> ~ spelling t [45%N; c] o).
      { intros c r' o [= <- <-]. apply E'. }
      destruct (no_tuples (45%N :: 45%N :: r) ltac:(discriminate) ltac:(now exists (45%N :: r)) D L S) as [P _].
      rewrite P. destruct (negative_number uni_digit (45%N :: 45%N :: r)) eqn:NN.
      { left. split; [|reflexivity]. right. right. split; [exact D|]. split; [left; now apply negative_number_iff|]. split; [exact L|exact S]. }
      destruct (char_mem 32%N (45%N :: 45%N :: r)) eqn:CM.
      { left. split; [|reflexivity]. right. right. split; [exact D|]. split; [right; now apply char_mem_In|]. split; [exact L|exact S]. }
      right. right. right. right. reflexivity.
    + right. left. destruct p1 as [s o]. apply filter_one in FL as (I & W' & U). cbn [fst] in W'. apply starts_with_iff in W'. apply strings_in in I.
      assert (T : stands t n o).
      { right. split; [exact DN'|]. destruct W as (m & M). exists m. split; [exact M|]. exists s. split; [exact W'|]. split; [exact I|].
        intros s' o' S' W2. apply strings_in in S'. apply (U (s', o')) in S'; [congruence|]. now apply starts_with_iff. }
      destruct (parse_long _ _ _ (LW o T)) as (_ & s' & sep & P & S1). exists o, s', sep, e. split; [now apply LW|]. split; [exact S1|exact P].
    + right. right. right. left. split.
      * assert (I1 : In p1 (filter (fun p => starts_with n (fst p)) strings)) by (rewrite FL; now left).
        assert (I2 : In p2 (filter (fun p => starts_with n (fst p)) strings)) by (rewrite FL; right; now left).
        apply filter_In in I1 as [I1 W1]. apply filter_In in I2 as [I2 W2]. destruct p1 as [s1 o1], p2 as [s2 o2]. cbn [fst] in *.
        exists n, s1, s2, o1, o2. split; [destruct F as [(F & _)|(v & _ & F)]; [left; congruence|right; now exists v]|].
        split; [exact W|]. split; [exact NE|]. split; [now apply strings_in|]. split; [now apply strings_in|]. split.
        -- intros ->. assert (ND : NoDup (map fst (filter (fun p => starts_with n (fst p)) strings))).
           { assert (NK := gt_once _ _ G). rewrite <- strings_keys in NK. clear -NK. induction strings as [|p l IH]; [constructor|].
             cbn [map filter] in *. inversion NK as [|? ? X Y]; subst. destruct (starts_with n (fst p)); [|auto].
             cbn [map]. constructor; [|auto]. intros J. apply X. apply in_map_iff in J as (q & <- & J). apply filter_In in J as [J _]. now apply in_map. }
           rewrite FL in ND. cbn [map fst] in ND. inversion ND as [|? ? X Y]; subst. apply X. now left.
        -- split; [now apply starts_with_iff|]. split; [now apply starts_with_iff|exact DN'].
      * unfold ArgParse.parse_optional. change (negb (N.eqb 45 45)) with false. cbv iota. rewrite DW, Q.
        erewrite (tuples_long r) by reflexivity; cbv iota; rewrite Q. cbn [fst snd]. rewrite FL. cbn [map]. destruct e; [now rewrite DN|reflexivity].
  - (* one dash *)
    assert (L : forall m n v s o, 45%N :: c :: r = 45%N :: 45%N :: m -> ~ In 61%N n -> (n = 45%N :: c :: r \/ 45%N :: c :: r = n ++ 61%N :: v) ->
            spelling t s o -> ~ starts n s).
    { intros m n v s o [= X _]. congruence. }
    assert (S : forall c' r' o, 45%N :: c :: r = 45%N :: c' :: r' -> ~ spelling t [45%N; c'] o).
    { intros c' r' o [= <- <-]. apply E'. }
    destruct (no_tuples (45%N :: c :: r) ltac:(discriminate) ltac:(now exists (c :: r)) D L S) as [P _].
    rewrite P. destruct (negative_number uni_digit (45%N :: c :: r)) eqn:NN.
    { left. split; [|reflexivity]. right. right. split; [exact D|]. split; [left; now apply negative_number_iff|]. split; [exact L|exact S]. }
    destruct (char_mem 32%N (45%N :: c :: r)) eqn:CM.
    { left. split; [|reflexivity]. right. right. split; [exact D|]. split; [right; now apply char_mem_In|]. split; [exact L|exact S]. }
    right. right. right. right. reflexivity.
Qed.
End Words.
