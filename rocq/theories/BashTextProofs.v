(** * Proofs about the text of a bash script: how bash reads the lines, and that
    running them does what [apply] does. *)
From Coq Require Import String NArith ZArith List Bool Lia.
Import ListNotations.
From Verif Require Import PyBase PyFacts IniView IniRead Cpe EnvVar Bash SetEnv SpecRun SpecEnv SpecSetEnv SpecBash EnvProofs
  SetEnvProofs2 SetEnvProofs3 BashProofs.
Local Open Scope sm_scope.

(** ** Text in double quotes *)
Lemma in_quotes_skip n s : in_quotes (length n) (n ++ s) = in_quotes 0 s.
Proof. induction n as [|c n IH]; [reflexivity|exact IH]. Qed.
Lemma in_quotes_plain c s : c <> 34%N -> c <> 96%N -> c <> 36%N -> c <> 92%N ->
  in_quotes 0 (c :: s) = put_part (Text [c]) (in_quotes 0 s).
Proof.
  intros A B C D. cbn [in_quotes]. apply N.eqb_neq in A, B, C, D. now rewrite A, B, C, D.
Qed.
Lemma in_quotes_ref s x n : bash_reference s = Some (x, n) ->
  in_quotes 0 (36%N :: s) = put_part (Ref x) (in_quotes n s).
Proof. intros E. cbn [in_quotes]. cbn [N.eqb Pos.eqb]. now rewrite E. Qed.
Lemma in_quotes_dollar s : bash_reference s = None -> dollar_is_text s = true ->
  in_quotes 0 (36%N :: s) = put_part (Text [36%N]) (in_quotes 0 s).
Proof. intros E D. cbn [in_quotes]. cbn [N.eqb Pos.eqb]. now rewrite E, D. Qed.

Lemma reference_name n s : shell_name n -> match s with c :: _ => ~ word_char c | [] => True end ->
  bash_reference (n ++ s) = Some (n, length n).
Proof.
  intros S H. pose proof (word_run_app n s (proj2 (name_word n S)) H) as W.
  destruct n as [|c n]; [destruct S|]. cbn [app] in *. unfold bash_reference. rewrite W.
  destruct S as (A & B & _). now rewrite (proj2 (name_start_spec c) (conj A B)).
Qed.
Lemma reference_brace n s : shell_name n ->
  bash_reference (123%N :: n ++ 125%N :: s) = Some (n, 2 + length n).
Proof.
  intros S. unfold bash_reference. change (name_start 123%N) with false. cbn [N.eqb Pos.eqb].
  rewrite upto_brace_app, (proj2 (identifier_spec n) S); auto.
  intros I. apply name_word in S as [_ F]. rewrite Forall_forall in F. apply F, word_plain in I as [I _].
  apply I. cbn. tauto.
Qed.

Lemma in_quotes_spec e v t : stands_for e v t -> forall rest,
  exists ps, in_quotes 0 (v ++ 34%N :: rest) = Some (ps, rest) /\ word_value (Shell [] e) ps = t.
Proof.
  intros S. induction S as [|c v t P D B S IH|c v t I S IH| |n x v t N BN H D S IH|n x v t N BN D S IH]; intros rest.
  - exists []. auto.
  - destruct (IH rest) as (ps & E & V). exists (Text [c] :: ps). split; [|cbn; now rewrite <- V].
    cbn [app]. rewrite in_quotes_plain, E; auto; intros ->; apply (proj1 P); cbn; tauto.
  - destruct (IH rest) as (ps & E & V). exists (Text [36%N] :: ps). split; [|cbn; now rewrite <- V].
    cbn [app] in *. rewrite in_quotes_dollar, E; auto.
    + cbn in I. repeat destruct I as [<-|I]; try reflexivity. destruct I.
    + cbn in I. repeat destruct I as [<-|I]; try reflexivity. destruct I.
  - exists [Text [36%N]]. split; reflexivity.
  - destruct (IH rest) as (ps & E & V). exists (Ref n :: ps). split.
    2: { cbn [word_value flat_map part_value]. unfold var. cbn [local_of sh_frames sh_env].
         fold (word_value (Shell [] e) ps). now rewrite D, V. }
    cbn [app]. rewrite <- app_assoc. rewrite (in_quotes_ref _ n (length n)).
    + now rewrite in_quotes_skip, E.
    + apply reference_name; auto. destruct v as [|c v]; [|exact H]. cbn. unfold word_char. lia.
  - destruct (IH rest) as (ps & E & V). exists (Ref n :: ps). split.
    2: { cbn [word_value flat_map part_value]. unfold var. cbn [local_of sh_frames sh_env].
         fold (word_value (Shell [] e) ps). now rewrite D, V. }
    cbn [app]. rewrite <- app_assoc. cbn [app]. rewrite (in_quotes_ref _ n (2 + length n)) by now apply reference_brace.
    change (123%N :: n ++ 125%N :: v ++ 34%N :: rest) with ((123%N :: n) ++ [125%N] ++ v ++ 34%N :: rest).
    rewrite app_assoc.
    replace (2 + length n) with (length ((123%N :: n) ++ [125%N])) by (cbn [app length]; rewrite app_length, Nat.add_comm; reflexivity).
    now rewrite in_quotes_skip, E.
Qed.

Lemma stands_for_expands e v t : stands_for e v t -> expands e v t.
Proof.
  intros S. induction S as [|c v t P D B S IH|c v t I S IH| |n x v t N BN H D S IH|n x v t N BN D S IH].
  - constructor.
  - now constructor.
  - apply ex_dollar; auto. cbn in I. cbn. unfold word_char.
    repeat destruct I as [<-|I]; try (intros [X|[X _]]; [lia|discriminate]). destruct I.
  - apply ex_dollar; [|constructor]. auto.
  - apply name_word in N as [A B]. now apply ex_name.
  - apply ex_brace; auto. intros I. apply name_word in N as [_ F]. rewrite Forall_forall in F.
    apply F, word_plain in I as [I _]. apply I. cbn. tauto.
Qed.
Lemma word_plain_char c : word_char c -> plain_char c.
Proof.
  intros W. apply word_plain in W as [A B]. split; [|lia]. intros I. apply A. cbn in *. tauto.
Qed.
Lemma stands_for_plain e v t : stands_for e v t -> plain_text v.
Proof.
  assert (D36 : plain_char 36%N) by (split; [cbn; intuition discriminate|lia]).
  assert (W : forall n, shell_name n -> plain_text n).
  { intros n S. apply name_word in S as [_ F]. eapply Forall_impl; [|exact F]. apply word_plain_char. }
  unfold plain_text in *.
  intros S. induction S as [|c v t P D B S IH|c v t I S IH| |n x v t N BN H D S IH|n x v t N BN D S IH].
  - constructor.
  - now constructor.
  - now constructor.
  - now constructor.
  - constructor; auto. apply Forall_app. auto.
  - constructor; auto. constructor; [split; [cbn; intuition discriminate|lia]|]. apply Forall_app. split; auto.
    constructor; auto. split; [cbn; intuition discriminate|lia].
Qed.
Lemma stands_for_op_value e v t : stands_for e v t ->
  (if char_mem 36%N v then expandvars e v else v) = t.
Proof. intros S. eapply expands_det; [apply op_value|]. now apply stands_for_expands. Qed.

(** A name stands for itself. *)
Lemma stands_for_word e n : Forall word_char n -> stands_for e n n.
Proof.
  induction 1 as [|c n W F IH]; constructor; auto.
  - now apply word_plain_char.
  - intros ->. unfold word_char in W. lia.
  - intros ->. unfold word_char in W. lia.
Qed.

(** ** Lines *)
Section Lines.
Variable e : environ.

(** Reading the rest [s] of a line: the values of the words. *)
Definition reads (s : str) (args : list str) : Prop := forall rest, exists ws,
  (forall f, length s < f -> line_words f (s ++ 10%N :: rest) None = Some (ws, rest)) /\
  map (word_value (Shell [] e)) ws = args.
(** The same in a word that began with [w]. *)
Definition reads_in (w s : str) (args : list str) : Prop := forall cur rest,
  word_value (Shell [] e) cur = w -> exists ws,
  (forall f, length s < f -> line_words f (s ++ 10%N :: rest) (Some cur) = Some (ws, rest)) /\
  map (word_value (Shell [] e)) ws = args.

Lemma line_words_S f s cur : line_words (S f) s cur =
      match s with
      | [] => end_word cur (Some ([], []))
      | c :: s' =>
          if N.eqb c 10 then end_word cur (Some ([], s'))
          else if blank_char c then end_word cur (line_words f s' None)
          else if N.eqb c 34 then
            match in_quotes 0 s' with
            | Some (l, rest) => line_words f rest (add_parts cur l)
            | None => None
            end
          else if bare_char c then line_words f s' (add_parts cur [Text [c]])
          else match cur with
               | None => if N.eqb c 35 then Some ([], to_newline s') else None
               | Some _ => None
               end
      end.
Proof. reflexivity. Qed.

Lemma reads_end w : reads_in w [] [w].
Proof.
  intros cur rest W. exists [cur]. split; [|cbn [map]; now rewrite W].
  intros [|f] L; [cbn in L; lia|]. reflexivity.
Qed.
Lemma reads_space w s args : reads s args -> reads_in w (32%N :: s) (w :: args).
Proof.
  intros R cur rest W. destruct (R rest) as (ws & E & A). exists (cur :: ws). split; [|cbn [map]; now rewrite W, A].
  intros [|f] L; [cbn in L; lia|]. cbn in L. cbn [app]. rewrite line_words_S. cbn [N.eqb Pos.eqb].
  change (blank_char 32%N) with true. cbv iota. rewrite E by lia. reflexivity.
Qed.
Lemma bare_steps c : word_char c \/ In c $"%+,-./:=@" ->
  N.eqb c 10 = false /\ blank_char c = false /\ N.eqb c 34 = false /\ bare_char c = true.
Proof.
  intros [W|I].
  - assert (B : bare_char c = true) by (unfold bare_char; now rewrite (proj2 (ascii_word_spec c) W)).
    apply word_plain in W as [W _].
    repeat split; auto; try (apply N.eqb_neq; intros ->; apply W; cbn; tauto).
    apply not_true_is_false. intros E. apply existsb_exists in E as (x & J & E). apply N.eqb_eq in E. subst x.
    apply W. cbn in *. tauto.
  - cbn in I. repeat destruct I as [<-|I]; try (repeat split; reflexivity). destruct I.
Qed.
Lemma reads_char w c s args : word_char c \/ In c $"%+,-./:=@" ->
  reads_in (w ++ [c]) s args -> reads_in w (c :: s) args.
Proof.
  intros B R cur rest W. destruct (R (cur ++ [Text [c]]) rest) as (ws & E & A).
  { unfold word_value in *. rewrite flat_map_app, W. reflexivity. }
  exists ws. split; auto. intros [|f] L; [cbn in L; lia|]. cbn in L. cbn [app]. rewrite line_words_S.
  destruct (bare_steps c B) as (B1 & B2 & B3 & B4). rewrite B1, B2, B3, B4. apply E. lia.
Qed.
Lemma reads_bare u s args : (forall c, In c u -> word_char c \/ In c $"%+,-./:=@") ->
  forall w, reads_in (w ++ u) s args -> reads_in w (u ++ s) args.
Proof.
  intros B. induction u as [|c u IH]; intros w R; [now rewrite app_nil_r in R|].
  cbn [app]. apply reads_char; [apply B; now left|]. apply IH; [intros d I; apply B; now right|].
  rewrite <- app_assoc. exact R.
Qed.
Lemma reads_word u s args : bare_text u -> reads_in u s args -> reads (u ++ s) args.
Proof.
  intros [N B] R. destruct u as [|c u]; [congruence|].
  assert (R1 : reads_in [c] (u ++ s) args) by (apply reads_bare; [intros d I; apply B; now right|exact R]).
  intros rest. destruct (R1 [Text [c]] rest eq_refl) as (ws & E & A). exists ws. split; auto.
  intros [|f] L; [cbn in L; lia|]. cbn in L. cbn [app]. rewrite line_words_S.
  destruct (bare_steps c (B c (or_introl eq_refl))) as (B1 & B2 & B3 & B4). rewrite B1, B2, B3, B4. apply E. lia.
Qed.
Lemma reads_quoted v t s args : stands_for e v t -> reads_in t s args -> reads (quoted v ++ s) args.
Proof.
  intros S R rest. destruct (in_quotes_spec e v t S (s ++ 10%N :: rest)) as (ps & Q & V).
  destruct (R ps rest V) as (ws & E & A). exists ws. split; auto.
  unfold quoted. intros [|f] L; [cbn in L; lia|]. cbn in L. rewrite !app_length in L. cbn in L.
  assert (X : (($"""" ++ v ++ $"""") ++ s) ++ 10%N :: rest = 34%N :: v ++ 34%N :: s ++ 10%N :: rest)
    by (rewrite <- !app_assoc; reflexivity).
  etransitivity; [exact (f_equal (fun z => line_words (Datatypes.S f) z None) X)|].
  rewrite line_words_S. cbn [N.eqb Pos.eqb]. change (blank_char 34%N) with false.
  cbv iota. rewrite Q. cbn [add_parts app]. apply E. lia.
Qed.
End Lines.

(** Decides [bare_text] for a literal. *)
Lemma bare_text_check s : s <> [] -> forallb (fun c => ascii_word c || existsb (N.eqb c) $"%+,-./:=@") s = true ->
  bare_text s.
Proof.
  intros N B. split; auto. intros c I. rewrite forallb_forall in B. specialize (B c I).
  apply orb_true_iff in B as [B|B]; [left; now apply ascii_word_spec|right].
  apply existsb_exists in B as (x & J & E). apply N.eqb_eq in E. now subst.
Qed.
Ltac bare := apply bare_text_check; [discriminate|reflexivity].

Section Run.
Variable glob : str -> list str.
Variable subst_pattern : str -> str -> str.
Variable sed_other : list str -> str -> str.
Variable echo_option : list str -> str.
Variable which_prints : environ -> list str -> str.
Variable module_command : list str -> environ -> environ.
Variable other_command : str -> environ -> res unit * environ.
Notation op_call := (op_call glob subst_pattern sed_other echo_option which_prints).
Notation run_command := (run_command glob subst_pattern sed_other echo_option which_prints module_command other_command).
Notation run_script := (run_script glob subst_pattern sed_other echo_option which_prints module_command other_command).
Notation run_bash := (run_bash glob subst_pattern sed_other echo_option which_prints module_command other_command).

(** What a command line does, given its words. *)
Definition command (args : list str) (e : environ) : res unit * shell :=
  match args with
  | [] => out (Ok tt, e)
  | c :: l =>
      if str_eqb c $"module" then out (Ok tt, module_command l e)
      else op_call l e
  end.
Definition known (args : list str) : Prop :=
  args = [] \/ (exists l, args = $"module" :: l) \/ (exists op n l, args = $"envvar_op" :: op :: n :: l /\ shell_name n).
Lemma run_command_is ws line e : known (map (word_value (Shell [] e)) ws) ->
  run_command ws line (Shell [] e) = command (map (word_value (Shell [] e)) ws) e.
Proof.
  unfold Bash.run_command. intros [->|[[l ->]|(op & n & l & -> & S)]]; [reflexivity|reflexivity|].
  unfold nth_arg. cbn [nth_error value_or_empty]. now rewrite (proj2 (identifier_spec n) S).
Qed.

(** Running the text [t]: bash gets to the end of [t], or stops in it. *)
Definition runs (t : str) (e e' : environ) : Prop := forall f rest, length (t ++ rest) < f ->
  exists f', length rest < f' /\ run_script f (t ++ rest) (Shell [] e) = run_script f' rest (Shell [] e').
Definition stops (t : str) (e e' : environ) : Prop := forall f rest, length (t ++ rest) < f ->
  run_script f (t ++ rest) (Shell [] e) = out (Err ScriptExit, e').

Lemma run_script_S f s : s <> [] -> run_script (S f) s =
  match line_words (S (length s)) s None with
  | Some (ws, rest) => run_command ws s ;; run_script f rest
  | None => in_env (other_command s)
  end.
Proof. destruct s; [congruence|reflexivity]. Qed.
Lemma line_starts s args e : reads e s args -> known args -> forall f rest, length (s ++ newline ++ rest) < f ->
  exists f', length rest < f' /\
    run_script f (s ++ newline ++ rest) (Shell [] e) =
    (fun b => match command args e with (Ok _, b') => run_script f' rest b' | (Err x, b') => (Err x, b') end) (Shell [] e).
Proof.
  intros R K f rest L. rewrite !app_length in L. cbn [length newline] in L. destruct f as [|f]; [lia|].
  exists f. split; [lia|]. destruct (R rest) as (ws & E & A).
  rewrite run_script_S by (destruct s; discriminate). change (newline ++ rest) with (10%N :: rest).
  rewrite E by (rewrite app_length; cbn; lia). unfold bind.
  rewrite run_command_is, A by (now rewrite A). destruct (command args e) as [[[]|x] b]; reflexivity.
Qed.
Lemma line_runs s args e e' : reads e s args -> known args -> command args e = out (Ok tt, e') ->
  runs (s ++ newline) e e'.
Proof.
  intros R K C f rest L. rewrite <- app_assoc in *. destruct (line_starts s args e R K f rest L) as (f' & L' & E).
  exists f'. split; auto. rewrite E, C. reflexivity.
Qed.
Lemma line_stops s args e e' : reads e s args -> known args -> command args e = out (Err ScriptExit, e') ->
  stops (s ++ newline) e e'.
Proof.
  intros R K C f rest L. rewrite <- app_assoc in *. destruct (line_starts s args e R K f rest L) as (f' & L' & E).
  rewrite E, C. reflexivity.
Qed.
Lemma runs_nil e : runs [] e e.
Proof. intros f rest L. exists f. auto. Qed.
Lemma runs_app t u e e1 e2 : runs t e e1 -> runs u e1 e2 -> runs (t ++ u) e e2.
Proof.
  intros T U f rest L. rewrite <- app_assoc in *. destruct (T f (u ++ rest) L) as (f1 & L1 & E1).
  destruct (U f1 rest L1) as (f2 & L2 & E2). exists f2. split; auto. now rewrite E1.
Qed.
Lemma stops_app t u e e1 e2 : runs t e e1 -> stops u e1 e2 -> stops (t ++ u) e e2.
Proof.
  intros T U f rest L. rewrite <- app_assoc in *. destruct (T f (u ++ rest) L) as (f1 & L1 & E1).
  rewrite E1. now apply U.
Qed.
Lemma stops_before t u e e1 : stops t e e1 -> stops (t ++ u) e e1.
Proof. intros T f rest L. rewrite <- app_assoc in *. now apply T. Qed.
Lemma runs_all t e e' : runs t e e' -> run_bash t e = (Ok tt, e').
Proof.
  intros R. unfold Bash.run_bash. destruct (R (S (length t)) []) as ([|f] & L & E); [rewrite app_nil_r; lia|cbn in L; lia|].
  rewrite app_nil_r in E. rewrite E. reflexivity.
Qed.
Lemma stops_all t e e' : stops t e e' -> run_bash t e = (Err ScriptExit, e').
Proof.
  intros R. unfold Bash.run_bash. specialize (R (S (length t)) []). rewrite app_nil_r in R. rewrite R by lia. reflexivity.
Qed.

(** Comments and empty lines. *)
Lemma to_newline_app s rest : ~ In 10%N s -> to_newline (s ++ 10%N :: rest) = rest.
Proof.
  induction s as [|c s IH]; intros N; [reflexivity|]. cbn [app to_newline].
  destruct (N.eqb_spec c 10); [subst; cbn in N; tauto|]. apply IH. intros I. apply N. now right.
Qed.
Lemma comment_runs s e : ~ In 10%N s -> runs (35%N :: s ++ newline) e e.
Proof.
  intros N [|f] rest L; [cbn in L; lia|]. cbn in L. rewrite !app_length in L. cbn in L.
  exists f. split; [lia|]. cbn [app]. rewrite run_script_S by discriminate.
  rewrite line_words_S. cbn [N.eqb Pos.eqb]. change (blank_char 35%N) with false. change (bare_char 35%N) with false.
  cbv iota. rewrite <- app_assoc. change (newline ++ rest) with (10%N :: rest). rewrite to_newline_app by auto.
  reflexivity.
Qed.
Lemma blank_runs e : runs newline e e.
Proof.
  intros [|f] rest L; [cbn in L; lia|]. cbn in L. exists f. split; [lia|]. reflexivity.
Qed.
Lemma no_newline_check s : existsb (N.eqb 10) s = false -> ~ In 10%N s.
Proof.
  intros E I. assert (X : existsb (N.eqb 10) s = true); [|congruence]. apply existsb_exists. exists 10%N. now rewrite N.eqb_refl.
Qed.
Lemma comment_then s u e e' : ~ In 10%N s -> runs u e e' -> runs ((35%N :: s) ++ newline ++ u) e e'.
Proof.
  intros N U. rewrite app_assoc. eapply runs_app; [|exact U]. apply (comment_runs s e N).
Qed.
Lemma banner_runs e : runs banner e e.
Proof.
  unfold banner.
  apply (comment_then $" -------------------------------------------------"); [apply no_newline_check; reflexivity|].
  apply (comment_then $"   S E T E N V I R O N M E N T   C O M M A N D S"); [apply no_newline_check; reflexivity|].
  apply (comment_runs $" -------------------------------------------------"). apply no_newline_check. reflexivity.
Qed.
Lemma heading_runs header bang e : runs (heading header $"bash" false bang) e e.
Proof.
  unfold heading. rewrite app_nil_r. destruct bang; [|apply runs_nil].
  apply (comment_runs $"!/usr/bin/env bash"). apply no_newline_check. reflexivity.
Qed.

(** *** The lines of the actions *)
Lemma reads_op op n v t e : bare_text op -> shell_name n -> stands_for e v t ->
  reads e ($"envvar_op " ++ op ++ $" " ++ quoted n ++ $" " ++ quoted v) [$"envvar_op"; op; n; t].
Proof.
  intros B S V. rewrite <- (app_nil_r (quoted v)).
  apply (reads_word e $"envvar_op" (32%N :: _)); [bare|]. apply reads_space.
  apply (reads_word e op (32%N :: _)); [exact B|]. apply reads_space.
  apply (reads_quoted e n n (32%N :: _)); [apply stands_for_word; now apply name_word|]. apply reads_space.
  eapply reads_quoted; [exact V|]. apply reads_end.
Qed.
Lemma reads_unset n e : shell_name n -> reads e ($"envvar_op unset " ++ quoted n) [$"envvar_op"; $"unset"; n].
Proof.
  intros S. rewrite <- (app_nil_r (quoted n)).
  apply (reads_word e $"envvar_op" (32%N :: _)); [bare|]. apply reads_space.
  apply (reads_word e $"unset" (32%N :: _)); [bare|]. apply reads_space.
  apply (reads_quoted e n n); [apply stands_for_word; now apply name_word|]. apply reads_end.
Qed.
Lemma reads_module0 sub e : bare_text sub -> reads e ($"module " ++ sub) [$"module"; sub].
Proof.
  intros B. rewrite <- (app_nil_r sub) at 1.
  apply (reads_word e $"module" (32%N :: _)); [bare|]. apply reads_space.
  apply reads_word; [exact B|]. apply reads_end.
Qed.
Lemma reads_module1 sub n e : bare_text sub -> bare_text n ->
  reads e ($"module " ++ sub ++ $" " ++ n) [$"module"; sub; n].
Proof.
  intros B C. rewrite <- (app_nil_r n) at 1.
  apply (reads_word e $"module" (32%N :: _)); [bare|]. apply reads_space.
  apply (reads_word e sub (32%N :: _)); [exact B|]. apply reads_space.
  apply reads_word; [exact C|]. apply reads_end.
Qed.
Lemma reads_module2 sub n v e : bare_text sub -> bare_text n -> bare_text v ->
  reads e ($"module " ++ sub ++ $" " ++ n ++ $" " ++ v) [$"module"; sub; n; v].
Proof.
  intros B C D. rewrite <- (app_nil_r v) at 1.
  apply (reads_word e $"module" (32%N :: _)); [bare|]. apply reads_space.
  apply (reads_word e sub (32%N :: _)); [exact B|]. apply reads_space.
  apply (reads_word e n (32%N :: _)); [exact C|]. apply reads_space.
  apply reads_word; [exact D|]. apply reads_end.
Qed.
Lemma bare_version n v : bare_text n -> bare_text v -> bare_text (n ++ $"/" ++ v).
Proof.
  intros [N A] [M B]. split; [destruct n; [congruence|discriminate]|].
  intros c I. apply in_app_or in I as [I|I]; [now apply A|]. cbn [lit app In] in I.
  destruct I as [<-|I]; [right; cbn; tauto|now apply B].
Qed.

(** *** The effect of the actions *)
Variable which : environ -> str -> option str.
Variable mods : list str -> environ -> res Z * environ.
Hypothesis same_which : forall e v,
  chomp (which_prints e [v]) = match which e v with Some p => p | None => [] end.
Hypothesis same_mods : forall args e, module_command args e = snd (mods args e).

Lemma set_value n v e r e1 : envvar_set n v true e = (Ok r, e1) -> e1 = dset n v e.
Proof.
  unfold envvar_set, env_assign, bind, ret. cbn [negb andb].
  destruct (char_mem 61%N n || char_mem 0%N n || char_mem 0%N v); [discriminate|].
  destruct n; [discriminate|]. congruence.
Qed.
Ltac evaluate S := unfold envvar_op, bind, get; cbn [negb andb]; cbv zeta; rewrite (stands_for_op_value _ _ _ S);
  repeat match goal with |- context [str_eqb (lit ?a) (lit ?b)] =>
    let v := eval vm_compute in (str_eqb (lit a) (lit b)) in change (str_eqb (lit a) (lit b)) with v end;
  cbv iota.

Lemma same_set n v t e z e1 : variable n -> stands_for e v t ->
  envvar_op which $"set" n v true e = (Ok z, e1) -> op_call [$"set"; n; t] e = out (Ok tt, e1).
Proof. intros V S. evaluate S. intros E. apply set_value in E. subst. now apply op_set. Qed.
Lemma same_set_if_empty n v t e z e1 : variable n -> stands_for e v t ->
  envvar_op which $"set_if_empty" n v true e = (Ok z, e1) -> op_call [$"set_if_empty"; n; t] e = out (Ok tt, e1).
Proof.
  intros V S. evaluate S. unfold envvar_set_if_empty, bind, get, ret. cbn [negb andb]. intros E.
  rewrite op_set_if_empty by auto. unfold env_assign in E.
  change (@dget (list pychar)) with (@dget str) in E. revert E. destruct (dget n e) as [[|c x]|];
    try (destruct (char_mem 61%N n || char_mem 0%N n || char_mem 0%N t); [discriminate|]; destruct n; [discriminate|]);
    intros E; inversion E; subst; reflexivity.
Qed.
Lemma same_assert n v t e r e1 : variable n -> stands_for e v t ->
  envvar_op which $"assert_not_empty" n v true e = (r, e1) ->
  op_call [$"assert_not_empty"; n; t] e = out (match r with Ok _ => Ok tt | Err _ => Err ScriptExit end, e1).
Proof.
  intros V S. evaluate S. unfold raise, ret. intros E. rewrite op_assert by auto.
  change (@dget (list pychar)) with (@dget str) in E. revert E. destruct (dget n e) as [[|c x]|]; intros E; inversion E; subst; reflexivity.
Qed.
Lemma same_append n v t e z e1 : variable n -> stands_for e v t -> t <> [] ->
  envvar_op which $"append" n v true e = (Ok z, e1) -> op_call [$"append"; n; t] e = out (Ok tt, e1).
Proof.
  intros V S T. evaluate S. intros E. apply set_value in E. subst. rewrite op_append by auto.
  destruct (dget n e); reflexivity.
Qed.
Lemma same_prepend n v t e z e1 : variable n -> stands_for e v t -> t <> [] ->
  envvar_op which $"prepend" n v true e = (Ok z, e1) -> op_call [$"prepend"; n; t] e = out (Ok tt, e1).
Proof.
  intros V S T. evaluate S. intros E. apply set_value in E. subst. rewrite op_prepend by auto.
  destruct (dget n e); reflexivity.
Qed.
Lemma same_find n v t e z e1 : variable n -> stands_for e v t -> t <> [] -> unsplit t ->
  envvar_op which $"find_in_path" n v true e = (Ok z, e1) -> op_call [$"find_in_path"; n; t] e = out (Ok tt, e1).
Proof.
  intros V S T U. evaluate S. intros E. apply set_value in E. subst. rewrite op_find, same_which by auto. reflexivity.
Qed.
Lemma same_substr n v t old e z e1 : variable n -> stands_for e v t -> t <> [] -> sed_text t -> unsplit t ->
  dget n e = Some old -> echo_text old ->
  envvar_op which $"remove_substr" n v true e = (Ok z, e1) -> op_call [$"remove_substr"; n; t] e = out (Ok tt, e1).
Proof.
  intros V S T X U D [OU OD]. evaluate S. rewrite D. intros E. apply set_value in E. subst.
  rewrite op_remove_substr; auto; rewrite D; auto.
  destruct old as [|c old]; cbn; [discriminate|]. intros ->. now apply (OD old).
Qed.
Lemma ddel_absent {A} k (d : dict A) : dget k d = None -> ddel k d = d.
Proof.
  induction d as [|[k' v] d IH]; auto. cbn [dget ddel filter fst]. destruct (str_eqb k k'); [discriminate|].
  intros D. cbn [negb]. f_equal. now apply IH.
Qed.
Lemma same_unset n e z e1 : variable n ->
  envvar_op which $"unset" n [] true e = (Ok z, e1) -> op_call [$"unset"; n] e = out (Ok tt, e1).
Proof.
  intros V. evaluate (sf_nil e). intros E. rewrite op_unset by auto.
  destruct (dget n e) eqn:D; unfold modify, ret in E; inversion E; subst; [reflexivity|]. now rewrite ddel_absent.
Qed.

Lemma bash_line_det a t t' : bash_line a t -> bash_line a t' -> t = t'.
Proof. intros A B. apply (script_line_det $"bash" a); right; auto. Qed.

(** An operation with a name and a value. *)
Lemma value_op op n v t e r e1 line : In op documented_ops -> op <> $"unset" ->
  bare_text op -> variable n -> stands_for e v t ->
  bash_line (AEnv ($"envvar_" ++ op) n (Some v)) line ->
  performs which mods (AEnv ($"envvar_" ++ op) n (Some v)) e r e1 ->
  envvar_op which op n v true e = (r, e1) /\ reads e line [$"envvar_op"; op; n; t] /\ known [$"envvar_op"; op; n; t].
Proof.
  intros D U B V S L P. split; [|split].
  - destruct (envvar_op which op n v true e) as [r' e'] eqn:E.
    pose proof (pf_envvar which mods op n v e r' e' D U E) as Q.
    destruct (performs_det which mods _ _ _ _ _ _ P Q) as [-> ->]. reflexivity.
  - rewrite (bash_line_det _ _ _ L (ba_envvar op n v D U)). apply reads_op; auto. apply V.
  - right. right. exists op, n, [t]. split; auto. apply V.
Qed.
Ltac value_op L P S V :=
  eapply value_op in P as (E & R & K); [..|exact S|exact L];
  [|cbn; tauto|discriminate|bare|exact V].
Lemma module_op a args e r e1 : portable e a -> performs which mods a e r e1 ->
  performs which mods a e (fst (mods args e)) (snd (mods args e)) -> module_command args e = e1.
Proof.
  intros _ P Q. destruct (performs_det which mods _ _ _ _ _ _ P Q) as [_ ->]. apply same_mods.
Qed.
Lemma mods_pair args e : mods args e = (fst (mods args e), snd (mods args e)).
Proof. now destruct (mods args e). Qed.

Lemma action_runs a line e e1 : portable e a -> bash_line a line ->
  performs which mods a e (Ok 0%Z) e1 -> runs (line ++ newline) e e1.
Proof.
  intros PO L P. assert (PO' := PO).
  destruct PO as [op n v t O V S|op n v t O V S T|n v t V S T U|n v t old V S T X U D O|n v V|n v|n p B|n v Z B|n v B C|n v B|n v B C].
  - destruct O as [-> | [-> | ->]].
    + value_op L P S V. eapply line_runs; eauto. change (op_call [$"set"; n; t] e = out (Ok tt, e1)).
      eapply same_set; eauto.
    + value_op L P S V. eapply line_runs; eauto. change (op_call [$"set_if_empty"; n; t] e = out (Ok tt, e1)).
      eapply same_set_if_empty; eauto.
    + value_op L P S V. eapply line_runs; eauto. change (op_call [$"assert_not_empty"; n; t] e = out (Ok tt, e1)).
      now apply (same_assert n v t e (Ok 0%Z) e1).
  - destruct O as [-> | ->].
    + value_op L P S V. eapply line_runs; eauto. change (op_call [$"append"; n; t] e = out (Ok tt, e1)).
      eapply same_append; eauto.
    + value_op L P S V. eapply line_runs; eauto. change (op_call [$"prepend"; n; t] e = out (Ok tt, e1)).
      eapply same_prepend; eauto.
  - change $"envvar_find_in_path" with ($"envvar_" ++ $"find_in_path") in *.
    value_op L P S V. eapply line_runs; eauto. change (op_call [$"find_in_path"; n; t] e = out (Ok tt, e1)).
    eapply same_find; eauto.
  - change $"envvar_remove_substr" with ($"envvar_" ++ $"remove_substr") in *.
    value_op L P S V. eapply line_runs; eauto. change (op_call [$"remove_substr"; n; t] e = out (Ok tt, e1)).
    eapply same_substr; eauto.
  - destruct (envvar_op which $"unset" n [] true e) as [r' e'] eqn:E.
    pose proof (pf_unset which mods n v e r' e' E) as Q.
    destruct (performs_det which mods _ _ _ _ _ _ P Q) as [<- <-].
    rewrite (bash_line_det _ _ _ L (ba_unset n v)).
    eapply line_runs; [apply reads_unset; apply V|right; right; exists $"unset", n, []; split; auto; apply V|].
    change (op_call [$"unset"; n] e = out (Ok tt, e1)). eapply same_unset; eauto.
  - rewrite (bash_line_det _ _ _ L (ba_purge n v)).
    eapply line_runs; [apply (reads_module0 $"purge"); bare|right; left; eauto|].
    change (out (Ok tt, module_command [$"purge"] e) = out (Ok tt, e1)).
    rewrite (module_op _ [$"purge"] e _ _ PO' P); auto. apply pf_purge, mods_pair.
  - rewrite (bash_line_det _ _ _ L (ba_use n p)).
    eapply line_runs; [apply (reads_module1 $"use"); [bare|exact B]|right; left; eauto|].
    change (out (Ok tt, module_command [$"use"; p] e) = out (Ok tt, e1)).
    rewrite (module_op _ [$"use"; p] e _ _ PO' P); auto. apply pf_use, mods_pair.
  - rewrite (bash_line_det _ _ _ L (ba_load n v Z)).
    eapply line_runs; [apply (reads_module1 $"load"); [bare|exact B]|right; left; eauto|].
    change (out (Ok tt, module_command [$"load"; n] e) = out (Ok tt, e1)).
    rewrite (module_op _ [$"load"; n] e _ _ PO' P); auto. apply pf_load; [exact Z|]. apply mods_pair.
  - rewrite (bash_line_det _ _ _ L (ba_load_version n v (proj1 C))).
    eapply line_runs; [apply (reads_module1 $"load"); [bare|now apply bare_version]|right; left; eauto|].
    change (out (Ok tt, module_command [$"load"; n ++ $"/" ++ v] e) = out (Ok tt, e1)).
    rewrite (module_op _ [$"load"; n ++ $"/" ++ v] e _ _ PO' P); auto.
    apply pf_load_version; [apply C|]. apply mods_pair.
  - rewrite (bash_line_det _ _ _ L (ba_unload n v)).
    eapply line_runs; [apply (reads_module1 $"unload"); [bare|exact B]|right; left; eauto|].
    change (out (Ok tt, module_command [$"unload"; n] e) = out (Ok tt, e1)).
    rewrite (module_op _ [$"unload"; n] e _ _ PO' P); auto. apply pf_unload, mods_pair.
  - rewrite (bash_line_det _ _ _ L (ba_swap n v)).
    eapply line_runs; [apply (reads_module2 $"swap"); [bare|exact B|exact C]|right; left; eauto|].
    change (out (Ok tt, module_command [$"swap"; n; v] e) = out (Ok tt, e1)).
    rewrite (module_op _ [$"swap"; n; v] e _ _ PO' P); auto. apply pf_swap, mods_pair.
Qed.

(** ** Scripts *)
Lemma script_bash_line a t : script_line $"bash" a t -> bash_line a t.
Proof. intros [[A _]|[_ B]]; [discriminate|exact B]. Qed.
Lemma lines_run l t e e' : portable_all which mods l e -> script_lines $"bash" l t ->
  all_done which mods l e e' -> runs t e e'.
Proof.
  intros P S. revert e e' P. induction S as [|a t l u L S IH]; intros e e' P A.
  - inversion A; subst. apply runs_nil.
  - inversion A; subst. inversion P; subst. rewrite app_assoc.
    eapply runs_app; [eapply action_runs; eauto; now apply script_bash_line|]. apply IH; auto.
Qed.
(** The actions before a failing [assert_not_empty]. *)
Lemma lines_stop l1 n v l2 t e e1 : portable_all which mods (l1 ++ AEnv $"envvar_assert_not_empty" n (Some v) :: l2) e ->
  script_lines $"bash" (l1 ++ AEnv $"envvar_assert_not_empty" n (Some v) :: l2) t ->
  all_done which mods l1 e e1 -> dget n e1 = None \/ dget n e1 = Some [] -> stops t e e1.
Proof.
  revert t e. induction l1 as [|a l1 IH]; intros t e P S A D; cbn [app] in *.
  - inversion A; subst. inversion S as [|? t0 ? u L S']; subst. inversion P as [|? ? ? PO _]; subst.
    rewrite app_assoc. apply stops_before. apply script_bash_line in L.
    change $"envvar_assert_not_empty" with ($"envvar_" ++ $"assert_not_empty") in *.
    assert (X : exists t', variable n /\ stands_for e1 v t').
    { inversion PO; subst; eauto. }
    destruct X as (t' & V & ST).
    assert (EV : envvar_op which $"assert_not_empty" n v true e1 = (Err ValueError, e1)).
    { evaluate ST. change (@dget (list pychar)) with (@dget str). destruct D as [-> | ->]; reflexivity. }
    pose proof (pf_envvar which mods $"assert_not_empty" n v e1 _ _ ltac:(cbn; tauto) ltac:(discriminate) EV) as Q.
    value_op L Q ST V. eapply line_stops; eauto.
    change (op_call [$"assert_not_empty"; n; t'] e1 = out (Err ScriptExit, e1)).
    now apply (same_assert n v t' e1 (Err ValueError) e1).
  - inversion A as [|? ? ? e2 ? PF A']; subst. inversion S as [|? t0 ? u L S']; subst.
    inversion P as [|? ? ? PO PL]; subst. rewrite app_assoc.
    eapply stops_app; [eapply action_runs; eauto; now apply script_bash_line|]. eapply IH; eauto.
Qed.

Lemma portable_complete e a : portable e a -> ~ incomplete a.
Proof.
  intros P. destruct P; cbn [incomplete]; try (intros [_ X]; congruence);
    try (intros [X _]; congruence);
    intros X; repeat match goal with
      | H : _ \/ _ |- _ => destruct H
      | H : _ /\ _ |- _ => destruct H
      end; congruence || discriminate.
Qed.
End Run.

Section Removing.
Variable glob : str -> list str.
Variable subst_pattern : str -> str -> str.
Variable sed_other : list str -> str -> str.
Variable echo_option : list str -> str.
Variable which_prints : environ -> list str -> str.
Variable module_command : list str -> environ -> environ.
Variable other_command : str -> environ -> res unit * environ.
Notation run_bash := (run_bash glob subst_pattern sed_other echo_option which_prints module_command other_command).
(** ** The two removing operations *)
Lemma reads_line op n v t e line : In op documented_ops -> op <> $"unset" -> bare_text op ->
  variable n -> stands_for e v t -> bash_line (AEnv ($"envvar_" ++ op) n (Some v)) line ->
  reads e line [$"envvar_op"; op; n; t] /\ known [$"envvar_op"; op; n; t].
Proof.
  intros D U B V S L. split.
  - rewrite (bash_line_det _ _ _ L (ba_envvar op n v D U)). apply reads_op; auto. apply V.
  - right. right. exists op, n, [t]. split; auto. apply V.
Qed.
Theorem remove_path_entry_line n v t old e line : variable n -> stands_for e v t -> t <> [] ->
  ~ In 58%N t -> unsplit t -> unsplit old -> dget n e = Some old \/ (dget n e = None /\ old = []) ->
  bash_line (AEnv $"envvar_remove_path_entry" n (Some v)) line ->
  exists new, bash_path t old new /\ run_bash (line ++ newline) e = (Ok tt, dset n new e).
Proof.
  intros V S T C U OU D L. destruct (bash_path_total t old) as [new P]. exists new. split; auto.
  assert (VO : value_or_empty (dget n e) = old) by (destruct D as [-> |[-> ->]]; reflexivity).
  assert (R : removed t old = new) by now apply removed_path.
  apply runs_all. change $"envvar_remove_path_entry" with ($"envvar_" ++ $"remove_path_entry") in L.
  eapply reads_line in L as [RL K]; [..|exact V|exact S]; [|cbn; tauto|discriminate|bare].
  eapply line_runs; eauto.
  change (op_call glob subst_pattern sed_other echo_option which_prints [$"remove_path_entry"; n; t] e = out (Ok tt, dset n new e)).
  rewrite op_remove_path_entry; rewrite ?VO, ?R; auto; [now apply glob_free|]. eapply bash_path_unsplit; eauto.
Qed.
Theorem remove_substr_line n v t old e line : variable n -> stands_for e v t -> t <> [] ->
  sed_text t -> unsplit t -> echo_text old -> dget n e = Some old \/ (dget n e = None /\ old = []) ->
  bash_line (AEnv $"envvar_remove_substr" n (Some v)) line ->
  exists new, erases t old new /\ run_bash (line ++ newline) e = (Ok tt, dset n new e).
Proof.
  intros V S T X U [OU OD] D L. exists (erase t old). split; [now apply erase_spec|].
  assert (VO : value_or_empty (dget n e) = old) by (destruct D as [-> |[-> ->]]; reflexivity).
  apply runs_all. change $"envvar_remove_substr" with ($"envvar_" ++ $"remove_substr") in L.
  eapply reads_line in L as [RL K]; [..|exact V|exact S]; [|cbn; tauto|discriminate|bare].
  eapply line_runs; eauto.
  change (op_call glob subst_pattern sed_other echo_option which_prints [$"remove_substr"; n; t] e = out (Ok tt, dset n (erase t old) e)).
  rewrite op_remove_substr; auto; rewrite ?VO; auto.
  destruct old as [|c old]; cbn; [discriminate|]. intros ->. now apply (OD old).
Qed.
(** Without neighbours: the value Python computes, between two colons. *)
Theorem remove_path_entry_wrapped n v t old l l' e line : variable n -> stands_for e v t -> t <> [] ->
  ~ In 58%N t -> unsplit t -> unsplit old -> dget n e = Some old ->
  entries l old -> no_neighbours t l -> without t l l' -> l' <> [] -> (forall r, join $":" l' <> $"1" ++ r) ->
  bash_line (AEnv $"envvar_remove_path_entry" n (Some v)) line ->
  run_bash (line ++ newline) e = (Ok tt, dset n ($":" ++ join $":" l' ++ $":") e).
Proof.
  intros V S T C U OU D EN NN W NE ONE L.
  destruct (remove_path_entry_line n v t old e line V S T C U OU (or_introl D) L) as (new & P & R).
  rewrite R. repeat f_equal.
  assert (Q : bash_path t old ($":" ++ join $":" l' ++ $":")).
  { eapply bp_value; eauto.
    - apply (proj2 (no_neighbours_without t l NN l')). exact W.
    - intros r X. rewrite <- terminated_join in X by auto.
      destruct (join $":" l') as [|c p] eqn:J; cbn in X; inversion X; subst. apply (ONE p). reflexivity.
    - now rewrite terminated_join. }
  now apply (bash_path_det t old).
Qed.
End Removing.

Section Same.
Variable glob : str -> list str.
Variable subst_pattern : str -> str -> str.
Variable sed_other : list str -> str -> str.
Variable echo_option : list str -> str.
Variable which_prints : environ -> list str -> str.
Variable module_command : list str -> environ -> environ.
Variable other_command : str -> environ -> res unit * environ.
Notation run_bash := (run_bash glob subst_pattern sed_other echo_option which_prints module_command other_command).
Variable which : environ -> str -> option str.
Variable mods : list str -> environ -> res Z * environ.
Variable other : str -> environ -> res Z * environ.
Variables (uniword : pychar -> bool) (fs : str -> option str) (i : ini) (fuel : nat) (header : str -> str).
Hypothesis same_which : forall e v,
  chomp (which_prints e [v]) = match which e v with Some p => p | None => [] end.
Hypothesis same_mods : forall args e, module_command args e = snd (mods args e).
Notation apply := (apply which mods other uniword fs fuel).
Notation generate_script := (generate_script uniword fs fuel header).

Lemma all_portable l e e' : portable_all which mods l e -> all_done which mods l e e' -> ~ Exists incomplete l.
Proof.
  intros P A. revert P. induction A as [e|a l e e1 e' PF A IH]; intros P X; [inversion X|].
  inversion P as [|? ? ? PO PL]; subst. inversion X as [? ? Y|? ? Y]; subst.
  - now apply (portable_complete e a).
  - now apply (IH (PL e1 PF)).
Qed.

Theorem script_does_what_apply_does s (o : sobj) d l e bang z w : has_file fs o i ->
  str_mem s (checked_of o) = true -> section_of o s = Some d -> dget s (o_user o) = Some l ->
  Forall asked_action l -> Forall plain_action l -> (2 <= level_of o)%Z -> portable_all which mods l e ->
  apply s (World o e) = (Ok z, w) ->
  exists text, generate_script s false true bang $"bash" o = (Ok text, o) /\ run_bash text e = (Ok tt, w_env w).
Proof.
  intros H C S D AA PA L P E.
  destruct (apply_result which mods other uniword fs i fuel s o d l e H C S D AA PA L) as [R _].
  destruct (R z w E) as [_ A]. clear R.
  destruct (script_known uniword fs fuel header s l false bang $"bash" o D AA (or_intror eq_refl)) as [[X _]|(_ & t & T & G)].
  { now apply all_portable with (1 := P) (2 := A) in X. }
  eexists. split; [exact G|]. apply runs_all.
  eapply runs_app; [apply heading_runs|]. eapply runs_app; [apply banner_runs|].
  eapply runs_app; [eapply lines_run; eauto|]. eapply runs_app; apply blank_runs.
Qed.

Lemma raises_after lvl l1 a l2 e e1 x e2 : all_done which mods l1 e e1 -> performs which mods a e1 (Err x) e2 ->
  forall m, performs_all which mods lvl (l1 ++ a :: l2) m e (Err x) e2.
Proof.
  intros A P. induction A as [e|b l e e0 e' PF A IH]; intros m; cbn [app]; [now apply pa_raise|].
  eapply pa_next; eauto.
Qed.
Theorem script_stops_where_apply_stops s (o : sobj) d l1 n v l2 e e1 bang : has_file fs o i ->
  str_mem s (checked_of o) = true -> section_of o s = Some d ->
  let l := l1 ++ AEnv $"envvar_assert_not_empty" n (Some v) :: l2 in
  dget s (o_user o) = Some l ->
  Forall asked_action l -> Forall plain_action l -> portable_all which mods l e ->
  all_done which mods l1 e e1 -> dget n e1 = None \/ dget n e1 = Some [] ->
  (exists o', apply s (World o e) = (Err ValueError, World o' e1)) /\
  forall text o', generate_script s false true bang $"bash" o = (Ok text, o') ->
    run_bash text e = (Err ScriptExit, e1).
Proof.
  intros H C S l D AA PA P A N. split.
  - destruct (apply_again which mods other uniword fs i fuel s o d l H C S D AA PA e) as (r & e' & o' & E & Q & _).
    assert (EV : envvar_op which $"assert_not_empty" n v true e1 = (Err ValueError, e1)).
    { unfold envvar_op, bind, get. cbn [negb andb]. cbv zeta.
      change (@dget (list pychar)) with (@dget str). destruct N as [-> | ->]; reflexivity. }
    assert (PF : performs which mods (AEnv $"envvar_assert_not_empty" n (Some v)) e1 (Err ValueError) e1).
    { apply (pf_envvar which mods $"assert_not_empty" n v e1 _ _); [cbn; tauto|discriminate|exact EV]. }
    destruct (performs_all_det which mods (level_of o) l 0 e _ _ Q _ _ (raises_after _ _ _ l2 _ _ _ _ A PF 0%Z)) as [-> ->].
    eauto.
  - intros text o' G.
    destruct (script_known uniword fs fuel header s l false bang $"bash" o D AA (or_intror eq_refl)) as [[X E]|(_ & t & T & E)].
    { rewrite E in G. discriminate. }
    assert (TX : text = heading header $"bash" false bang ++ banner ++ t ++ newline ++ newline) by congruence.
    rewrite TX. apply stops_all.
    eapply stops_app; [apply heading_runs|]. eapply stops_app; [apply banner_runs|].
    apply stops_before. eapply lines_stop; eauto.
Qed.
End Same.

(** For examples. *)
Lemma portable_next which mods a l e e1 : portable e a -> performs which mods a e (Ok 0%Z) e1 ->
  portable_all which mods l e1 -> portable_all which mods (a :: l) e.
Proof.
  intros P F A. apply pl_cons; auto. intros e2 F2.
  destruct (performs_det which mods _ _ _ _ _ _ F F2) as [_ <-]. exact A.
Qed.
Lemma variable_check n : identifier n = true -> str_mem n reserved_names = false -> variable n.
Proof.
  intros I R. split; [now apply identifier_spec|]. intros X. apply str_mem_In in X. congruence.
Qed.
Lemma stands_for_check e s : forallb (fun c => ascii_word c || existsb (N.eqb c) $" %+,-./:=@") s = true ->
  stands_for e s s.
Proof.
  intros B. induction s as [|c s IH]; [constructor|]. cbn [forallb] in B. apply andb_true_iff in B as [B F].
  apply orb_true_iff in B as [B|B].
  - apply ascii_word_spec in B. constructor; auto.
    + now apply word_plain_char.
    + intros ->. unfold word_char in B. lia.
    + intros ->. unfold word_char in B. lia.
  - apply existsb_exists in B as (x & J & E). apply N.eqb_eq in E. subst x.
    constructor; auto.
    + cbn in J. repeat destruct J as [<-|J]; try (split; [cbn; intuition discriminate|lia]).
    + intros ->. cbn in J. intuition discriminate.
    + intros ->. cbn in J. intuition discriminate.
Qed.
Lemma unsplit_check s : forallb (fun c => negb (existsb (N.eqb c) [9; 10; 32; 42; 63; 91; 92]%N)) s = true -> unsplit s.
Proof.
  intros B c I J. rewrite forallb_forall in B. specialize (B c I). apply negb_true_iff in B.
  assert (X : existsb (N.eqb c) [9; 10; 32; 42; 63; 91; 92]%N = true); [|congruence].
  apply existsb_exists. exists c. split; auto. apply N.eqb_refl.
Qed.
