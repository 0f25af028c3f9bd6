(** * Computable check of [plain_section], for the examples. *)
From Coq Require Import String NArith ZArith List Bool Lia.
Import ListNotations.
From Verif Require Import PyBase PyFacts IniView IniRead ExcControl Cpe SpecWalk SpecRun SpecParse SpecApi SpecRead SpecFile
  SpecUnroll Refine ApiProofs ApiProofs2.

Definition no_char (c : N) (x : str) : bool := negb (existsb (N.eqb c) x).
Definition one_line (x : str) : bool := no_char 10 x && no_char 13 x.
Definition edge_b (x : str) : bool :=
  match x with [] => true | c :: _ => negb (is_space c) end && match rev x with [] => true | c :: _ => negb (is_space c) end.
Definition key_b (delims : list str) (k : str) : bool :=
  match k with [] => false | c :: _ => no_char c [35%N; 59%N; 91%N] end && edge_b k &&
  forallb (fun c => negb (str_mem [c] delims)) k.
Definition option_b (delims : list str) (kv : str * option str) : bool :=
  match snd kv with
  | Some x => key_b delims (fst kv) && one_line (fst kv) && one_line x && edge_b x && no_char percent x
  | None => false
  end.
Definition section_b (delims : list str) (sd : str * options) : bool :=
  match fst sd with [] => false | _ => true end && one_line (fst sd) && forallb (option_b delims) (snd sd).

Lemma no_char_In c x : no_char c x = true -> ~ In c x.
Proof.
  unfold no_char. rewrite negb_true_iff. intros H I. assert (existsb (N.eqb c) x = true); [|congruence].
  apply existsb_exists. exists c. split; [exact I|apply N.eqb_refl].
Qed.
Lemma one_line_check x : one_line x = true -> no_newline x.
Proof. unfold one_line. rewrite andb_true_iff. intros [A B]. split; now apply no_char_In. Qed.
Lemma edge_check x : edge_b x = true -> edge_ok x.
Proof.
  unfold edge_b, edge_ok. rewrite andb_true_iff. intros [A B].
  split; [destruct x|destruct (rev x)]; auto; now apply negb_true_iff.
Qed.
Lemma key_check delims k : key_b delims k = true -> plain_key delims k.
Proof.
  unfold key_b, plain_key. rewrite !andb_true_iff. intros ((A & B) & C). repeat split.
  - now destruct k.
  - now apply edge_check in B as [B _].
  - now apply edge_check in B as [_ B].
  - rewrite Forall_forall. rewrite forallb_forall in C. intros c I J. specialize (C c I). apply str_mem_In in J.
    unfold str, pychar in *. rewrite J in C. discriminate.
  - destruct k; [discriminate|]. now apply no_char_In in A.
Qed.
Lemma section_check delims sd : section_b delims sd = true -> plain_section delims sd.
Proof.
  unfold section_b, plain_section. rewrite !andb_true_iff. intros ((A & B) & C).
  split; [now destruct (fst sd)|]. split; [now apply one_line_check|].
  rewrite Forall_forall. rewrite forallb_forall in C. intros kv I. specialize (C kv I). unfold option_b in C.
  destruct (snd kv) as [x|] eqn:E; [|discriminate]. rewrite !andb_true_iff in C. destruct C as ((((C1 & C2) & C3) & C4) & C5).
  exists x. split; [exact E|]. split; [now apply key_check|]. split; [now apply one_line_check|].
  split; [now apply one_line_check|]. split; [now apply edge_check|now apply no_char_In].
Qed.

(** All expansions are plain: the object's answers are. *)
Lemma all_plain_check {Sh Us} (K : pyclass Sh Us) fs i dname fuel delims (o : obj Sh Us) :
  well_behaved K -> all_parsable K i dname -> length (ini_sections i) + 3 <= fuel -> opened K fs i dname o ->
  forallb (fun s => match fst (exec_op K fs fuel (OItem s) o) with
                    | Ok (RDict d) => section_b delims (s, d)
                    | _ => false
                    end) (ini_sections i) = true ->
  forall s d, ini_has_section i s = true -> expansion K i dname s d -> plain_section delims (s, d).
Proof.
  intros WB AP F O C s d H X. rewrite forallb_forall in C. specialize (C s (proj1 (dmem_keys _ _) H)).
  pose proof (history_answers K fs i dname fuel WB F AP [] (OItem s) o O (Forall_nil _) H) as A. cbn [after] in A.
  revert A C. generalize (fst (exec_op K fs fuel (OItem s) o)). intros r A C.
  inversion A as [| |s' d' X' E1 E2| | | | | | | | | | | | | | | | | | | | | | | | |]; subst s'.
  subst r. rewrite (expansion_unique K i dname s d d' X X'). now apply section_check.
Qed.
