(** * Computed forms of the texts in [SpecKeyword.v] and [SpecFlags.v]. *)
From Coq Require Import String NArith List Bool.
Import ListNotations.
From Verif Require Import PyBase PyFacts EnvVar EnvProofs IniView SpecText SpecFile FileProofs Keyword SpecKeyword SpecFlags.

Lemma cut_iff c s l : cut_at c s l <-> split_on c s = l.
Proof.
  split.
  - intros (N & F & ->). now apply join_split.
  - intros <-. split; [apply split_on_ne|]. split; [apply split_no_sep|]. symmetry. apply split_join.
Qed.

Definition pieces (text : str) : list str :=
  flat_map (fun line => split_on 94%N (before_hash line)) (split_on 10%N text).
Definition blank (s : str) : bool := forallb is_space s.
Definition listed (text : str) : list str :=
  map strip_ws (filter (fun p => negb (blank p)) (pieces text)).
Definition tidy (text : str) : Prop :=
  forall p, In p (pieces text) -> blank p = true -> p = [].

Lemma blank_iff p : blank p = true <-> Forall space p.
Proof.
  unfold blank. rewrite forallb_forall, Forall_forall. split; intros H c I; apply space_iff; auto.
Qed.
Lemma pieces_iff t ps : text_pieces t ps <-> pieces t = ps.
Proof.
  unfold pieces, text_pieces. rewrite flat_map_concat_map. split.
  - intros (lines & cuts & C & F & ->). apply cut_iff in C. rewrite C. f_equal. clear C.
    induction F as [|x l xs ls H F IH]; auto. cbn. apply cut_iff in H. now rewrite H, IH.
  - intros <-. exists (split_on 10%N t), (map (fun line => split_on 94%N (before_hash line)) (split_on 10%N t)).
    split; [now apply cut_iff|]. split; auto.
    induction (split_on 10%N t) as [|x xs IH]; constructor; auto. now apply cut_iff.
Qed.
Lemma kept_iff ps l : kept ps l <-> map strip_ws (filter (fun p => negb (blank p)) ps) = l.
Proof.
  split.
  - induction 1 as [|p ps l B K IH|p v ps l B T K IH]; auto; cbn [filter].
    + apply blank_iff in B. now rewrite B.
    + rewrite <- blank_iff in B. destruct (blank p); [congruence|]. cbn. f_equal; auto. now apply trimmed_iff.
  - intros <-. induction ps as [|p ps IH]; [constructor|]. cbn [filter]. destruct (blank p) eqn:B; cbn.
    + constructor; auto. now apply blank_iff.
    + constructor; auto; [rewrite <- blank_iff; congruence|now apply trimmed_iff].
Qed.
Lemma lists_iff t l : lists t l <-> listed t = l.
Proof.
  unfold lists, listed. split.
  - intros (ps & P & K). apply pieces_iff in P. subst. now apply kept_iff.
  - intros E. exists (pieces t). split; [now apply pieces_iff|now apply kept_iff].
Qed.
Lemma tidy_iff t : tidy_text t <-> tidy t.
Proof.
  unfold tidy_text, tidy. split.
  - intros H p I B. apply (H (pieces t)); auto; [now apply pieces_iff|now apply blank_iff].
  - intros H ps p P I B. apply pieces_iff in P. subst. apply H; auto. now apply blank_iff.
Qed.
Lemma stripped_iff t : stripped_lines t <-> forall line, In line (split_on 10%N t) -> strip_ws line = line.
Proof.
  unfold stripped_lines. split.
  - intros H line I. apply trimmed_iff. apply (H (split_on 10%N t)); auto. now apply cut_iff.
  - intros H ls line C I. apply cut_iff in C. subst. apply trimmed_iff; auto.
Qed.

Definition words (build : str) : list str := split_on 95%N build.
Lemma named_iff build o : named build o <-> In o (words build).
Proof.
  split.
  - intros (l & C & I). apply cut_iff in C. unfold words. now rewrite C.
  - intros I. exists (words build). split; auto. now apply cut_iff.
Qed.
