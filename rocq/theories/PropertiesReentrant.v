(** * C97: handlers that read other sections. *)
From Coq Require Import String NArith ZArith List Bool Lia.
Import ListNotations.
From Verif Require Import PyBase Shlex IniView IniRead ExcControl Debuggable Cpe SpecFile SpecWalk SpecRun SpecParse SpecApi
  Samples Reentrant SpecReentrant ReentrantProofs2 ReentrantProofs3 SamplesReentrant.
Local Open Scope list_scope.

(** ** C97 *)

(** If sections can be ranked so that the handlers called in a parse of a section only
    read sections of lower rank, then after any parses and reads a read gives the
    section's options according to the file. *)
Theorem C97_reads :
  forall (Sh Us : Type) (R : rclass (Sh := Sh)) fs i dname fuel (ex : str -> dict (option str)) (rank : str -> nat),
    let K : pyclass Sh Us := told_class ex R in
    well_behaved K -> length (ini_sections i) + 3 <= fuel -> all_parsable K i dname ->
    (forall s, ini_has_section i s = true -> expansion K i dname s (ex s)) ->
    reads_down (Us := Us) i dname ex rank R ->
    forall depth, (forall s, ini_has_section i s = true -> rank s <= depth) ->
    forall l s (o : obj Sh Us), opened K fs i dname o -> Forall (of_file i) l -> ini_has_section i s = true ->
    fst (r_read R fs fuel (S depth) s (r_after R fs fuel depth l o)) = Ok (ex s).
Proof. exact (fun Sh Us R fs i dname fuel ex rank => reads_answered R fs i dname fuel ex rank). Qed.
Print Assumptions C97_reads.

(** And a parse gives the same as one by a class whose handlers read nothing and know the
    options of all sections from the start; it leaves the section's own options complete. *)
Theorem C97_parses :
  forall (Sh Us : Type) (R : rclass (Sh := Sh)) fs i dname fuel (ex : str -> dict (option str)) (rank : str -> nat),
    let K : pyclass Sh Us := told_class ex R in
    well_behaved K -> length (ini_sections i) + 3 <= fuel -> all_parsable K i dname ->
    (forall s, ini_has_section i s = true -> expansion K i dname s (ex s)) ->
    reads_down (Us := Us) i dname ex rank R ->
    forall depth, (forall s, ini_has_section i s = true -> rank s <= depth) ->
    forall l s (o : obj Sh Us), opened K fs i dname o -> Forall (of_file i) l -> ini_has_section i s = true ->
    let o1 := r_after R fs fuel depth l o in
    exists v, fst (r_parse R fs fuel depth s o1) = Ok v /\ fst (parse_section_str K fs fuel s true true o1) = Ok v /\
      section_of (snd (r_parse R fs fuel depth s o1)) s = Some (ex s).
Proof. exact (fun Sh Us R fs i dname fuel ex rank => parses_answered R fs i dname fuel ex rank). Qed.
Print Assumptions C97_parses.

(** The options of a section do not depend on what handlers are told, so the fourth
    condition says which [ex] is meant and no more. *)
Theorem C97_options :
  forall (Sh Us : Type) (R : rclass (Sh := Sh)) i (ex ex' : str -> dict (option str)) dname s d,
    expansion (told_class (Us := Us) ex R) i dname s d <-> expansion (told_class (Us := Us) ex' R) i dname s d.
Proof. exact (fun Sh Us R i ex ex' dname s d => expansion_told R i ex ex' dname s d). Qed.
Print Assumptions C97_options.

(** Finding 90: the rank is needed. Without it a handler may be given a section of which
    only the first options have been read. Here [A] is read, looks at [B], which looks at
    [A] before [y] is there. *)
Theorem C97_no_rank_refuted :
  ~ (forall (R : rclass (Sh := shared)) fs i dname fuel (ex : str -> dict (option str)),
       let K : pyclass shared unit := told_class ex R in
       well_behaved K -> length (ini_sections i) + 3 <= fuel -> all_parsable K i dname ->
       (forall s, ini_has_section i s = true -> expansion K i dname s (ex s)) ->
       (forall root name sec hp k f sh, ini_has_section i root = true -> calls K i dname root name sec hp ->
          dget name (rk_over R) = Some (RUser k f) -> reads_below i ex (fun _ => 0) 1 (f sec hp sh)) ->
       forall depth, length (ini_sections i) + 3 <= depth ->
       forall s (o : obj shared unit), opened K fs i dname o -> ini_has_section i s = true ->
       fst (r_read R fs fuel depth s o) = Ok (ex s)).
Proof.
  intros H.
  assert (HA : ini_has_section ini97' $"A" = true) by (vm_compute; reflexivity).
  assert (HF : length (ini_sections ini97') + 3 <= 7) by (vm_compute; lia).
  pose proof (H look_class (disk file97') ini97' $"DEFAULT" 7 ex97' behaves97' HF parsable97' expansion97' reads97' 7 HF $"A" (fresh tt) opened97' HA) as X.
  rewrite read97' in X. discriminate X.
Qed.
Print Assumptions C97_no_rank_refuted.

Example C97_ex :
  let K := told_look ex97 in
  well_behaved K /\ all_parsable K ini97 $"DEFAULT" /\ opened K (disk file97) ini97 $"DEFAULT" (fresh tt) /\
  (forall s, ini_has_section ini97 s = true -> expansion K ini97 $"DEFAULT" s (ex97 s) /\ rank97 s <= 2) /\
  reads_down (Us := unit) ini97 $"DEFAULT" ex97 rank97 look_class /\
  Forall (of_file ini97) [RParse $"B"; RRead $"U"] /\
  fst (r_parse look_class (disk file97) 7 2 $"A" (fresh tt : obj shared unit)) = Ok [[($"y", Some $"3")]; [($"y", Some $"4")]] /\
  (** [B] and [C] have been parsed on the way. *)
  checked_of (snd (r_parse look_class (disk file97) 7 2 $"A" (fresh tt : obj shared unit))) = [$"C"; $"B"; $"A"].
Proof.
  split; [exact behaves97|]. split; [exact parsable97|]. split; [exact opened97|].
  split; [exact expansion97|]. split; [exact down97|]. split; [repeat constructor; vm_compute; reflexivity|].
  split; vm_compute; reflexivity.
Qed.
