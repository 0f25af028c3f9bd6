(** * C99: what handlers read is in the file. *)
From Coq Require Import String NArith ZArith List Bool.
Import ListNotations.
From Verif Require Import PyBase Shlex IniView IniRead ExcControl Debuggable Cpe SpecFile SpecWalk SpecRun SpecParse
  Samples Reentrant SpecSound SoundProofs SamplesReentrant SamplesNested SamplesSound.
Local Open Scope list_scope.

(** ** C99 *)

(** Whatever the handlers of a class read and however they fail: after any parses and
    reads, failed ones too, a read gives only options that the section has in the file,
    itself or from the sections it uses or the default section. *)
Theorem C99_reads :
  forall (Sh Us : Type) (R : rclass (Sh := Sh)) fs i dname fuel depth l s (o : obj Sh Us) d,
    has_file fs o i -> o_defname o = dname -> o_edata o = None ->
    fst (r_read R fs fuel depth s (r_after R fs fuel depth l o)) = Ok d ->
    forall x v, In (x, v) d -> origin R i dname s x v.
Proof. exact (fun Sh Us R fs i dname fuel depth l s o d => reads_sound R fs i dname fuel depth l s o d). Qed.
Print Assumptions C99_reads.

(** The same of what the handlers are given while the parser runs: what they keep true of
    the shared dict if they are given such options only, is true of the result. *)
Theorem C99_handlers :
  forall (Sh Us : Type) (R : rclass (Sh := Sh)) fs i dname (P : Sh -> Prop) fuel depth l s (o : obj Sh Us) v,
    has_file fs o i -> o_defname o = dname -> o_edata o = None ->
    P (rk_empty R) ->
    (forall name k f, dget name (rk_over R) = Some (RUser k f) -> forall sec hp sh, P sh -> safe R i dname P (f sec hp sh)) ->
    fst (r_parse R fs fuel depth s (r_after R fs fuel depth l o)) = Ok v -> P v.
Proof. exact (fun Sh Us R fs i dname P fuel depth l s o v => parses_safe R fs i dname P fuel depth l s o v). Qed.
Print Assumptions C99_handlers.

(** Finding 91: it need not be what any section has in the end. Here a handler of [A] is
    given the [x] of a section that [A] uses, which [A] replaces afterwards. *)
Theorem C99_final_refuted :
  ~ (forall fs i fuel depth s (o : obj shared unit) v,
       has_file fs o i -> o_defname o = $"DEFAULT" -> o_edata o = None ->
       fst (r_parse peek_class fs fuel depth s o) = Ok v ->
       forall d x y, In d v -> In (x, y) d ->
       exists t, In (x, y) (options_of (snd (r_parse peek_class fs fuel depth s o)) t)).
Proof.
  intros H.
  destruct (H (disk file99) ini99 7 7 $"A" (fresh tt) [[($"x", Some $"1")]] ltac:(vm_compute; reflexivity)
    ltac:(vm_compute; reflexivity) ltac:(vm_compute; reflexivity) ltac:(vm_compute; reflexivity)
    [($"x", Some $"1")] $"x" (Some $"1") (or_introl eq_refl) (or_introl eq_refl)) as (t & I).
  unfold options_of, section_of in I.
  assert (E : data_of (snd (r_parse peek_class (disk file99) 7 7 $"A" (fresh tt : obj shared unit))) =
    [($"A", [($"x", Some $"2")]); ($"D", [])]) by (vm_compute; reflexivity).
  rewrite E in I. cbn [dget] in I.
  destruct (str_eqb t $"A"); [destruct I as [I|[]]; vm_compute in I; discriminate I|].
  destruct (str_eqb t $"D"); destruct I.
Qed.
Print Assumptions C99_final_refuted.

Example C99_ex :
  has_file (disk file98) (fresh tt : obj shared unit) ini98 /\ filed_only ini98 (rk_empty peek_class) /\
  (forall name k f, dget name (rk_over peek_class) = Some (RUser k f) ->
     forall sec hp sh, filed_only ini98 sh -> safe peek_class ini98 $"DEFAULT" (filed_only ini98) (f sec hp sh)) /\
  fst (r_parse peek_class (disk file98) 7 4 $"A" (fresh tt : obj shared unit)) = Ok [[($"y", Some $"3")]; [($"x", Some $"1")]] /\
  (** After a read of [B] all sections have been parsed, and [C] sees all their options. *)
  fst (r_parse peek_class (disk file98) 7 4 $"C" (r_after peek_class (disk file98) 7 4 [RRead $"B"] (fresh tt : obj shared unit))) =
    Ok [[($"x", Some $"1"); ($"y", Some $"2")]; [($"y", Some $"3")]].
Proof.
  split; [vm_compute; reflexivity|]. split; [intros d []|]. split; [exact (peek_safe ini98)|].
  split; vm_compute; reflexivity.
Qed.
