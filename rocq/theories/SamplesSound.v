(** * A section that is read by its own handler, for the examples. *)
From Coq Require Import String NArith ZArith List Bool.
Import ListNotations.
From Verif Require Import PyBase Shlex IniView IniRead ExcControl Debuggable Cpe Samples Reentrant SpecSound SamplesReentrant SamplesNested.

(** [A] gets [x] from [D], looks at itself, and then sets [x]. *)
Definition file99 : list string := ["[A]"; "use D"; "peek A"; "x : 2"; "[D]"; "x : 1"]%string.
Definition ini99 : ini := match fst (get_cpd (disk file99) (fresh tt : obj unit unit)) with Ok i => i | Err _ => Ini [] [] [] end.

(** All that was looked at is in the file. *)
Definition filed_only (i : ini) (sh : shared) : Prop :=
  forall d, In d sh -> exists s, forall x v, In (x, v) d -> origin peek_class i $"DEFAULT" s x v.
Lemma peek_safe i name k f : dget name (rk_over peek_class) = Some (RUser k f) ->
  forall sec hp sh, filed_only i sh -> safe peek_class i $"DEFAULT" (filed_only i) (f sec hp sh).
Proof.
  intros E sec hp sh H. cbn [peek_class rk_over dget] in E. destruct (str_eqb name $"handler_peek"); [|discriminate E].
  inversion E; subst. unfold peek_body. destruct (hp_params hp) as [|t ps]; constructor; auto; intros; constructor.
  intros d' I. apply in_app_or in I as [I|[<-|[]]]; [now apply H|]. now exists t.
Qed.
