(** * Sample files and objects for the examples beside the theorems, and
    computable checks of the hypotheses. *)
From Coq Require Import String NArith ZArith List Bool.
Import ListNotations.
From Verif Require Import PyBase PyFacts Shlex IniView IniRead ExcControl Cpe SpecText SpecFile SpecShell ShellProofs FileProofs SpecWalk MeaningProofs SpecRun SpecParse
  Refine WalkProofs.

(** ** The base class *)
Lemma base_attr u name a : find_attr (base_class u) name = Some a ->
  (name = $"_handler_use" /\ a = AUse) \/
  ((name = $"handler_finalize" \/ name = $"handler_initialize") /\ a = AUser Decorated noop_body).
Proof.
  unfold find_attr, base_class, base_attrs. cbn [k_over dget].
  destruct (str_eqb_spec name $"_handler_use"); [intros E; inversion E; auto|].
  destruct (str_eqb_spec name $"handler_finalize"); [intros E; inversion E; auto|].
  destruct (str_eqb_spec name $"handler_initialize"); [intros E; inversion E; auto|discriminate].
Qed.

Lemma base_well_behaved u : well_behaved (base_class u).
Proof.
  split.
  - intros name kind f E s hp sh us. apply base_attr in E as [[_ E]|[_ E]]; inversion E; subst.
    eexists. eexists. reflexivity.
  - intros op. unfold has_attr. destruct (find_attr (base_class u) (private_name op)) as [a|] eqn:E; auto.
    left. apply base_attr in E as [[E _]|[[E|E] _]]; [|discriminate|discriminate].
    unfold private_name in E. change ($"_handler_use") with ($"_handler_" ++ $"use") in E.
    apply app_inv_head in E. subst op. reflexivity.
  - do 2 eexists. reflexivity.
  - do 2 eexists. reflexivity.
Qed.

(** ** Files and objects *)
Definition file_of (l : list string) : str := flat_map (fun s => lit s ++ newline) l.
Definition disk (l : list string) (p : str) : option str :=
  if str_eqb p $"f.ini" then Some (file_of l) else None.
Definition no_uni : pychar -> bool := fun _ => false.
Definition base := base_class no_uni.
Definition fresh {Sh Us} (us : Us) : obj Sh Us := set_files (Some [$"f.ini"]) (new_obj us).
Definition at_level {Sh Us} (l : Z) (o : obj Sh Us) : obj Sh Us := set_ec (ec_set_level l (o_ec o)) o.

(** A class whose handler [handler_note] appends its parameters to the shared
    list and returns the number given as first parameter word, if it is one
    of the few written here. *)
Definition note_body : hbody (list (list str)) unit := fun s hp sh us =>
  (Ok (Some (match hp_params hp with
             | p :: _ => if str_eqb p $"7" then 7 else if str_eqb p $"11" then 11 else 0
             | [] => 0
             end))%Z, sh ++ [s :: hp_params hp], us).
Definition note_class : pyclass (list (list str)) unit :=
  PyClass [($"handler_note", AUser Decorated note_body)] [] no_uni.

(** ** Checking hypotheses by computation *)
Section Check.
Context {Sh Us : Type} (K : pyclass Sh Us) (i : ini).

Definition chosen (op : str) : option (attr Sh Us) :=
  match has_attr K (public_name op) with Some a => Some a | None => has_attr K (private_name op) end.

Definition target (item : str * res (option str)) : list str :=
  match snd item, shlex_split (strip_ws (fst item)) with
  | Ok _, Ok (w :: t :: _) =>
      if op_word K w then match chosen (undash w) with Some AUse => [t] | _ => [] end else []
  | _, _ => []
  end.
Definition targets (s : str) : list str :=
  match ini_items i s with Some items => flat_map target items | None => [] end.

Lemma handler_chosen op name a amb : handler_of K op (Some (name, a, amb)) -> chosen op = Some a.
Proof. intros H. unfold chosen. inversion H; subst; repeat match goal with E : has_attr _ _ = _ |- _ => rewrite E end; auto. Qed.

Lemma uses_targets s t : uses K i s t -> In t (targets s).
Proof.
  intros (items & item & h & k & v & IT & IN & M). filed. unfold targets. rewrite IT.
  apply in_flat_map. exists item. split; auto. meaning_cases M. unfold target. cbn [fst snd].
  match goal with H : shlex_split _ = _ |- _ => rewrite H end.
  match goal with H : op_word _ _ = _ |- _ => rewrite H end.
  match goal with H : handler_of _ _ _ |- _ => apply handler_chosen in H; rewrite H end. now left.
Qed.

Lemma reaches_closed (S : list str) s t :
  forallb (fun x => forallb (fun y => str_mem y S) (targets x)) S = true ->
  In s S -> reaches K i s t -> In t S.
Proof.
  intros C I R. induction R as [s|s t u U R IH]; auto. apply IH.
  rewrite forallb_forall in C. specialize (C s I). rewrite forallb_forall in C.
  apply str_mem_In, C. now apply uses_targets.
Qed.

Definition item_ok (item : str * res (option str)) : bool :=
  match snd item with
  | Err _ => false
  | Ok _ => match shlex_split (strip_ws (fst item)) with
            | Ok (w :: l) =>
                if op_word K w then
                  match chosen (undash w) with
                  | Some AUse => negb (match l with [] => true | _ => false end)
                  | Some AObj => false
                  | _ => true
                  end
                else true
            | _ => false
            end
  end.
Lemma clean_check t :
  match ini_items i t with Some items => forallb item_ok items | None => false end = true ->
  clean_section K i t.
Proof.
  intros C. unfold clean_section. destruct (ini_items i t) as [items|] eqn:IT; [|discriminate].
  exists items. split; auto. intros item r IN M. rewrite forallb_forall in C. specialize (C item IN).
  unfold item_ok in C. meaning_cases M; cbn [fst snd] in C; try discriminate;
  repeat match goal with
  | H : shlex_split _ = _ |- _ => rewrite H in C; clear H
  | H : op_word _ _ = _ |- _ => rewrite H in C; clear H
  | H : handler_of _ _ _ |- _ => apply handler_chosen in H; rewrite H in C; clear H
  end; cbn in C; try discriminate.
Qed.

Lemma default_ok_check (S : list str) dname root init :
  forallb (fun x => forallb (fun y => str_mem y S) (targets x)) S = true ->
  str_mem dname S = true -> str_mem root S = false -> default_ok K i dname root init.
Proof.
  intros C D R _ _ _ X. apply (reaches_closed S) in X; auto; [|now apply str_mem_In].
  apply str_mem_In in X. congruence.
Qed.
End Check.

(** Conjunctions of computable facts. *)
Ltac computed := intros; repeat match goal with |- _ /\ _ => split end;
  lazymatch goal with
  | |- level_ok _ => vm_compute; split; discriminate
  | |- _ <> _ => vm_compute; discriminate
  | |- _ => vm_compute; reflexivity
  end.
