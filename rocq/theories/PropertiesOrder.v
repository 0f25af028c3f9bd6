(** * C85-C86: the order of environment actions, and applying twice.

    Statements and examples only. *)
From Coq Require Import String NArith ZArith List Bool.
Import ListNotations.
From Verif Require Import PyBase PyFacts Shlex IniView IniRead ExcControl Cpe EnvVar SetEnv SpecWalk SpecRun SpecEnv
  SpecSetEnv SpecOrder Samples OrderProofs SamplesOrder PropertiesSetEnv.
Local Open Scope string_scope.
Local Open Scope list_scope.

(** ** C85 *)

(** Operations on two variables that do not look at each other's variable can be
    called in either order: each returns or raises the same, and the environment
    has the same values afterwards. *)
Theorem C85_operations :
  forall which, searches_path which ->
  forall op n v op' n' v' e, n <> n' -> ~ looks_at op v n' -> ~ looks_at op' v' n ->
    let '(r1, e1) := envvar_op which op n v true e in
    let '(r2, e2) := envvar_op which op' n' v' true e1 in
    let '(r2', f1) := envvar_op which op' n' v' true e in
    let '(r1', f2) := envvar_op which op n v true f1 in
    r1 = r1' /\ r2 = r2' /\ same_env e2 f2.
Proof. exact operations_commute. Qed.
Print Assumptions C85_operations.

(** A section whose actions are those of another one with independent
    neighbours exchanged has the same effect. *)
Theorem C85_apply :
  forall which mods other, searches_path which -> orderless mods ->
  forall uniword fs fs' i i' fuel fuel' s s' l l' o o' e,
    recorded fs i s l o -> recorded fs' i' s' l' o' -> reorders l l' ->
    forall z w, apply which mods other uniword fs fuel s (World o e) = (Ok z, w) ->
    exists w', apply which mods other uniword fs' fuel' s' (World o' e) = (Ok z, w') /\
               same_env (w_env w) (w_env w').
Proof. exact apply_reordered. Qed.
Print Assumptions C85_apply.

(** A value that mentions the other variable makes the order matter, and so does
    a module command between the two. *)
Theorem C85_any_order_refuted :
  exists l o1 o2 e1 e2, l = ["[A]"; "envvar-set X : 1"; "envvar-set Y : $X"; "[B]"; "envvar-set Y : $X"; "envvar-set X : 1"]%string /\
    apply no_programs (returning 0) no_other no_uni (disk l) 9 $"A" (World new_setenv []) = (Ok 0%Z, World o1 e1) /\
    apply no_programs (returning 0) no_other no_uni (disk l) 9 $"B" (World new_setenv []) = (Ok 0%Z, World o2 e2) /\
    ~ same_env e1 e2.
Proof.
  do 5 eexists. split; [reflexivity|]. split; [vm_compute; reflexivity|]. split; [vm_compute; reflexivity|].
  intros S. specialize (S $"Y"). vm_compute in S. discriminate.
Qed.
Print Assumptions C85_any_order_refuted.

Definition order_file : list string :=
  ["[A]"; "module-load mpi : 4"; "envvar-set CC : gcc"; "envvar-prepend PATH : /opt/bin"; "envvar-find-in-path MPI : mpicc";
   "[B]"; "module-load mpi : 4"; "envvar-prepend PATH : /opt/bin"; "envvar-set CC : gcc"; "envvar-find-in-path MPI : mpicc";
   "[C]"; "envvar-set CC : gcc"; "envvar-unset OLD :"; "envvar-set CXX : ${HOME}/g++"; "envvar-find-in-path MPI : mpicc"].
Definition order_obj : sobj :=
  snd (getitem class (disk order_file) 9 $"C" (snd (getitem class (disk order_file) 9 $"B"
    (snd (getitem class (disk order_file) 9 $"A" new_setenv))))).
Definition order_acts (s : string) : list action :=
  match dget (lit s) (o_user order_obj) with Some l => l | None => [] end.

Example C85_ex :
  searches_path first_place /\ orderless (returning 0) /\
  (exists i, recorded (disk order_file) i $"A" (order_acts "A") order_obj /\
             recorded (disk order_file) i $"B" (order_acts "B") order_obj) /\
  reorders (order_acts "A") (order_acts "B") /\ order_acts "A" <> order_acts "B" /\
  (exists o', apply first_place (returning 0) no_other no_uni (disk order_file) 9 $"A" (World order_obj []) =
     (Ok 0%Z, World o' [($"CC", $"gcc"); ($"PATH", $"/opt/bin"); ($"MPI", $"/opt/bin/mpicc")])) /\
  (exists o', apply first_place (returning 0) no_other no_uni (disk order_file) 9 $"B" (World order_obj []) =
     (Ok 0%Z, World o' [($"PATH", $"/opt/bin"); ($"CC", $"gcc"); ($"MPI", $"/opt/bin/mpicc")])) /\
  ~ looks_at $"set" $"gcc" $"PATH" /\ ~ looks_at $"prepend" $"/opt/bin" $"CC".
Proof.
  split; [exact first_place_path|]. split; [intros args e e' H; split; [reflexivity|exact H]|].
  split; [eexists; split; eapply recorded_check; vm_compute; reflexivity|].
  split; [|split; [|split; [|split; [|split]]]].
  - apply (ro_swap [AMod $"module_load" (Some $"mpi") (Some $"4")] (AEnv $"envvar_set" $"CC" (Some $"gcc"))
      (AEnv $"envvar_prepend" $"PATH" (Some $"/opt/bin")) [AEnv $"envvar_find_in_path" $"MPI" (Some $"mpicc")]).
    apply independent_check; [reflexivity|reflexivity|discriminate].
  - vm_compute. discriminate.
  - eexists. vm_compute. reflexivity.
  - eexists. vm_compute. reflexivity.
  - intros [X|[X _]]; [revert X; apply no_dollar; reflexivity|discriminate X].
  - intros [X|[X _]]; [revert X; apply no_dollar; reflexivity|discriminate X].
Qed.

(** ** C86 *)

(** A section that only sets, unsets and finds, with values that do not depend on
    the variables it changes, can be applied again: that succeeds as well and
    changes no value. *)
Theorem C86_apply_twice :
  forall which mods other, searches_path which ->
  forall uniword fs i fuel s l o e, recorded fs i s l o -> repeatable l ->
    forall z w, apply which mods other uniword fs fuel s (World o e) = (Ok z, w) ->
    exists w', apply which mods other uniword fs fuel s w = (Ok z, w') /\ same_env (w_env w) (w_env w').
Proof. exact apply_repeated. Qed.
Print Assumptions C86_apply_twice.

(** Appending adds the entry again, and a value that mentions its own variable
    grows. *)
Theorem C86_twice_refuted :
  let l := ["[A]"; "envvar-append PATH : /opt"; "[B]"; "envvar-set OPTS : ${OPTS} -g"]%string in
  let run s w := apply no_programs (returning 0) no_other no_uni (disk l) 9 s w in
  let a := World new_setenv [($"PATH", $"/bin")] in
  let b := World new_setenv [($"OPTS", $"-O2")] in
  (fst (run $"A" a) = Ok 0%Z /\ w_env (snd (run $"A" a)) = [($"PATH", $"/bin:/opt")]) /\
  (fst (run $"A" (snd (run $"A" a))) = Ok 0%Z /\
   w_env (snd (run $"A" (snd (run $"A" a)))) = [($"PATH", $"/bin:/opt:/opt")]) /\
  (fst (run $"B" b) = Ok 0%Z /\ w_env (snd (run $"B" b)) = [($"OPTS", $"-O2 -g")]) /\
  (fst (run $"B" (snd (run $"B" b))) = Ok 0%Z /\
   w_env (snd (run $"B" (snd (run $"B" b)))) = [($"OPTS", $"-O2 -g -g")]).
Proof. vm_compute. split; [|split; [|split]]; split; reflexivity. Qed.
Print Assumptions C86_twice_refuted.

Example C86_ex :
  (exists i, recorded (disk order_file) i $"C" (order_acts "C") order_obj) /\ repeatable (order_acts "C") /\
  ~ mentions $"gcc" $"HOME" /\ mentions $"${HOME}/g++" $"HOME" /\
  (let e := [($"HOME", $"/u"); ($"PATH", $"/bin"); ($"CC", $"gcc"); ($"CXX", $"/u/g++"); ($"MPI", $"/bin/mpicc")] in
   let run w := apply first_place (returning 0) no_other no_uni (disk order_file) 9 $"C" w in
   let w := World order_obj [($"HOME", $"/u"); ($"PATH", $"/bin"); ($"OLD", $"x")] in
   fst (run w) = Ok 0%Z /\ w_env (snd (run w)) = e /\
   fst (run (snd (run w))) = Ok 0%Z /\ w_env (snd (run (snd (run w)))) = e).
Proof.
  split; [eexists; eapply recorded_check; vm_compute; reflexivity|].
  split; [|split; [apply no_dollar; reflexivity|split]].
  - replace (order_acts "C") with
      [AEnv $"envvar_set" $"CC" (Some $"gcc"); AEnv $"envvar_unset" $"OLD" (Some []);
       AEnv $"envvar_set" $"CXX" (Some $"${HOME}/g++"); AEnv $"envvar_find_in_path" $"MPI" (Some $"mpicc")]
      by (vm_compute; reflexivity).
    apply repeatable_check; [vm_compute; reflexivity|]. repeat apply Forall_cons; [| | | |apply Forall_nil]; intros n D.
    + exfalso. revert D. apply closedb_ok. reflexivity.
    + exfalso. revert D. apply closedb_ok. reflexivity.
    + apply depends_cases in D as [D|[D _]]; [|discriminate D].
      apply (one_reference $"HOME" $"/g++") in D; [subst n; vm_compute; reflexivity|reflexivity|reflexivity].
    + apply depends_cases in D as [D|[_ ->]]; [|vm_compute; reflexivity].
      exfalso. revert D. apply no_dollar. reflexivity.
  - right. exists [], $"/g++". split; [reflexivity|]. intros X. apply char_mem_In in X. discriminate.
  - vm_compute. split; [|split; [|split]]; reflexivity.
Qed.
