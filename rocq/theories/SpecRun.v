(** * Specification of a parse: the outcome of performing the steps of the walk.

    [run] folds over the steps of [SpecWalk] and says what a parse returns or
    raises, what the handlers have done to the shared dict and to the subclass
    state, and which steps were completed. [data_after] and [records] say what
    completed steps leave in the enhanced data and in the log. *)
From Coq Require Import String NArith ZArith List Bool.
Import ListNotations.
From Verif Require Import PyBase Shlex IniView IniRead ExcControl Cpe SpecWalk.

(** The enhanced data an object shows; sections and their options. *)
Definition data_of {Sh Us} (o : obj Sh Us) : sections_data :=
  match o_edata o with Some d => d_data d | None => [] end.
Definition section_of {Sh Us} (o : obj Sh Us) (s : str) : option (dict (option str)) :=
  dget s (data_of o).
Definition options_of {Sh Us} (o : obj Sh Us) (s : str) : dict (option str) :=
  match section_of o s with Some d => d | None => [] end.
(** The sections that count as parsed. *)
Definition checked_of {Sh Us} (o : obj Sh Us) : list str :=
  match o_edata o with Some d => d_checked d | None => [] end.
(** The log. *)
Definition log_of {Sh Us} (o : obj Sh Us) : list logent :=
  match o_log o with Some l => l | None => [] end.

(** The file content an object works on: what reading [configparserdata] gives. *)
Definition has_file {Sh Us} (fs : str -> option str) (o : obj Sh Us) (i : ini) : Prop :=
  fst (get_cpd fs o) = Ok i.

(** The levels are in the documented range (an invariant, C23). *)
Definition level_of {Sh Us} (o : obj Sh Us) : Z := ec_level (o_ec o).
Definition level_ok {Sh Us} (o : obj Sh Us) : Prop := (0 <= level_of o <= 5)%Z.

(** [inifilepath] has been set. *)
Definition path_set_of {Sh Us} (o : obj Sh Us) : bool :=
  match o_files o with Some _ => true | None => false end.

Section Run.
Context {Sh Us : Type} (K : pyclass Sh Us).
Variables (root : str) (lvl : Z) (path_set : bool).
Notation ev := (ev Sh Us).

(** What a handler's return value means. *)
Definition rval_policy (rv : option Z) : res unit :=
  match rv with
  | None => Err TypeError
  | Some z => if (z =? 0)%Z then Ok tt
              else if (10 <? z)%Z then Err RuntimeError
              else if (5 <=? lvl)%Z then Err RuntimeError else Ok tt
  end.

(** A public and a private handler of the same name. *)
Definition ambiguity (h : opinfo) : res unit :=
  if h_amb h && (3 <=? lvl)%Z then Err AmbiguousHandlerError else Ok tt.

(** The parameters a handler receives. *)
Definition params_of (h : opinfo) (k : str) (v : option str) : hparams :=
  Hp root (Some k, v) (h_op h) (h_params h) v (h_name h).

Definition run_handler (kind : hkind) (f : hbody Sh Us) (s : str) (hp : hparams)
  (sh : Sh) (us : Us) : res unit * Sh * Us :=
  let '(r, sh', us') := f s hp sh us in
  (match r with
   | Err e => Err e
   | Ok rv => match kind with Decorated => rval_policy rv | _ => Ok tt end
   end, sh', us').

(** One step: result and new shared dict / subclass state. *)
Definition step (e : ev) (sh : Sh) (us : Us) : res unit * Sh * Us :=
  let outcome (r : res unit) := (r, sh, us) in
  let after (h : opinfo) (r : res unit) :=
    outcome (match ambiguity h with Err x => Err x | Ok _ => r end) in
  match e with
  | Enter _ | Leave _ | SpecWalk.Plain _ _ _ _ | UseOut _ _ _ _ _ => outcome (Ok tt)
  | Missing _ => outcome (if path_set then Err KeyError else Err ValueError)
  | Call s h kind f k v =>
      match ambiguity h with
      | Err x => outcome (Err x)
      | Ok _ => run_handler kind f s (params_of h k v) sh us
      end
  | UseIn _ _ h _ _ => after h (Ok tt)
  | Cycle _ _ h _ _ =>
      after h (if path_set then if (5 <=? lvl)%Z then Err ValueError else Ok tt
               else Err ValueError)
  | Stop _ (StopValue x) => outcome (Err x)
  | Stop _ (StopKey _ _ x) => outcome (Err x)
  | Stop _ (StopUse h _ _) => after h (Err IndexError)
  | Stop _ (StopObj h _ _) => after h (Err TypeError)
  | Hook s name =>
      match find_attr K name with
      | None => outcome (Err AttributeError)
      | Some AUse => outcome (Err IndexError)
      | Some (AUser kind f) => run_handler kind f s (hp_named root name) sh us
      | Some ANone | Some AObj => outcome (Err TypeError)
      end
  end.

(** All steps, stopping at the first exception; the last component is the list
    of completed steps. *)
Fixpoint run (evs : list ev) (sh : Sh) (us : Us) : res unit * Sh * Us * list ev :=
  match evs with
  | [] => (Ok tt, sh, us, [])
  | e :: evs' =>
      let '(r, sh1, us1) := step e sh us in
      match r with
      | Err x => (Err x, sh1, us1, [])
      | Ok _ => let '(r2, sh2, us2, done) := run evs' sh1 us1 in (r2, sh2, us2, e :: done)
      end
  end.

(** What completed steps do to the enhanced data: sections met exist, unhandled
    options are written into the root section. *)
Definition ensure (s : str) (d : sections_data) : sections_data :=
  if dmem s d then d else dset s [] d.
Definition write (k : str) (v : option str) (d : sections_data) : sections_data :=
  dset root (dset k v (match dget root d with Some o => o | None => [] end)) d.
Definition data_step (d : sections_data) (e : ev) : sections_data :=
  match e with
  | Enter s => ensure s d
  | SpecWalk.Plain _ _ k v => write k v d
  | _ => d
  end.
Definition data_after (done : list ev) (d : sections_data) : sections_data :=
  fold_left data_step done d.

(** The log records of completed steps. *)
Definition records (e : ev) : list logent :=
  let op h (k : str) (v : option str) := [LKeyValue k v; LOperation (h_op h) (h_params h)] in
  match e with
  | Enter s => [LSecEntry s]
  | Leave s => [LSecExit s]
  | SpecWalk.Plain _ w k v =>
      [LKeyValue k v] ++
      (match w with Some (o, ps) => [LOperation o ps] | None => [] end) ++
      [LHEntry $"_generic_option_handler" (Some k, v);
       LHExit $"_generic_option_handler" (Some k, v)]
  | Call _ h kind _ k v =>
      op h k v ++
      match kind with
      | Decorated => [LHEntry (h_name h) (Some k, v); LHExit (h_name h) (Some k, v)]
      | _ => []
      end
  | UseIn _ _ h k v => op h k v ++ [LHEntry (h_name h) (Some k, v)]
  | UseOut _ _ h k v => [LHExit (h_name h) (Some k, v)]
  | Cycle s _ h k v =>
      op h k v ++ [LHEntry (h_name h) (Some k, v); LCycle s (h_op h);
                   LHExit (h_name h) (Some k, v); LHExit (h_name h) (Some k, v)]
  | Hook _ name =>
      match find_attr K name with
      | Some (AUser Decorated _) => [LHEntry name (None, None); LHExit name (None, None)]
      | _ => []
      end
  | Missing _ | Stop _ _ => []
  end.

(** The log records left by a step that raises. A decorated handler that raises
    leaves its entry; one whose return value is refused leaves entry and exit. *)
Definition handler_left (kind : hkind) (f : hbody Sh Us) (s : str) (hp : hparams)
  (sh : Sh) (us : Us) : list logent :=
  match kind with
  | Decorated =>
      LHEntry (hp_name hp) (hp_raw hp) ::
      match fst (fst (f s hp sh us)) with
      | Ok _ => [LHExit (hp_name hp) (hp_raw hp)]
      | Err _ => []
      end
  | _ => []
  end.
Definition left_by (e : ev) (sh : Sh) (us : Us) : list logent :=
  let after h (k : str) (v : option str) (l : list logent) :=
    [LKeyValue k v; LOperation (h_op h) (h_params h)] ++
    match ambiguity h with Err _ => [] | Ok _ => l end in
  match e with
  | Missing s => [LSecEntry s]
  | Call s h kind f k v => after h k v (handler_left kind f s (params_of h k v) sh us)
  | UseIn _ _ h k v => after h k v []
  | Cycle s _ h k v =>
      after h k v [LHEntry (h_name h) (Some k, v); LCycle s (h_op h); LHExit (h_name h) (Some k, v)]
  | Stop _ (StopValue _) => []
  | Stop _ (StopKey k v _) => [LKeyValue k v]
  | Stop _ (StopUse h k v) => after h k v [LHEntry (h_name h) (Some k, v)]
  | Stop _ (StopObj h k v) => after h k v []
  | Hook s name =>
      match find_attr K name with
      | Some AUse => [LHEntry name (None, None)]
      | Some (AUser kind f) => handler_left kind f s (hp_named root name) sh us
      | _ => []
      end
  | Enter _ | Leave _ | SpecWalk.Plain _ _ _ _ | UseOut _ _ _ _ _ => []
  end.

(** The log of all steps up to and including the first that raises. *)
Fixpoint run_log (evs : list ev) (sh : Sh) (us : Us) : list logent :=
  match evs with
  | [] => []
  | e :: evs' =>
      let '(r, sh1, us1) := step e sh us in
      match r with
      | Err _ => left_by e sh us
      | Ok _ => records e ++ run_log evs' sh1 us1
      end
  end.
End Run.
