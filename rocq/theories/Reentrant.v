(** * [src/configparserenhanced/ConfigParserEnhanced.py] with handlers that read other sections.

    In [Cpe.v] the handlers of a subclass act on the shared dict and on the attributes
    of the subclass. Here a handler may, while the parser is running, also read
    [self.configparserenhanceddata[s]], as any method of the object may; this can start
    the parser again. To keep the handlers' effects apart, these handlers act on the
    shared dict only. The parts of the parser that call handlers are transcribed once
    more, the rest is that of [Cpe.v]. *)
From Coq Require Import String NArith ZArith List Bool.
Import ListNotations.
From Verif Require Import PyBase Shlex IniView IniRead ExcControl Debuggable Cpe.
Local Open Scope string_scope.
Local Open Scope list_scope.

Section Reentrant.
Context {Sh Us : Type}.
Notation obj := (obj Sh Us).
Notation ctx := (ctx Sh Us).
Notation pyclass := (pyclass Sh Us).
Notation attr := (attr Sh Us).

(** The body of a handler: it ends with a return value, or an exception, and the shared
    dict; or reads a section and goes on with what the read gave. *)
Inductive hprog :=
| HDone (r : res (option Z)) (sh : Sh)
| HRead (s : str) (k : res (dict (option str)) -> hprog).
Definition rbody := str -> hparams -> Sh -> hprog.

(** A class with such handlers; see [attr] and [pyclass] in [Cpe.v]. *)
Inductive rattr :=
| RUse
| RUser (k : hkind) (f : rbody)
| RNone
| RObj.
Record rclass := RClass { rk_over : dict rattr; rk_empty : Sh; rk_uniword : pychar -> bool }.

(** The class of [Cpe.v] whose handlers have the answers [ex] built in. *)
Fixpoint told (ex : str -> dict (option str)) (p : hprog) : res (option Z) * Sh :=
  match p with
  | HDone r sh => (r, sh)
  | HRead s k => told ex (k (Ok (ex s)))
  end.
Definition told_body (ex : str -> dict (option str)) (f : rbody) : hbody Sh Us :=
  fun sec hp sh us => let (r, sh') := told ex (f sec hp sh) in (r, sh', us).
Definition told_attr (ex : str -> dict (option str)) (a : rattr) : attr :=
  match a with
  | RUse => AUse
  | RUser k f => AUser k (told_body ex f)
  | RNone => ANone
  | RObj => AObj
  end.
Definition told_class (ex : str -> dict (option str)) (R : rclass) : pyclass :=
  PyClass (map (fun na => (fst na, told_attr ex (snd na))) (rk_over R)) (rk_empty R) (rk_uniword R).

Variable R : rclass.
Variable fs : str -> option str.
Local Open Scope sm_scope.

(** The attributes of the base class: [handler_initialize] (816-837), [handler_finalize]
    (839-863) and [_handler_use] (1279-1316). *)
Definition base_rattrs : dict rattr :=
  [($"_handler_use", RUse);
   ($"handler_finalize", RUser Decorated (fun _ _ sh => HDone (Ok (Some 0%Z)) sh));
   ($"handler_initialize", RUser Decorated (fun _ _ sh => HDone (Ok (Some 0%Z)) sh))].
(** [getattr(self, name, None)], as in [find_attr]. *)
Definition r_find_attr (name : str) : option rattr :=
  match dget name (rk_over R) with Some a => Some a | None => dget name base_rattrs end.
(** [_locate_class_method], 1190-1207. *)
Definition r_locate_class_method (name : str) : option rattr :=
  match r_find_attr name with Some RNone => None | x => x end.
(** [_locate_handler_method], 1126-1188. *)
Definition r_locate_handler (operation : str) : SM obj (option (str * rattr)) :=
  let op := normalize_op operation in
  let public := r_locate_class_method ($"handler_" ++ op) in
  let private := r_locate_class_method ($"_handler_" ++ op) in
  (match private, public with
   | Some _, Some _ => event $"SERIOUS" AmbiguousHandlerError
   | _, _ => ret tt
   end) ;;
  match public, private with
  | Some a, _ => ret (Some ($"handler_" ++ op, a))
  | None, Some a => ret (Some ($"_handler_" ++ op, a))
  | None, None => ret None
  end.

(** Where the class does not matter but for the words that are operations and the first
    shared dict. *)
Definition bare : pyclass := PyClass [] (rk_empty R) (rk_uniword R).

Section Read.
(** [self.configparserenhanceddata[s]] in a handler *)
Variable read : str -> SM obj (dict (option str)).
(** Running a handler's body, 712-718; its reads act on the object the parser works on. *)
Fixpoint run_prog (p : hprog) : SM ctx (option Z) := fun c =>
  match p with
  | HDone r sh => (r, Ctx (x_obj c) sh (x_proc c))
  | HRead s k => let (r, o) := read s (x_obj c) in run_prog (k r) (Ctx o (x_sh c) (x_proc c))
  end.
(** As [user_body] in [Cpe.v]: [handler_parameters.data_shared] is given to the body. *)
Definition r_user_body (f : rbody) (sec : str) (hp : hparams) : SM ctx (option Z) := fun c =>
  run_prog (f sec hp (x_sh c)) c.

Section Recursion.
Variable rec : str -> bool -> bool -> SM ctx unit.
Variable reparse : str -> SM obj unit.
(** [ophandler_f(section_name, hp)], 1001. *)
Definition r_call_attr (a : rattr) (sec : str) (hp : hparams) : SM ctx unit :=
  match a with
  | RUse => decorated hp (use_body rec sec hp)
  | RUser Decorated f => decorated hp (r_user_body f sec hp)
  | RUser _ f => r_user_body f sec hp ;; ret tt
  | RNone | RObj => raise TypeError
  end.
(** [self.handler_initialize(...)], [self.handler_finalize(...)], 916-920 and 1007-1010. *)
Definition r_call_named (name : str) (sec : str) (hp : hparams) : SM ctx unit :=
  match r_find_attr name with
  | None => raise AttributeError
  | Some a => r_call_attr a sec hp
  end.
(** The loop body, 942-1000. *)
Definition r_process_item (sec : str) (hp : hparams) (kv : str * res (option str)) : SM ctx hparams :=
  v0 <- of_res (snd kv) ;;
  let k := strip_ws (fst kv) in
  let v := clean_value v0 in
  let hp1 := Hp (hp_root hp) (Some k, v) (hp_op hp) (hp_params hp) v (hp_name hp) in
  lift (log (LKeyValue k v)) ;;
  toks <- of_res (shlex_split (strip_ws k)) ;;
  match toks with
  | [] => raise IndexError
  | t0 :: params =>
      if negb (op_word bare t0) then launch_generic fs reparse hp1 k v
      else
        let op := normalize_op t0 in
        let hp2 := Hp (hp_root hp1) (hp_raw hp1) op params (hp_value hp1) (hp_name hp1) in
        lift (log (LOperation op params)) ;;
        h <- lift (r_locate_handler op) ;;
        match h with
        | Some (name, a) =>
            let hp3 := Hp (hp_root hp2) (hp_raw hp2) (hp_op hp2) (hp_params hp2)
                          (hp_value hp2) name in
            r_call_attr a sec hp3 ;;
            ret hp3
        | None => launch_generic fs reparse hp2 k v
        end
  end.
(** The loop over the options of a section, 954-1005. *)
Fixpoint r_run_items (sec : str) (hp : hparams) (l : list (str * res (option str))) : SM ctx hparams :=
  match l with
  | [] => ret hp
  | kv :: l' => hp' <- r_process_item sec hp kv ;; r_run_items sec hp' l'
  end.
(** [_parse_section_r], 908-1024. *)
Definition r_psr_body (root sec : str) (init fin : bool) : SM ctx unit :=
  (if init && str_eqb sec root then
     r_call_named $"handler_initialize" sec (hp_named root $"handler_initialize") ;;
     i <- lift (get_cpd fs) ;;
     c <- get ;;
     if ini_has_section i (o_defname (x_obj c))
     then rec (o_defname (x_obj c)) false false
     else ret tt
   else ret tt) ;;
  lift (log (LSecEntry sec)) ;;
  i <- lift (get_cpd fs) ;;
  match ini_items i sec with
  | None => lift get_files ;; raise KeyError
  | Some items =>
      lift (data_add_section sec false) ;;
      proc_add sec ;;
      r_run_items sec (new_hp root) items ;;
      (if fin && str_eqb sec root
       then r_call_named $"handler_finalize" sec (hp_named root $"handler_finalize")
       else ret tt) ;;
      proc_remove sec ;;
      lift (log (LSecExit sec))
  end.
End Recursion.

(** [_parse_section_r] (865-1024) calling itself, with the bound of [psr]. *)
Fixpoint r_psr (fuel : nat) (root sec : str) (init fin : bool) : SM ctx unit :=
  match fuel with
  | O => raise RecursionError
  | S f => r_psr_body (r_psr f root) (fun s => parse_section_with bare (r_psr f) s true true ;; ret tt) root sec init fin
  end.
End Read.

(** [view[s]] (1584-1587, 1639-1660) read by a handler, or by the caller. [depth] bounds
    how deep reads are nested in parses, [fuel] how deep [use]s are in each of them; in
    Python both end in [RecursionError]. *)
Fixpoint r_read (fuel depth : nat) (s : str) {struct depth} : SM obj (dict (option str)) :=
  match depth with
  | O => raise RecursionError
  | S d =>
      b <- data_has_section fs (fun t => parse_section_with bare (r_psr (r_read fuel d) fuel) t true true ;; ret tt) s ;;
      if b then data_section s else raise KeyError
  end.
(** [parse_section], 653-686. *)
Definition r_parse (fuel depth : nat) (s : str) : SM obj Sh :=
  parse_section_with bare (r_psr (r_read fuel depth) fuel) s true true.

(** What the caller does before: parse and read sections. *)
Inductive rcall := RParse (s : str) | RRead (s : str).
Definition r_after1 (fuel depth : nat) (c : rcall) (o : obj) : obj :=
  match c with RParse s => snd (r_parse fuel depth s o) | RRead s => snd (r_read fuel (S depth) s o) end.
Definition r_after (fuel depth : nat) (l : list rcall) (o : obj) : obj := fold_left (fun o c => r_after1 fuel depth c o) l o.
End Reentrant.
