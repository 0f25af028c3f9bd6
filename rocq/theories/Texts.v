(** * The texts of the exceptions and of the warnings of
    [src/configparserenhanced/ConfigParserEnhanced.py].

    The methods of [Cpe.v] that are used by [parse_section] and by the accessors,
    transcribed once more with the text that is given to the exception and with the
    text that a skipped event prints. An exception that Python itself, [configparser],
    [shlex] or a handler raises has no text here, and so has that of
    [_validate_parameter], which shows an arbitrary object. *)
From Coq Require Import String NArith ZArith List Bool.
Import ListNotations.
From Verif Require Import PyBase Shlex IniView IniRead ExcControl Debuggable Cpe Errors.
Local Open Scope string_scope.
Local Open Scope list_scope.

(** ** Computations that print texts *)
Definition TM (S A : Type) : Type := S -> eres A * S * list str.
Definition tret {S A} (a : A) : TM S A := fun s => (EOk a, s, []).
Definition tbind {S A B} (m : TM S A) (k : A -> TM S B) : TM S B := fun s =>
  match m s with
  | (EOk a, s', w) => let '(r, s'', w') := k a s' in (r, s'', w ++ w')
  | (EErr e t, s', w) => (EErr e t, s', w)
  end.
Definition traise {S A} (e : exc) (text : str) : TM S A := fun s => (EErr e (Some text), s, []).
(** A part without texts of its own. *)
Definition tof {S A} (m : SM S A) : TM S A := fun s => let (r, s') := m s in (silent r, s', []).
Declare Scope tm_scope.
Notation "x <-- m ; k" := (tbind m (fun x => k)) (at level 100, m at next level, right associativity) : tm_scope.
Notation "m ;;; k" := (tbind m (fun _ => k)) (at level 100, right associativity) : tm_scope.
Local Open Scope tm_scope.

(** [ExceptionControl.py] 291-293: the lines of the message of a skipped event. *)
Definition shown_message (m : str) : str :=
  $"!! Message    : " ++ flat_map (fun c => if N.eqb c 10%N then newline ++ $"!!            : " else [c]) m.

Section Texts.
Context {Sh Us : Type}.
Notation obj := (obj Sh Us).
Notation ctx := (ctx Sh Us).
Notation attr := (attr Sh Us).
Notation hbody := (hbody Sh Us).
Variable K : pyclass Sh Us.
Variable fs : str -> option str.
(** [os.getcwd()], and how Python shows a list of [Path]s. *)
Variables (cwd : str) (shown_files : list str -> str).

Definition tlift {A} (m : TM obj A) : TM ctx A := fun c =>
  let '(r, o, w) := m (x_obj c) in (r, Ctx o (x_sh c) (x_proc c), w).

(** [self.exception_control_event(event, e, message)]; [ExceptionControl.py] 269-311. *)
Definition tevent (ev : str) (e : exc) (message : str) : TM obj unit := fun o =>
  let (r, out) := ec_event (o_ec o) ev (XClass e) true in
  (match r with Ok u => EOk u | Err e => EErr e (Some message) end,
   add_out (map OutWarn out) o,
   flat_map (fun w => match w with OWarn _ _ _ true => [shown_message message] | _ => [] end) out).

(** [inifilepath] getter, 192-194. *)
Definition tget_files : TM obj (list str) := fun o =>
  match o_files o with
  | None => (EErr ValueError (Some $"ERROR: The filename has not been specified yet."), o, [])
  | Some l => (EOk l, o, [])
  end.

(** 275-281 *)
Definition frame : str := $"+==============================================================================+".
Definition not_a_file (p : str) : str :=
  newline ++ frame ++ newline ++ $"|   ERROR: Unable to load configuration .ini file" ++ newline ++
  $"|   - Requested file: `" ++ p ++ $"`" ++ newline ++ $"|   - CWD: `" ++ cwd ++ $"`" ++ newline ++ frame ++ newline.
Definition first_missing (fl : list str) : option str := find (fun p => negb (file_exists fs p)) fl.

(** [configparserdata], 224-292. *)
Definition tget_cpd : TM obj ini := fun o =>
  match o_cpd o with
  | Some i => (EOk i, o, [])
  | None =>
      let i0 := Ini [] [] (o_intname o) in
      let o1 := set_cpd (Some i0) o in
      match o_files o1 with
      | None => (EErr ValueError (Some $"ERROR: The filename has not been specified yet."), o1, [])
      | Some [] => (EErr ValueError (Some $"ERROR: No .ini filename(s) were provided."), o1, [])
      | Some fl =>
          match first_missing fl with
          | Some p => (EErr IOError (Some (not_a_file p)), o1, [])
          | None =>
              match read_files (o_delims o1) (file_texts fs fl) i0 with
              | (Ok _, i) => (EOk i, set_cpd (Some i) o1, [])
              | (Err DuplicateOptionError, _) =>
                  (EErr DuplicateOptionError None,
                   add_out [OutText $"ERROR: Configparser found a section with two options with identical keys."]
                           (set_cpd None o1), [])
              | (Err e, i) => (EErr e None, set_cpd (Some i) o1, [])
              end
          end
      end
  end.

Section TReparse.
Variable reparse : str -> TM obj unit.
(** [_parse_owner_section], 1787-1816. *)
Definition tparse_owner (s : str) (force : bool) : TM obj unit :=
  d <-- tof get_edata ;
  if negb (str_mem s (d_checked d)) || force then
    tof (@set_owner_options Sh Us) ;;;
    d <-- tof get_edata ;
    tof (put_edata (ed_check s d)) ;;;
    reparse s
  else tret tt.

(** [has_section], 1639-1660: a [KeyError] is replaced by another one. *)
Definition unreachable : str := $"Reached 'unreachable' code? Please notify developers of this".
Definition tdata_has_section (s : str) : TM obj bool :=
  i <-- tget_cpd ;
  (if ini_has_section i s then
     d <-- tof get_edata ;
     if str_mem s (d_checked d) then tret tt
     else fun o => match tparse_owner s false o with
                   | (EErr KeyError _, o', w) => (EErr KeyError (Some unreachable), o', w)
                   | x => x
                   end
   else tret tt) ;;;
  d <-- tof get_edata ;
  tret (dmem s (d_data d)).

(** [set], 1737-1747. *)
Definition tdata_set (s k : str) (v : option str) : TM obj unit :=
  b <-- tdata_has_section s ;
  (if b then tret tt else tof (data_add_section s false)) ;;;
  d <-- tof get_edata ;
  match ed_put s k v d with
  | None => tof (raise KeyError)
  | Some d' => tof (put_edata d')
  end.
End TReparse.

(** [_check_handler_rval], 1209-1243. *)
Definition returned (name : str) (z : Z) : str := $"Handler `" ++ name ++ $"` returned " ++ dec_of_Z z.
Definition tcheck_rval (name : str) (r : option Z) : TM obj unit :=
  match r with
  | None => tof (event $"CATASTROPHIC" TypeError)
  | Some z =>
      if (z =? 0)%Z then tret tt
      else if (z <=? 10)%Z then tevent $"WARNING" RuntimeError (returned name z)
      else tevent $"CATASTROPHIC" RuntimeError (returned name z)
  end.

(** The wrapper of [operation_handler], 712-718, 726-783. *)
Definition tdecorated (hp : hparams) (body : TM ctx (option Z)) : TM ctx unit :=
  tof (lift (log (LHEntry (hp_name hp) (hp_raw hp)))) ;;;
  r <-- body ;
  tof (lift (log (LHExit (hp_name hp) (hp_raw hp)))) ;;;
  tlift (tcheck_rval (hp_name hp) r).

Section TRecursion.
Variable rec : str -> bool -> bool -> TM ctx unit.
Variable reparse : str -> TM obj unit.

(** [_handler_use], 1279-1316; the message 1312-1314. *)
Definition cycle_text (fl : list str) (t s : str) : str :=
  $"Detected a cycle in `use` dependencies in .ini file " ++ shown_files fl ++ $"." ++ newline ++
  $"- cannot load [" ++ t ++ $"] from [" ++ s ++ $"].".
Definition tuse_body (sec : str) (hp : hparams) : TM ctx (option Z) :=
  match hp_params hp with
  | [] => tof (raise IndexError)
  | target :: _ =>
      c <-- tof get ;
      if negb (str_mem target (x_proc c)) then
        rec target true false ;;; tret (Some 0%Z)
      else
        tof (lift (log (LCycle sec (hp_op hp)))) ;;;
        tof (lift (log (LHExit (hp_name hp) (hp_raw hp)))) ;;;
        fl <-- tlift tget_files ;
        tlift (tevent $"WARNING" ValueError (cycle_text fl target sec)) ;;;
        tret (Some 0%Z)
  end.

Definition tcall_attr (a : attr) (sec : str) (hp : hparams) : TM ctx unit :=
  match a with
  | AUse => tdecorated hp (tuse_body sec hp)
  | AUser Decorated f => tdecorated hp (tof (user_body f sec hp))
  | AUser _ f => tof (user_body f sec hp) ;;; tret tt
  | ANone | AObj => tof (raise TypeError)
  end.

Definition tcall_named (name : str) (sec : str) (hp : hparams) : TM ctx unit :=
  match find_attr K name with
  | None => tof (raise AttributeError)
  | Some a => tcall_attr a sec hp
  end.

(** [_locate_handler_method], 1126-1188; the message 1173-1175. *)
Definition ambiguous_text (private public : str) : str :=
  $"Ambiguous handler name. Both `" ++ private ++ $"` and `" ++ public ++ $"` exist but only one is allowed.".
Definition tlocate_handler (operation : str) : TM obj (option (str * attr)) :=
  let op := normalize_op operation in
  let name_private := $"_handler_" ++ op in
  let name_public := $"handler_" ++ op in
  let public := locate_class_method K name_public in
  let private := locate_class_method K name_private in
  (match private, public with
   | Some _, Some _ => tevent $"SERIOUS" AmbiguousHandlerError (ambiguous_text name_private name_public)
   | _, _ => tret tt
   end) ;;;
  match public, private with
  | Some a, _ => tret (Some (name_public, a))
  | None, Some a => tret (Some (name_private, a))
  | None, None => tret None
  end.

Definition tlaunch_generic (hp : hparams) (k : str) (v : option str) : TM ctx hparams :=
  tlift (tdata_set reparse (hp_root hp) k v) ;;;
  let hp' := Hp (hp_root hp) (hp_raw hp) (hp_op hp) (hp_params hp) (hp_value hp)
                $"_generic_option_handler" in
  tdecorated hp' (tret (Some 0%Z)) ;;;
  tret hp'.

(** The loop body, 942-1000. *)
Definition tprocess_item (sec : str) (hp : hparams) (kv : str * res (option str)) : TM ctx hparams :=
  v0 <-- tof (of_res (snd kv)) ;
  let k := strip_ws (fst kv) in
  let v := clean_value v0 in
  let hp1 := Hp (hp_root hp) (Some k, v) (hp_op hp) (hp_params hp) v (hp_name hp) in
  tof (lift (log (LKeyValue k v))) ;;;
  toks <-- tof (of_res (shlex_split (strip_ws k))) ;
  match toks with
  | [] => tof (raise IndexError)
  | t0 :: params =>
      if negb (op_word K t0) then tlaunch_generic hp1 k v
      else
        let op := normalize_op t0 in
        let hp2 := Hp (hp_root hp1) (hp_raw hp1) op params (hp_value hp1) (hp_name hp1) in
        tof (lift (log (LOperation op params))) ;;;
        h <-- tlift (tlocate_handler op) ;
        match h with
        | Some (name, a) =>
            let hp3 := Hp (hp_root hp2) (hp_raw hp2) (hp_op hp2) (hp_params hp2)
                          (hp_value hp2) name in
            tcall_attr a sec hp3 ;;;
            tret hp3
        | None => tlaunch_generic hp2 k v
        end
  end.

Fixpoint trun_items (sec : str) (hp : hparams) (l : list (str * res (option str))) : TM ctx hparams :=
  match l with
  | [] => tret hp
  | kv :: l' => hp' <-- tprocess_item sec hp kv ; trun_items sec hp' l'
  end.

(** [_parse_section_r], 908-1024; the message 938-941. *)
Definition missing_text (fl : list str) (s : str) : str :=
  $"ERROR: No section named `" ++ s ++ $"` was found in the configuration file " ++ shown_files fl ++ $".".
Definition tpsr_body (root sec : str) (init fin : bool) : TM ctx unit :=
  (if init && str_eqb sec root then
     tcall_named $"handler_initialize" sec (hp_named root $"handler_initialize") ;;;
     i <-- tlift tget_cpd ;
     c <-- tof get ;
     if ini_has_section i (o_defname (x_obj c))
     then rec (o_defname (x_obj c)) false false
     else tret tt
   else tret tt) ;;;
  tof (lift (log (LSecEntry sec))) ;;;
  i <-- tlift tget_cpd ;
  match ini_items i sec with
  | None => fl <-- tlift tget_files ; traise KeyError (missing_text fl sec)
  | Some items =>
      tof (lift (data_add_section sec false)) ;;;
      tof (proc_add sec) ;;;
      trun_items sec (new_hp root) items ;;;
      (if fin && str_eqb sec root
       then tcall_named $"handler_finalize" sec (hp_named root $"handler_finalize")
       else tret tt) ;;;
      tof (proc_remove sec) ;;;
      tof (lift (log (LSecExit sec)))
  end.
End TRecursion.

(** [parse_section], 653-686, 890-907. *)
Definition tparse_root (p : str -> str -> bool -> bool -> TM ctx unit) (s : str) (init fin : bool) : TM obj Sh :=
  d <-- tof get_edata ;
  tof (put_edata (ed_check s d)) ;;;
  fun o =>
    match p s s init fin (Ctx o (k_empty K) []) with
    | (EOk _, c, w) => (EOk (x_sh c), x_obj c, w)
    | (EErr e t, c, w) => (EErr e t, x_obj c, w)
    end.
Definition tparse_section_with (p : str -> str -> bool -> bool -> TM ctx unit) (s : str) (init fin : bool) : TM obj Sh :=
  tof (modify (set_log None)) ;;;
  if str_eqb s [] then traise ValueError $"`section` cannot be empty."
  else
    r <-- tparse_root p s init fin ;
    tof (modify (set_last (Some r))) ;;;
    tret r.
Fixpoint tpsr (fuel : nat) (root sec : str) (init fin : bool) : TM ctx unit :=
  match fuel with
  | O => tof (raise RecursionError)
  | S f => tpsr_body (tpsr f root) (fun s => tparse_section_with (tpsr f) s true true ;;; tret tt) root sec init fin
  end.
Definition tparse_section_str (fuel : nat) (s : str) (init fin : bool) : TM obj Sh :=
  tparse_section_with (tpsr fuel) s init fin.

(** ** Reads *)
Definition towner_parse (fuel : nat) (s : str) : TM obj unit := tparse_section_str fuel s true true ;;; tret tt.
Definition thas_section (fuel : nat) (s : str) : TM obj bool := tdata_has_section (towner_parse fuel) s.
(** [__getitem__], 1584-1587; [options], 1675-1678. *)
Definition tgetitem (fuel : nat) (s : str) : TM obj (dict (option str)) :=
  b <-- thas_section fuel s ;
  if b then tof (data_section s) else traise KeyError s.
Definition tdata_options (fuel : nat) (s : str) : TM obj (dict (option str)) :=
  b <-- thas_section fuel s ;
  if b then tof (data_section s) else traise KeyError ($"Section " ++ s ++ $" does not exist.").
(** [has_option], 1680-1685. *)
Definition thas_option (fuel : nat) (s k : str) : TM obj bool :=
  tparse_owner (towner_parse fuel) s false ;;;
  d <-- tof get_edata ;
  tret match dget s (d_data d) with
       | Some o => dmem k o
       | None => false
       end.
(** [get], 1687-1715. *)
Definition tdata_get (fuel : nat) (s : str) (k : option str) : TM obj got :=
  d <-- tof get_edata ;
  (if str_mem s (d_checked d) then tret tt else tparse_owner (towner_parse fuel) s false) ;;;
  b <-- thas_section fuel s ;
  if b then
    match k with
    | None => o <-- tof (data_section s) ; tret (GotSection o)
    | Some k =>
        b <-- thas_option fuel s k ;
        if b then
          o <-- tof (data_section s) ;
          match dget k o with
          | Some v => tret (GotValue v)
          | None => tof (raise KeyError)
          end
        else traise KeyError ($"Missing section:option -> '" ++ s ++ $"': '" ++ k ++ $"'")
    end
  else traise KeyError ($"Missing section " ++ s ++ $".").
End Texts.
