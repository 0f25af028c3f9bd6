(** * [src/configparserenhanced/ConfigParserEnhanced.py]: the object, the
    recursive parser and [ConfigParserEnhancedData].

    Line numbers refer to that file unless another one is named. *)
From Coq Require Import String NArith ZArith List Bool.
Import ListNotations.
From Verif Require Import PyBase Shlex IniView IniRead ExcControl Debuggable.

(** ** Records *)

(** [HandlerParameters] ([HandlerParameters.py:85-92]) without [data_shared] and
    [data_internal], which are shared by reference between all recursion levels
    of one parse and therefore live in the parse context below. [section_root]
    is the same in all levels. *)
Record hparams := Hp {
  hp_root : str;                                   (** [section_root] *)
  hp_raw : option str * option str;                (** [raw_option] *)
  hp_op : str;
  hp_params : list str;
  hp_value : option str;
  hp_name : str                                    (** [handler_name] *)
}.
(** [_new_handler_parameters], 1071-1095. *)
Definition new_hp (root : str) : hparams := Hp root (None, None) [] [] (Some []) [].
Definition hp_named (root name : str) : hparams :=
  Hp root (None, None) [] [] (Some []) name.

(** Log records ([_loginfo_add]); the ['parameters'] reference that handler
    records carry is not modelled. *)
Inductive logent :=
| LSecEntry (name : str)
| LSecExit (name : str)
| LKeyValue (k : str) (v : option str)
| LOperation (op : str) (params : list str)
| LHEntry (name : str) (entry : option str * option str)
| LHExit (name : str) (entry : option str * option str)
| LCycle (src dst : str).

(** Standard output: skipped-exception warnings and [debug_message(0, ...)].
    Messages of debug level 1 and above are not modelled (they only print). *)
Inductive outline :=
| OutWarn (w : outev)
| OutText (s : str).

(** [ConfigParserEnhancedData] (1445-1816): [_data], [_sections_checked] and the
    two levels copied from the owner. *)
Definition sections_data := dict (dict (option str)).
Record edata := EData {
  d_data : sections_data;
  d_checked : list str;
  d_level : Z;
  d_debug : Z
}.

Section WithSubclass.
Context {Sh Us : Type}.
(** [Sh]: the [data_shared] dict; [Us]: the attributes a subclass adds to
    [self]. *)

(** A handler body: section name, handler parameters, [data_shared], subclass
    attributes; it returns an integer ([Some z]), something that is not an
    integer ([None]), or raises. *)
Definition hbody := str -> hparams -> Sh -> Us -> res (option Z) * Sh * Us.

(** How a callable attribute is defined. *)
Inductive hkind :=
| Decorated   (** a method with the [@operation_handler] decorator *)
| Plain       (** a method without it *)
| Static      (** callable, but not a bound method (e.g. [staticmethod]) *).

Inductive attr :=
| AUse                              (** the inherited [_handler_use] *)
| AUser (k : hkind) (f : hbody)
| ANone                             (** attribute whose value is [None] *)
| AObj                              (** any other, non-callable object *).

(** A class derived from [ConfigParserEnhanced], as far as the parser can see
    it: the attributes it adds or overrides, the initial [data_shared], and
    which non-ASCII characters match [\w]. *)
Record pyclass := PyClass {
  k_over : dict attr;
  k_empty : Sh;
  k_uniword : pychar -> bool
}.

(** The empty bodies of [handler_initialize] (816-837) and [handler_finalize]
    (839-863). *)
Definition noop_body : hbody := fun _ _ sh us => (Ok (Some 0%Z), sh, us).

Definition base_attrs : dict attr :=
  [($"_handler_use", AUse);
   ($"handler_finalize", AUser Decorated noop_body);
   ($"handler_initialize", AUser Decorated noop_body)].

(** [getattr(self, name, None)]: [None] when missing. *)
Definition find_attr (K : pyclass) (name : str) : option attr :=
  match dget name (k_over K) with
  | Some a => Some a
  | None => dget name base_attrs
  end.

(** The [ConfigParserEnhanced] object. *)
Record obj := Obj {
  o_files : option (list str);       (** [_inifilepath] *)
  o_cpd : option ini;                (** [_configparserdata] *)
  o_delims : list str;               (** [configparser_delimiters] *)
  o_edata : option edata;            (** [_configparserenhanceddata] *)
  o_last : option Sh;                (** [parse_section_last_result] *)
  o_ec : ecs;                        (** [ExceptionControl] *)
  o_debug : Z;                       (** [Debuggable.debug_level] *)
  o_log : option (list logent);      (** [_loginfo] *)
  o_defname : str;                   (** [default_section_name] *)
  o_intname : str;                   (** [_internal_default_section_name] *)
  o_user : Us;
  o_out : list outline
}.

Definition set_files v o := Obj v (o_cpd o) (o_delims o) (o_edata o) (o_last o) (o_ec o) (o_debug o) (o_log o) (o_defname o) (o_intname o) (o_user o) (o_out o).
Definition set_cpd v o := Obj (o_files o) v (o_delims o) (o_edata o) (o_last o) (o_ec o) (o_debug o) (o_log o) (o_defname o) (o_intname o) (o_user o) (o_out o).
Definition set_delims v o := Obj (o_files o) (o_cpd o) v (o_edata o) (o_last o) (o_ec o) (o_debug o) (o_log o) (o_defname o) (o_intname o) (o_user o) (o_out o).
Definition set_edata v o := Obj (o_files o) (o_cpd o) (o_delims o) v (o_last o) (o_ec o) (o_debug o) (o_log o) (o_defname o) (o_intname o) (o_user o) (o_out o).
Definition set_last v o := Obj (o_files o) (o_cpd o) (o_delims o) (o_edata o) v (o_ec o) (o_debug o) (o_log o) (o_defname o) (o_intname o) (o_user o) (o_out o).
Definition set_ec v o := Obj (o_files o) (o_cpd o) (o_delims o) (o_edata o) (o_last o) v (o_debug o) (o_log o) (o_defname o) (o_intname o) (o_user o) (o_out o).
Definition set_debug v o := Obj (o_files o) (o_cpd o) (o_delims o) (o_edata o) (o_last o) (o_ec o) v (o_log o) (o_defname o) (o_intname o) (o_user o) (o_out o).
Definition set_log v o := Obj (o_files o) (o_cpd o) (o_delims o) (o_edata o) (o_last o) (o_ec o) (o_debug o) v (o_defname o) (o_intname o) (o_user o) (o_out o).
Definition set_defname v o := Obj (o_files o) (o_cpd o) (o_delims o) (o_edata o) (o_last o) (o_ec o) (o_debug o) (o_log o) v (o_intname o) (o_user o) (o_out o).
Definition set_user v o := Obj (o_files o) (o_cpd o) (o_delims o) (o_edata o) (o_last o) (o_ec o) (o_debug o) (o_log o) (o_defname o) (o_intname o) v (o_out o).
Definition add_out v o := Obj (o_files o) (o_cpd o) (o_delims o) (o_edata o) (o_last o) (o_ec o) (o_debug o) (o_log o) (o_defname o) (o_intname o) (o_user o) (o_out o ++ v).

(** [__init__] (148-159) without filename; lazily created properties have their
    defaults (165-173, 317-319). *)
Definition new_obj (us : Us) : obj :=
  Obj None None [$"="; $":"] None None ec_init 0 None $"DEFAULT"
      $"CONFIGPARSERENHANCED_COMMON" us [].

(** The context of one parse: the object, [data_shared], and
    [data_internal['processed_sections']]. *)
Record ctx := Ctx { x_obj : obj; x_sh : Sh; x_proc : list str }.

Definition lift {A} (m : SM obj A) : SM ctx A := fun c =>
  let (r, o) := m (x_obj c) in (r, Ctx o (x_sh c) (x_proc c)).

Variable K : pyclass.
(** The file system: contents of the regular files ([None]: no such file, or not
    a regular file). Text decoding is not modelled. *)
Variable fs : str -> option str.

Local Open Scope sm_scope.

(** ** Events and log *)

(** [self.exception_control_event(event, e, message)] *)
Definition event (ev : str) (e : exc) : SM obj unit := fun o =>
  let (r, out) := ec_event (o_ec o) ev (XClass e) true in
  (r, add_out (map OutWarn out) o).

(** [debug_message(0, s)]: always printed, without prefix. *)
Definition print_line (s : str) : SM obj unit := modify (add_out [OutText s]).

(** [_loginfo_add], 1348-1374. *)
Definition log (e : logent) : SM obj unit := fun o =>
  let l := match o_log o with None => [] | Some l => l end in
  (Ok tt, set_log (Some (if (0 <? o_debug o)%Z then l ++ [e] else l)) o).

(** ** Lazy properties *)

(** [inifilepath] getter, 190-192. *)
Definition get_files : SM obj (list str) := fun o =>
  match o_files o with
  | None => (Err ValueError, o)
  | Some l => (Ok l, o)
  end.

Definition file_exists (p : str) : bool :=
  match fs p with Some _ => true | None => false end.
Definition file_texts (l : list str) : list str :=
  map (fun p => match fs p with Some t => t | None => [] end) l.

(** [configparserdata], 224-292. The empty parser is stored before the checks
    and before reading, and only a [DuplicateOptionError] removes it again. *)
Definition get_cpd : SM obj ini := fun o =>
  match o_cpd o with
  | Some i => (Ok i, o)
  | None =>
      let i0 := Ini [] [] (o_intname o) in
      let o1 := set_cpd (Some i0) o in
      match o_files o1 with
      | None => (Err ValueError, o1)
      | Some [] => (Err ValueError, o1)
      | Some fl =>
          if forallb file_exists fl then
            match read_files (o_delims o1) (file_texts fl) i0 with
            | (Ok _, i) => (Ok i, set_cpd (Some i) o1)
            | (Err DuplicateOptionError, _) =>
                (Err DuplicateOptionError,
                 add_out [OutText $"ERROR: Configparser found a section with two options with identical keys."]
                         (set_cpd None o1))
            | (Err e, i) => (Err e, set_cpd (Some i) o1)
            end
          else (Err IOError, o1)
      end
  end.

(** [configparserenhanceddata], 326-367, creating the data object
    (1527-1529 with [_set_owner_options], 1775-1785). *)
Definition get_edata : SM obj edata := fun o =>
  match o_edata o with
  | Some d => (Ok d, o)
  | None => let d := EData [] [] (ec_level (o_ec o)) (o_debug o) in
            (Ok d, set_edata (Some d) o)
  end.

Definition put_edata (d : edata) : SM obj unit := modify (set_edata (Some d)).

(** ** [ConfigParserEnhancedData] writes *)

(** [add_section], 1717-1735. *)
Definition ed_add_section (s : str) (force : bool) (d : edata) : edata :=
  if force || negb (dmem s (d_data d))
  then EData (dset s [] (d_data d)) (d_checked d) (d_level d) (d_debug d)
  else d.

(** [self.data[section][option] = value] (line 1746), [None] is [KeyError]. *)
Definition ed_put (s k : str) (v : option str) (d : edata) : option edata :=
  match dget s (d_data d) with
  | None => None
  | Some opts => Some (EData (dset s (dset k v opts) (d_data d)) (d_checked d)
                             (d_level d) (d_debug d))
  end.

Definition ed_check (s : str) (d : edata) : edata :=
  EData (d_data d) (sadd s (d_checked d)) (d_level d) (d_debug d).

Definition data_add_section (s : str) (force : bool) : SM obj unit :=
  d <- get_edata ;; put_edata (ed_add_section s force d).

(** [_set_owner_options], 1775-1785. *)
Definition set_owner_options : SM obj unit := fun o =>
  match get_edata o with
  | (Ok d, o1) =>
      (Ok tt, set_edata (Some (EData (d_data d) (d_checked d)
                                     (ec_level (o_ec o1)) (o_debug o1))) o1)
  | (Err e, o1) => (Err e, o1)
  end.

Section Reparse.
(** [self._owner.parse_section(section)] as called from
    [_parse_owner_section]; tied to the parser below. *)
Variable reparse : str -> SM obj unit.

(** [_parse_owner_section], 1787-1816. *)
Definition parse_owner (s : str) (force : bool) : SM obj unit :=
  d <- get_edata ;;
  if negb (str_mem s (d_checked d)) || force then
    set_owner_options ;;
    d <- get_edata ;;
    put_edata (ed_check s d) ;;
    reparse s
  else ret tt.

(** [has_section], 1639-1660. A [KeyError] is turned into a CATASTROPHIC
    [KeyError] event of the data object, which always raises. *)
Definition data_has_section (s : str) : SM obj bool :=
  i <- get_cpd ;;
  (if ini_has_section i s then
     d <- get_edata ;;
     if str_mem s (d_checked d) then ret tt
     else parse_owner s false
   else ret tt) ;;
  d <- get_edata ;;
  ret (dmem s (d_data d)).

(** [set], 1737-1747. *)
Definition data_set (s k : str) (v : option str) : SM obj unit :=
  b <- data_has_section s ;;
  (if b then ret tt else data_add_section s false) ;;
  d <- get_edata ;;
  match ed_put s k v d with
  | None => raise KeyError
  | Some d' => put_edata d'
  end.
End Reparse.

(** ** Handlers *)

(** [_check_handler_rval], 1209-1243; [None] is a value that is not an [int]. *)
Definition check_rval (r : option Z) : SM obj unit :=
  match r with
  | None => event $"CATASTROPHIC" TypeError
  | Some z =>
      if (z =? 0)%Z then ret tt
      else if (z <=? 10)%Z then event $"WARNING" RuntimeError
      else event $"CATASTROPHIC" RuntimeError
  end.

(** The wrapper of [operation_handler] (712-718) with [enter_handler] (726-754)
    and [exit_handler] (756-783). *)
Definition decorated (hp : hparams) (body : SM ctx (option Z)) : SM ctx unit :=
  lift (log (LHEntry (hp_name hp) (hp_raw hp))) ;;
  r <- body ;;
  lift (log (LHExit (hp_name hp) (hp_raw hp))) ;;
  lift (check_rval r).

Definition user_body (f : hbody) (sec : str) (hp : hparams) : SM ctx (option Z) :=
  fun c =>
    let '(r, sh, us) := f sec hp (x_sh c) (o_user (x_obj c)) in
    (r, Ctx (set_user us (x_obj c)) sh (x_proc c)).

Section Recursion.
(** [rec section initialize finalize]: the recursive call of
    [_parse_section_r] with the current handler parameters. *)
Variable rec : str -> bool -> bool -> SM ctx unit.
Variable reparse : str -> SM obj unit.

(** [_handler_use], 1279-1316. *)
Definition use_body (sec : str) (hp : hparams) : SM ctx (option Z) :=
  match hp_params hp with
  | [] => raise IndexError
  | target :: _ =>
      c <- get ;;
      if negb (str_mem target (x_proc c)) then
        rec target true false ;; ret (Some 0%Z)
      else
        lift (log (LCycle sec (hp_op hp))) ;;
        lift (log (LHExit (hp_name hp) (hp_raw hp))) ;;
        lift get_files ;;                        (* the message names the files *)
        lift (event $"WARNING" ValueError) ;;
        ret (Some 0%Z)
  end.

(** Calling an attribute as a handler: [ophandler_f(section_name, hp)]. *)
Definition call_attr (a : attr) (sec : str) (hp : hparams) : SM ctx unit :=
  match a with
  | AUse => decorated hp (use_body sec hp)
  | AUser Decorated f => decorated hp (user_body f sec hp)
  | AUser _ f => user_body f sec hp ;; ret tt
  | ANone | AObj => raise TypeError
  end.

(** [self.handler_initialize(...)] / [self.handler_finalize(...)]. *)
Definition call_named (name : str) (sec : str) (hp : hparams) : SM ctx unit :=
  match find_attr K name with
  | None => raise AttributeError
  | Some a => call_attr a sec hp
  end.

(** [_apply_transformation_to_operation], 1097-1110. *)
Definition normalize_op (op : str) : str := replace_char 45%N 95%N op.

(** [_locate_class_method], 1190-1207. *)
Definition locate_class_method (name : str) : option attr :=
  match find_attr K name with
  | Some ANone => None
  | x => x
  end.

(** [_locate_handler_method], 1126-1188. *)
Definition locate_handler (operation : str) : SM obj (option (str * attr)) :=
  let op := normalize_op operation in
  let name_private := $"_handler_" ++ op in
  let name_public := $"handler_" ++ op in
  let public := locate_class_method name_public in
  let private := locate_class_method name_private in
  (match private, public with
   | Some _, Some _ => event $"SERIOUS" AmbiguousHandlerError
   | _, _ => ret tt
   end) ;;
  match public, private with
  | Some a, _ => ret (Some (name_public, a))
  | None, Some a => ret (Some (name_private, a))
  | None, None => ret None
  end.

(** [re.match(r"^[\w\-]+$", tok)]: ["$"] also matches before a final newline. *)
Definition word_char (c : pychar) : bool :=
  ((48 <=? c) && (c <=? 57) || (65 <=? c) && (c <=? 90) ||
   (97 <=? c) && (c <=? 122) || (c =? 95))%N ||
  ((128 <=? c)%N && k_uniword K c).
Definition op_char (c : pychar) : bool := word_char c || N.eqb c 45%N.
Fixpoint op_tail (s : str) : bool :=
  match s with
  | [] => true
  | c :: s' => (op_char c && op_tail s') || (N.eqb c 10%N && match s' with [] => true | _ => false end)
  end.
Definition op_word (s : str) : bool :=
  match s with
  | [] => false
  | c :: s' => op_char c && op_tail s'
  end.

(** [_launch_generic_option_handler], 1245-1273, with the empty body of
    [_generic_option_handler] (785-813). *)
Definition launch_generic (hp : hparams) (k : str) (v : option str) : SM ctx hparams :=
  lift (data_set reparse (hp_root hp) k v) ;;
  let hp' := Hp (hp_root hp) (hp_raw hp) (hp_op hp) (hp_params hp) (hp_value hp)
                $"_generic_option_handler" in
  decorated hp' (ret (Some 0%Z)) ;;
  ret hp'.

(** Value clean-up, 954-956. *)
Definition clean_value (v : option str) : option str :=
  option_map (fun s => strip_dquote (strip_ws s)) v.

(** The loop body, 942-1000. The handler parameters of the section are passed
    from one option to the next: [op] and [params] of an earlier option are
    still there when the key does not start with a word. *)
Definition process_item (sec : str) (hp : hparams) (kv : str * res (option str))
  : SM ctx hparams :=
  v0 <- of_res (snd kv) ;;
  let k := strip_ws (fst kv) in
  let v := clean_value v0 in
  let hp1 := Hp (hp_root hp) (Some k, v) (hp_op hp) (hp_params hp) v (hp_name hp) in
  lift (log (LKeyValue k v)) ;;
  toks <- of_res (shlex_split (strip_ws k)) ;;        (* _tokenize_option_key *)
  match toks with
  | [] => raise IndexError                            (* sec_k_tok[0] *)
  | t0 :: params =>
      if negb (op_word t0) then launch_generic hp1 k v
      else
        let op := normalize_op t0 in
        let hp2 := Hp (hp_root hp1) (hp_raw hp1) op params (hp_value hp1) (hp_name hp1) in
        lift (log (LOperation op params)) ;;
        h <- lift (locate_handler op) ;;
        match h with
        | Some (name, a) =>
            let hp3 := Hp (hp_root hp2) (hp_raw hp2) (hp_op hp2) (hp_params hp2)
                          (hp_value hp2) name in
            call_attr a sec hp3 ;;
            ret hp3
        | None => launch_generic hp2 k v
        end
  end.

Fixpoint run_items (sec : str) (hp : hparams) (l : list (str * res (option str)))
  : SM ctx hparams :=
  match l with
  | [] => ret hp
  | kv :: l' => hp' <- process_item sec hp kv ;; run_items sec hp' l'
  end.

(** [processed_sections.add] / [.remove] ([KeyError] when absent). *)
Definition proc_add (s : str) : SM ctx unit :=
  modify (fun c => Ctx (x_obj c) (x_sh c) (sadd s (x_proc c))).
Definition proc_remove (s : str) : SM ctx unit := fun c =>
  if str_mem s (x_proc c)
  then (Ok tt, Ctx (x_obj c) (x_sh c) (sremove s (x_proc c)))
  else (Err KeyError, c).

(** [_parse_section_r], 908-1024, after the handler parameters exist. *)
Definition psr_body (root sec : str) (init fin : bool) : SM ctx unit :=
  (if init && str_eqb sec root then
     call_named $"handler_initialize" sec (hp_named root $"handler_initialize") ;;
     i <- lift get_cpd ;;
     c <- get ;;
     if ini_has_section i (o_defname (x_obj c))
     then rec (o_defname (x_obj c)) false false
     else ret tt
   else ret tt) ;;
  lift (log (LSecEntry sec)) ;;
  i <- lift get_cpd ;;
  match ini_items i sec with
  | None => lift get_files ;; raise KeyError          (* the message names the files *)
  | Some items =>
      lift (data_add_section sec false) ;;
      proc_add sec ;;
      run_items sec (new_hp root) items ;;
      (if fin && str_eqb sec root
       then call_named $"handler_finalize" sec (hp_named root $"handler_finalize")
       else ret tt) ;;
      proc_remove sec ;;
      lift (log (LSecExit sec))
  end.
End Recursion.

(** The root call of [_parse_section_r] (890-907) and [parse_section] (653-686).
    [p root section initialize finalize] is the parser proper. *)
Definition parse_root (p : str -> str -> bool -> bool -> SM ctx unit)
  (s : str) (init fin : bool) : SM obj Sh :=
  d <- get_edata ;;
  put_edata (ed_check s d) ;;
  fun o =>
    match p s s init fin (Ctx o (k_empty K) []) with
    | (Ok _, c) => (Ok (x_sh c), x_obj c)
    | (Err e, c) => (Err e, x_obj c)
    end.

Definition parse_section_with (p : str -> str -> bool -> bool -> SM ctx unit)
  (s : str) (init fin : bool) : SM obj Sh :=
  modify (set_log None) ;;                           (* _reset_lazy_attr *)
  if str_eqb s [] then raise ValueError
  else
    r <- parse_root p s init fin ;;
    modify (set_last (Some r)) ;;
    ret r.

(** The fuelled knot. One unit of fuel is one nested [_parse_section_r]
    activation (three Python frames); running out is [RecursionError]. *)
Fixpoint psr (fuel : nat) (root sec : str) (init fin : bool) : SM ctx unit :=
  match fuel with
  | O => raise RecursionError
  | S f =>
      psr_body (psr f root)
               (fun s => parse_section_with (psr f) s true true ;; ret tt)
               root sec init fin
  end.

Definition parse_section_str (fuel : nat) (s : str) (init fin : bool) : SM obj Sh :=
  parse_section_with (psr fuel) s init fin.

(** [parse_section(section)] with an argument that may not be a string
    ([None]); the log is reset before the check. *)
Definition parse_section (fuel : nat) (s : option str) (init fin : bool) : SM obj Sh :=
  match s with
  | Some s => parse_section_str fuel s init fin
  | None => modify (set_log None) ;; event $"CATASTROPHIC" TypeError ;; raise TypeError
  end.

(** ** [ConfigParserEnhancedData] reads *)

Definition owner_parse (fuel : nat) (s : str) : SM obj unit :=
  parse_section_str fuel s true true ;; ret tt.

Definition has_section (fuel : nat) (s : str) : SM obj bool :=
  data_has_section (owner_parse fuel) s.

(** [has_section_no_parse], 1662-1673. *)
Definition has_section_no_parse (s : str) : SM obj bool :=
  d <- get_edata ;; ret (dmem s (d_data d)).

(** [self.data[section]] *)
Definition data_section (s : str) : SM obj (dict (option str)) :=
  d <- get_edata ;;
  match dget s (d_data d) with
  | Some o => ret o
  | None => raise KeyError
  end.

(** [__getitem__], 1584-1587; [options], 1675-1678. *)
Definition getitem (fuel : nat) (s : str) : SM obj (dict (option str)) :=
  b <- has_section fuel s ;;
  if b then data_section s else raise KeyError.
Definition data_options := getitem.

(** [has_option], 1680-1685. *)
Definition has_option (fuel : nat) (s k : str) : SM obj bool :=
  parse_owner (owner_parse fuel) s false ;;
  d <- get_edata ;;
  ret match dget s (d_data d) with
      | Some o => dmem k o
      | None => false
      end.

(** [get], 1687-1715. *)
Inductive got := GotSection (o : dict (option str)) | GotValue (v : option str).
Definition data_get (fuel : nat) (s : str) (k : option str) : SM obj got :=
  d <- get_edata ;;
  (if str_mem s (d_checked d) then ret tt else parse_owner (owner_parse fuel) s false) ;;
  b <- has_section fuel s ;;
  if b then
    match k with
    | None => o <- data_section s ;; ret (GotSection o)
    | Some k =>
        b <- has_option fuel s k ;;
        if b then
          o <- data_section s ;;
          match dget k o with
          | Some v => ret (GotValue v)
          | None => raise KeyError
          end
        else raise KeyError
    end
  else raise KeyError.

(** [keys], 1566-1578; [__iter__], 1580; [__len__], 1589. *)
Definition data_keys : SM obj (list str) := i <- get_cpd ;; ret (ini_sections i).
Definition data_len : SM obj nat := l <- data_keys ;; ret (length l).

Fixpoint for_each {A} (f : A -> SM obj unit) (l : list A) : SM obj unit :=
  match l with
  | [] => ret tt
  | x :: l' => f x ;; for_each f l'
  end.

(** [items], 1552-1564. *)
Definition data_items_all (fuel : nat) : SM obj sections_data :=
  l <- data_keys ;;
  for_each (fun s => parse_owner (owner_parse fuel) s false) l ;;
  d <- get_edata ;;
  ret (d_data d).
Definition data_items (fuel : nat) (s : str) : SM obj (dict (option str)) :=
  data_keys ;; data_options fuel s.

(** [sections], 1602-1637. *)
Inductive parse_arg := PBool (b : bool) | PStr (s : str) | PBad.
Definition data_sections (fuel : nat) (p : parse_arg) : SM obj (list str) :=
  let go (force : bool) :=
    l <- data_keys ;;
    for_each (fun s => parse_owner (owner_parse fuel) s force) l ;;
    data_keys in
  match p with
  | PBad => raise TypeError
  | PBool false => data_keys
  | PBool true => go false
  | PStr s => if str_eqb (lower s) $"force" then go true else raise ValueError
  end.

(** [set] called by a user, 1737-1747. *)
Definition data_set_user (fuel : nat) (s k : str) (v : option str) : SM obj unit :=
  data_set (owner_parse fuel) s k v.

(** [parse_all_sections], 644-651. *)
Definition parse_all_sections (fuel : nat) : SM obj unit :=
  data_sections fuel (PBool true) ;; ret tt.

(** ** Setters of the object *)

(** [inifilepath] setter, 194-222. [None] entries are values [Path()] rejects. *)
Inductive files_arg := FOne (p : str) | FMany (l : list (option str)) | FBad.

Fixpoint append_paths (l : list (option str)) : SM obj unit :=
  match l with
  | [] => ret tt
  | Some p :: l' =>
      modify (fun o => set_files (Some (match o_files o with Some fl => fl | None => [] end ++ [p])) o) ;;
      append_paths l'
  | None :: _ =>
      print_line $"ERROR: invalid entry in `inifilepath` list." ;;
      raise TypeError
  end.

Definition set_inifilepath (a : files_arg) : SM obj unit :=
  match a with
  | FBad => event $"CATASTROPHIC" TypeError
  | _ =>
      modify (fun o => match o_files o with
                       | None => o
                       | Some _ => set_log None (set_cpd None o)
                       end) ;;
      modify (set_files (Some [])) ;;
      append_paths (match a with FOne p => [Some p] | FMany l => l | FBad => [] end)
  end.

(** [configparser_delimiters] setter, 317-324, with [_reset_configparserdata]
    (1322-1335); [None] is an argument of the wrong type. *)
Definition set_configparser_delimiters (v : option (list str)) : SM obj unit :=
  match v with
  | None => event $"CATASTROPHIC" TypeError
  | Some ds =>
      modify (fun o => set_last None (set_edata None (set_cpd None (set_log None o)))) ;;
      modify (set_delims ds)
  end.

(** [exception_control_level], [debug_level], [default_section_name]. *)
Definition set_level (v : Z) : SM obj unit := modify (fun o => set_ec (ec_set_level v (o_ec o)) o).
Definition set_debug_level (v : Z) : SM obj unit := modify (fun o => set_debug (dbg_set v) o).
Definition set_default_section_name (v : option str) : SM obj unit :=
  match v with
  | None => raise TypeError
  | Some n => modify (set_defname n)
  end.

(** ** Known operations and validation *)

(** Lexicographic order of code points ([dir()] is sorted). *)
Fixpoint str_leb (a b : str) : bool :=
  match a, b with
  | [], _ => true
  | _ :: _, [] => false
  | x :: a', y :: b' => (x <? y)%N || ((x =? y)%N && str_leb a' b')
  end.
Fixpoint insert_str (x : str) (l : list str) : list str :=
  match l with
  | [] => [x]
  | y :: l' => if str_leb x y then x :: l else y :: insert_str x l'
  end.
Definition sort_str (l : list str) : list str := fold_right insert_str [] l.

Definition is_method (a : option attr) : bool :=
  match a with
  | Some AUse | Some (AUser Decorated _) | Some (AUser Plain _) => true
  | _ => false
  end.

(** Names of the bound methods among the modelled attributes, sorted:
    [inspect.getmembers(self, predicate=inspect.ismethod)]. *)
Definition method_names : list str :=
  filter (fun n => is_method (find_attr K n))
    (sort_str (nodup (list_eq_dec N.eq_dec) (dkeys (k_over K) ++ dkeys base_attrs))).

(** [^_?handler_]: the name without the prefix. *)
Definition strip_handler_prefix (n : str) : option str :=
  if starts_with $"_handler_" n then Some (skipn 9 n)
  else if starts_with $"handler_" n then Some (skipn 8 n)
  else None.

(** The list comprehension of [get_known_operations], 550-554. *)
Definition known_operations : list str :=
  flat_map (fun n => match strip_handler_prefix n with
                     | Some op => if str_eqb op $"finalize" || str_eqb op $"initialize"
                                  then [] else [replace_char 95%N 45%N op]
                     | None => []
                     end) method_names.

(** [inspect.getmembers] evaluates every property of the object, among them
    [configparserdata], [configparserenhanceddata] and [inifilepath]. *)
Definition get_known_operations : SM obj (list str) :=
  get_cpd ;; get_edata ;; get_files ;; ret known_operations.

(** [get_known_operations_message], 497-507. *)
Definition get_known_operations_message : SM obj str :=
  ops <- get_known_operations ;;
  ret (rstrip_ws ($"Valid operations are:" ++ newline ++
                  flat_map (fun op => $"|- '" ++ op ++ $"'" ++ newline) ops)).

Definition files_message (files : list str) : str :=
  newline ++ $"This configuration was loaded from the file(s):" ++ newline ++ $"|- " ++
  join (newline ++ $"|- ") files.

(** [assert_section_all_options_handled], 442-495; the result is 0 or a
    message. *)
Definition unhandled_message (s : str) (keys : list str) : str :=
  $"Unhandled option found in section `" ++ s ++ $"`" ++
  $" or one of its dependent sections." ++ newline ++
  $"The following entries are unhandled:" ++ newline ++
  flat_map (fun k => $"|- '" ++ k ++ $"'" ++ newline) keys.

Definition assert_section (fuel : nat) (s : str) (do_raise : bool) : SM obj (option str) :=
  g <- data_get fuel s None ;;
  match g with
  | GotSection [] => ret None
  | GotSection o =>
      let message := unhandled_message s (dkeys o) in
      if do_raise then
        files <- get_files ;;
        ops <- get_known_operations_message ;;
        let message := message ++ ops ++ files_message files in
        event $"SERIOUS" ValueError ;;
        ret (Some (rstrip_ws message))
      else ret (Some (rstrip_ws message))
  | GotValue _ => raise TypeError                       (* not reachable *)
  end.

(** [assert_file_all_sections_handled], 403-440. *)
Fixpoint assert_sections (fuel : nat) (l : list str) (out : bool) : SM obj bool :=
  match l with
  | [] => ret out
  | s :: l' =>
      err <- assert_section fuel s false ;;
      match err with
      | None => assert_sections fuel l' out
      | Some m => print_line m ;; assert_sections fuel l' true
      end
  end.

Definition assert_file (fuel : nat) : SM obj Z :=
  l <- data_sections fuel (PBool false) ;;
  bad <- assert_sections fuel l false ;;
  if bad then
    files <- get_files ;;
    ops <- get_known_operations_message ;;
    print_line (ops ++ files_message files) ;;
    event $"SERIOUS" ValueError ;;
    ret 1%Z
  else ret 0%Z.

(** ** [unroll_to_str] on a given parser object, 557-638 *)

(** [__generate_section], 585-601. *)
Definition unroll_line (delim k : str) (v : option str) : str :=
  strip_ws (join delim [k; match v with Some s => s | None => [] end]) ++ newline.

Definition generate_section (fuel : nat) (delim s : str) : SM obj str :=
  b <- has_section fuel s ;;
  if b then
    o <- data_items fuel s ;;
    ret ($"[" ++ s ++ $"]" ++ newline ++
         flat_map (fun kv => unroll_line delim (fst kv) (snd kv)) o)
  else raise KeyError.

Fixpoint generate_all (fuel : nat) (delim : str) (l : list str) : SM obj str :=
  match l with
  | [] => ret []
  | s :: l' =>
      t <- generate_section fuel delim s ;;
      rest <- generate_all fuel delim l' ;;
      ret (t ++ newline ++ rest)
  end.

(** Lines 611-638 with [parser = self]. *)
Definition unroll_self (fuel : nat) (section : option str) (spaces : bool) : SM obj str :=
  let delim := if spaces then $" : " else $":" in
  o <- get ;;
  let ecl := ec_level (o_ec o) in
  set_level 0 ;;
  l <- data_sections fuel (PBool false) ;;
  text <- match section with
          | None => generate_all fuel delim l
          | Some s => generate_section fuel delim s
          end ;;
  set_level ecl ;;
  ret (strip_ws text ++ newline).
End WithSubclass.

Arguments hbody : clear implicits.
Arguments attr : clear implicits.
Arguments pyclass : clear implicits.
Arguments obj : clear implicits.
Arguments ctx : clear implicits.

(** The base class itself: no overrides, nothing shared, no extra state. *)
Definition base_class (uniword : pychar -> bool) : pyclass unit unit :=
  PyClass [] tt uniword.

(** [unroll_to_str], 557-638. With [use_base_class_parser] a new base-class
    object is created from [inifilepath] only; the standard output it produces
    is kept. [section = None] is the Python [None]; a non-string argument is the
    [TypeError] of line 603 and is not represented. *)
Definition unroll_to_str {Sh Us} (K : pyclass Sh Us) (fs : str -> option str)
  (fuel : nat) (section : option str) (spaces base : bool) : SM (obj Sh Us) str :=
  if base then fun o =>
    match o_files o with
    | None => (Err ValueError, o)
    | Some fl =>
        let p0 := set_files (Some fl) (new_obj tt) in
        let (r, p) := unroll_self (base_class (k_uniword K)) fs fuel section spaces p0 in
        (r, add_out (o_out p) o)
    end
  else unroll_self K fs fuel section spaces.
