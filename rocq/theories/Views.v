(** * [src/configparserenhanced/ConfigParserEnhanced.py] with the objects that a caller can keep.

    In [Cpe.v] the enhanced data are a value inside the [ConfigParserEnhanced] object.
    In Python [configparserenhanceddata] is an object of its own, and [view[s]],
    [options(s)], [get(s)] and [add_section(s)] return the very [dict] in which the
    options of the section are kept. Both can be kept by the caller, used after the
    object has made new ones, and the dicts can be changed directly. Here views and
    dicts are addresses; the methods of [Cpe.v] that handle them are transcribed once
    more, and those that do not are used as they are. *)
From Coq Require Import String NArith ZArith List Bool.
Import ListNotations.
From Verif Require Import PyBase Shlex IniView IniRead ExcControl Debuggable Cpe.
Local Open Scope string_scope.
Local Open Scope list_scope.

Fixpoint set_at {A} (n : nat) (x : A) (l : list A) : list A :=
  match l, n with
  | [], _ => []
  | _ :: l', O => x :: l'
  | y :: l', S n' => y :: set_at n' x l'
  end.

(** A [ConfigParserEnhancedData] object (1527-1541, 1752-1785): [_data] with the dict
    of each section, [_sections_checked], [exception_control_level], [debug_level]. *)
Record view := View { v_data : dict nat; v_checked : list str; v_level : Z; v_debug : Z }.

Section Views.
Context {Sh Us : Type}.
Notation obj := (obj Sh Us).
Notation attr := (attr Sh Us).
Notation hbody := (hbody Sh Us).
Variable K : pyclass Sh Us.
Variable fs : str -> option str.

(** All views and dicts that were ever made, the one that the object has at present
    ([_configparserenhanceddata]), and the rest of the object. *)
Record world := World { w_views : list view; w_dicts : list (dict (option str)); w_cur : option nat; w_obj : obj }.
Record wctx := WCtx { wx_w : world; wx_sh : Sh; wx_proc : list str }.

Local Open Scope sm_scope.

(** A method that has nothing to do with views. *)
Definition on_obj {A} (m : SM obj A) : SM world A := fun w =>
  let (r, o) := m (w_obj w) in (r, World (w_views w) (w_dicts w) (w_cur w) o).
Definition wlift {A} (m : SM world A) : SM wctx A := fun c =>
  let (r, w) := m (wx_w c) in (r, WCtx w (wx_sh c) (wx_proc c)).

(** [configparserenhanceddata], 326-367 with 1527-1529. *)
Definition w_data : SM world nat := fun w =>
  match w_cur w with
  | Some v => (Ok v, w)
  | None =>
      let v := length (w_views w) in
      (Ok v, World (w_views w ++ [View [] [] (ec_level (o_ec (w_obj w))) (o_debug (w_obj w))]) (w_dicts w) (Some v) (w_obj w))
  end.

(** The state of a view. There is no such exception in Python: every reference is one
    to an object. *)
Definition the_view (v : nat) : SM world view := fun w =>
  match nth_error (w_views w) v with Some x => (Ok x, w) | None => (Err AttributeError, w) end.
Definition put_view (v : nat) (x : view) : SM world unit :=
  modify (fun w => World (set_at v x (w_views w)) (w_dicts w) (w_cur w) (w_obj w)).

(** [add_section], 1717-1735. *)
Definition w_add (v : nat) (s : str) (force : bool) : SM world nat :=
  x <- the_view v ;;
  match (if force then None else dget s (v_data x)) with
  | Some a => ret a
  | None => fun w =>
      let a := length (w_dicts w) in
      (Ok a, World (set_at v (View (dset s a (v_data x)) (v_checked x) (v_level x) (v_debug x)) (w_views w))
                   (w_dicts w ++ [[]]) (w_cur w) (w_obj w))
  end.
(** [self.data[section]] *)
Definition w_dict (v : nat) (s : str) : SM world nat :=
  x <- the_view v ;; match dget s (v_data x) with Some a => ret a | None => raise KeyError end.
(** [d[k] = value] *)
Definition w_put (a : nat) (k : str) (val : option str) : SM world unit :=
  modify (fun w => World (w_views w) (set_at a (dset k val (nth a (w_dicts w) [])) (w_dicts w)) (w_cur w) (w_obj w)).
Definition w_contents (a : nat) : SM world (dict (option str)) := fun w => (Ok (nth a (w_dicts w) []), w).
Definition w_check (v : nat) (s : str) : SM world unit :=
  x <- the_view v ;; put_view v (View (v_data x) (sadd s (v_checked x)) (v_level x) (v_debug x)).
(** [_set_owner_options], 1775-1785. *)
Definition w_set_owner_options (v : nat) : SM world unit :=
  x <- the_view v ;;
  w <- get ;;
  put_view v (View (v_data x) (v_checked x) (ec_level (o_ec (w_obj w))) (o_debug (w_obj w))).

Section Reparse.
Variable reparse : str -> SM world unit.
(** [_parse_owner_section], 1787-1816. *)
Definition w_parse_owner (v : nat) (s : str) (force : bool) : SM world unit :=
  x <- the_view v ;;
  if negb (str_mem s (v_checked x)) || force then
    w_set_owner_options v ;;
    w_check v s ;;
    reparse s
  else ret tt.
(** [has_section], 1639-1660. *)
Definition w_has_section (v : nat) (s : str) : SM world bool :=
  i <- on_obj (get_cpd fs) ;;
  (if ini_has_section i s then
     x <- the_view v ;;
     if str_mem s (v_checked x) then ret tt else w_parse_owner v s false
   else ret tt) ;;
  x <- the_view v ;;
  ret (dmem s (v_data x)).
(** [set], 1737-1747. *)
Definition w_set (v : nat) (s k : str) (val : option str) : SM world unit :=
  b <- w_has_section v s ;;
  (if b then ret tt else w_add v s false ;; ret tt) ;;
  a <- w_dict v s ;;
  w_put a k val.
End Reparse.

(** 712-718, 726-783 *)
Definition w_decorated (hp : hparams) (body : SM wctx (option Z)) : SM wctx unit :=
  wlift (on_obj (log (LHEntry (hp_name hp) (hp_raw hp)))) ;;
  r <- body ;;
  wlift (on_obj (log (LHExit (hp_name hp) (hp_raw hp)))) ;;
  wlift (on_obj (check_rval r)).
Definition w_user_body (f : hbody) (sec : str) (hp : hparams) : SM wctx (option Z) := fun c =>
  let '(r, sh, us) := f sec hp (wx_sh c) (o_user (w_obj (wx_w c))) in
  (r, WCtx (World (w_views (wx_w c)) (w_dicts (wx_w c)) (w_cur (wx_w c)) (set_user us (w_obj (wx_w c)))) sh (wx_proc c)).

Section Recursion.
Variable rec : str -> bool -> bool -> SM wctx unit.
Variable reparse : str -> SM world unit.
(** [_handler_use], 1279-1316. *)
Definition w_use_body (sec : str) (hp : hparams) : SM wctx (option Z) :=
  match hp_params hp with
  | [] => raise IndexError
  | target :: _ =>
      c <- get ;;
      if negb (str_mem target (wx_proc c)) then
        rec target true false ;; ret (Some 0%Z)
      else
        wlift (on_obj (log (LCycle sec (hp_op hp)))) ;;
        wlift (on_obj (log (LHExit (hp_name hp) (hp_raw hp)))) ;;
        wlift (on_obj get_files) ;;
        wlift (on_obj (event $"WARNING" ValueError)) ;;
        ret (Some 0%Z)
  end.
Definition w_call_attr (a : attr) (sec : str) (hp : hparams) : SM wctx unit :=
  match a with
  | AUse => w_decorated hp (w_use_body sec hp)
  | AUser Decorated f => w_decorated hp (w_user_body f sec hp)
  | AUser _ f => w_user_body f sec hp ;; ret tt
  | ANone | AObj => raise TypeError
  end.
Definition w_call_named (name : str) (sec : str) (hp : hparams) : SM wctx unit :=
  match find_attr K name with
  | None => raise AttributeError
  | Some a => w_call_attr a sec hp
  end.
(** [_launch_generic_option_handler], 1245-1273. *)
Definition w_launch_generic (hp : hparams) (k : str) (val : option str) : SM wctx hparams :=
  wlift (v <- w_data ;; w_set reparse v (hp_root hp) k val) ;;
  let hp' := Hp (hp_root hp) (hp_raw hp) (hp_op hp) (hp_params hp) (hp_value hp)
                $"_generic_option_handler" in
  w_decorated hp' (ret (Some 0%Z)) ;;
  ret hp'.
(** The loop body, 942-1000. *)
Definition w_process_item (sec : str) (hp : hparams) (kv : str * res (option str)) : SM wctx hparams :=
  v0 <- of_res (snd kv) ;;
  let k := strip_ws (fst kv) in
  let v := clean_value v0 in
  let hp1 := Hp (hp_root hp) (Some k, v) (hp_op hp) (hp_params hp) v (hp_name hp) in
  wlift (on_obj (log (LKeyValue k v))) ;;
  toks <- of_res (shlex_split (strip_ws k)) ;;
  match toks with
  | [] => raise IndexError
  | t0 :: params =>
      if negb (op_word K t0) then w_launch_generic hp1 k v
      else
        let op := normalize_op t0 in
        let hp2 := Hp (hp_root hp1) (hp_raw hp1) op params (hp_value hp1) (hp_name hp1) in
        wlift (on_obj (log (LOperation op params))) ;;
        h <- wlift (on_obj (locate_handler K op)) ;;
        match h with
        | Some (name, a) =>
            let hp3 := Hp (hp_root hp2) (hp_raw hp2) (hp_op hp2) (hp_params hp2)
                          (hp_value hp2) name in
            w_call_attr a sec hp3 ;;
            ret hp3
        | None => w_launch_generic hp2 k v
        end
  end.
Fixpoint w_run_items (sec : str) (hp : hparams) (l : list (str * res (option str))) : SM wctx hparams :=
  match l with
  | [] => ret hp
  | kv :: l' => hp' <- w_process_item sec hp kv ;; w_run_items sec hp' l'
  end.
Definition w_proc_add (s : str) : SM wctx unit := modify (fun c => WCtx (wx_w c) (wx_sh c) (sadd s (wx_proc c))).
Definition w_proc_remove (s : str) : SM wctx unit := fun c =>
  if str_mem s (wx_proc c) then (Ok tt, WCtx (wx_w c) (wx_sh c) (sremove s (wx_proc c))) else (Err KeyError, c).
(** [_parse_section_r], 908-1024. *)
Definition w_psr_body (root sec : str) (init fin : bool) : SM wctx unit :=
  (if init && str_eqb sec root then
     w_call_named $"handler_initialize" sec (hp_named root $"handler_initialize") ;;
     i <- wlift (on_obj (get_cpd fs)) ;;
     c <- get ;;
     if ini_has_section i (o_defname (w_obj (wx_w c)))
     then rec (o_defname (w_obj (wx_w c))) false false
     else ret tt
   else ret tt) ;;
  wlift (on_obj (log (LSecEntry sec))) ;;
  i <- wlift (on_obj (get_cpd fs)) ;;
  match ini_items i sec with
  | None => wlift (on_obj get_files) ;; raise KeyError
  | Some items =>
      wlift (v <- w_data ;; w_add v sec false) ;;
      w_proc_add sec ;;
      w_run_items sec (new_hp root) items ;;
      (if fin && str_eqb sec root
       then w_call_named $"handler_finalize" sec (hp_named root $"handler_finalize")
       else ret tt) ;;
      w_proc_remove sec ;;
      wlift (on_obj (log (LSecExit sec)))
  end.
End Recursion.

(** [parse_section], 653-686, 890-907. *)
Definition w_parse_root (p : str -> str -> bool -> bool -> SM wctx unit) (s : str) (init fin : bool) : SM world Sh :=
  v <- w_data ;;
  w_check v s ;;
  fun w =>
    match p s s init fin (WCtx w (k_empty K) []) with
    | (Ok _, c) => (Ok (wx_sh c), wx_w c)
    | (Err e, c) => (Err e, wx_w c)
    end.
Definition w_parse_section_with (p : str -> str -> bool -> bool -> SM wctx unit) (s : str) (init fin : bool) : SM world Sh :=
  on_obj (modify (set_log None)) ;;
  if str_eqb s [] then raise ValueError
  else
    r <- w_parse_root p s init fin ;;
    on_obj (modify (set_last (Some r))) ;;
    ret r.
Fixpoint w_psr (fuel : nat) (root sec : str) (init fin : bool) : SM wctx unit :=
  match fuel with
  | O => raise RecursionError
  | S f => w_psr_body (w_psr f root) (fun s => w_parse_section_with (w_psr f) s true true ;; ret tt) root sec init fin
  end.
Definition w_parse_section (fuel : nat) (s : str) (init fin : bool) : SM world Sh :=
  w_parse_section_with (w_psr fuel) s init fin.
Definition w_owner_parse (fuel : nat) (s : str) : SM world unit := w_parse_section fuel s true true ;; ret tt.

(** ** The methods of a view *)
(** [__getitem__], 1584-1587; [options], 1675-1678: the dict itself. *)
Definition w_getitem (fuel : nat) (v : nat) (s : str) : SM world nat :=
  b <- w_has_section (w_owner_parse fuel) v s ;;
  if b then w_dict v s else raise KeyError.
(** [has_option], 1680-1685. *)
Definition w_has_option (fuel : nat) (v : nat) (s k : str) : SM world bool :=
  w_parse_owner (w_owner_parse fuel) v s false ;;
  x <- the_view v ;;
  match dget s (v_data x) with
  | Some a => d <- w_contents a ;; ret (dmem k d)
  | None => ret false
  end.
(** [get], 1687-1715. *)
Inductive got_ref := GotDict (a : nat) | GotText (t : option str).
Definition w_get (fuel : nat) (v : nat) (s : str) (k : option str) : SM world got_ref :=
  x <- the_view v ;;
  (if str_mem s (v_checked x) then ret tt else w_parse_owner (w_owner_parse fuel) v s false) ;;
  b <- w_has_section (w_owner_parse fuel) v s ;;
  if b then
    match k with
    | None => a <- w_dict v s ;; ret (GotDict a)
    | Some k =>
        b <- w_has_option fuel v s k ;;
        if b then
          a <- w_dict v s ;;
          d <- w_contents a ;;
          match dget k d with
          | Some t => ret (GotText t)
          | None => raise KeyError
          end
        else raise KeyError
    end
  else raise KeyError.
(** [keys], 1566-1578. *)
Definition w_keys : SM world (list str) := on_obj (data_keys fs).
Fixpoint w_for_each (f : str -> SM world unit) (l : list str) : SM world unit :=
  match l with
  | [] => ret tt
  | x :: l' => f x ;; w_for_each f l'
  end.
(** [sections(parse=b)] with a [bool], or with ["force"]; 1602-1637. *)
Definition w_sections (fuel : nat) (v : nat) (parse force : bool) : SM world (list str) :=
  if parse then
    l <- w_keys ;;
    w_for_each (fun s => w_parse_owner (w_owner_parse fuel) v s force) l ;;
    w_keys
  else w_keys.

(** ** What a caller can do *)
Inductive cmd :=
| CData                                      (** [cpe.configparserenhanceddata] *)
| CParse (s : str)                           (** [cpe.parse_section(s)] *)
| CFiles (a : files_arg)                     (** [cpe.inifilepath = a] *)
| CDelims (l : list str)                     (** [cpe.configparser_delimiters = l] *)
| CLevel (z : Z) | CDebug (z : Z)            (** the levels of [cpe] *)
| CItem (v : nat) (s : str)                  (** [v[s]], [v.options(s)] *)
| CGet (v : nat) (s : str) (k : option str)
| CHas (v : nat) (s : str)
| CHasOption (v : nat) (s k : str)
| CSections (v : nat) (parse force : bool)
| CAdd (v : nat) (s : str) (force : bool)    (** [v.add_section(s, force)] *)
| CSet (v : nat) (s k : str) (val : option str)
| CRead (a : nat)                            (** [dict(d)] *)
| CWrite (a : nat) (k : str) (val : option str)  (** [d[k] = val] *)
| CDelete (a : nat) (k : str)                (** [d.pop(k, None)] *).

Inductive reply :=
| PDone
| PView (v : nat)
| PDict (a : nat)
| PText (t : option str)
| PBoolean (b : bool)
| PNames (l : list str)
| PContents (d : dict (option str)).

(** [_reset_configparserdata], 1322-1335, with the setter, 317-324. *)
Definition w_set_delims (l : list str) : SM world unit := fun w =>
  (Ok tt, World (w_views w) (w_dicts w) None (set_delims l (set_last None (set_cpd None (set_log None (w_obj w)))))).

Definition w_exec (fuel : nat) (c : cmd) : SM world reply :=
  match c with
  | CData => v <- w_data ;; ret (PView v)
  | CParse s => w_parse_section fuel s true true ;; ret PDone
  | CFiles a => on_obj (set_inifilepath a) ;; ret PDone
  | CDelims l => w_set_delims l ;; ret PDone
  | CLevel z => on_obj (set_level z) ;; ret PDone
  | CDebug z => on_obj (set_debug_level z) ;; ret PDone
  | CItem v s => the_view v ;; a <- w_getitem fuel v s ;; ret (PDict a)
  | CGet v s k => the_view v ;; g <- w_get fuel v s k ;; ret (match g with GotDict a => PDict a | GotText t => PText t end)
  | CHas v s => the_view v ;; b <- w_has_section (w_owner_parse fuel) v s ;; ret (PBoolean b)
  | CHasOption v s k => the_view v ;; b <- w_has_option fuel v s k ;; ret (PBoolean b)
  | CSections v p f => the_view v ;; l <- w_sections fuel v p f ;; ret (PNames l)
  | CAdd v s f => a <- w_add v s f ;; ret (PDict a)
  | CSet v s k val => the_view v ;; w_set (w_owner_parse fuel) v s k val ;; ret PDone
  | CRead a => d <- w_contents a ;; ret (PContents d)
  | CWrite a k val => w_put a k val ;; ret PDone
  | CDelete a k =>
      modify (fun w => World (w_views w) (set_at a (filter (fun kv => negb (str_eqb (fst kv) k)) (nth a (w_dicts w) [])) (w_dicts w)) (w_cur w) (w_obj w)) ;; ret PDone
  end.
(** A program goes on after exceptions; what matters is the state it leaves. *)
Fixpoint w_run (fuel : nat) (l : list cmd) (w : world) : world :=
  match l with
  | [] => w
  | c :: l' => w_run fuel l' (snd (w_exec fuel c w))
  end.
End Views.
Arguments World {Sh Us}.
Arguments WCtx {Sh Us}.
