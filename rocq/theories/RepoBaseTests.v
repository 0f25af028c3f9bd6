(** * The unit tests of ExceptionControl, TypedProperty, Debuggable and
    ModuleHelper, on the model.

    Each [Example] repeats what a test in [src/configparserenhanced/unittests] or
    [wip/setenvironment/src/setenvironment/unittests] asserts (the name of the test
    is given). *)
From Coq Require Import String NArith ZArith List Bool.
Import ListNotations.
From Verif Require Import PyBase EnvVar ExcControl TypedProp Debuggable SetEnv ModuleHelper.
Local Open Scope string_scope.
Local Open Scope list_scope.

(** ** [test_ExceptionControl.py] *)

(** [property_exception_control_level] *)
Example level_test :
  map (fun v => ec_level (ec_set_level v ec_init)) [-1; 0; 1; 2; 3; 4; 5; 6]%Z = [0; 0; 1; 2; 3; 4; 5; 5]%Z.
Proof. reflexivity. Qed.

(** What is seen of an event: it raises, nothing is printed, or a warning is. *)
Inductive seen := Raises (e : exc) | Quiet | Warns (compact with_message : bool).
Definition see (s : ecs) (x : exc_arg) (msg : bool) (event : string) : option seen :=
  match ec_event s (lit event) x msg with
  | (Err e, []) => Some (Raises e)
  | (Ok _, []) => Some Quiet
  | (Ok _, [OWarn c ev e m]) => if str_eqb ev (lit event) then Some (Warns c m) else None
  | _ => None
  end.
Definition events : list string := ["SILENT"; "WARNING"; "MINOR"; "SERIOUS"; "CRITICAL"; "CATASTROPHIC"].
Definition rows (s : ecs) (x : exc_arg) (msg : bool) : list (list (option seen)) :=
  map (fun l => map (see (ec_set_level l s) x msg) events) [0; 1; 2; 3; 4; 5]%Z.
(** One row for each level from 0 to 5. *)
Definition expected (warn : seen) : list (list (option seen)) :=
  let r := Some (Raises ValueError) in let q := Some Quiet in let w := Some warn in
  [[q; q; q; q; q; r]; [q; w; w; w; w; r]; [q; w; w; w; r; r]; [q; w; w; r; r; r]; [q; w; r; r; r; r]; [r; r; r; r; r; r]].
(** [method_exception_control_event], [_nomsg], [_badexception] *)
Example event_test :
  map (see ec_init (XClass ValueError) true) ["WARNING"; "MINOR"; "SERIOUS"; "CRITICAL"] =
    [Some (Warns false true); Some (Raises ValueError); Some (Raises ValueError); Some (Raises ValueError)] /\
  rows ec_init (XClass ValueError) true = expected (Warns false true) /\
  rows ec_init (XClass ValueError) false = expected (Warns false false) /\
  rows ec_init XNotExc true = repeat (repeat (Some (Raises TypeError)) 6) 6.
Proof. repeat split; vm_compute; reflexivity. Qed.
(** [method_exception_control_event_silent_warnings] and [_compact_warnings] *)
Example silent_compact_test :
  fst (ec_set_silent None ec_init) = Err TypeError /\ fst (ec_set_compact None ec_init) = Err TypeError /\
  rows (snd (ec_set_silent (Some true) ec_init)) (XClass ValueError) true = expected Quiet /\
  rows (snd (ec_set_compact (Some true) ec_init)) (XClass ValueError) true = expected (Warns true false).
Proof. repeat split; vm_compute; reflexivity. Qed.

(** ** [test_TypedProperty.py] *)
Inductive value := VNone | VInt (z : Z) | VFloat | VStr (s : str) | VDict.
Definition is_int (v : value) : bool := match v with VInt _ => true | _ => false end.
Definition is_int_or_str (v : value) : bool := match v with VInt _ | VStr _ => true | _ => false end.
Definition decl_int := TpDecl is_int (Some VNone) None false None None None.
Inductive use := Get | Assign (v : value) | Delete.
Definition do_use (d : tp_decl value) (u : use) : SM (tp_state value) value :=
  match u with
  | Get => tp_get d
  | Assign v => bind (tp_set d v) (fun _ => ret v)
  | Delete => bind tp_del (fun _ => ret VNone)
  end.
Fixpoint uses (d : tp_decl value) (l : list use) (s : tp_state value) : list (res value) :=
  match l with [] => [] | u :: l' => let (r, s') := do_use d u s in r :: uses d l' s' end.
Definition clamp (v : value) : res value :=
  match v with VInt z => Ok (VInt (Z.min 5 (Z.max 0 z))) | _ => Err TypeError end.
Definition geq_100 (v : value) : res bool :=
  match v with VInt z => Ok (negb (z <? 100)%Z) | _ => Err TypeError end.
Example typed_property_test :
  (* with_default, wrong_type, deleter *)
  uses decl_int [Get; Assign (VInt 100); Get; Assign VNone; Assign VFloat; Delete; Get] tp_init =
    [Ok VNone; Ok (VInt 100); Ok (VInt 100); Err TypeError; Err TypeError; Ok VNone; Ok VNone] /\
  snd (tp_del (snd (tp_set decl_int (VInt 100) tp_init))) = tp_init /\
  (* req_assign_before_use *)
  uses (TpDecl is_int (Some VNone) None true None None None) [Get] tp_init = [Err UnboundLocalError] /\
  (* validator, validator_must_be_callable *)
  uses (TpDecl is_int (Some VNone) None false None None (Some (Some geq_100))) [Assign (VInt 100); Assign (VInt 99)] tp_init =
    [Ok (VInt 100); Err ValueError] /\
  uses (TpDecl is_int (Some VNone) None false None None (Some None)) [Assign (VInt 100)] tp_init = [Err TypeError] /\
  (* transform, transform_with_internal_type, transform_is_callable *)
  uses (TpDecl is_int (Some VNone) None false None (Some (Some clamp)) None)
    [Assign (VInt 100); Get; Assign (VInt (-9)); Get] tp_init = [Ok (VInt 100); Ok (VInt 5); Ok (VInt (-9)); Ok (VInt 0)] /\
  uses (TpDecl is_int (Some VNone) None false (Some (fun v => Ok v)) (Some (Some clamp)) None)
    [Assign (VInt 100); Get; Assign (VInt (-9)); Get] tp_init = [Ok (VInt 100); Ok (VInt 5); Ok (VInt (-9)); Ok (VInt 0)] /\
  uses (TpDecl is_int (Some VNone) None false None (Some None) None) [Assign (VInt 100)] tp_init = [Err TypeError] /\
  (* default, default_factory, default_factory_is_callable *)
  uses (TpDecl is_int_or_str None (Some (Ok VNone)) false None None None)
    [Get; Assign (VInt 1); Get; Assign (VStr $"a"); Get; Assign VNone] tp_init =
    [Ok VNone; Ok (VInt 1); Ok (VInt 1); Ok (VStr $"a"); Ok (VStr $"a"); Err TypeError] /\
  uses (TpDecl is_int_or_str None (Some (Ok VDict)) false None None None) [Get] tp_init = [Ok VDict] /\
  uses (TpDecl is_int_or_str None None false None None None) [Get] tp_init = [Err TypeError].
Proof. repeat split; vm_compute; reflexivity. Qed.

(** ** [test_Debuggable.py] *)
Example debuggable_test :
  map dbg_set [1; 5; 100; 0; -1]%Z = [1; 5; 100; 0; 0]%Z /\
  let message := $"This is a test message!" in
  debug_message 0 0 message newline true = Some (message ++ newline) /\
  debug_message 0 1 message newline true = None /\
  debug_message 3 3 message newline true = Some ($"[D-3] " ++ message ++ newline) /\
  map (fun x => debug_message 2 (fst x) (lit (snd x)) [] false) [(0, "A"); (1, "B"); (2, "C"); (3, "D"); (4, "E")]%Z =
    [Some $"A"; Some $"B"; Some $"C"; None; None].
Proof. repeat split; vm_compute; reflexivity. Qed.

(** ** [test_ModuleHelper.py]

    With [modulecmd] on the path. The recorded outputs of the mocks are given; what
    [exec] does with them is written down here. *)
Definition exec_mock (t : str) (e : environ) : res mlstatus * environ :=
  if str_eqb t $"_mlstatus = True" then (Ok StatusOther, e)
  else if str_eqb t $"_mlstatus = False" then (Ok StatusFalse, e)
  else if str_eqb t $"raise Exception('Exception generated by mock popen')" then (Err (UserExc 0%N), e)
  else (Ok NoStatus, e).
Definition module_test (found : option str) (output stderr : string) (code : Z) (c : command) (args : list str) : res Z :=
  fst (module_cmd (fun _ => found) (fun _ => []) (fun _ _ => false) (fun _ _ => Ok (lit output, lit stderr, code)) exec_mock true
         c args []).
Definition mc := Some $"/usr/bin/modulecmd".
Example module_helper_test :
  (* load, swap, unload, arguments as a list: status_ok *)
  module_test mc "os.environ['__foobar__'] ='baz'" "" 0 (inl $"load") [$"dummy-gcc/4.8.4"] = Ok 0%Z /\
  module_test mc "os.environ['__foobar__'] ='baz'" "" 0 (inl $"swap") [$"dummy-gcc/4.8.4"; $"dummy-gcc/7.3.0"] = Ok 0%Z /\
  module_test mc "os.environ['__foobar__'] ='baz'" "" 0 (inr [$"unload"; $"dummy-gcc/4.8.4"]) [] = Ok 0%Z /\
  (* load_status_error_return, load_status_error_stderr *)
  module_test mc "stdout=1" "ERROR: Something wrong happened." 1 (inl $"load") [$"dummy-gcc/4.8.4"] = Ok 1%Z /\
  module_test mc "os.environ['__foobar__'] ='baz'" "ERROR: Something wrong happened." 0 (inl $"load") [$"dummy-gcc/4.8.4"] = Ok 1%Z /\
  (* load_success_by_mlstatus, load_error_by_mlstatus *)
  module_test mc "_mlstatus = True" "" 0 (inl $"load") [$"dummy-gcc/4.8.4"] = Ok 0%Z /\
  module_test mc "_mlstatus = False" "" 0 (inl $"load") [$"dummy-gcc/4.8.4"] = Ok 1%Z /\
  (* load_error_exception, modulecmd_not_found *)
  module_test mc "raise Exception('Exception generated by mock popen')" "" 0 (inl $"load") [$"gcc/4.8.4"] = Err (UserExc 0%N) /\
  module_test None "" "" 0 (inl $"load") [$"dummy-gcc/4.8.4"] = Err IOError.
Proof. repeat split; vm_compute; reflexivity. Qed.
