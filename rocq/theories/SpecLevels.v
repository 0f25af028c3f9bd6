(** * Vocabulary of C83 and C84: objects that differ in their settings only, and
    what they reply to a history of calls. *)
From Coq Require Import String NArith ZArith List Bool.
Import ListNotations.
From Verif Require Import PyBase Shlex IniView IniRead ExcControl Debuggable Cpe SpecRun SpecApi.

(** ** Calls *)

(** The calls of [SpecApi.v], and those that write. *)
Inductive call :=
| CApi (c : op)
| CParse (s : option str) (init fin : bool) (** [parse_section(s, init, fin)]; [None]: not a string *)
| CUnrollBase (s : option str) (spaces : bool) (** [unroll_to_str(..., use_base_class_parser=True)] *)
| CNoParse (s : str)                        (** [data.has_section_no_parse(s)] *)
| CAdd (s : str) (force : bool)             (** [data.add_section(s, force)] *)
| CSet (s k : str) (v : option str)         (** [data.set(s, k, v)] *)
| CFiles (a : files_arg)                    (** [inifilepath = a] *)
| CDelims (v : option (list str))           (** [configparser_delimiters = v] *)
| CDefault (v : option str)                 (** [default_section_name = v] *).

Section Replies.
Context {Sh Us : Type} (K : pyclass Sh Us) (fs : str -> option str) (fuel : nat).
Notation obj := (obj Sh Us).

Inductive reply :=
| ReplyApi (a : answer)
| ReplyShared (x : Sh)                          (** what the handlers left in [data_shared] *)
| ReplyText (t : str)
| ReplyBool (b : bool)
| ReplyUnit.

Definition pmap {A} (f : A -> reply) (m : SM obj A) : SM obj reply := bind m (fun a => ret (f a)).

Definition exec_call (c : call) : SM obj reply :=
  match c with
  | CApi c => pmap ReplyApi (exec_op K fs fuel c)
  | CParse s init fin => pmap ReplyShared (parse_section K fs fuel s init fin)
  | CUnrollBase s spaces => pmap ReplyText (unroll_to_str K fs fuel s spaces true)
  | CNoParse s => pmap ReplyBool (has_section_no_parse s)
  | CAdd s force => pmap (fun _ => ReplyUnit) (data_add_section s force)
  | CSet s k v => pmap (fun _ => ReplyUnit) (data_set_user K fs fuel s k v)
  | CFiles a => pmap (fun _ => ReplyUnit) (set_inifilepath a)
  | CDelims v => pmap (fun _ => ReplyUnit) (set_configparser_delimiters v)
  | CDefault v => pmap (fun _ => ReplyUnit) (set_default_section_name v)
  end.

(** The replies to a history of calls, an exception being a reply too, and the
    object afterwards. *)
Fixpoint replies (h : list call) (o : obj) : list (res reply) * obj :=
  match h with
  | [] => ([], o)
  | c :: h' =>
      let (r, o1) := exec_call c o in
      let (l, o2) := replies h' o1 in
      (r :: l, o2)
  end.
End Replies.
Arguments reply : clear implicits.

(** No call raised. *)
Definition succeeded {A} (l : list (res A)) : Prop := forall r, In r l -> exists a, r = Ok a.

(** ** Objects that differ in their settings only *)
Section Same.
Context {Sh Us : Type}.
Notation obj := (obj Sh Us).

(** What the data object holds, without its copies of the owner's settings. *)
Definition held (o : obj) : option (sections_data * list str) :=
  option_map (fun d => (d_data d, d_checked d)) (o_edata o).

(** Everything but the exception control, debugging, log and output. *)
Record same_contents (o o' : obj) : Prop := {
  sm_files : o_files o' = o_files o;
  sm_cpd : o_cpd o' = o_cpd o;
  sm_delims : o_delims o' = o_delims o;
  sm_held : held o' = held o;
  sm_last : o_last o' = o_last o;
  sm_defname : o_defname o' = o_defname o;
  sm_intname : o_intname o' = o_intname o;
  sm_user : o_user o' = o_user o
}.

(** Also the same exception control and the same output: only the debug level
    and the log differ. *)
Definition same_but_debug (o o' : obj) : Prop :=
  same_contents o o' /\ o_ec o' = o_ec o /\ o_out o' = o_out o.

(** The warnings printed so far. *)
Definition warnings (o : obj) : list outev :=
  flat_map (fun l => match l with OutWarn w => [w] | OutText _ => [] end) (o_out o).
End Same.

(** A call that is not an assignment to [debug_level]. *)
Definition no_debug (c : call) : bool :=
  match c with CApi (ODebug _) => false | _ => true end.
Definition undebugged (h : list call) : list call := filter no_debug h.

(** The replies to these calls. *)
Fixpoint replies_to {A} (h : list call) (l : list A) : list A :=
  match h, l with
  | c :: h', r :: l' => if no_debug c then r :: replies_to h' l' else replies_to h' l'
  | _, _ => []
  end.
