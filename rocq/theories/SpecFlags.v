(** * What a build name selects.

    A file of flags is a table: for every flag whether several of its options may
    be selected, and the options in order. *)
From Coq Require Import String NArith List Bool Sorted.
Import ListNotations.
From Verif Require Import PyBase SpecText EnvVar Keyword SpecKeyword.

Definition row : Type := str * (bool * list str).
Definition options_of (r : row) : list str := snd (snd r).

(** The section [configure-flags] is the table [T]: the values listed under each
    flag are its type and its options. *)
Definition describes (conf : str -> res (dict (option str))) (T : list row) : Prop :=
  (exists d, conf $"configure-flags" = Ok d /\ dkeys d = map fst T) /\
  forall f many opts, In (f, (many, opts)) T ->
    get_values conf $"configure-flags" f = Ok ((if many then select_many else select_one) :: opts).

(** Every flag once, each with an option, no option twice. *)
Definition valid_table (T : list row) : Prop :=
  NoDup (map fst T) /\ (forall r, In r T -> options_of r <> []) /\ NoDup (flat_map options_of T).

(** The words of a build name are its pieces between underscores. *)
Definition named (build o : str) : Prop := exists l, cut_at 95%N build l /\ In o l.

(** Order of strings by code points. *)
Inductive before : str -> str -> Prop :=
| before_end c s : before [] (c :: s)
| before_here x y a b : (x < y)%N -> before (x :: a) (y :: b)
| before_next x a b : before a b -> before (x :: a) (x :: b).

(** What is selected for a flag. *)
Inductive selects (build : str) : bool * list str -> selection -> Prop :=
| sel_default many o opts :
    (forall x, In x (o :: opts) -> ~ named build x) ->
    selects build (many, o :: opts) (One o)
| sel_one many opts o :
    In o opts -> named build o -> (forall x, In x opts -> named build x -> x = o) ->
    selects build (many, opts) (One o)
| sel_many opts l :
    (exists x y, x <> y /\ In x l /\ In y l) ->
    (forall x, In x l <-> In x opts /\ named build x) ->
    StronglySorted before l ->
    selects build (true, opts) (Many l).

(** A flag with one choice is named with two options. *)
Definition conflict (build : str) (T : list row) : Prop :=
  exists f opts x y, In (f, (false, opts)) T /\ x <> y /\
    In x opts /\ In y opts /\ named build x /\ named build y.

(** The selection for all flags, in the order of the file. *)
Definition selects_all (build : str) (T : list row) (d : dict selection) : Prop :=
  Forall2 (fun (r : row) fs => fst fs = fst r /\ selects build (snd r) (snd fs)) T d.

(** Options a build name can contain as a word. *)
Definition word_options (T : list row) : Prop :=
  forall o, In o (flat_map options_of T) -> o <> [] /\ ~ In 95%N o.

(** ** Histories *)
Inductive kop :=
| KSelected                  (** [selected_options] *)
| KString                    (** [selected_options_str] *)
| KDefault (o : str)         (** [is_default_option(o)] *)
| KParse                     (** [parse_selected_options()] *)
| KOptions                   (** [get_options_list_for_all_flags()] *)
| KName (b : str)            (** [build_name = b] *).
Inductive kans := ASel (d : dict selection) | AStr (s : str) | ABool (b : bool) | AList (l : list str) | ANone.

Section Exec.
Variable conf : str -> res (dict (option str)).
Definition kexec (o : kop) (p : ckp) : res kans * ckp :=
  match o with
  | KSelected => bind (selected_options conf) (fun d => ret (ASel d)) p
  | KString => bind (selected_options_str conf) (fun s => ret (AStr s)) p
  | KDefault x => bind (is_default_option conf x) (fun b => ret (ABool b)) p
  | KParse => bind (parse_selected_options conf) (fun _ => ret ANone) p
  | KOptions => bind (options_list conf) (fun l => ret (AList l)) p
  | KName b => bind (set_build_name b) (fun _ => ret ANone) p
  end.
Fixpoint kafter (h : list kop) (p : ckp) : ckp :=
  match h with [] => p | o :: h' => kafter h' (snd (kexec o p)) end.
End Exec.
Fixpoint last_name (h : list kop) (b : str) : str :=
  match h with
  | [] => b
  | KName b' :: h' => last_name h' b'
  | _ :: h' => last_name h' b
  end.
