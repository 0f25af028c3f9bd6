(** * What a loaded file shows: the options of a section and their values.

    Independent of the functions of [IniView.v]; the record [ini] itself is the
    loaded file: its sections, the options of the parser's default section, and
    the name of that section. *)
From Coq Require Import String NArith List Bool.
Import ListNotations.
From Verif Require Import PyBase IniView.

(** ** Interpolation *)
Definition percent : pychar := 37%N.

(** A reference, [%(name)s]. *)
Definition reference (name : str) : str := $"%(" ++ name ++ $")s".
Definition ref_name (name : str) : Prop := name <> [] /\ ~ In 41%N name.

Section E.
(** The values of the options in scope. *)
Variable look : str -> option (option str).

(** [expands d s t]: the text [s] stands for [t], with references nested at
    most [d] deep. *)
Inductive expands : nat -> str -> str -> Prop :=
| e_nil d : expands (S d) [] []
| e_char d c s t : c <> percent -> expands d s t -> expands d (c :: s) (c :: t)
| e_percent d s t : expands d s t -> expands d (percent :: percent :: s) (percent :: t)
| e_value d name v s t : ref_name name -> look name = Some (Some v) -> ~ In percent v ->
    expands (S d) s t -> expands (S d) (reference name ++ s) (v ++ t)
| e_nested d name v w s t : ref_name name -> look name = Some (Some v) -> In percent v ->
    expands d v w ->
    expands (S d) s t -> expands (S d) (reference name ++ s) (w ++ t).

(** [fails d s e]: the leftmost thing wrong with [s] raises [e]. *)
Inductive fails : nat -> str -> exc -> Prop :=
| f_depth s : fails 0 s InterpolationDepthError
| f_end d : fails (S d) [percent] InterpolationSyntaxError
| f_other d c s : c <> percent -> c <> 40%N -> fails (S d) (percent :: c :: s) InterpolationSyntaxError
| f_open d s : (forall name r, ref_name name -> $"%(" ++ s <> reference name ++ r) ->
    fails (S d) ($"%(" ++ s) InterpolationSyntaxError
| f_missing d name s : ref_name name -> look name = None ->
    fails (S d) (reference name ++ s) InterpolationMissingOptionError
| f_none d name s : ref_name name -> look name = Some None ->
    fails (S d) (reference name ++ s) TypeError
| f_inner d name v s e : ref_name name -> look name = Some (Some v) -> In percent v -> fails d v e ->
    fails (S d) (reference name ++ s) e
| f_char d c s e : c <> percent -> fails (S d) s e -> fails (S d) (c :: s) e
| f_percent d s e : fails (S d) s e -> fails (S d) (percent :: percent :: s) e
| f_value d name v s e : ref_name name -> look name = Some (Some v) -> ~ In percent v ->
    fails (S d) s e -> fails (S d) (reference name ++ s) e
| f_nested d name v w s e : ref_name name -> look name = Some (Some v) -> In percent v -> expands d v w ->
    fails (S d) s e -> fails (S d) (reference name ++ s) e.
End E.

(** Every ['%'] doubled. *)
Definition escape_percent (s : str) : str :=
  flat_map (fun c => if N.eqb c percent then [percent; percent] else [c]) s.

(** ** Sections *)

(** The options written in section [s]. The parser's default section can be asked
    for like a section, it shows the defaults only. *)
Definition own_section (i : ini) (s : str) (own : options) : Prop :=
  (s = i_defname i /\ own = []) \/ (s <> i_defname i /\ dget s (i_secs i) = Some own).

(** The file has something to show under the name [s]. *)
Definition present (i : ini) (s : str) : Prop := exists own, own_section i s own.

(** The defaults that a section with the options [own] does not have itself. *)
Inductive inherited (own : options) : options -> options -> Prop :=
| inh_nil : inherited own [] []
| inh_own k v l l' : In k (dkeys own) -> inherited own l l' -> inherited own ((k, v) :: l) l'
| inh_new k v l l' : ~ In k (dkeys own) -> inherited own l l' -> inherited own ((k, v) :: l) ((k, v) :: l').

(** The options a value may refer to: those of its section, then the defaults. *)
Definition scope (i : ini) (own : options) (k : str) : option (option str) :=
  match dget k own with Some v => Some v | None => dget k (i_defs i) end.

(** The value of an option: none, a text, or an error; references may be nested
    ten deep. *)
Inductive value_is (look : str -> option (option str)) : option str -> res (option str) -> Prop :=
| vi_none : value_is look None (Ok None)
| vi_text s t : expands look 10 s t -> value_is look (Some s) (Ok (Some t))
| vi_error s e : fails look 10 s e -> value_is look (Some s) (Err e).

(** The options section [s] shows, in order: its own, then the inherited ones. *)
Definition section_shows (i : ini) (s : str) (items : list (str * res (option str))) : Prop :=
  exists own more, own_section i s own /\ inherited own (i_defs i) more /\
    Forall2 (fun kv it => fst it = fst kv /\ value_is (scope i own) (snd kv) (snd it)) (own ++ more) items.
