(** * Terms of the statements about command lines.

    A command line is a list of words. The options of a program are its table. *)
From Coq Require Import String NArith List Bool.
Import ListNotations.
From Verif Require Import PyBase SpecText ArgParse.

Definition starts (n s : str) : Prop := exists r, s = n ++ r.
Definition is_long (s : str) : Prop := exists c n, s = 45%N :: 45%N :: c :: n /\ ~ In 61%N s.
Definition is_short (s : str) : Prop := exists c, s = [45; c]%N /\ ~ In c [45; 46; 61; 32]%N.
Definition spelling (t : list opt) (s : str) (o : opt) : Prop := In o t /\ In s (o_strings o).

Section Lines.
(** What is a digit, and the options. *)
Variable is_digit : pychar -> Prop.
Variable t : list opt.

(** Every option is spelled [-c] or [--name], no two alike, and no option is a
    number. *)
Record good_table : Prop := {
  gt_form : forall s o, spelling t s o -> is_long s \/ is_short s;
  gt_apart : forall s o o', spelling t s o -> spelling t s o' -> o = o';
  gt_once : NoDup (flat_map o_strings t);
  gt_digit : forall c o, spelling t [45%N; c] o -> ~ is_digit c;
  gt_dest : NoDup (map o_dest t)
}.

(** The text [n] stands for the option [o]: it is a spelling, or the beginning of
    exactly one that begins with two dashes, and no spelling itself. *)
Definition stands (n : str) (o : opt) : Prop :=
  spelling t n o \/
  (forall o', ~ spelling t n o') /\
  exists m, n = 45%N :: 45%N :: m /\ exists s, starts n s /\ spelling t s o /\ forall s' o', spelling t s' o' -> starts n s' -> s' = s.
(** A word with two dashes: the option, and the value after ["="]. *)
Inductive long_word : str -> opt -> option str -> Prop :=
| lw_bare n o : starts [45; 45]%N n -> n <> [45; 45]%N -> ~ In 61%N n -> stands n o -> long_word n o None
| lw_value n v o : starts [45; 45]%N n -> ~ In 61%N n -> stands n o -> long_word (n ++ 61%N :: v) o (Some v).

(** What a word says: options with or without a value. *)
Inductive event := EOption (o : opt) (v : option str) | EBuild (w : str).
Definition takes (o : opt) : Prop := o_kind o = KStore.
(** Letters after one dash. An option with a value has the rest, after ["="] if
    that comes first; if there is no rest, the value is to follow. *)
Inductive letters : str -> list event -> option opt -> Prop :=
| le_flag c o : spelling t [45%N; c] o -> ~ takes o -> letters [c] [EOption o None] None
| le_flags c o d r evs p : spelling t [45%N; c] o -> ~ takes o -> ~ In d [45; 61]%N -> letters (d :: r) evs p ->
    letters (c :: d :: r) (EOption o None :: evs) p
| le_equals c o v : spelling t [45%N; c] o -> takes o -> letters (c :: 61%N :: v) [EOption o (Some v)] None
| le_value c o d r : spelling t [45%N; c] o -> takes o -> d <> 61%N -> letters (c :: d :: r) [EOption o (Some (d :: r))] None
| le_open c o : spelling t [45%N; c] o -> takes o -> letters [c] [] (Some o).

(** A number with a minus sign; a newline may follow. *)
Definition number_text (s : str) : Prop :=
  exists a b e, (b = [] /\ a <> [] \/ exists d, b = 46%N :: d /\ d <> [] /\ Forall is_digit d) /\ Forall is_digit a /\
    (e = [] \/ e = [10%N]) /\ s = 45%N :: a ++ b ++ e.
(** A word that is no option: it has no dash, or is only a dash, or is not the
    beginning of a spelling (nor is its text before ["="]) and is a number or has a
    blank. *)
Definition plain (w : str) : Prop :=
  ~ starts [45%N] w \/ w = [45%N] \/
  w <> [45; 45]%N /\ (number_text w \/ In 32%N w) /\
  (forall m n v s o, w = 45%N :: 45%N :: m -> ~ In 61%N n -> (n = w \/ w = n ++ 61%N :: v) -> spelling t s o -> ~ starts n s) /\
  (forall c r o, w = 45%N :: c :: r -> ~ spelling t [45%N; c] o).

(** A command line and what it says; [free]: the build name has not been given. *)
Inductive reading : bool -> list str -> list event -> Prop :=
| rd_end free : reading free [] []
| rd_flag free w o l evs : long_word w o None -> ~ takes o -> reading free l evs -> reading free (w :: l) (EOption o None :: evs)
| rd_value free w o v l evs : long_word w o (Some v) -> takes o -> reading free l evs ->
    reading free (w :: l) (EOption o (Some v) :: evs)
| rd_next free w o v l evs : long_word w o None -> takes o -> plain v -> reading free l evs ->
    reading free (w :: v :: l) (EOption o (Some v) :: evs)
| rd_letters free r evs1 l evs : letters r evs1 None -> reading free l evs -> reading free ((45%N :: r) :: l) (evs1 ++ evs)
| rd_letters_next free r evs1 o v l evs : letters r evs1 (Some o) -> plain v -> reading free l evs ->
    reading free ((45%N :: r) :: v :: l) (evs1 ++ EOption o (Some v) :: evs)
| rd_build w l evs : plain w -> reading false l evs -> reading true (w :: l) (EBuild w :: evs)
| rd_build_dashes w : plain w -> reading true [w; [45; 45]%N] [EBuild w]
| rd_dashes : reading true [[45; 45]%N] []
| rd_dashes_build w : reading true [[45; 45]%N; w] [EBuild w].

(** A letter that asks for help, after letters of options without a value. *)
Definition asks_letter (w : str) (o : opt) : Prop := exists a c b, w = a ++ c :: b /\ spelling t [45%N; c] o /\
  Forall (fun x => exists f, spelling t [45%N; x] f /\ ~ takes f) a.
(** A word that asks for help, and a line with such a word before any [--]. *)
Definition asks_help (w : str) : Prop := exists o, o_kind o = KHelp /\ (long_word w o None \/ exists r, w = 45%N :: r /\ asks_letter r o).
Definition help_asked (l : list str) : Prop := exists a w b, l = a ++ w :: b /\ ~ In [45; 45]%N a /\ asks_help w.
(** A word that could be several options, and a line without one before any [--]. *)
Definition ambiguous (w : str) : Prop := exists n s s' o o', (n = w \/ exists v, w = n ++ 61%N :: v) /\ starts [45; 45]%N n /\ ~ In 61%N n /\
  spelling t s o /\ spelling t s' o' /\ s <> s' /\ starts n s /\ starts n s' /\ forall o, ~ spelling t n o.
Definition clear_line (l : list str) : Prop := forall a w b, l = a ++ w :: b -> ~ In [45; 45]%N a -> w <> [45; 45]%N -> ~ ambiguous w.
End Lines.

(** The settings after these events: of several values the last counts. *)
Definition last_value (o : opt) (evs : list event) (v : str) : Prop :=
  exists a b, evs = a ++ EOption o (Some v) :: b /\ forall v', ~ In (EOption o (Some v')) b.
Record settles (resolve : str -> str) (t : list opt) (positional : str) (evs : list event) (ns : namespace) : Prop := {
  se_flag : forall o b, In o t -> o_kind o = KFlag b ->
    (In (EOption o None) evs -> dget (o_dest o) ns = Some (VBool b)) /\
    (~ In (EOption o None) evs -> dget (o_dest o) ns = Some (VBool false));
  se_store : forall o, In o t -> o_kind o = KStore ->
    (forall v, last_value o evs v -> dget (o_dest o) ns = Some (VPath (resolve v))) /\
    ((forall v, ~ In (EOption o (Some v)) evs) -> dget (o_dest o) ns = Some VNone);
  se_build : (forall w, In (EBuild w) evs -> dget positional ns = Some (VStr w)) /\
    ((forall w, ~ In (EBuild w) evs) -> dget positional ns = Some (VStr []))
}.
(** No event asks for help. *)
Definition no_help (evs : list event) : Prop := forall o v, In (EOption o v) evs -> o_kind o <> KHelp.
(** An event asks for help. *)
Definition some_help (evs : list event) : Prop := exists o v, In (EOption o v) evs /\ o_kind o = KHelp.
(** The settings [ns'] with this value put in front of the line, and [ns] without
    it: the other settings are the same, and the value counts unless the line has
    another. *)
Definition in_front (resolve : str -> str) (dest v : str) (ns ns' : namespace) : Prop :=
  (forall k, k <> dest -> dget k ns' = dget k ns) /\
  dget dest ns' = match dget dest ns with Some VNone => Some (VPath (resolve v)) | x => x end.
