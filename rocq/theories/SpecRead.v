(** * Vocabulary of the reading properties: merging of files, and what the lines
    of a file are. *)
From Coq Require Import String NArith List Bool.
Import ListNotations.
From Verif Require Import PyBase IniView IniRead Cpe.

(** ** Several files *)

(** [new] written over [old], key by key. *)
Definition overlay {A} (new old : dict A) : dict A :=
  fold_left (fun d kv => dset (fst kv) (snd kv) d) new old.

Definition options_in (s : str) (d : dict options) : options :=
  match dget s d with Some o => o | None => [] end.

(** Every section of [new] written over the section of the same name of [old]. *)
Definition merge_secs (new old : dict options) : dict options :=
  fold_left (fun d so => dset (fst so) (overlay (snd so) (options_in (fst so) d)) d) new old.

Definition merge_ini (new old : ini) : ini :=
  Ini (merge_secs (i_secs new) (i_secs old)) (overlay (i_defs new) (i_defs old)) (i_defname old).

(** The value of an option as written in the file(s): section, option. *)
Definition raw_value (i : ini) (s k : str) : option (option str) := dget k (options_in s (i_secs i)).

(** The last list element that has something to say. *)
Fixpoint last_some {A B} (f : A -> option B) (l : list A) : option B :=
  match l with
  | [] => None
  | x :: l' => match last_some f l' with Some b => Some b | None => f x end
  end.

(** A parser into which nothing has been read. *)
Definition empty_ini (defname : str) : ini := Ini [] [] defname.

(** The files one after the other into one parser. *)
Definition merge_all (ns : list ini) (i : ini) : ini := fold_left (fun i n => merge_ini n i) ns i.
(** Reading the text [t] alone succeeds with [n]. *)
Definition reads (delims : list str) (dn t : str) (n : ini) : Prop :=
  read_file delims t (empty_ini dn) = (Ok tt, n).

(** ** Lines *)

Definition no_newline (l : str) : Prop := ~ In 10%N l /\ ~ In 13%N l.

(** [lines_of t ls]: the text [t] consists of the lines [ls], each ended by LF,
    CR LF or CR; the last one may lack its end. *)
Inductive lines_of : str -> list str -> Prop :=
| lo_nil : lines_of [] []
| lo_last l : no_newline l -> l <> [] -> lines_of l [l]
| lo_lf l t ls : no_newline l -> lines_of t ls -> lines_of (l ++ 10%N :: t) (l :: ls)
| lo_crlf l t ls : no_newline l -> lines_of t ls -> lines_of (l ++ 13%N :: 10%N :: t) (l :: ls)
| lo_cr l t ls : no_newline l -> hd 0%N t <> 10%N -> lines_of t ls -> lines_of (l ++ 13%N :: t) (l :: ls).

(** The text with these lines. *)
Definition text_of (ls : list str) : str := flat_map (fun l => l ++ [10%N]) ls.

(** A header line of section [s]: not indented, the section name in brackets,
    followed by anything without a closing bracket. *)
Definition header_line (s l : str) : Prop :=
  s <> [] /\ exists tail, l = 91%N :: s ++ 93%N :: tail /\ ~ In 93%N tail.

(** The first character that is not blank is an opening bracket. *)
Definition bracket_line (l : str) : Prop :=
  exists b l', l = b ++ 91%N :: l' /\ forallb is_space b = true.

(** Delimiters that are one character each and not blank. *)
Definition good_delims (delims : list str) : Prop :=
  delims <> [] /\ Forall (fun d => exists c, d = [c] /\ is_space c = false) delims.

(** A key that is read as it is written: not empty, no blanks at its ends, no
    delimiter in it, and not beginning like a comment or a header. *)
Definition edge_ok (s : str) : Prop :=
  match s with [] => True | c :: _ => is_space c = false end /\
  match rev s with [] => True | c :: _ => is_space c = false end.
Definition plain_key (delims : list str) (k : str) : Prop :=
  k <> [] /\ edge_ok k /\ Forall (fun c => ~ In [c] delims) k /\
  ~ In (hd 0%N k) [35%N; 59%N; 91%N].

(** A line with the option [k], not indented: the key alone, or the key, a
    delimiter and the text of the value. *)
Inductive option_line (delims : list str) (k : str) : option str -> str -> Prop :=
| ol_key b : forallb is_space b = true -> option_line delims k None (k ++ b)
| ol_value b c x : forallb is_space b = true -> In [c] delims ->
    option_line delims k (Some x) (k ++ b ++ c :: x).

(** ** The layout of a file *)
Definition blank_line (l : str) : Prop := forallb is_space l = true.
Definition comment_line (l : str) : Prop :=
  exists b c x, l = b ++ c :: x /\ forallb is_space b = true /\ (c = 35%N \/ c = 59%N).
Definition filler (l : str) : Prop := blank_line l \/ comment_line l.

(** The lines after the first line of a value, and what they add to it. *)
Inductive more : list str -> list str -> Prop :=
| more_nil : more [] []
| more_comment l ls ts : comment_line l -> more ls ts -> more (l :: ls) ts
| more_blank l ls ts : blank_line l -> more ls ts -> more (l :: ls) ([] :: ts)
| more_text b x b' ls ts : b <> [] -> forallb is_space b = true -> forallb is_space b' = true ->
    x <> [] -> edge_ok x -> ~ In (hd 0%N x) [35%N; 59%N] ->
    more ls ts -> more ((b ++ x ++ b') :: ls) (x :: ts).

(** The lines of one option; an option without delimiter has no value. *)
Inductive option_block (delims : list str) : str * option str -> list str -> Prop :=
| ob_none k l ls : plain_key delims k -> option_line delims k None l -> Forall filler ls ->
    option_block delims (k, None) (l :: ls)
| ob_value k x l ls ts : plain_key delims k -> option_line delims k (Some x) l -> more ls ts ->
    option_block delims (k, Some (rstrip_ws (join newline (strip_ws x :: ts)))) (l :: ls).

Inductive options_block (delims : list str) : options -> list str -> Prop :=
| osb_nil : options_block delims [] []
| osb_cons kv o ls ls' : option_block delims kv ls -> options_block delims o ls' ->
    options_block delims (kv :: o) (ls ++ ls').

Inductive sections_block (delims : list str) : dict options -> list str -> Prop :=
| sb_nil : sections_block delims [] []
| sb_cons s o d l ls ls1 ls2 : header_line s l -> Forall filler ls -> options_block delims o ls1 ->
    sections_block delims d ls2 -> sections_block delims ((s, o) :: d) (l :: ls ++ ls1 ++ ls2).

Definition file_layout (delims : list str) (d : dict options) (ls : list str) : Prop :=
  exists ls0 ls1, ls = ls0 ++ ls1 /\ Forall filler ls0 /\ sections_block delims d ls1.

(** ** Failing first accesses *)

(** Errors raised while lines are read; a [ParsingError] is only raised at the
    end of the file. *)
Definition runs (r : res unit) : Prop := r = Ok tt \/ r = Err ParsingError.

(** Texts of the files, if they all exist. *)
Inductive texts_of (fs : str -> option str) : list str -> list str -> Prop :=
| to_nil : texts_of fs [] []
| to_cons p t ps ts : fs p = Some t -> texts_of fs ps ts -> texts_of fs (p :: ps) (t :: ts).

Section Access.
Context {Sh Us : Type} (fs : str -> option str) (o : obj Sh Us).

(** [failing e i]: the first access to the raw data raises [e] after reading [i]. *)
Inductive failing : exc -> ini -> Prop :=
| f_no_path : o_files o = None \/ o_files o = Some [] -> failing ValueError (empty_ini (o_intname o))
| f_no_file fl p : o_files o = Some fl -> In p fl -> fs p = None -> failing IOError (empty_ini (o_intname o))
| f_text fl ts1 t ts2 ns n e : o_files o = Some fl -> texts_of fs fl (ts1 ++ t :: ts2) ->
    Forall2 (reads (o_delims o) (o_intname o)) ts1 ns ->
    read_file (o_delims o) t (empty_ini (o_intname o)) = (Err e, n) ->
    failing e (merge_ini n (merge_all ns (empty_ini (o_intname o)))).

(** [loading i]: the first access returns [i]. *)
Inductive loading : ini -> Prop :=
| l_texts fl ts ns : o_files o = Some fl -> fl <> [] -> texts_of fs fl ts ->
    Forall2 (reads (o_delims o) (o_intname o)) ts ns ->
    loading (merge_all ns (empty_ini (o_intname o))).
End Access.
