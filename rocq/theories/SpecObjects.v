(** * What is in the files of the programs, as tables, and histories of calls on
    the objects that read them. *)
From Coq Require Import String NArith List Bool.
Import ListNotations.
From Verif Require Import PyBase EnvVar Regex IniView IniRead ExcControl Cpe SpecWalk SpecRun SpecParse SpecApi
  Keyword DetSys EnvKeyword LoadEnv TopLevel FileObjects SpecFlags SpecLoadEnv.

Section Tables.
Variable uniword : pychar -> bool.
Notation K := (base_class uniword).

(** The file of this name contains [i], and every section of it can be parsed. *)
Definition readable (fs : str -> option str) (fuel : nat) (file : str) (i : ini) : Prop :=
  has_file fs (open_ini file) i /\ length (ini_sections i) + 3 <= fuel /\ all_parsable K i $"DEFAULT".

(** The options of each section, by name. *)
Definition table_of (i : ini) (conf : str -> res (dict (option str))) : Prop :=
  (forall s, ini_has_section i s = true -> exists d, expansion K i $"DEFAULT" s d /\ conf s = Ok d) /\
  (forall s, ini_has_section i s = false -> conf s = Err KeyError).

(** The sections, each with its keys. *)
Definition keys_of (i : ini) (systems : list (str * list str)) : Prop :=
  map fst systems = ini_sections i /\
  forall s l, In (s, l) systems -> exists d, expansion K i $"DEFAULT" s d /\ l = map fst d.
End Tables.

Section Histories.
Variable uniword : pychar -> bool.
Variable fs : str -> option str.
Variable fuel : nat.
Variable other_re : str -> str -> res bool.
Variable hostname : str.
Notation cpe := (obj unit unit).

(** ** [ConfigKeywordParser] *)
Definition fkexec (o : kop) : SM (cpe * ckp) kans :=
  match o with
  | KSelected => bind (f_selected_options uniword fs fuel) (fun d => ret (ASel d))
  | KString => bind (f_selected_options_str uniword fs fuel) (fun s => ret (AStr s))
  | KDefault x => bind (f_is_default_option uniword fs fuel x) (fun b => ret (ABool b))
  | KParse => bind (f_parse_selected_options uniword fs fuel) (fun _ => ret ANone)
  | KOptions => bind (f_options_list uniword fs fuel) (fun l => ret (AList l))
  | KName b => bind (f_set_build_name b) (fun _ => ret ANone)
  end.

(** ** [LoadEnv] *)
Variable systems_file envs_file : str.
Definition flexec (o : lop) : SM (cpe * loadenv) str :=
  match o with
  | LSystem => f_le_system_name uniword fs fuel other_re hostname systems_file
  | LParsed => f_le_parsed_env_name uniword fs fuel other_re hostname systems_file envs_file
  | LStripped => f_le_stripped uniword fs fuel other_re hostname systems_file envs_file
  | LName b => bind (f_le_set_build b) (fun _ => ret b)
  end.

(** ** [GenConfig] *)
Variable flags_file : str.
Variable specs : list str.
Variable gen : str -> res (list str).
Definition fgexec (o : gop) : SM fgen gans :=
  match o with
  | GConfig => bind (f_complete_config uniword fs fuel other_re hostname systems_file envs_file flags_file)
                    (fun s => ret (GStr s))
  | GValidate => bind (f_validate uniword fs fuel other_re hostname systems_file envs_file flags_file specs)
                    (fun _ => ret GDone)
  | GFlags => bind (f_generated_flags uniword fs fuel other_re hostname systems_file envs_file flags_file specs gen)
                    (fun l => ret (GOpts l))
  | GList => bind (f_list_configs uniword fs fuel other_re hostname systems_file specs) (fun l => ret (GOpts l))
  end.
End Histories.

(** The answers to a sequence of calls, each on what the ones before it left;
    calls may raise. *)
Fixpoint replies {S O A} (exec : O -> SM S A) (h : list O) (p : S) : list (res A) :=
  match h with
  | [] => []
  | o :: h' => fst (exec o p) :: replies exec h' (snd (exec o p))
  end.
