(** * C69: the files that the top-level files name.

    Statements and examples only. *)
From Coq Require Import String NArith ZArith List Bool.
Import ListNotations.
From Verif Require Import PyBase Shlex IniView IniRead ExcControl Cpe SpecWalk SpecRun SpecParse SpecApi
  Samples SamplesApi TopLevel SpecTop TopProofs4.
Local Open Scope string_scope.
Local Open Scope list_scope.

(** The file read is the one given to the constructor. *)
Theorem C69_file_read :
  forall ini p, denotes ini p -> exists w, o_files (open_ini ini) = Some [w] /\ denotes w p.
Proof. exact ini_opened. Qed.
Print Assumptions C69_file_read.

(** ** [LoadEnv] *)

(** A file without the section [load-env] is refused. *)
Theorem C69_load_env_section_required :
  forall uniword fs fuel (i : IniView.ini) ini,
    has_file fs (open_ini ini) i -> ini_has_section i $"load-env" = false ->
    fst (parse_top_level uniword fs fuel ini (open_ini ini)) = Err ValueError.
Proof. exact load_env_no_section. Qed.
Print Assumptions C69_load_env_section_required.

(** Otherwise it is accepted if each of the three options has a value that is
    not empty, and refused if one has not. Once accepted, the section reads as
    written, with the three values completed, whatever is asked of the data. *)
Theorem C69_load_env_completed :
  forall uniword fs fuel (i : IniView.ini) ini root dir name d,
    let K := base_class uniword in
    denotes ini (Path root (dir ++ [name])) -> has_file fs (open_ini ini) i ->
    length (ini_sections i) + 3 <= fuel ->
    parsable K i $"DEFAULT" $"load-env" -> expansion K i $"DEFAULT" $"load-env" d ->
    let (r, o') := parse_top_level uniword fs fuel ini (open_ini ini) in
    ((forall k, In k env_keys -> exists v, value_of d k v) ->
       r = Ok tt /\ exists d', completed ini env_keys d d' /\
         forall h, spares $"load-env" h -> fst (getitem K fs fuel $"load-env" (after K fs fuel h o')) = Ok d') /\
    ((exists k, In k env_keys /\ forall v, ~ value_of d k v) -> r = Err ValueError).
Proof. intros uniword fs fuel i ini root dir name d K A B C. exact (load_env_outcome uniword fs fuel i ini root dir name A B C d). Qed.
Print Assumptions C69_load_env_completed.

(** The three files used: what the command line gives comes first; what the file
    gives is found from the directory of the file. *)
Theorem C69_load_env_files :
  forall uniword fs fuel (i : IniView.ini) ini root dir name File (resolve : path -> File) d g,
    let K := base_class uniword in
    denotes ini (Path root (dir ++ [name])) -> has_file fs (open_ini ini) i ->
    length (ini_sections i) + 3 <= fuel ->
    parsable K i $"DEFAULT" $"load-env" -> expansion K i $"DEFAULT" $"load-env" d ->
    let r := fst (le_files uniword fs fuel File resolve ini g (open_ini ini)) in
    ((forall k, In k env_keys -> exists v, value_of d k v) ->
       exists a b c, r = Ok [a; b; c] /\
         chosen_file resolve ini (v_systems g) d $"supported-systems" a /\
         chosen_file resolve ini (v_envs g) d $"supported-envs" b /\
         chosen_file resolve ini (v_envspecs g) d $"environment-specs" c) /\
    ((exists k, In k env_keys /\ forall v, ~ value_of d k v) -> r = Err ValueError).
Proof.
  intros uniword fs fuel i ini root dir name File resolve d g K A B C.
  exact (load_env_files uniword fs fuel i ini root dir name A B C File resolve d g).
Qed.
Print Assumptions C69_load_env_files.

(** ** [GenConfig] *)

(** A file without one of the sections is refused. *)
Theorem C69_gen_config_sections_required :
  forall uniword fs fuel (i : IniView.ini) ini there,
    has_file fs (open_ini ini) i -> length (ini_sections i) + 3 <= fuel ->
    (ini_has_section i $"gen-config" = true -> parsable (base_class uniword) i $"DEFAULT" $"gen-config") ->
    ini_has_section i $"gen-config" = false \/ ini_has_section i $"load-env" = false ->
    fst (gen_data uniword fs fuel there ini (open_ini ini)) = Err ValueError.
Proof. intros uniword fs fuel i ini there A B. exact (gen_no_section uniword fs fuel i ini A B there). Qed.
Print Assumptions C69_gen_config_sections_required.

(** Otherwise it is accepted if each of the five options names a file that is
    there, and refused if one does not. *)
Theorem C69_gen_config_completed :
  forall uniword fs fuel (i : IniView.ini) ini root dir name there dg dl,
    let K := base_class uniword in
    denotes ini (Path root (dir ++ [name])) -> has_file fs (open_ini ini) i ->
    length (ini_sections i) + 3 <= fuel ->
    parsable K i $"DEFAULT" $"gen-config" -> parsable K i $"DEFAULT" $"load-env" ->
    expansion K i $"DEFAULT" $"gen-config" dg -> expansion K i $"DEFAULT" $"load-env" dl ->
    let (r, o') := gen_data uniword fs fuel there ini (open_ini ini) in
    ((forall k, In k gen_keys -> names_a_file there ini dg k) -> (forall k, In k env_keys -> names_a_file there ini dl k) ->
       r = Ok tt /\ exists dg' dl', completed ini gen_keys dg dg' /\ completed ini env_keys dl dl' /\
         forall h, spares $"gen-config" h -> spares $"load-env" h ->
           fst (getitem K fs fuel $"gen-config" (after K fs fuel h o')) = Ok dg' /\
           fst (getitem K fs fuel $"load-env" (after K fs fuel h o')) = Ok dl') /\
    ((exists k, In k gen_keys /\ ~ names_a_file there ini dg k) \/
     (exists k, In k env_keys /\ ~ names_a_file there ini dl k) -> r = Err ValueError).
Proof.
  intros uniword fs fuel i ini root dir name there dg dl K A B C.
  exact (gen_outcome uniword fs fuel i ini root dir name A B C there dg dl).
Qed.
Print Assumptions C69_gen_config_completed.

(** If the path of the file is absolute, then once it was accepted it is accepted
    at every later access, and the two sections do not change any more. *)
Theorem C69_gen_config_stable :
  forall uniword fs fuel (i : IniView.ini) ini root dir name there dg dl o1 hs h,
    let K := base_class uniword in
    denotes ini (Path root (dir ++ [name])) -> has_file fs (open_ini ini) i ->
    length (ini_sections i) + 3 <= fuel ->
    parsable K i $"DEFAULT" $"gen-config" -> parsable K i $"DEFAULT" $"load-env" ->
    expansion K i $"DEFAULT" $"gen-config" dg -> expansion K i $"DEFAULT" $"load-env" dl ->
    root <> [] ->
    gen_data uniword fs fuel there ini (open_ini ini) = (Ok tt, o1) ->
    Forall (fun h => spares $"gen-config" h /\ spares $"load-env" h) (h :: hs) ->
    let o2 := after K fs fuel h (accesses uniword fs fuel there ini hs o1) in
    fst (gen_data uniword fs fuel there ini o2) = Ok tt /\
    fst (getitem K fs fuel $"gen-config" o2) = fst (getitem K fs fuel $"gen-config" o1) /\
    fst (getitem K fs fuel $"load-env" o2) = fst (getitem K fs fuel $"load-env" o1).
Proof.
  intros uniword fs fuel i ini root dir name there dg dl o1 hs h K A B C D1 D2 E1 E2 R.
  exact (gen_stable uniword fs fuel i ini root dir name A B C there dg dl D1 D2 E1 E2 R o1 hs h).
Qed.
Print Assumptions C69_gen_config_stable.

(** The five files used, for an absolute path. *)
Theorem C69_gen_config_files :
  forall uniword fs fuel (i : IniView.ini) ini root dir name there File (resolve : path -> File) dg dl g,
    let K := base_class uniword in
    denotes ini (Path root (dir ++ [name])) -> has_file fs (open_ini ini) i ->
    length (ini_sections i) + 3 <= fuel ->
    parsable K i $"DEFAULT" $"gen-config" -> parsable K i $"DEFAULT" $"load-env" ->
    expansion K i $"DEFAULT" $"gen-config" dg -> expansion K i $"DEFAULT" $"load-env" dl ->
    root <> [] ->
    let r := fst (gen_files uniword fs fuel there File resolve ini g (open_ini ini)) in
    ((forall k, In k gen_keys -> names_a_file there ini dg k) -> (forall k, In k env_keys -> names_a_file there ini dl k) ->
       exists a b x y z, r = Ok [a; b; x; y; z] /\
         chosen_file resolve ini (v_flags g) dg $"supported-config-flags" a /\
         chosen_file resolve ini (v_specs g) dg $"config-specs" b /\
         chosen_file resolve ini (v_systems g) dl $"supported-systems" x /\
         chosen_file resolve ini (v_envs g) dl $"supported-envs" y /\
         chosen_file resolve ini (v_envspecs g) dl $"environment-specs" z) /\
    ((exists k, In k gen_keys /\ ~ names_a_file there ini dg k) \/
     (exists k, In k env_keys /\ ~ names_a_file there ini dl k) -> r = Err ValueError).
Proof.
  intros uniword fs fuel i ini root dir name there File resolve dg dl g K A B C D1 D2 E1 E2 R.
  exact (gen_files_outcome uniword fs fuel i ini root dir name A B C there dg dl D1 D2 E1 E2 R File resolve g).
Qed.
Print Assumptions C69_gen_config_files.

(** ** Examples *)
Definition top_lines : list string :=
  ["[gen-config]"; "supported-config-flags : ./flags.ini"; "config-specs : /abs//specs.ini";
   "[common]"; "supported-envs = sub/envs.ini";
   "[load-env]"; "supported-systems : ../systems.ini"; "use common"; "environment-specs : env//specs.ini"].
Definition at_path (w : string) (l : list string) (p : str) : option str :=
  if str_eqb p (lit w) then Some (file_of l) else None.
Definition no_over : overrides := Overrides None None None None None.
Definition some_over : overrides := Overrides (Some $"f//g.ini") None None (Some $"/e") None.
Definition ini_top : IniView.ini := match fst (get_cpd (at_path "/c/top.ini" top_lines) (open_ini $"/c//top.ini")) with Ok i => i | _ => Ini [] [] [] end.

Example C69_ex_hypotheses :
  has_file (at_path "/c/top.ini" top_lines) (open_ini $"/c//top.ini") ini_top /\ all_parsable base ini_top $"DEFAULT".
Proof. split; [vm_compute; reflexivity|apply (all_parsable_check _ _ _ [$"DEFAULT"]); vm_compute; reflexivity]. Qed.
Example C69_ex_load_env :
  fst (le_files no_uni (at_path "/c/top.ini" top_lines) 9 _ path_str $"/c//top.ini" no_over (open_ini $"/c//top.ini")) =
    Ok [$"/c/../systems.ini"; $"/c/sub/envs.ini"; $"/c/env/specs.ini"] /\
  fst (le_files no_uni (at_path "/c/top.ini" top_lines) 9 _ path_str $"/c//top.ini" some_over (open_ini $"/c//top.ini")) =
    Ok [$"/c/../systems.ini"; $"/e"; $"/c/env/specs.ini"].
Proof. computed. Qed.
Example C69_ex_gen_config :
  fst (gen_files no_uni (at_path "/c/top.ini" top_lines) 9 (fun _ => true) _ path_str $"/c//top.ini" some_over (open_ini $"/c//top.ini")) =
    Ok [$"f/g.ini"; $"/abs/specs.ini"; $"/c/../systems.ini"; $"/e"; $"/c/env/specs.ini"] /\
  fst (gen_data no_uni (at_path "/c/top.ini" top_lines) 9 (fun p => negb (str_eqb (path_str p) $"/c/sub/envs.ini"))
         $"/c//top.ini" (open_ini $"/c//top.ini")) = Err ValueError.
Proof. computed. Qed.

(** The restriction to an absolute path is needed: with a relative one, a
    relative value is completed again at the second access, and [args] needs two.
    Here all files are there, and the first access succeeds. *)
Theorem C69_relative_path_refuted :
  exists fs there ini o1,
    gen_data no_uni fs 9 there ini (open_ini ini) = (Ok tt, o1) /\
    fst (gen_data no_uni fs 9 there ini o1) = Err ValueError /\
    fst (gen_files no_uni fs 9 there _ path_str ini no_over (open_ini ini)) = Err ValueError.
Proof.
  exists (at_path "c/top.ini" top_lines), (fun p => str_mem (path_str p)
    [$"c/flags.ini"; $"/abs/specs.ini"; $"c/../systems.ini"; $"c/sub/envs.ini"; $"c/env/specs.ini"]), $"c/top.ini".
  eexists. split; [vm_compute; reflexivity|]. split; vm_compute; reflexivity.
Qed.
Print Assumptions C69_relative_path_refuted.

(** Giving all the files on the command line does not make the options of the
    file superfluous. *)
Theorem C69_overrides_suffice_refuted :
  let all := Overrides (Some $"/a") (Some $"/b") (Some $"/x") (Some $"/y") (Some $"/z") in
  exists fs ini,
    fst (le_files no_uni fs 9 _ path_str ini all (open_ini ini)) = Err ValueError /\
    fst (gen_files no_uni fs 9 (fun _ => true) _ path_str ini all (open_ini ini)) = Err ValueError.
Proof.
  exists (at_path "/c/top.ini" ["[gen-config]"; "supported-config-flags : /f"; "config-specs : /s";
                                 "[load-env]"; "supported-systems : /t"; "environment-specs :"; "supported-envs : /e"]), $"/c/top.ini".
  split; vm_compute; reflexivity.
Qed.
Print Assumptions C69_overrides_suffice_refuted.
