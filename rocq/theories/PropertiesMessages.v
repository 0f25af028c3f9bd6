(** * Properties C74 and C75: the messages and the lists the programs print. *)
From Coq Require Import String NArith List Bool.
Import ListNotations.
From Verif Require Import PyBase EnvVar Regex Keyword DetSys EnvKeyword LoadEnv SpecText SpecKeyword SpecFlags SpecSystem SpecLoadEnv
  Messages SpecMessages KeywordProofs MsgProofs MsgProofs2 MsgProofs3 MsgProofs4 PropertiesKeyword PropertiesLoadEnv.
Local Open Scope string_scope.
Local Open Scope list_scope.

(** ** C74 *)

(** Every text has lines. *)
Theorem C74_lines : forall text, exists! ls, lines_of text ls.
Proof. exact one_lines. Qed.
Print Assumptions C74_lines.

(** A message is a box with its lines and the further lines; the first line
    has the kind. *)
Theorem C74_box :
  forall msg kind extras ls es,
    lines_of msg ls -> lines_of extras es -> ~ In 10%N kind ->
    boxed (heading_lines kind ls ++ map more_line es) (get_formatted_msg msg kind extras).
Proof. exact formatted_boxed. Qed.
Print Assumptions C74_box.

(** A list is a box with an entry for every item, in order. *)
Theorem C74_list :
  forall msg items kind extras ls es,
    lines_of msg ls -> lines_of extras es -> Forall unbroken items -> ~ In 10%N kind ->
    boxed (heading_lines kind ls ++ map item_line items ++ map more_line es) (get_msg_for_list msg items kind extras).
Proof. exact list_boxed. Qed.
Print Assumptions C74_list.

(** What is printed shows which items were listed. *)
Theorem C74_items_shown :
  forall msg items items' kind extras,
    ~ In 10%N kind ->
    Forall (fun i => unbroken i /\ not_first space (rev i)) items ->
    Forall (fun i => unbroken i /\ not_first space (rev i)) items' ->
    get_msg_for_list msg items kind extras = get_msg_for_list msg items' kind extras -> items = items'.
Proof. exact list_determines. Qed.
Print Assumptions C74_items_shown.

Example C74_ex :
  get_msg_for_list ($"Two" ++ newline ++ $"  lines  " ++ newline) [$"a"; []; $"b c"] $"ERROR" (newline ++ $"End.") =
  ended [[]; rule; $"|   ERROR:  Two"; $"|             lines"; $"|     - a"; $"|     -"; $"|     - b c"; $"|"; $"|   End."; rule].
Proof. vm_compute. reflexivity. Qed.
Example C74_ex_hypotheses :
  lines_of ($"Two" ++ newline ++ $"  lines  " ++ newline) [$"Two"; $"  lines  "] /\ lines_of (newline ++ $"End.") [[]; $"End."] /\
  Forall (fun i => unbroken i /\ not_first space (rev i)) [$"a"; []; $"b c"] /\ ~ In 10%N $"ERROR".
Proof.
  split; [apply lines_check; vm_compute; reflexivity|]. split; [apply lines_check; vm_compute; reflexivity|]. split.
  - repeat (constructor; [split; [apply unbroken_check; reflexivity|try exact I; apply not_space_check; reflexivity]|]). constructor.
  - apply no_feed_check. reflexivity.
Qed.

(** An item with a line feed can look like two. *)
Theorem C74_broken_items_refuted :
  exists items items', items <> items' /\ length items <> length items' /\
    get_msg_for_list $"Items" items $"INFO" [] = get_msg_for_list $"Items" items' $"INFO" [].
Proof.
  exists [$"a" ++ newline ++ $"  - b"], [$"a"; $"b"]. split; [discriminate|]. split; [discriminate|]. vm_compute. reflexivity.
Qed.
Print Assumptions C74_broken_items_refuted.

(** White space at the end of an item is not shown. *)
Theorem C74_white_space_refuted :
  exists item item', item <> item' /\ unbroken item /\ unbroken item' /\
    get_msg_for_list $"Items" [item] $"INFO" [] = get_msg_for_list $"Items" [item'] $"INFO" [].
Proof.
  exists $"a ", $"a". split; [discriminate|]. split; [apply unbroken_check; reflexivity|]. split; [apply unbroken_check; reflexivity|].
  vm_compute. reflexivity.
Qed.
Print Assumptions C74_white_space_refuted.

(** An empty message does not show its kind. *)
Theorem C74_kind_refuted :
  exists extras, get_formatted_msg [] $"ERROR" extras = get_formatted_msg [] $"INFO" extras /\
    get_formatted_msg [] $"ERROR" extras = ended [[]; rule; $"|   a"; rule].
Proof. exists $"a". split; vm_compute; reflexivity. Qed.
Print Assumptions C74_kind_refuted.

(** ** C75 *)

(** [--list-envs] prints all environments of the system, each with its aliases,
    names and aliases in order, whatever was asked before. *)
Theorem C75_environments :
  forall other_re systems hostname envs b f h s E rel,
    NoDup (map fst systems) -> readable_keys other_re systems hostname ->
    system_of other_re systems hostname (last_build h b) f (Ok (Some s)) ->
    env_describes envs s E -> NoDup (map fst E) -> NoDup (flat_map snd E) ->
    unbroken s -> unbroken rel -> (forall n l, In (n, l) E -> unbroken n /\ Forall unbroken l) ->
    exists names blocks t, in_order (map fst E) names /\
      Forall2 (fun n b => exists l l', In (n, l) E /\ in_order l l' /\ b = env_block n l') names blocks /\
      fst (list_envs_text other_re systems hostname envs rel (lafter other_re systems hostname envs h (new_loadenv b f))) = Ok t /\
      boxed (envs_listing s rel blocks) t.
Proof. exact envs_list_ok. Qed.
Print Assumptions C75_environments.

(** Without a system, or with an alias that is listed twice, the program ends. *)
Theorem C75_no_system :
  forall other_re systems hostname envs b f h rel e,
    NoDup (map fst systems) -> readable_keys other_re systems hostname ->
    system_of other_re systems hostname (last_build h b) f (Err e) ->
    fst (list_envs_text other_re systems hostname envs rel (lafter other_re systems hostname envs h (new_loadenv b f))) = Err e.
Proof. exact envs_list_fails. Qed.
Print Assumptions C75_no_system.

Theorem C75_alias_twice :
  forall other_re systems hostname envs b f h s E rel,
    NoDup (map fst systems) -> readable_keys other_re systems hostname ->
    system_of other_re systems hostname (last_build h b) f (Ok (Some s)) ->
    env_describes envs s E -> ~ NoDup (flat_map snd E) ->
    fst (list_envs_text other_re systems hostname envs rel (lafter other_re systems hostname envs h (new_loadenv b f))) = Err SystemExit.
Proof. exact envs_list_duplicate. Qed.
Print Assumptions C75_alias_twice.

(** [--list-config-flags] prints the table of the flags, in the order of the
    file, whatever was asked before. *)
Theorem C75_flags :
  forall other_re systems hostname envs flags specs gen b f h T file,
    describes flags T -> unbroken file -> (forall n m l, In (n, (m, l)) T -> unbroken n /\ Forall unbroken l) ->
    exists t, fst (list_flags_text flags file (gafter other_re systems hostname envs flags specs gen h (new_genconfig b f))) = Ok t /\
      boxed (flags_listing file T) t.
Proof. exact flags_list_ok. Qed.
Print Assumptions C75_flags.

(** [--list-configs] prints the sections whose names begin with the system. *)
Theorem C75_configurations :
  forall other_re systems hostname specs b f s file,
    NoDup (map fst systems) -> readable_keys other_re systems hostname ->
    system_of other_re systems hostname b f (Ok (Some s)) -> unbroken file -> Forall unbroken specs ->
    exists l t, fst (list_configs_text other_re systems hostname specs file (new_genconfig b f)) = Ok t /\
      kept (fun x => exists y, x = s ++ y) specs l /\ boxed (configs_listing file l) t.
Proof. exact configs_list_ok. Qed.
Print Assumptions C75_configurations.

Theorem C75_configurations_no_system :
  forall other_re systems hostname specs b f e file,
    NoDup (map fst systems) -> readable_keys other_re systems hostname ->
    system_of other_re systems hostname b f (Err e) ->
    fst (list_configs_text other_re systems hostname specs file (new_genconfig b f)) = Err e.
Proof. exact configs_list_fails. Qed.
Print Assumptions C75_configurations_no_system.

(** The values listed in a text have no line ends, if the text has no other
    than line feeds. *)
Theorem C75_listed_values :
  forall t l, Forall (fun c => breaks c -> c = 10%N) t -> lists t l -> Forall unbroken l.
Proof. exact lists_unbroken. Qed.
Print Assumptions C75_listed_values.

Example C75_ex_environments :
  fst (list_envs_text no_re systems1 $"m1-login7" envs1 $"ini/supported-envs.ini" (new_loadenv $"intel" false)) =
  Ok (ended
    [[]; rule;
     $"|   INFO:  Please select one of the following.";
     $"|";
     $"|   - Supported Environments for 'machine-1':";
     $"|     - gnu-8";
     $"|       * Aliases:";
     $"|         - gnu";
     $"|     - gnu_8";
     $"|     - intel-18.0.5-mpich";
     $"|       * Aliases:";
     $"|         - intel";
     $"|         - intel-18";
     $"|     - intel-19.0.4";
     $"|       * Aliases:";
     $"|         - intel-19";
     $"|";
     $"|   See `ini/supported-envs.ini` for details on the available environments.";
     $"|";
     $"|   To force-load an environment see the guidance in the `--help` output.";
     $"|";
     rule]).
Proof. vm_compute. reflexivity. Qed.
Example C75_ex_flags :
  fst (list_flags_text conf1 $"flags.ini" (new_genconfig $"intel" false)) =
  Ok (ended
    [[]; rule;
     $"|   INFO:  Please select one of the following.";
     $"|";
     $"|   - Supported Flags Are:";
     $"|     - build-type";
     $"|       * Options (SELECT_ONE):";
     $"|         - debug (default)";
     $"|         - release";
     $"|     - lib-type";
     $"|       * Options (SELECT_ONE):";
     $"|         - static (default)";
     $"|         - shared";
     $"|     - tpls";
     $"|       * Options (SELECT_MANY):";
     $"|         - no-tpl (default)";
     $"|         - mpi";
     $"|         - cuda";
     $"|         - blas";
     $"|";
     $"|   See flags.ini for details.";
     rule]).
Proof. vm_compute. reflexivity. Qed.
Example C75_ex_configurations :
  fst (list_configs_text no_re systems1 $"m1-login7" specs1 $"specs.ini" (new_genconfig $"intel" false)) =
  Ok (ended
    [[]; rule;
     $"|   INFO:  Please select one of the following complete configurations from";
     $"|           specs.ini";
     $"|";
     $"|     - machine-1_intel-19.0.4_debug_static_no-tpl";
     $"|";
     rule]).
Proof. vm_compute. reflexivity. Qed.
Example C75_ex_hypotheses :
  system_of no_re systems1 $"m1-login7" $"intel" false (Ok (Some $"machine-1")) /\
  env_describes envs1 $"machine-1" table_m1 /\ valid_envs table_m1 /\
  unbroken $"machine-1" /\ unbroken $"ini/supported-envs.ini" /\ Forall unbroken specs1 /\
  (forall n l, In (n, l) table_m1 -> unbroken n /\ Forall unbroken l) /\
  describes conf1 table1 /\ (forall n m l, In (n, (m, l)) table1 -> unbroken n /\ Forall unbroken l).
Proof.
  split; [apply C56_system; [apply C56_ex_hypotheses|apply C56_ex_hypotheses|vm_compute; reflexivity]|].
  split; [split; [eexists; split; reflexivity|]|].
  { intros n l I. repeat (destruct I as [[= <- <-]|I]; [vm_compute; reflexivity|]). destruct I. }
  split; [split; apply has_duplicates_NoDup; vm_compute; reflexivity|].
  split; [apply unbroken_check; reflexivity|]. split; [apply unbroken_check; reflexivity|].
  split; [repeat (constructor; [apply unbroken_check; reflexivity|]); constructor|].
  split.
  { intros n l I. repeat (destruct I as [[= <- <-]|I];
      [split; [apply unbroken_check; reflexivity|repeat (constructor; [apply unbroken_check; reflexivity|]); constructor]|]). destruct I. }
  split; [apply C53_ex_table|].
  intros n m l I. repeat (destruct I as [[= <- <- <-]|I];
      [split; [apply unbroken_check; reflexivity|repeat (constructor; [apply unbroken_check; reflexivity|]); constructor]|]). destruct I.
Qed.
