(** * Property C87: the order of the words of a build name. *)
From Coq Require Import String NArith List Bool.
Import ListNotations.
From Verif Require Import PyBase EnvVar Regex Keyword DetSys EnvKeyword LoadEnv SpecKeyword KeywordText SpecFlags SpecSystem SpecLoadEnv
  SpecNames NameProofs SamplesNames PropertiesKeyword PropertiesLoadEnv.
Local Open Scope string_scope.
Local Open Scope list_scope.

(** Build names with the same words, in any order and however often each, give
    the same system and the same environment, whatever was read before. *)
Theorem C87_environment :
  forall other_re systems hostname envs b b',
    literal_envs envs -> ~ In 10%N b -> ~ In 10%N b' -> same_words b b' ->
    forall force h o, o = LSystem \/ o = LParsed ->
      fst (lexec other_re systems hostname envs o (lafter other_re systems hostname envs h (new_loadenv b force)))
      = fst (lexec other_re systems hostname envs o (lafter other_re systems hostname envs h (new_loadenv b' force))).
Proof. exact load_same_words. Qed.
Print Assumptions C87_environment.

(** The names without system and environment have the same words. *)
Theorem C87_stripped :
  forall other_re systems hostname envs b b',
    literal_envs envs -> ~ In 10%N b -> ~ In 10%N b' -> same_words b b' ->
    forall force h,
      same_answer
        (fst (lexec other_re systems hostname envs LStripped (lafter other_re systems hostname envs h (new_loadenv b force))))
        (fst (lexec other_re systems hostname envs LStripped (lafter other_re systems hostname envs h (new_loadenv b' force)))).
Proof. exact stripped_same_words. Qed.
Print Assumptions C87_stripped.

(** They give the same configuration, the same flags, the same list and the same
    outcome of the validation, whatever was done before. *)
Theorem C87_configuration :
  forall other_re systems hostname envs flags specs gen b b',
    literal_envs envs -> ~ In 10%N b -> ~ In 10%N b' -> same_words b b' ->
    forall force h o,
      fst (gexec other_re systems hostname envs flags specs gen o
             (gafter other_re systems hostname envs flags specs gen h (new_genconfig b force)))
      = fst (gexec other_re systems hostname envs flags specs gen o
               (gafter other_re systems hostname envs flags specs gen h (new_genconfig b' force))).
Proof. exact gen_same_words. Qed.
Print Assumptions C87_configuration.

(** More generally only what names a system, an environment or an option counts,
    also if the names of the environments are expressions. *)
Theorem C87_known_words :
  forall other_re systems hostname envs b b',
    same_systems systems b b' -> same_envs other_re envs b b' ->
    forall flags specs gen, same_options flags b b' ->
    forall force h o,
      fst (gexec other_re systems hostname envs flags specs gen o
             (gafter other_re systems hostname envs flags specs gen h (new_genconfig b force)))
      = fst (gexec other_re systems hostname envs flags specs gen o
               (gafter other_re systems hostname envs flags specs gen h (new_genconfig b' force))).
Proof. exact gen_words. Qed.
Print Assumptions C87_known_words.

Example C87_ex :
  let b := $"gnu_mpi_release_machine-1_cuda" in
  let b' := $"cuda_release_mpi_machine-1_gnu_mpi_release" in
  let config c := fst (gexec no_re systems3 $"m1-login2" envs3 conf1 specs1 gen1 GConfig (new_genconfig c false)) in
  literal_envs envs3 /\ ~ In 10%N b /\ ~ In 10%N b' /\ same_words b b' /\
  config b = Ok (GStr $"machine-1_gnu-8_release_static_cuda_mpi") /\ config b' = config b.
Proof.
  intros b b' config. split; [apply literal_envs_check; vm_compute; reflexivity|]. split; [not_in|]. split; [not_in|].
  split; [apply same_words_check; vm_compute; reflexivity|]. split; vm_compute; reflexivity.
Qed.

(** The order matters if the name of an environment has a dot... *)
Theorem C87_dotted_name_refuted :
  exists systems hostname envs b b',
    same_words b b' /\ ~ In 10%N b /\ ~ In 10%N b' /\
    fst (lexec no_re systems hostname envs LParsed (new_loadenv b true)) = Ok $"m_gnu.8" /\
    fst (lexec no_re systems hostname envs LParsed (new_loadenv b' true)) = Ok $"m_intel".
Proof.
  exists systems2, $"m1", (conf_of [($"m", [($"gnu.8", None); ($"intel", None)])]), $"intel_gnu_8", $"8_intel_gnu".
  split; [apply same_words_check; vm_compute; reflexivity|]. split; [not_in|]. split; [not_in|].
  split; vm_compute; reflexivity.
Qed.
Print Assumptions C87_dotted_name_refuted.

(** ...or an underscore. *)
Theorem C87_underscore_refuted :
  exists systems hostname envs b b',
    same_words b b' /\ ~ In 10%N b /\ ~ In 10%N b' /\
    fst (lexec no_re systems hostname envs LParsed (new_loadenv b true)) = Ok $"m_gnu_8" /\
    fst (lexec no_re systems hostname envs LParsed (new_loadenv b' true)) = Ok $"m_gnu".
Proof.
  exists systems2, $"m1", (conf_of [($"m", [($"gnu_8", None); ($"gnu", None)])]), $"gnu_8", $"8_gnu".
  split; [apply same_words_check; vm_compute; reflexivity|]. split; [not_in|]. split; [not_in|].
  split; vm_compute; reflexivity.
Qed.
Print Assumptions C87_underscore_refuted.

(** A misspelt option is not reported: the default is taken. *)
Theorem C87_unknown_word_refuted :
  exists b b',
    named b' $"relaese" /\ ~ option_word conf1 $"relaese" /\
    fst (gexec no_re systems3 $"m1-login2" envs3 conf1 specs1 gen1 GConfig (new_genconfig b false))
      = Ok (GStr $"machine-1_gnu-8_debug_static_no-tpl") /\
    fst (gexec no_re systems3 $"m1-login2" envs3 conf1 specs1 gen1 GConfig (new_genconfig b' false))
      = Ok (GStr $"machine-1_gnu-8_debug_static_no-tpl").
Proof.
  exists $"gnu", $"gnu_relaese". split; [apply named_iff; right; now left|].
  split; [|split; vm_compute; reflexivity].
  intros (f & l & G & I). unfold get_values, conf1, conf_of in G. cbn [dget] in G.
  change (str_eqb $"configure-flags" $"configure-flags") with true in G. cbn [rbind] in G.
  destruct (dget f flags1) as [v|] eqn:D; [|discriminate].
  apply PyFacts.dget_Some_In in D. unfold flags1 in D. cbn [In] in D.
  repeat (destruct D as [D|D]; [injection D as <- <-; vm_compute in G; injection G as <-; vm_compute in I;
    repeat (destruct I as [I|I]; [discriminate|]); exact I|]). exact D.
Qed.
Print Assumptions C87_unknown_word_refuted.
