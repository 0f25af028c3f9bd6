# Formal model of ConfigParserEnhanced: design

Subject: `sandialabs/ConfigParserEnhanced`, pinned commit, read as text in `/repo`.
Prover: Rocq/Coq 8.16.1. Everything is under `rocq/theories/`.

## 1. Method

The Python code is transcribed, function by function, into total Gallina
functions. Exceptions are values (`Err e`), Python objects are records, every
method is a function `state -> result * state` so that the state *left behind by
an exception* is part of the model. Recursion that Python does not bound
(`_parse_section_r` through `_handler_use`) takes a fuel argument that stands
for the interpreter's recursion limit; running out of fuel raises
`RecursionError`, which is what Python does, so no theorem has to assume
termination: termination is itself a theorem (C05) or refuted (C06). Theorems
about successful calls ask for fuel `>= number of sections + 3`.

Subclass handlers are arbitrary functions over (shared dict, subclass state)
with arbitrary results and exceptions; all theorems quantify over them, and those
that need more say so (`well_behaved`: handlers return 0 or None and leave
`_handler_use` alone).

### Files

| layer | files |
|---|---|
| Python basics (strings, dicts, results, state monad) | `PyBase.v`, facts in `PyFacts.v` |
| stdlib pieces the repo calls | `Shlex.v` (`shlex.split`), `IniRead.v` (`ConfigParser.read`), `IniView.v` (sections, defaults, interpolation) |
| `ExceptionControl.py`, `Debuggable.py`, `TypedProperty.py` | `ExcControl.v`, `Debuggable.v`, `TypedProp.v`; values that can change and are shared: `Sharing.v` |
| `ConfigParserEnhanced.py` | `Cpe.v` |
| independent specifications | `Spec*.v` |
| proofs | `*Facts.v`, `*Proofs*.v`, `Refine*.v`, `Trace.v` |
| sample files, computable checks of hypotheses | `Samples*.v` |
| property theorems (only `exact`, plus `Example`s and `Print Assumptions`) | `Properties*.v` |
| `wip/` programs | listed in section 6 |
| the repository's own tests, repeated on the model | `RepoData.v` (texts of its test files and recorded outputs), `Repo*Tests.v` |

### How the parser is specified

`SpecWalk.v` is the specification of `use`: an inductive relation that reads a
file as a depth-first sequence of steps (option written, handler called, `use`
entered, `use` skipped because of a cycle). It knows nothing of the parser's
recursion, caches, or "processed" set; the chain of open sections is part of
the relation. What a line means is stated over texts, without the model's
functions: `SpecText.v` (blanks, trimming, the form of an operation word),
`SpecShell.v` (the words of a key, as a grammar) and `SpecFile.v` (the options
a section shows, references and their errors, as inductive relations).
`FileProofs.v` and `MeaningProofs.v` prove these relations equivalent to the
transcribed functions. `SpecRun.v` says what performing the steps does to data, shared
dict, subclass state and log. `Refine.v`, `RefineRoot.v`, `RefineOk.v`,
`RunProofs.v` and `Trace.v` prove that the transcribed parser performs exactly
such a walk; all properties of parsing follow from facts about walks.
`SpecApi.v` says which answer each accessor call must give, from the file alone
(`answers`); the proofs show that this holds after *any* history of calls.

## 2. Trusted base

* Coq's kernel (and `vm_compute` for closed computations).
* `Print Assumptions` under each property theorem prints "Closed under the
  global context": no theorem depends on any axiom. The whole-library check
  (`coqchk -o`, `vcheck`) lists the seven parameters
  `Coq.ssr.ssrunder.Under_rel.{Under_rel, Under_rel_from_rel, Under_relE,
  under_rel_done, Over_rel, over_rel, over_rel_done}` of a standard-library
  module type, loaded by `lia`; nothing here uses them.
* The faithfulness of the hand transcription; each definition cites the lines
  it mirrors and says where it simplifies (section 5).
* The transcription of the parts of the Python standard library used
  (`shlex.split`, `configparser` of Python 3.11). These two were compared with
  the Python 3.11 standard library of this machine on generated inputs (1600
  key strings for `Shlex.v`; 2000 sets of files for `IniRead.v`/`IniView.v`:
  sections, options, values after interpolation, exception class): no
  difference. The same was done for `ArgParse.v` (1500 command lines for the two
  parsers, which were built anew with `argparse`), and for `os.path.expandvars`,
  `str.splitlines`, `str.replace`, `re.sub`, `re.findall` and `re.search` with the
  expressions used, `sorted`, `pathlib` and string literals (3700 inputs): no
  difference. The repository's own code was not run.
* As evidence for the transcription (tests, not proofs): `RepoCpeTests.v`,
  `RepoSetEnvTests.v`, `RepoToolTests.v` and `RepoBaseTests.v` repeat on the model what the repository's unit tests assert
  of the program, on the verbatim texts of its test files (`RepoData.v`), down to
  the recorded scripts of SetEnvironment and the recorded log of
  `examples/ConfigParserEnhanced-example-01`. The model passed without a change.

## 3. Plan per property

| id | model | proof |
|---|---|---|
| C01-C04, C07-C09, C20 | `_parse_section_r` and callees over a loaded file | refinement of the fuelled recursion to an inductive depth-first walk; then data/handler effects are folds over the walk |
| C05 | same | measure: sections of the file not on the current chain |
| C06 | same | invariant on the processed-sections set: a returning call never enlarges it, the inner call removes the default section |
| C10, C11, C36 | `ConfigParserEnhancedData` | frame invariants; fold/idempotence of dict writes |
| C12, C13, C35 | API state machine | invariant over histories, refinement to the pure expansion; failing histories give the `_refuted` witnesses |
| C14, C16 | lazy caches and setters, file system as parameter | invariants over histories before and after the assignment |
| C15 | same | the parser never reads what has been printed; hence an object differing only in that gives the same answers |
| C17-C19 | class attribute table | direct |
| C21-C23 | `ExceptionControl` | direct, induction over histories |
| C24, C25 | `typed_property` | refinement to an abstract cell, induction over histories |
| C26 | `_loginfo` | bracket invariant through the walk |
| C27 | `shlex` state machine | equivalence with a declarative grammar; round trip with a quoting function |
| C28-C31 | validators, `unroll_to_str` | via C12 |
| C32 | `unroll_to_str`, reader | round trip through C40's layout theorem |
| C33, C34, C40 | reader, interpolation | induction over lines / strings; reading into a parser = merging |
| C37, C38 | `Debuggable`, `parse_section` | direct |
| C39 | malformed options | the first malformed step of the walk decides the exception |
| C78 | the two `assert_*_handled` checks | `QuietProofs.v`: any predicate stable under cache writes, warnings and log lines is kept by the parser and readers, so only the checks print; specification of the lines in `SpecReport.v` |
| C79 | parse of the default section | uniqueness of the walk; idempotence of dict writes |
| C80 | a parse depends only on the sections it comes to | equality of walks over agreeing files; determinism |
| C81 | `use` is pasting | induction over walks with two recursion stacks; an acyclic target is never skipped; refuted on cycles |
| C82 | how often handlers are called | induction over walks, counting the sections not being read; a family of files read through C40 |
| C83, C84 | the debug level changes no result; the exception level only decides between warning and exception | one relational argument for all calls (`LevelsProofs.v`), used with three relations |
| C85, C86 | independent environment actions commute; repeatable sections can be applied twice | what an operation looks at (`op_local`), then exchange of neighbours; `which` is assumed to look only at PATH and the module command not to see the order of the variables (`SpecOrder.v`) |
| C87 | the order of the words of a build name | relation between two objects kept by every method (`agrees`), answers equal |
| C88 | objects with the parsers of their files | both run in step (`sim`): the parser stays in the invariant of C12, the object equals the one on tables |
| C89 | values of typed properties that can change | cells out of reach stay as they are, for any set of cells closed under what can be got at (`SharingProofs2.v`); `deepcopy` makes new cells that look the same (`SharingProofs.v`) |
| C90 | the messages of the errors name exactly what is wrong | a second transcription in which errors carry their text; without the text it is the first one (`ErrorProofs.v`); the texts are boxes (C74) whose lines are those of `SpecErrors.v` |
| C91 | the layout of a file does not matter | readers of two texts run in step (`LayoutProofs.v`), one way of changing a text at a time; all calls by equality of functions (`LayoutProofs2.v`) |
| C92 | the programs with the texts of all their files | the run on files simulates the run on tables (`FileProgProofs.v`), so C73's lemmas carry over (`FileProgProofs2.v`); unreadable files by cases (`FileProgProofs3.v`); layout by equality of functions (`LayoutProofs3.v`) |
| C93 | where the sections stand does not matter | the reader after other text runs in step with the reader at the start, with more names counted as duplicates (`PartsProofs.v`); cutting and joining by induction on the parts (`PartsProofs2.v`); answers and parses by C80 and C12 (`PartsProofs3.v`) |
| C94 | what the texts of exceptions and warnings say about a parse is true | the methods once more with their texts; forgetting the texts gives the runs of `Cpe.v` (`TextsProofs.v`); a triple for every method with the open sections as invariant, induction on the fuel (`TextsProofs2.v`); the accessors (`TextsProofs3.v`) |
| C95 | consistently renamed sections keep their options, results and answers | a relation between the events of the two walks, by induction on the walk (`RenameProofs.v`); the runs of related events; the answers from C12 on both sides; the requests of `SetEnvironment` (`RenameProofs2.v`) |
| C96 | kept views and kept dicts: no sharing, old ones stay as they are, answers as without references | views and dicts as addresses (`Views.v`); the runs in step with those of `Cpe.v` (`ViewsProofs2.v`); what every command keeps, by induction on programs (`ViewsProofs3.v`); answers from C12 (`ViewsProofs4.v`) |
| C97 | handlers that read other sections get what the file says and disturb no running parse | handlers as programs that read (`Reentrant.v`); simulation by a class whose handlers are told the answers, what a nested parse may change, induction on the nesting (`ReentrantProofs.v`, `ReentrantProofs2.v`); options do not depend on what handlers are told (`ReentrantProofs3.v`) |
| C98 | reads by handlers come to an end, even in a circle | two runs with different limits on the nesting agree while at most n sections are unparsed; strong induction on n (`NestedProofs.v`) |
| C99 | what handlers read is in the file | invariant of the data kept by every step, nested parses and failures included; handlers in Hoare style (`SoundProofs.v`) |
| C100 | no answer has an option that is not in the file, also after failures | invariant of the data kept by every call of the API, for all classes and files (`TruthProofs.v`) |
| C101 | handlers that read do not exhaust the recursion | Hoare triples with the unparsed sections and those in progress as measures; the section being parsed is never parsed again (`CalmProofs.v`) |
| C102 | options that have been answered stay | relation between the data before and after, kept by every call of the API, for all classes, files and states, also with handlers that read (`LastingProofs.v`, `LastingProofs2.v`) |

## 4. Findings

Behaviour of the code that a user would not expect. "(C..)" marks those stated
by a theorem or an example of that property.

Parsing
1. If DEFAULT `use`s the section being parsed, directly, parsing recurses until
   RecursionError; if it reaches it through other sections, no parse of that
   section returns (C06).
2. `parse_section("DEFAULT")` processes the options of DEFAULT twice: their handlers are called twice, the data is that of one pass (C79).
3. A parse that raises leaves the section marked as parsed: the next access
   returns the partial data without an error (C13).
4. Option keys whose first word is `initialize` or `finalize` call the hooks and
   are dropped from the data, but are not listed by `get_known_operations` (C18).
5. A public non-callable attribute `handler_x` hides a method `_handler_x`: the
   operation is listed and using it is a TypeError. Static callables are
   dispatched but not listed (C18).
6. `use` without a section name is an IndexError, an unbalanced quote in an
   option key a ValueError of `shlex` (C39).
7. In the cycle log entry, `sec-dst` is the operation word `use`, not the section,
   and the handler-exit of the `use` handler appears twice (C26).
8. A negative return code of a handler is treated like 1..10, a warning (C19).
9. The missing-section and cycle messages read `inifilepath`; if it was never
   set, ValueError is raised instead of KeyError (hypothesis of C08).

Data access
10. `has_option(missing, k)` raises KeyError the first time and returns False
    afterwards (C35); `get` after `set` on a section that is not in the file
    raises KeyError the first time (C36).
11. With a DEFAULT section in the file, `get`, `has_option` and `parse_section` on
    a missing name create data for that name (C35).
12. The order of `items()` depends on the history of accesses, and it may include
    the internal section CONFIGPARSERENHANCED_COMMON. A section of that name in
    a file is appended to every section, and can be indexed although
    `has_section` says False.
13. Assigning `inifilepath` does not drop the enhanced data (C14). A list with a
    bad entry leaves the entries before it as the new path (C14). On an object
    whose raw data were asked for before any path was set, the first path
    assigned is never read (C14).
14. After a missing file or a syntax error, the empty or partial raw data are
    cached, and the next access returns them without an error; only
    DuplicateOptionError is not sticky (C16).

Values, unrolling
15. `unroll_to_str` output does not read back for: missing values, values of
    several lines, values with quoted edge blanks, values with a percent sign,
    objects whose delimiters exclude the colon (C32).
16. `unroll_to_str` leaves `exception_control_level` at 0 if it raises (C31).
17. Interpolation sees the raw section only, not the sections it `use`s (C34). A
    reference to an option without value is a TypeError (C34).
18. `exception_control_event` given an exception instance below the threshold
    raises TypeError instead of printing (C21).

## 5. What is modelled, what is not

Modelled: all methods and properties of `ConfigParserEnhanced` and of
`ConfigParserEnhancedData` (section parsing, handlers, dispatch, logging, lazy
data, validators, unrolling, setters), `ExceptionControl`, `Debuggable`,
`typed_property`, `shlex.split`, `ConfigParser.read`/`items` with
`BasicInterpolation` as configured by the repository.

Simplified or left out:
* The console text of `debug_message` inside the parser (that it only prints is C37) and
  the texts of the exceptions that Python, `configparser`, `shlex` and handlers raise. The
  texts of the parser's own exceptions and warnings are in `Texts.v` (C94); `Cpe.v` has the
  exception *classes* only. The messages of the programs under `wip/` that choose names
  are modelled (C90).
* `handler_parameters` object identity in log records.
* Handlers that reach into parser internals (`data_internal`, changing levels,
  mutating `handler_parameters`): handlers act on the shared dict and on subclass
  state. Handlers that start the parser again by reading sections are modelled
  for C97 only (`Reentrant.v`), and act on the shared dict there. Subclasses that override
  `_generic_option_handler` or `_new_handler_parameters`; subclass properties
  evaluated by `inspect.getmembers`.
* Non-string arguments of `unroll_to_str`. References to `configparserenhanceddata`
  objects kept by a user are modelled for C96 only (`Views.v`).
* `pathlib` normalisation, text decoding errors, concurrent modification of
  files during one call.
* `\w`, `str.isspace`, `str.lower` outside ASCII: parameters or the ASCII
  behaviour, as said at each definition.

## 6. The programs under `wip/`

### `setenvironment` (`SetEnvironment.py`)

| part | files |
|---|---|
| free functions `envvar_*` on `os.environ` | model `EnvVar.v`, specification `SpecEnv.v`, proofs `EnvProofs.v`, properties `PropertiesEnv.v` (C41-C44) |
| class `SetEnvironment` | model `SetEnv.v` (on top of `Cpe.v`), specification `SpecSetEnv.v`, proofs `SetEnvProofs*.v`, properties `PropertiesSetEnv.v` (C45-C50) |
| the functions in the header of bash scripts, and bash itself as far as the scripts need it | model `Bash.v`, specification `SpecBash.v`, proofs `BashProofs.v`, `BashTextProofs.v`, properties `PropertiesBash.v` (C61-C63) |
| the Python scripts | model `PyScript.v`, proofs `PyScriptProofs.v`, properties `PropertiesPyScript.v` (C64) |
| `ModuleHelper.py` | model `ModuleHelper.v`, specification `SpecModule.v`, proofs `ModuleProofs.v`, properties `PropertiesModule.v` (C65-C66) |
| `pretty_print_actions`, `pretty_print_envvars` | model `Printers.v`, specification `SpecPrint.v`, proofs `PrintProofs.v`, properties `PropertiesPrint.v` (C76-C77). What is printed is the result of the model's function; Python's text of a dict (unhandled operations only, which never occur) is a parameter |

The environment is a dict of strings. The program search (`find_in_path`), the
module command (`ModuleHelper.module`) and the execution of Python text that is
not a call of one of the generated forms are parameters, so the theorems hold
for every behaviour of these. The generated command is a *text*, and
`exec_command` reads that text back as Python would (string literals, escapes,
comments): quoting is part of the model, not assumed.

Plan: C41-C44 direct from an inductive description of each operation; C45 from
the walk of `SpecWalk.v` and `SpecRun.v`; C46-C48 by induction over the action
list, C49-C50 likewise.

Not modelled: debug messages, the encoding of the
environment, arguments of wrong types, octal and `\x`, `\u`, `\N` escapes in
values (treated as "other Python text"), console output of
`ModuleHelper.py`. The header of the Python scripts is the source of the functions
`envvar_*` and `module` that `apply` uses; it is not parsed, `run_python` knows
these functions. `actions` holds the list by value; the code holds a
reference, which differs only if an option of the file calls `finalize`.

Findings
19. Values are pasted between double quotes into Python text that is executed. A
    quote in a value ends it, a backslash starts an escape (`C:\temp` gets a
    tab), and a value in the file can execute any Python text (C47).
20. `module-remove X` also drops operations on other modules whose version
    contains `X` (C45).
21. `apply` is not atomic (C46), and below exception control level 2 it reports
    success when the module command was killed by a signal (C48).
22. `actions` survives the assignment of `inifilepath` and of the delimiters, so
    that the generated script is the old one; after assigning delimiters it
    disagrees with what `apply` does (C50).
23. `remove_path_entry` leaves a variable set and empty where `prepend` found it
    unset, and drops equal entries that were there before (C43).
24. With `allow_empty=False` even `unset` is refused unless given a value (C44).

Bash. `Bash.v` transcribes the functions of the header (1620-1751) as programs
over a stack of local variables and the environment (dynamic scope; every
variable is exported), with word splitting, and `run_bash` reads the *text* of
the commands as bash does (comments, words, double quotes, references). The
header itself is not parsed: its functions are known to `run_bash`. Pathname
expansion, patterns, `sed` with special characters, `echo` with options,
`which`, `module` and command lines of any other form are parameters. Variables
that bash treats specially (`IFS`, `UID`, `RANDOM`, ...) are ordinary in the
model, so the theorems exclude them (`SpecBash.bash_names`). The rules of bash
used here were checked with small scripts of our own on bash 5.2; they are part
of the trusted base. The exit of a script is the result `ScriptExit`; for a
script read with `source` this ends the user's shell.

34. `envvar_remove_path_entry` of the script uses `${x#:1}` and `${x%:1}` where the
    first and last character were meant to be removed: the value gets a colon at
    each end (an empty `PATH` entry is the current directory), and a value that
    begins with `1` loses it; of two neighbouring equal entries one stays; an unset
    variable becomes `::` (C62).
35. `envvar_remove_substr` of the script does not quote: a value of several words,
    such as compiler flags, is cut to its first word; text is a regular expression,
    text with `#` is refused, an unset variable becomes set (C63).
36. A failing `module` command does not stop the script, a reference to an unset
    variable is dropped, appending an empty value exits, and variables called like
    the functions' own (`op`, `arg1`, `arg2`, ...) are never set (C61).
37. The Python script ignores what `module` returns, so a failing module command
    does not stop it; one value with a line break makes the whole script a syntax
    error (C64).
38. `module` with `modulecmd` reports a failure (`_mlstatus = False`) after the
    environment has changed, and on CPython 3.13 does not see it at all, because
    `exec` no longer sets the variables of the calling function (C65).
39. `module` for LMOD checks an unload with `module is-loaded X && false || true`,
    whose status is always 0: a failed unload or swap is never detected (C66).
40. Without `LMOD_CMD` the LMOD version raises `TypeError` (`len(None)`), not the
    `FileNotFoundError` meant for this case (C66).
41. One text of several words is split by the `modulecmd` version and is one
    argument in the LMOD version (C65, C66).

Observation, not modelled: `envvar_find_in_path` imports `distutils.spawn` outside
its `try`; the package does not exist from Python 3.12 on. The model takes the
search for a program as a parameter.

### `keywordparser` and `genconfig/src/config_keyword_parser.py`

| part | files |
|---|---|
| Python's `re`, as far as used | model `Regex.v` (backtracking matcher, `findall`, `search`), proofs about the expression of `KeywordParser` in `RegexProofs.v` |
| `KeywordParser` | model `Keyword.v`, on a file `KeywordFile.v`; specification `SpecKeyword.v`; proofs `KeywordProofs.v`, `KeywordFileProofs.v` |
| `ConfigKeywordParser` | model `Keyword.v`; specification `SpecFlags.v`; proofs `FlagsProofs*.v` |
| properties C51-C55 | `PropertiesKeyword.v` |

`self.config[section]` is a function `conf` of the section name. C51_from_file
proves that on a file that can be parsed this is what the object answers, after
any history. The matcher agrees with Python's `re` on generated strings (checked
outside the repository; it is part of the trusted base).

Plan: the regular expression is shown to find exactly the pieces of
`SpecKeyword.pieces` that are not blank (induction over the text); the checks
are decided by their specifications; the selection is an inductive relation that
determines its result; the caches keep an invariant over every history.

Not modelled here: messages (see the last part), the order in which
duplicates are printed.

Findings
25. `[^#^\n]` excludes the circumflex as well: `clang^12` is read as two values,
    and `a ^ ^ b` gives an empty value (C51).
26. The check for underscores lets `SELECT_ONE` and `SELECT_MANY` pass anywhere in
    the list, not only in first position; used as an option it breaks the
    canonical name (C54).

### `determinesystem`, `loadenv` and `genconfig/gen_config.py`: the names

| part | files |
|---|---|
| `DetermineSystem` | model `DetSys.v`, specification `SpecSystem.v`, proofs `SearchProofs.v`, `SystemProofs.v` |
| `EnvKeywordParser` | model `EnvKeyword.v`, specification `SpecSystem.v`, proofs `SearchProofs.v`, `EnvNameProofs.v` |
| `LoadEnv`, `GenConfig`: names, validation, listing | model `LoadEnv.v`, specification `SpecLoadEnv.v`, proofs `LoadEnvProofs.v`, `GenConfigProofs.v`, `FixedProofs.v` |
| properties C56-C60 | `PropertiesLoadEnv.v` |

The files are parameters: the sections with their keys, and `conf` as above (C88 proves
that this is what the objects see in their files, whatever is called). Keys
and names of environments are regular expressions. Those made of ordinary
characters, dots and stars after a character are modelled and specified
(`SpecSystem.like`); for any other expression the answer of `re.search` is the
parameter `other_re`, which may raise.

Plan: the matcher is shown to find exactly the texts of the inductive relation
`like` (induction over the expression, for every continuation); the decision is an
inductive relation that determines its result; the objects keep an invariant "each
cached value is what a new object would answer" over every history; for
`GenConfig` there is a second, weaker invariant for the states a failed validation
leaves. C60 combines C54, C56 and C57.

Not modelled here: argument parsing, `SetProgramOptionsCMake` (not in the
repository; a parameter), messages. `GenConfig`'s program is in the last part of
this section.

Findings
27. After an exit (`SystemExit` caught, as tests and notebooks do) the next read of
    `system_name` silently answers: the system that was refused, or `None` (C56).
28. A key in the file of systems that starts with `^` counts as the empty
    expression and names every host; generally everything from the first `^` on is
    ignored, though the file format promises regular expressions (C56).
29. The build name is lowered before system names are looked up, the system names
    are not: a system with an upper-case letter can never be named (C56).
30. Environment names are put into the expression unescaped: the dots in
    `intel-19.0.4` match any character (C57).
31. `env_stripped_build_name` keeps a system word written with upper-case letters
    and the parts of an environment name with an underscore (C58).
32. A failed `validate_config_specs_ini` leaves `force=True` and the name of the
    last section behind: `complete_config` read afterwards names another
    configuration (C59).
33. `list_configs` selects by the prefix alone: on `ats1` the configurations of
    `ats10` are listed too (C59).

### `loadenv/load_env.py`: the run

| part | files |
|---|---|
| `LoadEnv.load_set_environment`, `apply_env`, `write_load_matching_env`, `list_envs`, `main` | model `LoadRun.v`, specification `SpecLoadRun.v`, proofs `LoadRunProofs.v` (the check of the file), `LoadRunProofs2.v` (the program), `LoadRunProofs3.v` (the script in bash) |
| property C67 | `PropertiesLoadRun.v` |

The state is the `LoadEnv` object, its `SetEnvironment` object, `os.environ` and
the files written. Files that are read (`fs`) and files that are written are
separate; `writable` says which paths can be written. Console output is left out.
Options whose name makes the parser call the `finalize` hook (finding 4) are
excluded by the hypothesis `no_finalize_options`.

Plan: `loaded` is an invariant of the check of the file: each section that was
read has its actions recorded, each other section has none. At level 5 the check
returns only if no section has unhandled options. The rest composes C45, C48, C49
and C61.

Findings
42. `load_set_environment` keeps the object whose check failed: a caller that
    catches the `ValueError` and calls `apply_env` again gets the environment
    applied, and a script written, from the file that was refused (C67).
43. `write_load_matching_env` deletes the script before it generates the new one:
    if the generation raises, the old script is lost (C67).

### `genconfig/gen_config.py`: the run

| part | files |
|---|---|
| `GenConfig.write_cmake_fragment`, `generated_config_flags_str` (the text), `load_env_args`, `main` | model `GenRun.v`, specification `SpecGenRun.v`, proofs `GenRunProofs.v` |
| property C68 | `PropertiesGenRun.v` |

The state is the `GenConfig` object, the path of the fragment it has written, the
files written and the lines the user will enter. Constructing
`SetProgramOptionsCMake` and its `gen_option_list` are one parameter `gen`; the
order of their errors relative to those of the validation is therefore not
modelled. A file that cannot be written counts as one that cannot be opened;
`unlink` always succeeds; a disk that gets full is not modelled. The two commands of
`gen-config.sh` that use the texts unquoted (`cmake $cmake_args`,
`source load-env.sh ${load_env_call_args}`) are covered by the word splitting of
`Bash.v`; the rest of that script is not modelled.

Plan: a case analysis of a run from a new object, with C59 for the options, an
induction over the answers for the dialogue, over the options for the words, and a
frame argument (each step leaves all other files alone) for arbitrary states.

Findings
44. The text of options for cmake is joined with a backslash and a line end, as in a
    command that is typed. `gen-config.sh` expands it unquoted, where a backslash is
    an ordinary character: cmake is called with an additional argument `\` between
    any two options. Quotes within options are passed on literally for the same
    reason (C68).
45. Whenever the configuration cannot be determined, an empty
    `bash_cmake_args_from_gen_config_*` file stays in `/tmp/$USER`: the file is
    opened before the text is computed (C68).
46. Just pressing return at the question whether to overwrite a fragment raises
    `IndexError` (C68).
47. The arguments for LoadEnv are saved joined with blanks and split again by bash: a
    path with a blank becomes two arguments, an empty build name disappears (C68).
48. `cleanup_gc; return $?` in `gen-config.sh` returns the status
    of `cleanup_gc`, which is 0: the script reports success after `gen_config.py`
    failed.

### The top-level files `load-env.ini` and `gen-config.ini`

| part | files |
|---|---|
| `LoadEnv.parse_top_level_config_file` and the files in `LoadEnv.args`; `GenConfig.gen_config_config_data`, `validate_gen_config_config_data` and the files in `GenConfig.args` | model `TopLevel.v` (with the part of `pathlib` they use), specification `SpecTop.v`, proofs `TopProofs.v` (paths), `TopProofs2.v` (one key), `TopProofs3.v` (the loop), `TopProofs4.v` (the programs) |
| property C69 | `PropertiesTop.v` |

A path is a root and a list of names, as in `pathlib.PurePosixPath`: empty names and
`.` are dropped, `..` stays. `Path.exists` (which files are there) and `Path.resolve`
are parameters. `args` is modelled as what it computes when first read; the parsing of
the command line is not modelled here (see "Command lines" below), only the five
options that override a file. Texts of
exceptions are left out.

Plan: the values are strings in the dict the data object hands out; C12 and its
relatives say what that dict is. The loop over the keys is then a pure function on
dicts, and its second run is the identity when the directory is absolute, as every
completed value is absolute then.

Findings
49. `GenConfig` validates, and completes, at every access to
    `gen_config_config_data`; `args` makes two. With a relative `gen_config_ini_file`
    a relative value is prefixed with the directory twice, and `args` raises
    `ValueError` though every file is there (C69). The default path is absolute;
    `LoadEnv` completes only once.
50. Files given on the command line do not make the entries of the top-level file
    superfluous: one that is missing, empty or (`GenConfig`) names no existing file is
    a `ValueError` even if all files are given as options (C69).
51. (By reading only.) The message about a file that does not exist appends `.ini` to
    the path it has looked for.

### The shell scripts `load-env.sh` and `gen-config.sh`

| code | files |
|---|---|
| `wip/loadenv/load-env.sh` | model `LoadSh.v`, specification `SpecSh.v`, proofs `ShProofs.v` (the script), `ShProofs2.v` (with `load_env.py`) |
| `wip/genconfig/gen-config.sh` | model `GenSh.v`, specification `SpecGenSh.v`, proofs `GenShProofs.v`, `GenShProofs2.v` (with `gen_config.py`, `load_env.py` and cmake) |
| properties C70, C71 | `PropertiesSh.v`, `PropertiesGenSh.v` |

The state is that of the user's shell: variables, functions, the trap, files, and
the list of programs that were started with their arguments. `python3`, `cmake`, the
new interactive shell, `which python3` and the version test are arbitrary functions;
so is the execution of the environment's script, except in the theorems that join it
to `run_bash` (C61) and to the models of `load_env.py` (C67) and `gen_config.py`
(C68). Those end-to-end theorems (`C70_environment`, `C71_build_configured`) go from
the command the user types to the variables of the shell and to the command line of
cmake. Unquoted expansions are split as in `Bash.v`; the theorems ask for arguments
without blanks and pattern characters, and the refuted statements show what happens
otherwise.

Not modelled: output, signals, `sleep`, `set -e` and other options of the user's
shell, failing `rm`/`cat` on files that exist, directories (a path is a file or is
not there, but for the test of the source directory), symbolic links, the export
attribute (every variable is seen by the programs), and a script of an environment
that redefines `cleanup`. The variables that a program sees are not assumed to be
those of the user where the script has set its own (`same_but load_names`).

Findings:

52. When nothing is loaded, `cleanup` runs with `env_file` unset, or with the user's
    own variable of that name: it deletes a file `rc` in the current directory, or the
    file the variable names (C70).
53. `.load_matching_env_loc.$RANDOM` is never removed from the current directory
    (C70).
54. Variables and functions of the user with the names the scripts use are lost, and
    so is the user's trap for SIGHUP, SIGINT and SIGTERM; `env_file_rc`,
    `load_matching_env_loc` and `run_gen_config_helper_cmd` stay behind (C70, C71).
55. `--ci-mode`, `--help` and `--cmake-fragment` are looked for in the text of all
    arguments: `--comment=no--ci-mode` loads the environment into the user's shell
    (C70).
56. `$@` is not quoted: an argument with a blank arrives as two (C70).
57. If `load_env.py` writes no location (`--help`), the status is 0 and nothing was
    loaded (C70).
58. With `--output NAMErc` (or any script whose name with the last two characters
    replaced by `rc` is itself) the script is overwritten by a text that sources
    itself: the environment is not loaded, and bash recurses without end; in the model
    the text is executed as one that does nothing (C70).
59. `gen-config.sh` returns 0 when `gen_config.py` refuses the build name, when
    `load_env.py` fails and whatever the status of cmake is (C71; see also 48).
60. With `--cmake-fragment` and no directory, cmake is started nevertheless if the
    user has a variable `path_to_src` and an earlier run left
    `/tmp/$USER/.bash_cmake_args_loc` (C71).

### Command lines

| code | files |
|---|---|
| `argparse` as `load_env.py` (419-520) and `gen_config.py` (418-496) use it | model `ArgParse.v`, specification `SpecArgs.v`, proofs `ArgProofs.v` (words), `ArgProofs2.v` (lines), `ArgProofs3.v` (settings, help), `ArgProofs4.v` (the two programs) |
| property C72 | `PropertiesArgs.v` |

`ArgParse.v` follows the text of `argparse.py` of Python 3.11 (`parse_args`,
`_parse_known_args` with `consume_optional` and `consume_positionals`,
`_parse_optional`, `_get_option_tuples`, `_match_argument` for the patterns that the
two programs need, `_get_values`), restricted to what the two parsers use: flags,
options with one value (`type=lambda p: Path(p).resolve()`), help, and one positional
argument with `nargs="?"`. Other versions of Python treat some lines differently
(for instance `--` after the build name, and joined letters with `=`). The
specification is a grammar of lines (`reading`) and a table of what the events of a
line mean (`settles`); it does not mention patterns, tuples, the loop or the
namespace that is built up. Not modelled: messages, `@file` arguments, subparsers,
the encoding of the arguments. `resolve` is an arbitrary function; the digits outside
ASCII are an arbitrary set.

Findings:

61. The parsers accept abbreviations, the shell scripts do not: `load-env.sh --ci
    BUILD` is accepted by `load_env.py` as `--ci-mode`, but the script opens a new
    shell; `gen-config.sh --cmake FILE BUILD` is refused for want of a directory;
    `gen-config.sh -h DIR` is not taken for a request for help, so that the script goes
    on with whatever files an earlier run left behind (C72 for the parsers and for what
    the scripts look for; what the scripts then do is read off their text).
62. A build name that begins with a dash, accepted by `gen_config.py` after `--` or
    because it has a blank, makes the saved command line of LoadEnv one that is
    rejected, or that means something else: with the name `-o x` LoadEnv sees the
    option `-o` and no build name (C72).
63. `load_env.py BUILD --` and `load_env.py -f BUILD --` are accepted, but
    `load_env.py BUILD -f --` is not; and `gen-config.sh BUILD -- DIR` fails, since the
    script appends `--save-load-env-args` (C72 for the lines given to the parser).

### The programs as a whole

| code | files |
|---|---|
| `main` of `load_env.py` and `gen_config.py`, `LoadEnv.args`, `GenConfig.args`, `GenConfig.load_env` as far as it makes the `LoadEnv` object | model `Programs.v`, specification `SpecPrograms.v`, proofs `ProgProofs.v` (settings), `ProgProofs2.v` (the line of the script and the saved line), `ProgProofs3.v` (programs), `ProgProofs4.v` (programs started by the scripts) |
| property C73 | `PropertiesPrograms.v` |

`Programs.v` joins the models of the parsers (C72), of the top-level files (C69) and
of the programs (C67, C68): the argument is the list of words, the result is the
status and the files. The end-to-end theorems put these programs into the scripts of
C70 and C71, so that nothing of the programs is left arbitrary but what is listed here.

- `real p` is the name of the file with path `p`: `str(p.resolve())` for the program,
  the name the shell uses for the shell. The dictionary of files has one name for each
  file, so the name of the location file (`.load_matching_env_loc.N`, relative) stands
  for the absolute one (`settled`).
- The three ini files of systems, environments and configurations enter as functions
  of their names (`systems_in`, `envs_in`, `flags_in`, `specs_in`, `gen_in`), as in
  C56-C60. The top-level files and `environment-specs.ini` are texts in `fs`.
- What `gen_config.py` does when it cannot make a `LoadEnv` object (the top-level file
  of LoadEnv is unusable, or a file name or the build name begins with a dash) is the
  arbitrary function `without_loadenv`. The theorems exclude the case.
- An uncaught exception and `sys.exit(message)` are status 1; `sys.exit()` is 0.
- The files on disk that the programs read do not change while they run.

Findings:

64. `load_env.py --help` needs a readable `load-env.ini` with all three values: the
    top-level file is read before the command line. `gen_config.py --help` does not
    (C73).
65. `gen_config.py --list-config-flags` ends with status 1, since the list is passed to
    `sys.exit`, while `--list-configs` and `load_env.py --list-envs` end with 0 (C73).

### Messages and lists

| code | files |
|---|---|
| `FormattedMsg.py`; `get_msg_showing_supported_environments` (`EnvKeywordParser.py` 214-233), `get_msg_showing_supported_flags` (`config_keyword_parser.py` 234-249), and the texts of `list_envs`, `list_config_flags`, `list_configs` | model `Messages.v`, specification `SpecMessages.v`, proofs `MsgProofs.v` (lines and boxes), `MsgProofs2.v` (items, environments), `MsgProofs3.v` (the three lists), `MsgProofs4.v` (checks for examples) |
| properties C74, C75 | `PropertiesMessages.v` |

`str.splitlines` and `re.sub` (with `\s+\n`, on the regular expressions of `Regex.v`) are
modelled as in CPython 3.11. The names of files that appear in the texts
(`os.path.relpath`, `str(path)`) are parameters. The texts that errors print with the
same functions are joined to the exceptions in `Errors.v` (see below); elsewhere
exceptions are classes.

Findings:

66. A list item that contains a line feed is printed as several lines and can look like
    several items; white space at the end of items is dropped (C74).
67. `get_formatted_msg("", kind=...)` prints a box without the kind (C74).

### Printers

68. `pretty_print_actions` prints a missing value as `None`, as it prints the value
    `None`; `module-swap` with a blank in a name is ambiguous (C76).
69. It prints operations with underscores; the documented listing has hyphens (C76).
70. In `pretty_print_envvars` a value with a line feed can look like another variable
    (C77).
71. `use B` means the options of `B` pasted in its place only if `B` is not on a `use`
    cycle: which of the sections on a cycle is skipped depends on where the cycle is
    entered, so pasting can change the order of the options (`C81_on_cycle_refuted`).
72. A section that is used twice is read twice, so a file of 3n+2 lines can need 2^n
    handler calls (`C82_exponential`); nothing is remembered between two uses.
73. The order of the words of a build name matters if the name of an environment has a dot
    or an underscore: with `gnu.8`, `intel_gnu_8` means `gnu.8` and `8_intel_gnu` means
    `intel` (`C87_dotted_name_refuted`, `C87_underscore_refuted`).
74. A word of a build name that names nothing is not reported: `gnu_relaese` silently
    means the default build type (`C87_unknown_word_refuted`).

### Objects on files

| code | files |
|---|---|
| the objects of `KeywordParser.py`, `config_keyword_parser.py`, `DetermineSystem.py`, `EnvKeywordParser.py`, `load_env.py` and `gen_config.py` with the `ConfigParserEnhanced` objects they look things up in | model `FileObjects.v`, specification `SpecObjects.v`, proofs `ObjectProofs.v`, `ObjectProofs2.v`, `ObjectProofs3.v` |
| property C88 | `PropertiesObjects.v` |

`FileObjects.v` is a second transcription of the same methods, in which each lookup is a
call on a parser object. C88 shows that it has the same answers as the transcription with
tables, which the other properties are about. The names of the sections of
`config-specs.ini` are a parameter here; C92 takes them from the text of the file.

Finding:

75. A `DetermineSystem` object whose file has a section that cannot be parsed raises
    `KeyError` the first time `system_name` is asked and skips the section the second
    time, so it may answer with another system; if the file is missing, the second error
    is another one (`C88_unparsable_refuted`, `C88_missing_file_refuted`).
76. `test_bash_cmake_flags_generated_correctly` and the tests of the fragment file in
    `test_integration_gen_config.py` cannot pass: `test-config-specs.ini` has supporting
    sections whose names are not in capitals, which the validation takes for
    configurations (`cmake_flags_test` in `RepoToolTests.v`).

### Typed properties with values that can change

`TypedProp.v` (C24, C25) has values that never change. `Sharing.v` has a heap of lists,
objects with one typed property, and programs with variables that read, assign and delete
the property and make, change and take apart lists; `SpecSharing.v` says what a value
looks like (a tree) and which lists can be got at; the properties are in
`PropertiesSharing.v`. Lists stand for all containers that can change (dicts, sets and
objects with their own `__deepcopy__` are not there), `default_factory` is `list`, and
`transform` and `validator` are left out. `deepcopy` keeps its memo, so a default in which
a list occurs twice, or contains itself, is copied as Python copies it; the theorems about
what the copy looks like are for defaults without cycles.

Findings:

77. `internal_type=list` (used for `params` of `HandlerParameters`) copies only
    the outer list of an assigned value (`C89_nested_list_refuted`).
78. Without `internal_type` an assigned list is stored as it is, so two objects that are
    assigned the same list change together, although the defaults are protected from that
    by a deep copy (`C89_assigned_list_refuted`).

### Messages of errors

| code | files |
|---|---|
| the errors of `KeywordParser.py`, `config_keyword_parser.py`, `EnvKeywordParser.py`, `DetermineSystem.py`, `load_env.py` (names) and `gen_config.py` (names, validation) with their texts | model `Errors.v`, specification `SpecErrors.v`, proofs `ErrorProofs.v` (the same outcomes), `ErrorProofs2.v` (values, options), `ErrorProofs3.v` (systems, environments), `ErrorProofs4.v` (sections), `ErrorProofs5.v` (statements) |
| property C90 | `PropertiesErrors.v` |

`list(set(l))` gives the elements in an order that depends on the hashes: `set_list` is
any function with `set_order`. `textwrap.fill` is the parameter `fill`: what is shown is
what it gives for the stated text. The names of the files are parameters. Errors whose
text comes from Python itself (`KeyError`, `IndexError`) have none. The texts of the errors
about `load-env.ini`, `gen-config.ini`, paths and command lines are not modelled.

Findings:

79. The message about options of several flags has "in which they appear" for one option
    and "in which it appears" for several (`options_twice_report`).
80. Two sections may be asked to take the same name, so following the message gives a
    duplicate section, which `ConfigParser` refuses
    (`C90_corrected_names_distinct_refuted`).
81. The message about a missing file in `gen_config.py` (336-341) appends `.ini` to the
    path, which has it already (read, not modelled).

### The layout of a file

| code | files |
|---|---|
| `configparser.py` `_read`, as in `IniRead.v` | specification `SpecLayout.v`, proofs `LayoutProofs.v` (reading), `LayoutProofs2.v` (all calls) |
| property C91 | `PropertiesLayout.v` |

Findings:

82. A comment after a value on the same line belongs to the value, since the parser is made
    without `inline_comment_prefixes` (`C91_inline_comment_refuted`).
83. An option that is indented more than the one before it becomes part of that one's value
    without any warning (`C91_indented_option_refuted`); the same holds for an operation
    such as `use`, which is then not carried out.

### The programs with all their files

| code | files |
|---|---|
| `main` of `load_env.py` and `gen_config.py` on the objects of `FileObjects.v` | model `FilePrograms.v`, specification `SpecFilePrograms.v`, proofs `FileProgProofs.v` (simulation), `FileProgProofs2.v` (programs and scripts), `FileProgProofs3.v` (files that cannot be read), `LayoutProofs3.v` (layout) |
| property C92 | `PropertiesFilePrograms.v` |

C73 has tables in place of four of the files. Here all `.ini` files are texts in `fs`. The
names of the sections of `config-specs.ini` are those that the text has:
`SetProgramOptionsCMake`, which is not in the repository, is taken to open it with
`ConfigParserEnhanced` as its name and use suggest. What it generates from a section
(`gen_in`) stays a parameter, as do `real`, `without_loadenv` and the shell's part of C73.
C92 about unreadable files needs no table at all.

Finding:

84. `gen_config.py` makes the file for the arguments of `cmake`, under a new name, before it
    reads the files of systems, environments, flags and configurations: if one of them is
    missing, an empty file stays in `/tmp/$USER`, and `.bash_cmake_args_loc` still names
    the file of the run before (`C92_gen_config_unreadable`).

### Texts in parts

| code | files |
|---|---|
| `configparser.py` `_read` as in `IniRead.v`; all calls of `Cpe.v` | specification `SpecParts.v`, proofs `PartsProofs.v` (readers in step), `PartsProofs2.v` (cutting, joining, moving), `PartsProofs3.v` (answers and parses) |
| property C93 | `PropertiesParts.v` |

Findings:

85. Two files with a section in common can be read one after the other, their sections are
    merged; the file with the lines of both cannot be read (`C93_common_section_refuted`).
86. A header that is indented more than the option before it is a line of that option's
    value; as the first line of a file of its own the same line is a header
    (`C93_indented_header_refuted`).
87. The order of the internal defaults is the order of the options of every section, so
    moving one of two default sections is visible (`C93_default_order_refuted`); the order
    of the other sections is not, except where the sections are listed.

### Texts of exceptions and warnings

| code | files |
|---|---|
| `ConfigParserEnhanced.py` 186-292, 653-783, 890-1024, 1126-1243, 1279-1316, 1584-1587, 1639-1747, 1787-1816 with the texts; `ExceptionControl.py` 269-311 (the line with the message) | model `Texts.v`, specification `SpecTexts.v`, proofs `TextsProofs.v` (the same runs), `TextsProofs2.v` (parse), `TextsProofs3.v` (accessors), `TextsProofs4.v` (statements) |
| property C94 | `PropertiesTexts.v` |

`Texts.v` transcribes the methods of `Cpe.v` again, as computations that also return the
texts; `C94_same_run` says that nothing else differs. Parameters: the working directory and
how Python displays a list of `Path`s. Of what a skipped event prints only the text is
kept (the other lines are those of `ExcControl.v`). The text of `_validate_parameter`, which
displays an arbitrary object, is left out, as is that of an event about a return value that
is not a number. C94 assumes, as C12 does, that the default section does not lead back to the
parsed one (`default_ok`).

Finding:

88. `view[s]` and `options(s)` of the enhanced data turn every `KeyError` of the parse,
    which names the section that is missing, into "Reached 'unreachable' code? Please
    notify developers of this" (`C94_getitem_names_missing_refuted`); `C94_getitem` says that
    this, or `s`, is the text of every `KeyError` there. `get` and `has_option` keep the text.

### Names of sections

| code | files |
|---|---|
| all calls of `Cpe.v` about one section, the actions of `SetEnv.v` | specification `SpecRename.v`, proofs `RenameProofs.v`, `RenameProofs2.v` (environments; a check for concrete files) |
| property C95 | `PropertiesRename.v` |

The renamed options are described by what they mean (`meaning` of `SpecWalk.v`): the same
option, or a `use` of the new name with any quoting and value. `C95_parse` assumes that the
handlers of the class treat the names alike; without this it is false, as a handler is told
the section it is called for (`C95_parse_any_handlers_refuted`).

### References that the caller keeps

| code | files |
|---|---|
| `ConfigParserEnhanced.py` 295-400 (delimiters, the view), 1445-1816 (the view's methods) and the parse, with the views and the dicts of sections as addresses | model `Views.v`, specification `SpecViews.v`, proofs `ViewsProofs.v` (states), `ViewsProofs2.v` (the same runs), `ViewsProofs3.v` (programs), `ViewsProofs4.v` (answers) |
| property C96 | `PropertiesViews.v` |

In `Cpe.v` the enhanced data are a value inside the object. `Views.v` has them as Python
does: a list of views and a list of dicts, and names for them that the caller may keep. A
handler of a subclass is, as in `Cpe.v`, a function of the shared data and the subclass's
own state, so it keeps no views. The dict that `items()` returns for the whole view is not
modelled.

Finding:

89. A view that is kept across a change of `configparser_delimiters` does not find the
    sections that had not been read through it (`C96_every_view_finds_refuted`): it has its
    owner parse the section, whose options go to the owner's new view, and then raises
    `KeyError` for a section that is in the file. `has_section` of it answers `False`
    (`C96_old_view_has`). For a section that had only been used by another one it gives
    an empty dict (`C96_ex`).

### Handlers that read other sections

| code | files |
|---|---|
| `ConfigParserEnhanced.py` 653-1316 (the parse and the handlers) with handlers that call `self.configparserenhanceddata[s]` (1584-1587, 1639-1660, 1787-1816) | model `Reentrant.v`, specification `SpecReentrant.v`, proofs `ReentrantProofs.v` (one parse), `ReentrantProofs2.v` (nesting, histories), `ReentrantProofs3.v` (options), `SamplesReentrant.v` (for the examples) |
| how deep reads are nested | specification `SpecNested.v`, proofs `NestedProofs.v`, `SamplesNested.v` (for the example) |
| where the options that are read come from | specification `SpecSound.v`, proofs `SoundProofs.v`, `SamplesSound.v` (for the examples) |
| when there is no `RecursionError` | specification `SpecQuiet.v`, proofs `CalmProofs.v`, `SamplesQuiet.v` (for the example) |
| properties C97, C98, C99, C101 | `PropertiesReentrant.v`, `PropertiesNested.v`, `PropertiesSound.v`, `PropertiesQuiet.v` |

A handler is a tree (`hprog`): it ends, or reads a section and goes on with the answer,
which may be an exception. It acts on the shared dict and not on subclass state. The
parts of the parser that call handlers are transcribed again from the same lines as in
`Cpe.v`; the others are those of `Cpe.v`. Nested reads and nested `use`s have a bound each,
and end in `RecursionError` beyond it; the theorems of C97 need the bound on reads to be no
less than the highest rank. C98 says that a bound above the number of sections is never
reached, whatever the handlers do; C101 says it of both bounds, for default sections that do
not lead to a section that is parsed (for the others see C06). Handlers that call `parse_section` themselves are not modelled.

Findings:

90. A handler that reads a section whose parse is still running gets the options read so
    far, without any sign that more will come (`C97_no_rank_refuted`). There, two sections
    have handlers that read each other and want an option that both have; reading the
    first raises the `KeyError` of the other one's handler.
91. The value of an option that such a handler is given may be one that no section has in
    the end, because a later option of the same parse replaces it
    (`C99_final_refuted`).

### Answers after failures

| code | files |
|---|---|
| the calls of `SpecApi.v` on the model of `Cpe.v` | specification `SpecTruth.v`, proofs `TruthProofs.v`, `SamplesTruth.v` (for the example) |
| property C100 | `PropertiesTruth.v` |

C12 says what the answers are if all sections can be parsed. C100 is about all files and
says less: what is answered is in the file, but it need not be complete (C13).

### Answers that stay

| code | files |
|---|---|
| the calls of `SpecApi.v` on the model of `Cpe.v`; parses and reads of `Reentrant.v` | proofs `LastingProofs.v`, `LastingProofs2.v`, `SamplesLasting.v` (for the examples) |
| property C102 | `PropertiesLasting.v` |

C102 is about calls on the same file; for a new file or new delimiters see C14 and C15.

Finding:

92. An answer of `data[s]` can be replaced by another one, though the file is the same
    (`C102_same_refuted`). A section with a cycle is given up at level 5 and answered with
    the options before the cycle; after a `parse_section` at level 4 there are more
    options, and one of the first ones has another value.
