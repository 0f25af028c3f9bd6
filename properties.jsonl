{"id": "C01", "title": "use is depth-first textual inclusion", "statement": "When parse_section(s) (or any lazy access that parses s) finishes without raising, configparserenhanceddata[s] is exactly the dict obtained by writing, in order, every unhandled option met on a depth-first walk: first the walk of the default section (when it exists and initialize is on), then the walk of s, where 'use T' is replaced in place by the walk of T and is skipped when T is already on the current chain of sections.", "quantifier": "every loaded .ini content (any number of sections, any use graph incl. cycles and diamonds), every subclass handler table, every prior object state, every root section", "why_tests_cant": "the use graph is arbitrary; tests exercise a handful of small graphs, the law must hold for every graph shape and depth", "anchors": ["src/configparserenhanced/ConfigParserEnhanced.py: parse_section, _parse_section_r, _handler_use, _launch_generic_option_handler", "ConfigParserEnhancedData.set/add_section"]}
{"id": "C02", "title": "Last visited value wins, first visited position is kept", "statement": "After a successful parse of s the value stored for key k is the value of the last unhandled occurrence of k in the depth-first expansion, and keys are ordered by their first occurrence.", "quantifier": "every config, root, and key", "why_tests_cant": "depends on all interleavings of overlapping keys across arbitrarily nested sections", "anchors": ["src/configparserenhanced/ConfigParserEnhanced.py: _parse_section_r, ConfigParserEnhancedData.set"]}
{"id": "C03", "title": "Exactly the transitive closure contributes", "statement": "After a successful parse of s on a fresh object, k is a key of configparserenhanceddata[s] iff k is an unhandled option of a section reachable by use links from s or (initialize on) from the default section.", "quantifier": "every config, root and key; unbounded reachability", "why_tests_cant": "reachability is a closure over unbounded chains", "anchors": ["src/configparserenhanced/ConfigParserEnhanced.py: _parse_section_r, _handler_use"]}
{"id": "C04", "title": "Handled options never appear in the data", "statement": "A key whose first token names an operation that has a handler (public or private) is never written into configparserenhanceddata by a parse; every other key is.", "quantifier": "every key string, handler table, config", "why_tests_cant": "ranges over all key strings and handler tables", "anchors": ["src/configparserenhanced/ConfigParserEnhanced.py: _parse_section_r, _locate_handler_method, configparserenhanceddata"]}
{"id": "C05", "title": "Parsing terminates: recursion depth is bounded by the number of sections", "statement": "If the default section does not reach the root through use links (or does not exist, or initialize=False, or is itself the root), parse_section never nests more than the number of sections plus three section parses, so it never hits a recursion limit above that bound, whatever cycles the use graph has.", "quantifier": "every config incl. cyclic graphs, every handler table, every recursion limit above the bound", "why_tests_cant": "termination over all graphs", "anchors": ["src/configparserenhanced/ConfigParserEnhanced.py: _parse_section_r, _handler_use"]}
{"id": "C06", "title": "A default section that reaches the root breaks parsing", "statement": "If the default section reaches the root section through use links (root not the default section itself, initialize on), parse_section(root) never returns normally, at any exception control level and any recursion limit: it raises KeyError, RecursionError or an earlier error. A direct 'use root' in the default section recurses without bound.", "quantifier": "every config with such a link chain, every handler table and state, every recursion limit", "why_tests_cant": "a non-termination / never-succeeds claim cannot be tested", "anchors": ["src/configparserenhanced/ConfigParserEnhanced.py: _parse_section_r (initialize branch), _handler_use"]}
{"id": "C07", "title": "Cycles are reported exactly when they exist", "statement": "When all use targets exist and keys are well formed, parsing with the base class raises ValueError at exception control level 5 iff some cycle is met in the expansion; at level 4 or lower a cycle never raises and only the repeated inclusion is skipped.", "quantifier": "every config, root, level", "why_tests_cant": "ranges over all graphs", "anchors": ["src/configparserenhanced/ConfigParserEnhanced.py: _handler_use", "src/configparserenhanced/ExceptionControl.py: exception_control_event"]}
{"id": "C08", "title": "Missing sections raise KeyError", "statement": "With inifilepath set, exception control level below 5 and otherwise well-formed sections, parse_section(s) for a section that is not in the file, or whose expansion first meets a use of a section not in the file, raises KeyError; options visited before the missing target have already been applied.", "quantifier": "every config and chain leading to the missing section", "why_tests_cant": "arbitrary depth of the dangling link", "anchors": ["src/configparserenhanced/ConfigParserEnhanced.py: _parse_section_r"]}
{"id": "C09", "title": "Default section is applied first and is overridden by the section", "statement": "With a default section present, every unhandled option in its expansion is visible in configparserenhanceddata[s] unless s's own expansion sets the same key, in which case s's value wins; with initialize=False nothing from the default section appears unless used explicitly.", "quantifier": "every config, root, key", "why_tests_cant": "every overlap pattern", "anchors": ["src/configparserenhanced/ConfigParserEnhanced.py: _parse_section_r", "doc/source/ConfigParserEnhanced.rst: Dealing with DEFAULT sections"]}
{"id": "C10", "title": "Parsing a section leaves other sections' data alone", "statement": "parse_section(s), whether it returns or raises, changes no option of any other section of configparserenhanceddata; the only other effect on the data is that sections met on the way exist as (possibly empty) entries.", "quantifier": "every config, handler table, prior state, section t different from s", "why_tests_cant": "frame property over all states", "anchors": ["src/configparserenhanced/ConfigParserEnhanced.py: _parse_section_r, _launch_generic_option_handler, add_section, set"]}
{"id": "C11", "title": "Re-parsing is idempotent", "statement": "Parsing s again (parse_section or sections(parse='force')) after a successful parse of s leaves configparserenhanceddata unchanged, including key order.", "quantifier": "every config, root, state reached by a successful parse", "why_tests_cant": "all configs", "anchors": ["src/configparserenhanced/ConfigParserEnhanced.py: sections, _parse_owner_section, parse_section"]}
{"id": "C12", "title": "Lazy evaluation is transparent", "statement": "For a file in which every section parses cleanly, the answer of every call on the object and its enhanced data ([], get, options, has_section, has_option, items, sections, keys, len, validation, unrolling, known operations) whose section argument is in the file, made after any finite history of such calls (some of which may raise) and of level changes, is determined by the file and the current exception level: two histories ending at the same level give the same answers, those of a freshly created object. items() is compared per section: its order does depend on the history.", "quantifier": "every clean config, every class with well-behaved handlers, every finite history of calls in any order", "why_tests_cant": "histories are unbounded", "anchors": ["src/configparserenhanced/ConfigParserEnhanced.py: ConfigParserEnhancedData"]}
{"id": "C13", "title": "A failed parse is cached as if it had succeeded", "statement": "Documented expectation: an access to a section either returns the full parse or raises. The code marks a section as checked before parsing it, so after a parse that raised, every later access of that section returns the partial data without raising (exactly when the section name is in the file).", "quantifier": "every config and section whose parse raises after the section has been entered", "why_tests_cant": "histories with failures", "anchors": ["src/configparserenhanced/ConfigParserEnhanced.py: _parse_section_r (sections_checked), has_section, get"]}
{"id": "C14", "title": "Changing inifilepath", "statement": "Assigning inifilepath on an object that already had a path drops the raw configparserdata and the log, so the next raw access reads the new file(s); it does not drop configparserenhanceddata, so a section parsed before keeps returning the old file's options, while a section not parsed before follows the new file. An entry that is not a path raises TypeError and leaves the entries before it as the new path. (It fails for the first assignment after a failed raw access: that file is never read.)", "quantifier": "every pair of file contents, every history of section accesses before the assignment", "why_tests_cant": "pairs of arbitrary files and histories", "anchors": ["src/configparserenhanced/ConfigParserEnhanced.py: inifilepath setter"]}
{"id": "C15", "title": "Changing configparser_delimiters resets everything", "statement": "After assigning configparser_delimiters, every observable of the object (raw data, enhanced data, last result, log) is, now and after any further calls, what a new object with the same path, levels, delimiters and subclass state would show; a value of the wrong type raises TypeError and changes nothing.", "quantifier": "every prior history", "why_tests_cant": "all histories", "anchors": ["src/configparserenhanced/ConfigParserEnhanced.py: configparser_delimiters setter, _reset_configparserdata"]}
{"id": "C16", "title": "Load errors: which are sticky", "statement": "A failing first access to configparserdata raises; if the failure is a duplicate option the next access raises again, but for a missing file, an unset path, a duplicate section, a missing header or a parsing error, the next access returns without raising a parser holding only what was read before the failure (nothing, for a missing file).", "quantifier": "every file list and content", "why_tests_cant": "every failing content and position", "anchors": ["src/configparserenhanced/ConfigParserEnhanced.py: configparserdata"]}
{"id": "C17", "title": "Handler dispatch", "statement": "For every option key whose first token is an operation word, the handler run is handler_<op> if present, else _handler_<op>, else the option is generic, with '-' and '_' interchangeable in the operation; if both exist an AmbiguousHandlerError is raised iff exception_control_level >= 3.", "quantifier": "every key, attribute table, level", "why_tests_cant": "all strings and tables", "anchors": ["src/configparserenhanced/ConfigParserEnhanced.py: _locate_handler_method, _apply_transformation_to_operation"]}
{"id": "C18", "title": "get_known_operations agrees with dispatch", "statement": "An operation other than initialize/finalize is listed by get_known_operations iff an option with that operation is dispatched to a handler method, provided every handler attribute of the class is a bound method; initialize and finalize are not listed although options with these names are dispatched (and swallowed). Without the proviso it is false: a static callable is dispatched but not listed, and an uncallable public attribute that hides a private method is listed but raises TypeError.", "quantifier": "every attribute table and operation name", "why_tests_cant": "all tables", "anchors": ["src/configparserenhanced/ConfigParserEnhanced.py: get_known_operations, _locate_handler_method"]}
{"id": "C19", "title": "Handler return-code policy", "statement": "A decorated handler returning 0 continues; 1..10 or a negative number raises RuntimeError iff the level is 5 and otherwise continues; above 10 always raises RuntimeError, at every level; a non-int always raises TypeError.", "quantifier": "every integer and level", "why_tests_cant": "all integers", "anchors": ["src/configparserenhanced/ConfigParserEnhanced.py: operation_handler, _check_handler_rval"]}
{"id": "C20", "title": "Handlers run once per occurrence, in expansion order, on one shared dict", "statement": "A parse that returns has run handler_initialize first, then exactly one handler call per handled occurrence of the depth-first expansion in order, then handler_finalize last, every call receiving the shared data left by the previous one; the returned dict is the final one. A parse that raises ran exactly a prefix of that sequence.", "quantifier": "every config, handler table (arbitrary handler bodies over shared data and subclass state), root", "why_tests_cant": "arbitrary handlers and graphs", "anchors": ["src/configparserenhanced/ConfigParserEnhanced.py: _parse_section_r, operation_handler, _new_handler_parameters"]}
{"id": "C21", "title": "Events raise exactly at or above their severity threshold", "statement": "exception_control_event raises iff exception_control_level >= threshold(event type); CATASTROPHIC always raises, level 0 raises nothing else; raising the level never turns a raise into a non-raise; unknown event types raise KeyError, non-exceptions raise TypeError.", "quantifier": "every event string, level, exception argument", "why_tests_cant": "all strings and levels", "anchors": ["src/configparserenhanced/ExceptionControl.py: exception_control_event"]}
{"id": "C22", "title": "Suppressed events print exactly when allowed", "statement": "A suppressed event prints one warning iff level > 0, warnings are not silenced and the event is not SILENT; nothing else is printed.", "quantifier": "every event, level, flag combination", "why_tests_cant": "all combinations", "anchors": ["src/configparserenhanced/ExceptionControl.py: exception_control_event"]}
{"id": "C23", "title": "exception_control_level stays in 0..5", "statement": "After any sequence of assignments exception_control_level is within 0..5 and equals the last assigned integer clamped; debug_level is never negative.", "quantifier": "every finite sequence of integer assignments", "why_tests_cant": "unbounded sequences", "anchors": ["src/configparserenhanced/ExceptionControl.py: exception_control_level", "src/configparserenhanced/Debuggable.py: debug_level"]}
{"id": "C24", "title": "typed_property: failed assignment changes nothing", "statement": "An assignment that raises (wrong type, failed conversion, transform, or validator) leaves the value seen by later reads unchanged; after a successful assignment reads return the converted/transformed value, which satisfies the validator; deletion restores the initial behaviour.", "quantifier": "every property declaration (arbitrary type test, conversion, transform, validator, default) and every finite history of get/set/delete", "why_tests_cant": "arbitrary functions and histories", "anchors": ["src/configparserenhanced/TypedProperty.py: typed_property"]}
{"id": "C25", "title": "typed_property: require-assign-before-use", "statement": "With req_assign_before_use, a read raises UnboundLocalError iff no successful assignment has happened since creation or the last deletion.", "quantifier": "every history", "why_tests_cant": "unbounded histories", "anchors": ["src/configparserenhanced/TypedProperty.py: typed_property"]}
{"id": "C26", "title": "Parse log structure", "statement": "With debug_level > 0 the log of a parse that returned has properly nested section-entry/section-exit and handler-entry/handler-exit records when no use cycle was met; each met cycle adds exactly one surplus handler-exit. The log of a parse that raised is the log of the completed steps followed by what the raising step had written: a handler whose return code is refused is logged with entry and exit, a handler that itself raised with its entry only. With debug_level 0 the log is empty.", "quantifier": "every config, handler table and root", "why_tests_cant": "nesting over arbitrary recursion", "anchors": ["src/configparserenhanced/ConfigParserEnhanced.py: _loginfo_add, enter_handler, exit_handler, _handler_use"]}
{"id": "C27", "title": "Option keys are tokenised like a POSIX shell", "statement": "Joining tokens with shell quoting and tokenising gives the tokens back; an unquoted key is split at blanks; a key with an unclosed quote or trailing backslash makes the parse raise ValueError; a non-empty stripped key never yields an empty token list.", "quantifier": "every list of tokens / every key string", "why_tests_cant": "all strings", "anchors": ["src/configparserenhanced/ConfigParserEnhanced.py: _tokenize_option_key"]}
{"id": "C28", "title": "assert_section_all_options_handled is exact", "statement": "For a section that parses cleanly it returns 0 iff the section's expansion contains no unhandled option; otherwise with do_raise it raises ValueError iff level >= 3, and else returns a message that lists each unhandled key.", "quantifier": "every config, section, level, handler table", "why_tests_cant": "closure over use graph", "anchors": ["src/configparserenhanced/ConfigParserEnhanced.py: assert_section_all_options_handled"]}
{"id": "C29", "title": "assert_file_all_sections_handled is exact", "statement": "For a cleanly parsing file it returns 0 iff no section's expansion has an unhandled option; otherwise raises ValueError iff level >= 3, else returns 1.", "quantifier": "every config, level, handler table", "why_tests_cant": "all files", "anchors": ["src/configparserenhanced/ConfigParserEnhanced.py: assert_file_all_sections_handled"]}
{"id": "C30", "title": "unroll_to_str lists the expanded data", "statement": "On success unroll_to_str() is the concatenation, in file order, of each section's header and its expanded options; unroll_to_str(section=s) for an unknown s raises KeyError. With use_base_class_parser=True custom delimiters and a custom default section name of the object are ignored.", "quantifier": "every config, section argument, object state", "why_tests_cant": "all configs", "anchors": ["src/configparserenhanced/ConfigParserEnhanced.py: unroll_to_str, write"]}
{"id": "C31", "title": "unroll_to_str restores the exception level on success only", "statement": "With use_base_class_parser=False the object's exception_control_level is unchanged after a normal return, but is left at 0 when the call raises.", "quantifier": "every state and failing/succeeding call", "why_tests_cant": "all states", "anchors": ["src/configparserenhanced/ConfigParserEnhanced.py: unroll_to_str"]}
{"id": "C32", "title": "Unrolled text reads back to the same data", "statement": "Loading the text produced by unroll_to_str (with or without use_base_class_parser) into another object of the same class gives the same sections, options and values after any history on either object, provided ':' is a delimiter and keys and values are plain (single line, no delimiter in keys, no comment/section look-alikes, no % and no blanks at the ends of values, no missing values); values that are missing, span several lines, contain % or begin or end with blanks do not survive, nor anything if ':' is not a delimiter.", "quantifier": "every plain config; counterexamples for the rest", "why_tests_cant": "all configs and strings", "anchors": ["src/configparserenhanced/ConfigParserEnhanced.py: unroll_to_str", "stdlib configparser._read"]}
{"id": "C33", "title": "Raw reading: later files override, duplicates in one file are rejected", "statement": "Reading a list of files yields the union of their sections, the last file winning per option; a list of files is readable iff each file is readable alone; a repeated option or section within one file is always rejected, with the corresponding error unless an earlier line is already in error.", "quantifier": "every list of files and contents", "why_tests_cant": "all contents", "anchors": ["src/configparserenhanced/ConfigParserEnhanced.py: configparserdata (ConfigParser.read)"]}
{"id": "C34", "title": "Value normalisation", "statement": "Every value a parse stores is the text of an option of a contributing section after replacing references (%(name)s by the value of that option of the same section, '%%' by '%', at most ten levels deep), removing the blanks at both ends and then the double quotes at both ends; a missing value stays None; text without '%' is otherwise the file's text. The leftmost fault of a text decides the error: a '%' that starts neither '%%' nor %(name)s is a syntax error, an unknown name a missing-option error, a name without value a TypeError, an eleventh level a depth error. A reference sees the options of its own section first and then those of the parser's default section.", "quantifier": "every raw value string", "why_tests_cant": "all strings", "anchors": ["src/configparserenhanced/ConfigParserEnhanced.py: _parse_section_r"]}
{"id": "C35", "title": "Data accessors invent no sections, except from the default section", "statement": "For a name that is not in the file, has_section is False and [], options, items(s), unroll_to_str(s) raise KeyError after every history of calls, provided the file has no default section or the name was never passed to parse_section, get, has_option or the section validation; without a default section get raises KeyError and has_option raises KeyError until the name has been asked for once and returns False afterwards. With a default section the claim is false: a failed get(s) leaves the default section's options under s, and has_section(s) is True from then on.", "quantifier": "every config, name and history", "why_tests_cant": "unbounded histories", "anchors": ["src/configparserenhanced/ConfigParserEnhanced.py: has_section, has_option, get"]}
{"id": "C36", "title": "add_section / set / has_section_no_parse obey the dict laws", "statement": "set(s,k,v) changes exactly option k of section s (apart from the lazy parse of s it implies); if s is in the file, [], get and has_option return the written value after any history that does not parse s explicitly again; if s is not in the file [] returns it but the first get(s,k) raises KeyError. add_section without force never drops options, with force empties exactly that section; has_section_no_parse reports exactly the sections present and changes nothing.", "quantifier": "every state, section, key, value, later history", "why_tests_cant": "all states and histories", "anchors": ["src/configparserenhanced/ConfigParserEnhanced.py: ConfigParserEnhancedData.set, add_section"]}
{"id": "C37", "title": "Debug messages", "statement": "debug_message(n, m) prints iff debug_level >= n, prefixed with [D-n] iff n>0 and useprefix; it has no other effect.", "quantifier": "every level and message", "why_tests_cant": "all levels", "anchors": ["src/configparserenhanced/Debuggable.py: debug_message"]}
{"id": "C38", "title": "parse_section argument checking and last result", "statement": "parse_section with a non-string raises TypeError and with '' raises ValueError without touching the data; parse_section_last_result changes only on a successful parse, to the returned dict.", "quantifier": "every argument and state", "why_tests_cant": "all arguments and states", "anchors": ["src/configparserenhanced/ConfigParserEnhanced.py: parse_section, parse_section_last_result"]}
{"id": "C39", "title": "A malformed option raises the exception for its defect", "statement": "A parse that meets a malformed option raises: ValueError for unbalanced quoting in a key, IndexError for a use without section, TypeError for an operation whose handler attribute is not callable, and the interpolation error for a value that cannot be interpolated. A malformed option in a section that does not contribute has no effect.", "quantifier": "every config, class, section and defect position", "why_tests_cant": "all files and positions", "anchors": ["src/configparserenhanced/ConfigParserEnhanced.py: _parse_section_r, _handler_use, _tokenize_option_key"]}
{"id": "C40", "title": "A file in the usual layout reads as written", "statement": "A file consisting of section headers, 'key <delimiter> value' lines with any blanks around the delimiter, keys without value, indented continuation lines, comment lines and blank lines, with LF, CR LF or CR line ends, reads as exactly those sections, keys and values in that order.", "quantifier": "every such file, delimiter set and section list", "why_tests_cant": "all layouts", "anchors": ["src/configparserenhanced/ConfigParserEnhanced.py: configparserdata (ConfigParser.read)"]}
{"id": "C41", "title": "What each environment variable operation does", "statement": "envvar_op with a usable name changes exactly the named variable, to the value the operation is documented to give (set, set_if_empty, append, prepend, unset, remove_substr, remove_path_entry, find_in_path), and returns 0; it raises ValueError only for assert_not_empty of a variable that is unset or empty and for unknown operations; an exception never changes the environment.", "quantifier": "every environment, variable name, value and operation", "why_tests_cant": "all environments and values", "anchors": ["wip/setenvironment/src/setenvironment/SetEnvironment.py: envvar_op, envvar_set, envvar_set_if_empty"]}
{"id": "C42", "title": "References in values are expanded once, at the time of the operation", "statement": "$name and ${name} in a value are replaced by the values the variables have when the operation runs; references to unset variables and other '$' stay; what looks like a reference in an inserted value is not expanded; text without '$' is stored as it is.", "quantifier": "every environment and text", "why_tests_cant": "all texts and environments", "anchors": ["wip/setenvironment/src/setenvironment/SetEnvironment.py: envvar_op (os.path.expandvars)"]}
{"id": "C43", "title": "Adding a path entry is undone by removing it", "statement": "append or prepend of an entry followed by remove_path_entry of the same entry restores the variable, if the entry contains no ':' or '$' and was not in the variable before; a variable that was unset is left set and empty. An entry that was there before is lost.", "quantifier": "every environment, variable and entry", "why_tests_cant": "all path lists", "anchors": ["wip/setenvironment/src/setenvironment/SetEnvironment.py: envvar_op"]}
{"id": "C44", "title": "allow_empty=False never leaves a variable empty", "statement": "If envvar_op with allow_empty=False returns, the variable is not the empty string, for every operation; the empty value is refused by every operation, also by those that use no value.", "quantifier": "every environment, operation, name and value", "why_tests_cant": "all environments and values", "anchors": ["wip/setenvironment/src/setenvironment/SetEnvironment.py: envvar_op, envvar_set, envvar_set_if_empty"]}
{"id": "C45", "title": "The recorded actions are those the section asks for", "statement": "After a successful parse, actions[section] is the list of actions the options of the section (with everything it includes by use) ask for, in file order, without those that a later envvar-remove of the variable or module-remove of the module cancels; actions of other sections stay. A failed parse records nothing. module-remove also cancels operations on other modules whose version contains the name.", "quantifier": "every file, section, include structure and state", "why_tests_cant": "unbounded include structures and option lists", "anchors": ["wip/setenvironment/src/setenvironment/SetEnvironment.py: _handler_*, handler_initialize, handler_finalize, actions"]}
{"id": "C46", "title": "apply performs the actions in order", "statement": "apply(section) performs exactly the recorded actions, each once and in order, each on the environment the previous one left, until one raises or (at exception_control_level 2 and above) returns a code other than 0; a second apply performs the same actions again. If the section cannot be parsed the environment stays unchanged. apply is not atomic: the actions before a failing one stay.", "quantifier": "every file, section, environment, behaviour of the module command", "why_tests_cant": "all action sequences and environments", "anchors": ["wip/setenvironment/src/setenvironment/SetEnvironment.py: apply, _apply_envvar, _apply_module, _exec_helper"]}
{"id": "C47", "title": "Names and values reach the operation unchanged", "statement": "The Python text generated for an action whose name and value contain no double quote, backslash, line break or null character performs that action with exactly those texts. It is false for other values: a quote ends the value, a backslash starts an escape, and a value in the file can make apply execute arbitrary Python text.", "quantifier": "every action with plain texts; counterexamples for the rest", "why_tests_cant": "all texts", "anchors": ["wip/setenvironment/src/setenvironment/SetEnvironment.py: _gen_actioncmd_envvar, _gen_actioncmd_module, _exec_helper"]}
{"id": "C48", "title": "apply returns 0 exactly if everything was done", "statement": "At exception_control_level 2 and above (the default is 4), apply returns a number iff every action was performed and returned 0, and the number is 0. Below level 2 a negative return code of the module command (killed by a signal) is reported as success.", "quantifier": "every action list, environment and module command", "why_tests_cant": "all action lists", "anchors": ["wip/setenvironment/src/setenvironment/SetEnvironment.py: apply, _apply_envvar, _apply_module"]}
{"id": "C49", "title": "Generated scripts contain one command per action", "statement": "generate_actions_script for bash or python yields the heading and then one line per action of the section, in order, with the documented command for that action; it raises TypeError if an action lacks an argument; a section not yet parsed is parsed first.", "quantifier": "every file, section, interpreter and option", "why_tests_cant": "all action lists", "anchors": ["wip/setenvironment/src/setenvironment/SetEnvironment.py: generate_actions_script, _gen_actioncmd"]}
{"id": "C50", "title": "Scripts do not follow a reassigned file or delimiters", "statement": "After assigning inifilepath or configparser_delimiters, generate_actions_script of a section whose actions are recorded returns the same script as before, whatever the files contain; after assigning delimiters apply follows the new reading, so script and apply can disagree.", "quantifier": "every object state and assignment", "why_tests_cant": "all states and file contents", "anchors": ["wip/setenvironment/src/setenvironment/SetEnvironment.py: actions, generate_actions_script"]}
{"id": "C51", "title": "The values of a key are the listed ones", "statement": "get_values_for_section_key returns the values written in the option's text: cut into lines, comments from # on dropped, surrounding white space removed, blank lines skipped. It returns them exactly if no value occurs twice, none contains a blank or underscore (except SELECT_ONE and SELECT_MANY) and none is a key of the section, and exits otherwise. On a file that can be parsed the answer does not depend on what was called before. A circumflex also ends a value, so that one line can give two values or an empty one.", "quantifier": "every text, section and call history", "why_tests_cant": "unbounded texts; interplay of the regular expression with arbitrary comments and white space", "anchors": ["wip/keywordparser/keywordparser/KeywordParser.py: get_values_for_section_key, assert_values_*, assert_no_value_is_equal_to_a_key_name"]}
{"id": "C52", "title": "A value leads to the last key that lists it", "statement": "get_key_for_section_value returns the last key in file order that lists the value, and exits if none does; it also fails when the values of any other key of the section are not acceptable.", "quantifier": "every section and value", "why_tests_cant": "unbounded sections", "anchors": ["wip/keywordparser/keywordparser/KeywordParser.py: get_key_for_section_value"]}
{"id": "C53", "title": "A build name selects options", "statement": "For a file whose flags each have options and share none, the selected options are, per flag in file order: the first option when none is a word of the build name (words are separated by underscores), the named option when there is one, and for SELECT_MANY all named ones in sorted order; ValueError exactly when two options of a SELECT_ONE flag are named. The selection depends only on which options are named. An option listed for two flags makes the program exit. is_default_option says exactly whether an option is the first of a flag.", "quantifier": "every flags file and build name", "why_tests_cant": "unbounded tables of flags and build names", "anchors": ["wip/genconfig/src/config_keyword_parser.py: parse_selected_options, selected_options, is_default_option, get_options_and_flag_type_for_flag"]}
{"id": "C54", "title": "The text of a selection selects it again", "statement": "A build name made of any prefix that names no option and of selected_options_str selects the same options and has the same selected_options_str. It is false when SELECT_MANY is listed as an option, which the check of the values allows.", "quantifier": "every flags file, build name and prefix", "why_tests_cant": "unbounded tables and names; a fixed point property", "anchors": ["wip/genconfig/src/config_keyword_parser.py: selected_options_str, selected_options"]}
{"id": "C55", "title": "Answers follow the build name", "statement": "Whatever was read, whichever reads failed and whichever names were assigned before, every answer of the parser is that of a new parser for the name assigned last.", "quantifier": "every sequence of reads and assignments", "why_tests_cant": "unbounded histories and caches", "anchors": ["wip/genconfig/src/config_keyword_parser.py: build_name, selected_options, selected_options_str, is_default_option"]}
{"id": "C56", "title": "The system is decided by host and build name", "statement": "system_name of a new object: exit if the build name contains two system names; otherwise, with h the first system in the file one of whose keys is found in the host name and n the system named in the build name: h if n is absent or equal to h; n if it differs (or the host is unknown) and the build name is forced, else exit; exit if both are absent. A name once answered is answered again; after an exit the next read answers instead of exiting again.", "quantifier": "every file of systems, host name, build name and force flag", "why_tests_cant": "unbounded files and names; all combinations of the decision", "anchors": ["wip/determinesystem/determinesystem/DetermineSystem.py: system_name, determine_system, get_sys_name_from_hostname, get_sys_name_from_build_name"]}
{"id": "C57", "title": "The longest environment name wins, then the longest alias", "statement": "qualified_env_name is the system name, an underscore and: the longest environment name that stands between underscores (or ends) in the build name, the first in the file among equally long ones; if none does, the environment of the longest alias that does; exit if there is none. The parser can be constructed iff no alias is listed twice for the system. For names without special characters and underscores 'stands in' means: is a word of the build name. A dot in a name matches any character.", "quantifier": "every file, system and build name", "why_tests_cant": "unbounded lists of environments; regular expressions on arbitrary names", "anchors": ["wip/loadenv/loadenv/EnvKeywordParser.py: qualified_env_name, get_aliases, __init__"]}
{"id": "C58", "title": "LoadEnv answers follow the build name", "statement": "Whatever was read, whichever reads failed and whichever build names were assigned before, system_name, parsed_env_name and env_stripped_build_name are those of a new object for the name assigned last; parsed_env_name is that of the environment on the determined system; env_stripped_build_name is made of the words that are no system, environment or alias, in order.", "quantifier": "every sequence of reads and assignments, every file", "why_tests_cant": "unbounded histories and caches over three objects", "anchors": ["wip/loadenv/load_env.py: build_name, system_name, parsed_env_name, env_stripped_build_name"]}
{"id": "C59", "title": "Flags only from a file whose sections have canonical names", "statement": "validate_config_specs_ini succeeds iff every section whose name has a lower-case letter is named by its own canonical name (environment and options, forced); then complete_config and all other answers are independent of whether and when validation ran; no flags are ever generated from a file with another section name. A failed validation leaves another build name behind. list_configs lists the sections that start with the system name, in order.", "quantifier": "every sequence of calls, every set of files", "why_tests_cant": "unbounded histories; restoration of state after validation", "anchors": ["wip/genconfig/gen_config.py: validate_config_specs_ini, complete_config, generated_config_flags_str, list_configs"]}
{"id": "C60", "title": "The canonical configuration name is a fixed point", "statement": "complete_config, used as a build name with the same force flag on the same host, gives itself, if the names of the system, its environments and the options are words and do not overlap. It is false when an option is called like an environment.", "quantifier": "every build name, host and set of files with distinct names", "why_tests_cant": "composition of three name resolvers over unbounded tables", "anchors": ["wip/genconfig/gen_config.py: complete_config", "wip/loadenv/load_env.py: parsed_env_name", "wip/genconfig/src/config_keyword_parser.py: selected_options_str"]}
{"id": "C61", "title": "A bash script does what apply does", "statement": "For actions on ordinary text (names that neither bash nor the script's functions use for themselves; references only to set variables; module arguments of one word), running the commands of the generated bash script leaves the same environment as a successful apply; where apply stops at an empty envvar-assert-not-empty, the script exits with the same environment. Not so in general: a failing module command stops apply but not the script; an unset reference is kept by apply and dropped by bash; variables called op, arg1, arg2 ... are not set by the script; appending an empty text ends the script; a module argument with a blank becomes two.", "quantifier": "every section, environment, behaviour of external programs", "why_tests_cant": "two interpreters, Python and bash, over unbounded action lists and environments", "anchors": ["wip/setenvironment/src/setenvironment/SetEnvironment.py: generate_actions_script, _gen_script_header_bash, apply"]}
{"id": "C62", "title": "envvar-remove-path-entry in a bash script", "statement": "In a bash script the operation puts a colon before and after the value, removes the entry except where it follows a removed one, and drops a leading 1 of the value; a variable that is not set becomes '::'. If no two neighbours are equal to the entry and the value does not begin with 1 the entries are those apply keeps, between two colons.", "quantifier": "every path value and entry of ordinary text", "why_tests_cant": "unbounded lists of entries; overlapping matches", "anchors": ["wip/setenvironment/src/setenvironment/SetEnvironment.py: _gen_script_header_bash (envvar_remove_path_entry)"]}
{"id": "C63", "title": "envvar-remove-substr in a bash script", "statement": "For text that has no special meaning for sed and a value that bash does not split, a bash script removes the occurrences of the text from left to right, as apply does. Not so in general: an unset variable becomes set and empty, text with # is not removed, and a value of several words keeps only the first.", "quantifier": "every value and text without special characters", "why_tests_cant": "word splitting and sed on arbitrary text", "anchors": ["wip/setenvironment/src/setenvironment/SetEnvironment.py: _gen_script_header_bash (envvar_remove_substr)"]}
{"id": "C64", "title": "A Python script does what apply does", "statement": "The generated Python script performs the recorded actions in order and ends at the first exception; a successful apply at any level leaves the same environment as running the script. Not so in general: a module command that returns a failure stops apply at the standard level but never the script, and a value of two lines makes the whole script a syntax error while apply has performed the actions before it.", "quantifier": "every section, environment, behaviour of external programs", "why_tests_cant": "an unbounded list of actions printed as a program and read back", "anchors": ["wip/setenvironment/src/setenvironment/SetEnvironment.py: generate_actions_script, _gen_actioncmd, apply"]}
{"id": "C65", "title": "module() with modulecmd: a zero means done", "statement": "module(command, arguments) returns 0 only if modulecmd was found, ended with 0, did not write ERROR: and its output was executed without exception. The environment changes only after the program succeeded; a nonzero result means it is unchanged, unless the executed text set _mlstatus to False. No program: FileNotFoundError; ERROR: gives 1, an exit code is returned. Arguments as separate words or as one text of words are the same command. A failure reported by _mlstatus has already changed the environment, and is returned as 0 where exec does not set the function's variables (CPython 3.13).", "quantifier": "every command, arguments, environment and behaviour of the program and of the executed text", "why_tests_cant": "all behaviours of an external program; tests use a mock", "anchors": ["wip/setenvironment/src/setenvironment/ModuleHelper.py: module (modulecmd)"]}
{"id": "C66", "title": "module() with LMOD: what a zero means", "statement": "module(command, arguments) returns 0 exactly if LMOD_CMD is set and not empty, the command raised nothing and wrote no 'error:' in any case, and afterwards: the module of load (the second of swap) is loaded, the directory of use exists. Otherwise 1 for error text, 256 for a failed check, IndexError for a missing argument, TypeError when LMOD_CMD is not set; the environment is always what the command left. Nothing is checked for unload: a module that is still loaded gives 0.", "quantifier": "every command, arguments, environment and behaviour of LMOD", "why_tests_cant": "all behaviours of an external program; tests use a mock", "anchors": ["wip/setenvironment/src/setenvironment/ModuleHelper.py: module (LMOD)"]}
{"id": "C67", "title": "Loading an environment", "statement": "If LoadEnv's main program ends without an error then every option of environment-specs.ini (in every section) is an operation, the environment named by the build name has a section, every action it asks for was performed once, in order, and returned 0, and the temporary script and the output file contain the header, one line per action and the export of LOADED_ENV_NAME; sourcing these commands where the program was started gives the environment that was checked. If an option of any section is not an operation, or the file cannot be read, no variable and no file is changed. No other file is ever written. Not so in general: after a failed check a second apply_env applies the environment without checking again; a script that cannot be generated deletes the one that was there.", "quantifier": "every file, build name, host, environment and behaviour of modules and programs", "why_tests_cant": "an end-to-end statement over all files and environments", "anchors": ["wip/loadenv/load_env.py: main, apply_env, load_set_environment, write_load_matching_env"]}
{"id": "C68", "title": "The files GenConfig writes", "statement": "gen_config.py --cmake-fragment FILE ends without an error exactly if every section of config-specs.ini that has a lower-case letter is canonical, the build name means a configuration whose options can be generated, FILE can be written, and FILE is new, or --yes was given, or the first answer that begins with y or n begins with y. FILE then holds the options, one per line, and no other file changed; after any failure, a no included, all files are as before. Calling the method again writes nothing. Without a mode the options and the location of the text are written; after a failure the location file is unchanged, but an empty text file stays. --save-load-env-args writes the arguments of LoadEnv; bash splits them back if each is a nonempty word. No other file is ever written, and none by the listing modes. Not so in general: an empty answer is an IndexError; `cmake $cmake_args` also passes the continuation backslashes as arguments; a path with a blank is split.", "quantifier": "every set of files, build name, host, state of the disk and list of answers", "why_tests_cant": "the outcome depends on the whole dialogue and every file", "anchors": ["wip/genconfig/gen_config.py: main, write_cmake_fragment, generated_config_flags_str, load_env_args", "wip/genconfig/gen-config.sh: gen_config_helper"]}
{"id": "C69", "title": "The files the top-level files name", "statement": "LoadEnv accepts load-env.ini exactly if it has the section load-env and supported-systems, supported-envs and environment-specs have values there, in the section or through `use`, that are not empty; GenConfig accepts gen-config.ini exactly if it has both sections and all five values name existing files; otherwise ValueError. Each value then denotes the absolute path that was written, or the path below the directory of the file; all else in the sections is unchanged, whatever is asked of the data. A file given on the command line is used instead, as it is. With an absolute path of the top-level file, any number of further accesses to GenConfig's data change nothing. Not so in general: with a relative path GenConfig prefixes the directory twice and fails; files given as options do not excuse entries that are missing.", "quantifier": "every file, path, set of existing files and options; any sequence of later calls", "why_tests_cant": "all path texts, and repeated accesses with any calls in between", "anchors": ["wip/loadenv/load_env.py: parse_top_level_config_file, args", "wip/genconfig/gen_config.py: gen_config_config_data, validate_gen_config_config_data, args"]}
{"id": "C70", "title": "Loading an environment into the shell", "statement": "Sourcing load-env.sh with arguments runs load_env.py once, with those arguments. If that fails, its status is the result; if the script it names is missing, 1; each time the user's variables, functions and files are as before, but for the names and temporary files of the script. With --ci-mode the text that load_env.py wrote is executed once in the user's shell and what it did remains; otherwise a new shell is started that reads it first and refuses to load another environment, and the user's shell keeps its variables. Inside such a shell sourcing changes nothing and returns 1. With the real load_env.py: the variables afterwards are those the actions of the section lead to, with LOADED_ENV_NAME, or, if the program fails, those of before. Not so in general: a file rc, or the one named by a variable env_file, is deleted; the location file is left behind; --ci-mode is found inside other arguments; arguments with blanks are split; a script called ...rc is overwritten and not executed.", "quantifier": "every shell state, argument list and behaviour of python3, of the environment's script and of the new shell", "why_tests_cant": "all states of the user's shell and all behaviours of the programs; the repository's tests do not run the script", "anchors": ["wip/loadenv/load-env.sh: cleanup and the whole script", "wip/loadenv/load_env.py: main"]}
{"id": "C71", "title": "Configuring a build from the shell", "statement": "gen-config.sh [options] BUILD DIR runs gen_config.py with the arguments before DIR, then again to save the command line of LoadEnv, sources load-env.sh with exactly the saved words, and, in the loaded environment, starts cmake once with the options of the build (with a backslash between any two) and DIR. After a failure of any step no later program is started, and the user's variables are as before. A last argument that is no directory is refused unless a fragment is asked for; with a fragment cmake is not started. Without --ci-mode all this happens in the new shell. Not so in general: failures are reported as status 0; the user's variables with the script's names are lost; with a variable path_to_src and a left-over file cmake is started for a fragment too.", "quantifier": "every shell state, argument list and behaviour of the programs", "why_tests_cant": "four programs in sequence, each with arbitrary behaviour; the repository's tests do not run the script", "anchors": ["wip/genconfig/gen-config.sh: cleanup_gc, gen_config_helper and the whole script", "wip/genconfig/gen_config.py: main", "wip/loadenv/load_env.py: main"]}
{"id": "C72", "title": "Command lines", "statement": "load_env.py and gen_config.py accept a command line exactly if it can be read as a sequence of options and at most one build name, none of the options asking for help: an option is one of its spellings, or a beginning of exactly one spelling with two dashes, letters of options without a value may be joined, a value follows after '=' or as the next word that is no option (a word with a dash counts as a word if it is a number or has a blank and is not the beginning of an option). The settings are what the line says, the last value counts, defaults otherwise. Every other line ends the program with status 2, or 0 if some word asks for help; help wins over whatever follows unless a word is ambiguous. The line load-env.sh makes from the user's is accepted exactly if the user's is and means the same; the line GenConfig saves is accepted by load_env.py with the same files, build name and --force, if none begins with a dash. Not so in general: the scripts do not see --ci for --ci-mode, --cmake for --cmake-fragment, -h for --help; a build name that begins with a dash is misread or rejected by load_env.py; an option between the build name and -- makes the line unacceptable.", "quantifier": "every command line, and every table of options of this form", "why_tests_cant": "infinitely many lines; abbreviations, joined letters and dashes interact", "anchors": ["wip/loadenv/load_env.py: __parser", "wip/genconfig/gen_config.py: __parser, load_env_args", "wip/loadenv/load-env.sh: the call of load_env.py", "wip/genconfig/gen-config.sh: the calls of gen_config.py"]}
{"id": "C73", "title": "From the command line to the loaded environment and the configured build", "statement": "Given a top-level file that names its files and a line that can be read, there are just one supported-systems, supported-envs and environment-specs file (and for gen_config.py one file of flags and one of configurations) and one build name that line and file mean; load_env.py and gen_config.py do with them what C67 and C68 say, and end with status 0 exactly if no error occurred. A line that cannot be read ends them with status 2 (0 if help was asked for), a top-level file without a value with status 1, and in all these cases no file is written. `load-env.sh --ci-mode ...` with these programs either ends with status 1 and leaves the variables as they were, or with 0 and the variables are those that the actions of the section lead to; the latter if the file passes the check, the section is there, its actions can be performed and the files can be written; the former, with all files as before, if any option of the file is not an operation. An unreadable line gives status 2 and changes nothing. `gen-config.sh --ci-mode ... DIR` starts cmake once, in that environment, with the options of the configuration the build name means, and then the directory. Not so: load_env.py --help prints no help if the top-level file lacks a value; --list-config-flags ends with status 1 although --list-configs ends with 0.", "quantifier": "every command line, every top-level, environment and configuration file, every state of the user's shell", "why_tests_cant": "the whole chain of scripts, parsers, programs and files is involved; tests replace parts of it", "anchors": ["wip/loadenv/load_env.py: main, LoadEnv.args, parse_top_level_config_file", "wip/genconfig/gen_config.py: main, GenConfig.args", "wip/loadenv/load-env.sh: whole file", "wip/genconfig/gen-config.sh: whole file"]}
{"id": "C74", "title": "Messages in boxes", "statement": "A message is printed as an empty line, a rule, one line for every line of the message and of the additional text, and a rule; the first line begins with the kind, every line with a bar, and only white space at the ends of lines is lost. A list has one line for every item, in order; if no item has a line break or white space at its end, equal lists are the only ones that look alike. Not so in general: an item with a line feed can look like two items, items that differ in trailing white space look the same, and a message with an empty text does not show its kind.", "quantifier": "every message, kind, list of items and additional text", "why_tests_cant": "all texts with any kind of line break and white space; tests show single boxes", "anchors": ["wip/keywordparser/keywordparser/FormattedMsg.py: get_formatted_msg, get_msg_for_list"]}
{"id": "C75", "title": "What the list options print", "statement": "load_env.py --list-envs prints all environments of the system that build name and host mean, each once, in the order of their names, with all their aliases in order, whatever was asked of the object before; if there is no such system, or an alias is listed twice, the program ends without a list. gen_config.py --list-config-flags prints all flags in the order of the file with their kind and options, the first one marked as the default. gen_config.py --list-configs prints exactly the sections whose names begin with the name of the system, in the order of the file.", "quantifier": "every set of files without line breaks inside names, every build name, host and sequence of earlier calls", "why_tests_cant": "every file and history; the lists must be complete", "anchors": ["wip/loadenv/loadenv/EnvKeywordParser.py: get_msg_showing_supported_environments", "wip/genconfig/src/config_keyword_parser.py: get_msg_showing_supported_flags", "wip/loadenv/load_env.py: list_envs", "wip/genconfig/gen_config.py: list_configs, list_config_flags"]}
{"id": "C76", "title": "Printing the actions of a section", "statement": "pretty_print_actions(section) prints, after a heading of two lines, one line for each action that apply(section) then performs, in the order in which it performs them, with the names of the operations in one column; apply does not change what is printed. If the section cannot be looked up, the error is the one of the lookup. The text settles the effect: if nothing is missing, no name has an equals sign, a backquote or a line feed, no module or version a blank, and no value a line feed, then two lists of actions that print the same text have the same outcome and lead to the same environment from every environment. Not so in general: a missing value prints as the value None does, a blank in a module name is ambiguous, and operations are spelled with underscores although the documentation shows hyphens.", "quantifier": "every file, section, list of actions, environment and behaviour of modules and programs", "why_tests_cant": "whether two lists that print alike can act differently is a statement about all pairs of lists", "anchors": ["wip/setenvironment/src/setenvironment/SetEnvironment.py: pretty_print_actions, apply"]}
{"id": "C77", "title": "Printing the environment", "statement": "pretty_print_envvars prints the variables in the order of the environment: with their values without a filter; with a filter the values of those whose names contain one of its texts, and of the others the names, or nothing if only those that match are asked for. With a filter the values of other variables cannot be told from the text, and with only those that match nothing about the others. Without a filter filtered_keys_only changes nothing, and the text settles the environment if no name has an equals sign or line feed and no value a line feed. Not so in general: a value with a line feed can look like another variable.", "quantifier": "every environment and filter", "why_tests_cant": "that a value cannot be told from the text is a statement about pairs of environments", "anchors": ["wip/setenvironment/src/setenvironment/SetEnvironment.py: pretty_print_envvars"]}
{"id": "C78", "title": "Reports of unhandled options", "statement": "assert_section_all_options_handled and assert_file_all_sections_handled report exactly the options no handler took, per section and in file order, followed by the known operations and the loaded files; the check of a section prints nothing, the check of a file prints its report or nothing, whatever was asked of the object before. For names without line feeds the report of a section settles which options were unhandled.", "quantifier": "every file, class of well-behaved handlers and history of accesses", "why_tests_cant": "that parsing on the way prints no other lines, for all files and histories, and that no two answers give the same report", "anchors": ["src/configparserenhanced/ConfigParserEnhanced.py: assert_section_all_options_handled", "src/configparserenhanced/ConfigParserEnhanced.py: assert_file_all_sections_handled"]}
{"id": "C79", "title": "Parsing the default section itself", "statement": "A successful parse_section of the default section calls the handlers of its options (and of the sections it uses) twice over if it initializes and once if it does not, between handler_initialize and handler_finalize; the data collected for the section is that of a single pass. So handlers are not in general called once per option.", "quantifier": "every file with a default section, every class and object state", "why_tests_cant": "the double pass shows only through handlers with effects that add up, for the root section nobody tests", "anchors": ["src/configparserenhanced/ConfigParserEnhanced.py: parse_section", "src/configparserenhanced/ConfigParserEnhanced.py: _parse_section_r"]}
{"id": "C80", "title": "A parse depends only on the sections it comes to", "statement": "Take two files with the same defaults and the same text in the sections that a parse of section s comes to (s, the sections it uses, directly or not, and the default section with what it uses). Parsing s ends in the same way in both, with the same data for s, the same state of the subclass and the same log of what happened. So sections that are not used, and the order of the sections in the file, never matter; the same holds for the answers of configparserenhanceddata and for the actions of SetEnvironment.", "quantifier": "every pair of files that agree on the reached sections, every class, object state, level, flag", "why_tests_cant": "two files and an unbounded number of irrelevant sections; tests use one small file each", "anchors": ["src/configparserenhanced/ConfigParserEnhanced.py: parse_section", "src/configparserenhanced/ConfigParserEnhanced.py: _parse_section_r", "src/configparserenhanced/ConfigParserEnhanced.py: _handler_use", "wip/setenvironment/src/setenvironment/SetEnvironment.py: SetEnvironment"]}
{"id": "C81", "title": "use is pasting", "statement": "Replacing an option 'use B' of a section A by the options of B changes the data of no section, nor the actions of an environment, provided B is not on a use cycle. Nor does it change the outcome of parse_section and the effects of the handlers, if the handlers do not look at the name of the section and no operation has two handlers. On a cycle it can change the order of the data.", "quantifier": "every file, every pair of sections, every class", "why_tests_cant": "the equivalence is between a file and its rewriting, for nested uses of any depth", "anchors": ["src/configparserenhanced/ConfigParserEnhanced.py: _handler_use", "src/configparserenhanced/ConfigParserEnhanced.py: _parse_section_r", "wip/setenvironment/src/setenvironment/SetEnvironment.py: SetEnvironment"]}
{"id": "C82", "title": "How often handlers are called", "statement": "If no section has more than m options, a parse of a file with k sections calls handlers at most 2*m^(k+1)+2 times. The cost is really exponential: for every n there is a file of 3n+2 lines, with at most two options in a section and no cycle, whose parse calls one handler 2^n times.", "quantifier": "every file and class (upper bound); every n (lower bound)", "why_tests_cant": "an exponential family cannot be run, and the bound is over all files", "anchors": ["src/configparserenhanced/ConfigParserEnhanced.py: _parse_section_r", "src/configparserenhanced/ConfigParserEnhanced.py: _handler_use"]}
{"id": "C83", "title": "The debug level changes no result", "statement": "Two objects that differ only in debug_level and in the parse log give the same results, raise the same exceptions and print the same warnings for any sequence of calls (parsing, accessors, set and add_section, unrolling, validation, assignments to inifilepath, configparser_delimiters, default_section_name, exception_control_level), and afterwards they differ in these only. Assignments to debug_level can be removed from a sequence of calls without changing the replies to the others.", "quantifier": "all classes, files, objects, sequences of calls", "why_tests_cant": "the claim is about all sequences of calls and all pairs of debug levels", "anchors": ["src/configparserenhanced/ConfigParserEnhanced.py: _loginfo_add", "src/configparserenhanced/ConfigParserEnhanced.py: parse_section", "src/configparserenhanced/ConfigParserEnhanced.py: ConfigParserEnhancedData"]}
{"id": "C84", "title": "The exception control level only decides between warning and exception", "statement": "A sequence of calls that succeeds at some exception_control_level succeeds with the same replies and the same data at every lower level. A sequence of calls that succeeds without printing a warning, at a level of at least 1 with warnings not silenced, succeeds with the same replies and the same data at every level.", "quantifier": "all classes, files, objects, sequences of calls, pairs of levels", "why_tests_cant": "the claim compares runs at all levels over all sequences of calls", "anchors": ["src/configparserenhanced/ConfigParserEnhanced.py: exception_control_event calls", "src/configparserenhanced/ExceptionControl.py: exception_control_event"]}
{"id": "C85", "title": "Environment actions that do not concern each other can be in any order", "statement": "Two operations on different environment variables, neither of which mentions the variable of the other (or searches PATH while the other changes PATH), can be called in either order: each returns or raises the same and the variables have the same values afterwards. So sections whose actions differ by such exchanges have the same effect when applied.", "quantifier": "all operations, names, values, environments, all sequences of exchanges, all sections with plain texts at exception control level 2 and above", "why_tests_cant": "the claim compares two orders of every list of actions in every environment", "anchors": ["wip/setenvironment/src/setenvironment/SetEnvironment.py: envvar_op, apply, _exec_helper"]}
{"id": "C86", "title": "Applying a section twice", "statement": "A section that only sets, unsets and finds variables, with values that do not refer to a variable the section changes, can be applied a second time: that succeeds as well and changes no variable. A section that appends, or a value that refers to its own variable, changes the environment again.", "quantifier": "all such sections with plain texts, all environments in which the first call succeeds", "why_tests_cant": "the claim is about every list of actions and every environment", "anchors": ["wip/setenvironment/src/setenvironment/SetEnvironment.py: apply, envvar_op"]}
{"id": "C87", "title": "The order of the words of a build name does not matter", "statement": "Build names with the same words (the parts between underscores), in any order and however often each, lead LoadEnv to the same system and environment and GenConfig to the same configuration, flags, list of configurations and validation outcome, whatever was asked of the object before; the stripped build names have the same words. This holds if the names and aliases of the environments are words without special characters; in general it is enough that the same systems, environments and options are named, so other words, and misspelt ones, do not count. With a dot or an underscore in the name of an environment the order can matter.", "quantifier": "all build names, supported systems, environments and flags files, host names, histories", "why_tests_cant": "the claim compares all orders of all build names for all configuration files", "anchors": ["wip/loadenv/load_env.py: LoadEnv.system_name, parsed_env_name, env_stripped_build_name", "wip/genconfig/gen_config.py: complete_config, validate_config_specs_ini, list_configs", "wip/loadenv/loadenv/EnvKeywordParser.py: qualified_env_name", "wip/genconfig/src/config_keyword_parser.py: parse_selected_options"]}
{"id": "C88", "title": "The programs' objects answer from the contents of their files alone", "statement": "ConfigKeywordParser, EnvKeywordParser, DetermineSystem, LoadEnv and GenConfig read their .ini files through parsers that load, parse and cache on demand. If every section of the files can be parsed, the answers and exceptions for any sequence of calls (assignments of the build name included) are those determined by the tables of the files: for each section, the options of its expansion. So neither the moment of reading nor earlier lookups, failures or build names can be noticed. If a section cannot be parsed or the file is missing, a DetermineSystem object that is asked again answers something else than the first time.", "quantifier": "all files, build names, host names, sequences of calls", "why_tests_cant": "the claim is about every interleaving of calls and every state of the caches", "anchors": ["wip/keywordparser/keywordparser/KeywordParser.py: config, get_values_for_section_key", "wip/genconfig/src/config_keyword_parser.py: ConfigKeywordParser", "wip/determinesystem/determinesystem/DetermineSystem.py: DetermineSystem", "wip/loadenv/loadenv/EnvKeywordParser.py: EnvKeywordParser", "wip/loadenv/load_env.py: LoadEnv", "wip/genconfig/gen_config.py: GenConfig"]}
{"id": "C89", "title": "Defaults of typed properties are never shared", "statement": "The default a typed property is declared with never changes, whatever a program does with the objects and with the lists it gets from them. The first reading of a property of an object gives a deep copy of the default made of new lists only (or what the factory makes), and changes nothing else; that value changes only through a reference got from that object. With internal_type=list an assigned list is copied, so that changing it later does not add or remove elements; the lists inside it, and lists assigned to a property without internal_type, are shared.", "quantifier": "all declarations, defaults (nested lists of any shape), programs", "why_tests_cant": "the claim is about every sequence of reads, assignments, deletions and in-place changes, over any number of objects", "anchors": ["src/configparserenhanced/TypedProperty.py: typed_property, prop (getter, setter, deleter)"]}
{"id": "C90", "title": "Error messages name exactly what is wrong", "statement": "The message a program stops with names exactly what has to be changed: of the values of a key those that occur twice, or those with a delimiter, or those that are keys; the first flag without a type; exactly the options of several flags; the first flag of which the build name has two options, and these; the systems named in the build name; exactly the aliases used twice; all environments of the system with their aliases if the build name has none; and for config-specs.ini exactly the sections that do not have the canonical name, each with its canonical name. If the sections are renamed as the message asks, validation succeeds (two sections may be asked to take the same name).", "quantifier": "all files, build names, host names, histories of the objects, orders of sets", "why_tests_cant": "the claim is about which items are listed, for every file and build name and for every order in which Python may enumerate a set", "anchors": ["wip/keywordparser/keywordparser/KeywordParser.py: get_values_for_section_key", "wip/genconfig/src/config_keyword_parser.py: parse_selected_options, assert_options_are_unique_across_all_flags", "wip/loadenv/loadenv/EnvKeywordParser.py: qualified_env_name, assert_alias_list_values_are_unique", "wip/determinesystem/determinesystem/DetermineSystem.py: system_name", "wip/genconfig/gen_config.py: validate_config_specs_ini", "wip/keywordparser/keywordparser/FormattedMsg.py: get_formatted_msg, get_msg_for_list"]}
{"id": "C91", "title": "The layout of a file does not matter", "statement": "Adding or removing whole comment lines anywhere (even inside a value), blank lines that are not inside a value, or blanks at the end of lines, changing the widths of the indentation consistently, or using other line ends (LF, CR LF, CR) changes nothing: the file is read alike, errors included, and any sequence of calls on an object of any class gets the same answers and exceptions, prints the same and leaves the object in the same state. A comment after a value on its line, a blank line inside a value and the indentation of a single option do matter.", "quantifier": "all texts, delimiters, classes, sequences of calls", "why_tests_cant": "the claim is about every way of laying out every text", "anchors": ["src/configparserenhanced/ConfigParserEnhanced.py: configparserdata, configparser_delimiters, inifilepath", "src/configparserenhanced/ConfigParserEnhanced.py: ConfigParserEnhancedData"]}
{"id": "C92", "title": "The programs started with words and given the texts of all their files", "statement": "What C73 says about load_env.py, gen_config.py, load-env.sh and gen-config.sh holds with the supported-systems, supported-envs, supported-config-flags and config-specs files given as texts on disk, read by the programs themselves: if the files that line and top-level file mean are there and can be parsed, the programs do what C67 and C68 say for the sections, keys and options in these texts, the scripts lead from the words to the environment of the named section and to the cmake command line. If one of the files is missing or is not the text of an .ini file, load_env.py and gen_config.py end with status 1, load_env.py writes no file, and gen_config.py no more than an empty file of arguments. The layout of the files (C91) makes no difference to status and files.", "quantifier": "every command line, every text of every file, every state of the user's shell", "why_tests_cant": "tests use a few fixed .ini files and replace the programs by mocks in the scripts", "anchors": ["wip/loadenv/load_env.py: main", "wip/genconfig/gen_config.py: main", "wip/loadenv/load-env.sh: whole file", "wip/genconfig/gen-config.sh: whole file", "wip/determinesystem/determinesystem/DetermineSystem.py: DetermineSystem", "wip/loadenv/loadenv/EnvKeywordParser.py: EnvKeywordParser", "wip/genconfig/src/config_keyword_parser.py: ConfigKeywordParser"]}
{"id": "C93", "title": "Where the sections stand does not matter", "statement": "A readable .ini text may be cut before any section header (with the blank lines and comments before it) and the pieces be put into a list of files: reading the list gives exactly what the one file gave. Texts that begin with a section and share no section and no internal default option may be put together into one file, which is readable and contains their sections one after the other, as the list of the files does. Such parts may be put into any order: then every call other than those that list the sections in file order (sections, keys, unroll of everything) has the same answer after every history of calls, and every parse with any handlers has the same result, effects, options and loginfo.", "quantifier": "every text, every way of cutting it before headers, every number of parts and every order, every class, every history of calls", "why_tests_cant": "a test compares a few files; the claim is about every cut and order", "anchors": ["src/configparserenhanced/ConfigParserEnhanced.py: ConfigParserEnhanced.configparserdata, inifilepath, parse_section, ConfigParserDataEnhanced"]}
{"id": "C94", "title": "What the texts of exceptions and warnings say about a parse is true", "statement": "Every warning that parse_section prints and the text of every exception with which the library ends it name the true culprit: a section called missing takes part in the parse and is not in the file; when a cycle is reported between two sections, the second uses the first and the first leads back to it; an ambiguous handler is that of an operation written in a section that takes part, and both methods exist; a handler reported for its return value is one that an option calls (or that belongs to every parse) and it did return that value. A missing or unreadable section can therefore be found from the text. The same holds of get and has_option of the enhanced data; the [] access and options keep everything but the text of a KeyError, which they replace. An exception without such a text was raised by a handler, by the value of an option that is written there, by an option whose words are malformed, or is none of KeyError, RuntimeError and AmbiguousHandlerError. If one of the files does not exist, the text names the first such file.", "quantifier": "every class, file content, section, exception control level, state of the object and display of paths", "why_tests_cant": "a test triggers a handful of messages and compares one substring; the claim is that no run prints a wrong one", "anchors": ["src/configparserenhanced/ConfigParserEnhanced.py: parse_section, _parse_section_r, _handler_use, _locate_handler_method, _check_handler_rval, configparserdata, ConfigParserEnhancedData.__getitem__, options, has_section, has_option, get", "src/configparserenhanced/ExceptionControl.py: exception_control_event"]}
{"id": "C95", "title": "The names of the sections do not matter", "statement": "If the sections of a .ini file are renamed consistently (one to one, in the headers and in every use, whatever quoting the uses then need), every section keeps its options under its new name: parse_section ends in the same way with the same result and the same state of a subclass whose handlers do not look at the names, the calls about one section give the same answers after any histories of calls on the two files, and the actions of an environment are the same. No name has a special meaning apart from the one of the default section, which has to keep its role.", "quantifier": "every class, pair of files that differ by a one-to-one renaming, section, histories of calls, exception control level; handlers that treat the names alike for the parse", "why_tests_cant": "tests use a few fixed names; a name that happens to be treated specially is never met", "anchors": ["src/configparserenhanced/ConfigParserEnhanced.py: parse_section, _parse_section_r, _handler_use, ConfigParserEnhancedData", "wip/setenvironment/src/setenvironment/SetEnvironment.py: actions"]}
{"id": "C96", "title": "References that the caller keeps", "statement": "A caller may keep the object that configparserenhanceddata returns, and the dicts that it returns for sections, across any later calls. No two sections ever share a dict, of one view or of two. The dict of a section of a view stays its dict (and so keeps showing what is parsed later) until add_section with force. After new delimiters the object has a new view: the dicts of an old view are changed by nothing but the caller's own writes, an old view gives the dicts that it had and no others, and reading through old views, however mixed with reading through the present one, does not change what the present view answers: it answers what the file says, as if the data were a value of the object.", "quantifier": "every class, program of calls and of reads and writes through kept views and kept dicts, state that such a program can come to; for the answers: files whose sections can all be parsed", "why_tests_cant": "tests read each dict at once and drop it; aliasing shows only when references are kept across later calls", "anchors": ["src/configparserenhanced/ConfigParserEnhanced.py: configparserenhanceddata, configparser_delimiters, ConfigParserEnhancedData"]}
{"id": "C97", "title": "Handlers that read other sections", "statement": "A handler may read other sections through configparserenhanceddata while the parser runs, which starts the parser again on the same object. If the sections can be ranked so that the handlers called in a parse of a section (its own options, those of the sections it uses and of the default section, initialize and finalize) read only sections of lower rank, then this is invisible: after any sequence of parses and reads, every read, by the caller or by a handler, gives the options that the file says; every parse returns what it would return if its handlers read nothing and had been told the options of all sections before, and leaves its own section complete. Without such a ranking a handler may be given a section of which only the first options have been read.", "quantifier": "every class whose handlers read any sections depending on anything they know, file whose sections can be parsed, ranking, sequence of parses and reads, section", "why_tests_cant": "the nested parses share the data, the marks of parsed sections and the log with the one that is running; whether they disturb it depends on which sections have been read before and in which order", "anchors": ["src/configparserenhanced/ConfigParserEnhanced.py: parse_section, _parse_section_r, _handler_use, configparserenhanceddata, ConfigParserEnhancedData.__getitem__, has_section, _parse_owner_section, set"]}
{"id": "C98", "title": "Reads by handlers come to an end", "statement": "A handler may read sections through configparserenhanceddata while the parser runs, and the handlers of the sections that are parsed for this may read further ones, also the sections whose parses are still running and in a circle. Whatever the handlers read, such reads are never nested deeper than the number of sections in the file, because each section is parsed at most once by a read: what a limit on the nesting would do, such as the RecursionError of Python, is never seen once the limit is above the number of sections. This holds for reads and parses by the caller, in every state of the object and after any earlier parses and reads.", "quantifier": "every class with handlers that read any sections depending on anything they know, every file that can be read, every state of the object, every sequence of parses and reads, every limit above the number of sections and everything that could happen at it", "why_tests_cant": "handlers that read in a circle would loop if a mark were set too late, and no test can try all classes and states", "anchors": ["src/configparserenhanced/ConfigParserEnhanced.py: ConfigParserEnhancedData.__getitem__, has_section, set, _parse_owner_section, parse_section, _parse_section_r, configparserenhanceddata"]}
{"id": "C99", "title": "What handlers read is in the file", "statement": "A handler that reads a section through configparserenhanceddata while the parser runs, in whatever order and also when that section is still being parsed, is given only options that the file has for that section, in the section itself, in one it uses directly or indirectly, or in the default section or one that it uses; and never an option that is meant for a handler. So is the caller, after any parses and reads, including those that raised. Therefore what the handlers keep true of the shared data when they are given such options is true of what parse_section returns. Such an option need not be one that any section has in the end: it may be replaced later in the same parse.", "quantifier": "every class with handlers that read any sections depending on anything they know and may raise, every file that can be read, every sequence of parses and reads, every invariant of the shared data", "why_tests_cant": "handlers see the data while they are being built up, in states that depend on what was read before", "anchors": ["src/configparserenhanced/ConfigParserEnhanced.py: ConfigParserEnhancedData.__getitem__, has_section, set, add_section, _parse_owner_section, parse_section, _parse_section_r, _launch_generic_option_handler, _handler_use, configparserenhanceddata"]}
{"id": "C100", "title": "No answer has an option that is not in the file", "statement": "Whatever class, file and calls: also if sections of the file cannot be parsed, handlers raise or refuse, sections are asked for that do not exist, and calls before have raised and left sections half parsed, every option in the answer to data[s], options, items, get and has_option is in the file, with that value, in the section asked for, in one that it uses directly or indirectly, or in the default section or one that it uses, and is not one for which there is a handler.", "quantifier": "every class incl. handlers that raise and change the subclass state, every file that can be read incl. those with sections that cannot be parsed, every sequence of calls (parse, read, list, assert, unroll, levels), every answer", "why_tests_cant": "failed calls leave partly filled data that later calls answer from (C13); tests see only some of these states", "anchors": ["src/configparserenhanced/ConfigParserEnhanced.py: ConfigParserEnhancedData (all readers), set, add_section, _parse_owner_section, parse_section, _parse_section_r, _launch_generic_option_handler, _handler_use, assert_section_all_options_handled, assert_file_all_sections_handled, unroll_to_str"]}
{"id": "C101", "title": "Handlers that read sections do not exhaust the recursion", "statement": "Sections may use each other and be read by each other's handlers in any way, in circles too, as long as the default section does not use its way to a section that is parsed. If no handler raises RecursionError by itself, reading a section or parsing one of the file never raises it, whatever was parsed and read before and however that ended; it is enough that uses can be nested three levels deeper, and reads one level deeper, than the file has sections.", "quantifier": "every class whose handlers read sections, depending on what they read, and raise what they like but RecursionError; every file with a harmless default section; every sequence of parses and reads before; every limit above the number of sections", "why_tests_cant": "circles of uses and reads through several sections are too many to try, and a test that ends says nothing about the next file", "anchors": ["src/configparserenhanced/ConfigParserEnhanced.py: ConfigParserEnhancedData.__getitem__, has_section, set, _parse_owner_section, parse_section, _parse_section_r, _handler_use, configparserenhanceddata"]}
{"id": "C102", "title": "Options that have been answered stay", "statement": "Once data[s] has been answered, it is answered after all further parses, reads, listings, assertions, unrollings and changes of level, whether or not those raise, and the answer has the same option names in the same order, perhaps followed by others. This is so also when handlers read sections while the parser is running. (Refuted: that it is the same answer. A section that was given up half way and is parsed again at another exception control level gets more options and other values.)", "quantifier": "every class incl. handlers that raise and change the subclass state, every file that can be read, every state of the object incl. half parsed sections, every sequence of further calls on the same file", "why_tests_cant": "a caller that keeps option names from an answer relies on all later calls; tests try a few", "anchors": ["src/configparserenhanced/ConfigParserEnhanced.py: ConfigParserEnhancedData (all readers), set, add_section, _parse_owner_section, parse_section, _parse_section_r, _launch_generic_option_handler, assert_section_all_options_handled, assert_file_all_sections_handled, unroll_to_str"]}
