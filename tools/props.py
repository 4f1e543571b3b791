"""Single source for properties.jsonl and MANIFEST.json (run: python3 tools/props.py)."""
import json, os
ROOT = os.path.dirname(os.path.dirname(os.path.abspath(__file__)))
P = []      # properties
M = {}      # id -> (status, [theorems], note)


def prop(i, title, statement, quantifier, why, anchors):
    P.append(dict(id=i, title=title, statement=statement, quantifier=quantifier,
                  why_tests_cant=why, anchors=anchors))


def claim(i, status, theorems, note):
    M[i] = (status, theorems, note)


CFG = "edulint/config/config.py"
SI = "edulint/linting/checkers/simplifiable_if.py"
LD = "edulint/linting/checkers/local_defects.py"
AU = "edulint/linting/analyses/utils.py"
LI = "edulint/linting/linting.py"

# --- configuration -------------------------------------------------------------------
prop("C01", "Layer precedence of replace-options",
     "For every option that is combined by replacement, the value in force for a checked file is the one given by the strongest layer that sets it: command line, else in-file comments, else the selected config file, else its base config chain, else the default; inside one layer the last occurrence wins.",
     "all option lists in all layers, all options",
     "The number of layer/occurrence combinations is unbounded; tests fix a handful.",
     [CFG + ": Config._combine, Config.combine, Config.get_last_value, get_config_many"])
prop("C02", "Accumulation of linter arguments",
     "The pylint (resp. flake8) argument list handed to the linter is the concatenation, in layer order base config, config file, in-file, command line and in textual order inside a layer, of everything the layers and the expanded option sets supplied; nothing is lost, duplicated or reordered before enable/disable-all resolution.",
     "all option lists in all layers",
     "Order and loss bugs depend on interleavings of options across layers that cannot be enumerated.",
     [CFG + ": Config._combine, Config.combine, Config._translate"])
prop("C03", "Enable/disable-all resolution keeps the meaning",
     "Dropping pylint arguments that precede an 'enable=all'/'disable=all' does not change which messages pylint ends up enabling, compared with pylint processing the complete argument list from left to right (for arguments whose --enable.../--disable... options are the message switches '--enable=...' and '--disable=...').",
     "all argument lists, all message names, all initial pylint states",
     "Correctness is a statement about every argument order; the resolution scans backwards while pylint reads forwards.",
     [CFG + ": Config._resolve_enable_disable_all"])
prop("C04", "Linter arguments reach pylint verbatim",
     "Every pylint argument that survives enable/disable-all resolution is passed to pylint exactly as the user wrote it (same spelling, e.g. of file paths and regular expressions).",
     "all pylint argument lists",
     "Tests use lower-case arguments only; the claim is about every string.",
     [CFG + ": Config._resolve_enable_disable_all"])
prop("C05", "Configuration of a file is independent of its companions",
     "The linter arguments used for a file when it is checked together with other files are those used when it is checked alone with the same command line.",
     "all sets of files with arbitrary in-file configuration, all command lines, all config files",
     "It is a hyperproperty over two runs with arbitrary companions.",
     [CFG + ": _parse_infile_configs, get_config_many, Config.to_immutable"])
prop("C06", "Every Python file is covered exactly once, by its own in-file configuration",
     "Unless a config file cannot be loaded, expanding the groups returned for the given files and directories yields every Python file below them exactly once, each in a group whose key equals the in-file configuration of that very file; collapsing a directory into one entry never pulls in a file with another in-file configuration.",
     "all directory trees of any depth and shape, all assignments of in-file configuration",
     "Directory trees are unbounded; the collapse step is recursive.",
     [CFG + ": _parse_infile_configs"])
prop("C07", "Translations of one file group do not leak into another",
     "The message translations used for a group of files depend only on that group's own config file and language file, not on other groups checked in the same call.",
     "all lists of groups, config files and language files",
     "It relates two runs with different companion groups; a memo table is shared across groups.",
     [CFG + ": get_config_many"])
prop("C08", "Config inheritance is prepending",
     "A config file that names a base config behaves as if the base config's options were written before its own, through inheritance chains of any length; option sets and translations of the extending file win over the base's.",
     "all finite inheritance chains and all file contents",
     "Chain length is unbounded.",
     [CFG + ": parse_config_file"])
prop("C09", "Config inheritance always terminates",
     "Loading a config file finishes (with a configuration or a reported error) whatever config files refer to one another.",
     "all reference graphs between config files",
     "Termination over all graphs, including cyclic ones, is not testable.",
     [CFG + ": parse_config_file"])
prop("C10", "TOML lists and comma separated strings are interchangeable",
     "Writing an option value as a TOML list of non-empty comma-free strings has the same effect as writing the comma separated string, for every option but the two that name a file; the parsed list option contains exactly the listed elements in order.",
     "all lists of non-empty comma-free strings",
     "All list lengths and contents.",
     ["edulint/config/utils.py: config_file_val_to_str", "edulint/option_parses.py: get_option_parses", CFG + ": parse_option"])
prop("C11", "An option settable in files and on the command line is settable in a config file",
     "Every option name accepted in-file and on the command line has some TOML value that makes a config file set it.",
     "all options, all TOML values",
     "A claim about the non-existence of any working value.",
     [CFG + ": parse_option, parse_config_file", "edulint/option_parses.py"])
prop("C12", "An implicit configuration file in a parent directory is honoured",
     "If no configuration file is named and edulint.toml or .edulint.toml lies in the directory of the checked file or any of its parents, it is used.",
     "all directory chains and contents",
     "Depth is unbounded; the claim is that no directory layout triggers the feature.",
     [CFG + ": search_for_config_in_parents"])
prop("C13", "Command line exclusion of in-file configuration is total",
     "With ignore-infile-config-for containing edulint or all on the command line, the configuration used does not depend on any in-file edulint comment.",
     "all files and in-file comments",
     "Non-interference over all file contents.",
     [CFG + ": _parse_infile_configs, _ignore_infile, get_config_many"])
prop("C14", "Option splitting",
     "An option text 'name=value' sets the option to everything after the first '=', for every value (including values containing '='), the option name being matched case-insensitively; the flag option takes no value; texts are interpreted independently of one another and anything else sets nothing.",
     "all option names and value strings",
     "All strings.",
     [CFG + ": parse_args, parse_option", "edulint/options.py: Option"])
prop("C15", "Config path resolution is stable",
     "Resolving a config path relative to the file that mentions it leaves packaged names, URLs and absolute paths alone and turns any other path into the absolute path of the same place seen from the directory of that file; resolving the result again (relative to anything) changes nothing.",
     "all path strings and all base paths",
     "All strings.",
     ["edulint/config/file_config.py: get_config_type, get_path_relative_to"])
# --- linting pipeline -----------------------------------------------------------------
prop("C16", "Overriding drops exactly the overridden problems",
     "A problem is dropped by overriding iff another problem with one of its overriding codes is reported for the same path and line; surviving problems keep their order and content, and applying overriding again changes nothing.",
     "all problem lists and all override tables",
     "Lists of any length; drops are decided simultaneously.",
     [LI + ": apply_overrides", "edulint/linting/overrides.py"])
prop("C17", "Overriding never silences a line",
     "Every (file, line) that has a reported problem before overriding still has one afterwards.",
     "all problem lists",
     "Depends on the override table being acyclic for every combination of codes on a line.",
     [LI + ": apply_overrides", "edulint/linting/overrides.py: get_overriders"])
prop("C18", "Tweaking only drops or rewords",
     "Message tweaking never adds, reorders or relocates a problem: the result is a subsequence of the input with only message texts changed, and problems whose code has no tweaker are untouched.",
     "all problem lists and configurations",
     "All lists.",
     [LI + ": apply_tweaks", "edulint/linting/tweakers.py"])
prop("C19", "Reported problems are ordered",
     "The problem list is a permutation of the found problems ordered by position of the path argument they belong to, then path, line and column; problems reported for the command line or a configuration file come first; ties keep linter order.",
     "all problem lists and argument lists",
     "All lists.",
     [LI + ": sort"])
prop("C20", "Sorting never fails on a problem in a checked file",
     "Whatever path spelling the user passes, sorting the problems found in the checked files succeeds.",
     "all path spellings, including '..' segments",
     "All path strings; tests use already normalised paths.",
     [LI + ": sort, get_proper_path"])
prop("C21", "Reported path denotes the checked file",
     "The relative path computed for a pylint problem denotes, from the current directory, the very file pylint reported by absolute path.",
     "all absolute paths and all working directories",
     "All directory relations (prefix, sibling, disjoint).",
     [LI + ": pylint_to_problem, get_proper_path"])
prop("C22", "A linter failure is never reported as a clean file",
     "If flake8 or pylint signals an internal failure, the caller gets an error, not an empty problem list; conversely a regular exit with well-formed output never raises.",
     "all exit codes and outputs",
     "All integers as exit codes.",
     [LI + ": process_results, lint_flake8, lint_pylint"])
prop("C23", "Standard streams are restored",
     "After linting, sys.stdout and sys.stderr are the caller's streams again, whether the linter finishes, exits or raises.",
     "all outcomes of the wrapped linter",
     "Exception paths at arbitrary points.",
     [LI + ": lint_flake8, lint_pylint"])
prop("C24", "Translations fill in the extracted snippets",
     "For a message produced from a linter's pattern with the given snippets, the translated text is the template with these snippets in place, provided the snippets cannot be confused with the pattern's literal text.",
     "all patterns, snippets and templates",
     "All strings; matching is greedy and may mis-split.",
     ["edulint/config/language_translations.py: Translation, to_pattern"])
prop("C25", "Exit status reflects the outcome",
     "'edulint check' exits with 0 only if the check ran and found nothing, with 1 if problems were found and 2 if the check could not be carried out.",
     "all outcomes of the check, including unexpected exceptions",
     "Exceptions can come from any point.",
     ["edulint/edulint.py: check_and_print, _check_code, main"])
prop("C26", "Report lists every problem under its file",
     "The textual report contains every problem exactly once, in order, and each problem is preceded by the header of its own file, a header being printed exactly when the file changes.",
     "all problem lists",
     "All lists.",
     ["edulint/edulint.py: check_and_print"])
# --- caches -----------------------------------------------------------------------------
prop("C27", "Remote config cache freshness",
     "A remote configuration obtained through the cache is (up to the convention of line ends) the content the server last sent for that very URL, either now, or less than 5 minutes ago, or - only if the server does not answer successfully - less than the offline limit ago.",
     "all histories of requests, server answers and clock values",
     "All histories.",
     ["edulint/config/file_config.py: CachedHTTPGet"])
prop("C28", "Remote config cache survives crashes",
     "After a crash at any point of a cache update, later requests return only complete contents the server sent for that URL.",
     "all crash points and histories",
     "Crash points inside a write cannot be scheduled by unit tests.",
     ["edulint/config/file_config.py: CachedHTTPGet"])
prop("C29", "Offline limit is 500 days",
     "An unreachable remote config is served from the cache for 500 days.",
     "all cache ages",
     "All ages.",
     ["edulint/config/file_config.py: CachedHTTPGet"])
prop("C30", "Version check rate limit",
     "In any sequence of version checks, the package index is contacted at most once per TTL period, failed attempts included.",
     "all histories with a non-decreasing clock, all outcomes",
     "All histories.",
     ["edulint/versions/version_checker.py: PackageInfoManager"])
prop("C31", "Update notice only for a newer version",
     "An update is announced only if a version newer than the installed one is known.",
     "all installed versions, all index states",
     "All version pairs and network failures.",
     ["edulint/versions/version_checker.py"])
prop("C32", "Downloaded explanations are used",
     "After a successful download of newer explanations, they are the ones shown.",
     "all contents",
     "All contents.",
     ["edulint/explanations.py"])
# --- suggestions made by the checkers -----------------------------------------------------
prop("C33", "Merged comparisons with constants keep the truth value",
     "For R6211/R6212/R6214, the condition suggested for a group of comparisons of one expression with constants is true exactly when the original and/or of these comparisons is true (expressions whose text starts with 'abs(' without being a call of abs are the subject of C34).",
     "all groups of comparisons, all constants, all values of the expression",
     "All integers, all group sizes.",
     [SI + ": _suggestion_for_group_of_boolops, _remove_redundant_compare, _check_if_always_true_or_false, _check_for_simplification_of_single_and, _check_for_simplification_of_single_or"])
prop("C34", "abs() suggestion is right for every expression text",
     "The R6211 suggestion is equivalent to the original for every compared expression, including those whose text begins with 'abs('.",
     "all expressions, all environments",
     "All expression shapes.",
     [SI + ": _add_abs_if_necessary"])
prop("C35", "max/min suggestion keeps the truth value",
     "The R6213 suggestion (comparison with max or min) is true exactly when the original and/or of comparisons is.",
     "all operand lists, all values",
     "All list lengths.",
     [SI + ": _make_suggestion_for_using_max_min_if_possible, _put_into_max_or_min"])
prop("C36", "max/min suggestion is well formed",
     "The text suggested by R6213 has balanced parentheses whenever the operands have.",
     "all operand texts",
     "All strings.",
     [SI + ": _put_into_max_or_min"])
prop("C37", "Remainder comparison suggestion keeps the truth value",
     "The R6215 suggestion ('x % n == y % n', 'x % n != y % n' or 'True') is true exactly when the quoted or-part of the condition is.",
     "all moduli, all sequences of comparison pairs, all integers",
     "All moduli and lists.",
     [SI + ": PairsOfModComparisonsWithNum, _make_suggestion_for_simplifiable_test_by_equals"])
prop("C38", "Redundant operands are removed safely",
     "The R6216 suggestion obtained by removing operands of an and/or, using a solver that may answer 'unknown', has the same truth value as the original; R6222 'always True/False' is right.",
     "all operand lists, all sound (incomplete) solvers, all environments",
     "All solvers' answer patterns.",
     [SI + ": _redundant_condition_parts, _make_suggestion_for_redundant_condition_part"])
prop("C39", "if/elif chain simplification keeps the selected branch",
     "Simplifying an if/elif/else chain (R6217-R6221) selects the same branch body as the original for every environment, for every sound solver.",
     "all chains, all sound solvers, all environments",
     "All chain lengths and solver answers.",
     [SI + ": _immediate_simplifications_for_if, _simplify_if_by_moving_conditions_up, _convert_else_to_elif_when_simple_enough"])
prop("C40", "Consecutive ifs merge safely",
     "When R6223 says consecutive ifs whose conditions' variables are not modified can become elifs, executing the merged statement has the same effect as executing them in sequence.",
     "all if sequences, all states, all sound solvers",
     "All sequences.",
     [SI + ": can_merge_ifs_together, _count_of_mergeable_consecutive_ifs"])
prop("C41", "Replacing an if by its condition keeps truthiness",
     "The R6201-R6204, R6209 and R6210 suggestions give a value with the same truthiness and the same side effects as the original if, for every condition and value.",
     "all conditions, values and states",
     "All values.",
     [SI + ": _refactored_cond_from_then_orelse"])
prop("C42", "Replacing an if by its condition keeps the value",
     "The R6201 suggestion returns the same value as the original if.",
     "all conditions and values",
     "All values.",
     [SI + ": _refactored_cond_from_then_orelse"])
prop("C43", "Merging nested, sequential and pass ifs is behaviour preserving",
     "The R6205, R6207 and R6208 rewrites execute the same tests in the same order with the same final state and result.",
     "all conditions, bodies and states, side effects included",
     "All programs.",
     [SI + ": _merge_nested, _merge_sequential, _basic_checks"])
prop("C44", "Membership in a range rewritten to comparisons",
     "The R6617/R6618/R6619 suggestions are true exactly when the tested integer is in (not in) the range, for all bounds and non-zero steps.",
     "all integers, bounds, steps",
     "All integers.",
     [LD + ": _check_in_range_instead_of_compare"])
prop("C45", "Membership rewrite evaluates its operand alike",
     "The R6617-R6619 rewrites are equivalent also when evaluating the tested expression has a side effect.",
     "all expressions",
     "All evaluation histories.",
     [LD + ": _check_in_range_instead_of_compare"])
prop("C46", "Iteration count report is exact",
     "R6606 reports 'no iterations' exactly for ranges that are empty and 'only one iteration' exactly for ranges with one element.",
     "all integer range bounds and steps",
     "All integers.",
     [LD + ": _check_iteration_count"])
prop("C47", "Repeated operation report has equal operands",
     "R6607 is reported only if all operands of the chain are the same expression.",
     "all binary operation trees",
     "All trees.",
     [LD + ": _check_repeated_operation, _check_repeated_operation_rec"])
prop("C48", "Replacing a magic constant by ord() keeps the value",
     "Replacing the constant by the R6614 suggestion text leaves the value of the expression unchanged.",
     "all constants in range, both operators and positions, all operand values",
     "All constants and positions.",
     [LD + ": _check_use_ord_letter"])
prop("C49", "Comparing letters instead of codes",
     "The R6615 suggestion is true exactly when the original comparison of ord(c) with the constant is.",
     "all characters, constants and comparison operators",
     "All characters.",
     [LD + ": _check_magical_constant_in_ord_compare"])
prop("C50", "Checker does not crash on comparisons with ord()",
     "The R6615 check handles every comparison containing ord() without an exception.",
     "all comparisons",
     "All constant types.",
     [LD + ": _check_magical_constant_in_ord_compare"])
prop("C51", "Redundant arithmetic is redundant",
     "Whenever R6608 is reported on integer operands and the expression evaluates, its value is 0, 1, one of the operands or the negation of one.",
     "all operand values",
     "All integers.",
     [LD + ": _check_redundant_arithmetic"])
prop("C52", "Negation detection is sound",
     "When R6611/R6612/R6218 consider the elif condition the negation of the if condition, in every environment exactly one of the two is true.",
     "all condition pairs, all environments",
     "All expression pairs.",
     [AU + ": is_negation"])
prop("C53", "Constant folding agrees with Python",
     "If the constant folder returns a value for an expression, Python evaluates the expression to that value.",
     "all expressions",
     "All expression trees.",
     [AU + ": get_const_value"])
prop("C54", "Constant folding never raises",
     "The constant folder returns a value or None for every expression, never an exception.",
     "all expressions",
     "All expression trees.",
     [AU + ": get_const_value"])
prop("C55", "Augmented assignment suggestion keeps the effect",
     "Replacing the assignment by the R6609 suggestion leaves the same final state.",
     "all assignments, all states",
     "All states.",
     [LD + ": _check_augmentable"])
prop("C56", "Integral division suggestion",
     "Replacing int(a / b) by a // b keeps the value.",
     "all integers",
     "All sign combinations.",
     [LD + ": _check_div"])
# --- analyses --------------------------------------------------------------------------
prop("C57", "Block enumeration is exact",
     "Enumerating the blocks of a control flow graph yields every block reachable from the start exactly once and terminates on cyclic graphs.",
     "all finite graphs",
     "All graphs.",
     ["edulint/linting/analyses/cfg/graph.py: get_blocks"])
prop("C58", "Reaching definitions are exact",
     "The computed set of definitions reaching a block is exactly the set of blocks that define the variable and have a path to it without another definition in between; the iteration terminates.",
     "all finite graphs and all definition placements",
     "All graphs and paths.",
     ["edulint/linting/analyses/data_dependency.py: collect_reaching_definitions"])
prop("C59", "Type guess operations form a set algebra",
     "A type guess behaves as a set of types: membership, union, intersection, 'has only' and counting agree with sets.",
     "all sets of types",
     "All combinations.",
     ["edulint/linting/analyses/types.py: Types"])
prop("C60", "Type guesses are sound",
     "If the guessed types of an expression are known, its run-time type is among them.",
     "all expressions and environments",
     "All expressions.",
     ["edulint/linting/analyses/types.py: guess_type"])
prop("C61", "Anti-unification generalises",
     "Substituting the i-th sub-variants for the variables of the common core gives back the i-th code fragment.",
     "all lists of syntax trees",
     "All trees.",
     ["edulint/linting/analyses/antiunify.py: Antiunify"])
prop("C62", "Solver translation preserves meaning",
     "The formula a condition is translated to is true in exactly the integer environments in which Python evaluates the condition to true.",
     "all conditions in the supported fragment, all environments",
     "All expressions and integers.",
     ["edulint/linting/analyses/z3_analysis.py: convert_condition_to_z3_expression"])
prop("C63", "Handlers are part of the control flow graph",
     "Every statement that Python can execute is reachable in the control flow graph built for it.",
     "all programs",
     "All programs.",
     ["edulint/linting/analyses/cfg/visitor.py: CFGVisitor", "edulint/linting/analyses/cfg/graph.py"])

prop("C64", "Only message switches are dropped",
     "Enable/disable-all resolution drops nothing but the message switches '--enable=...' and '--disable=...'; every other pylint argument is passed on.",
     "all pylint argument lists",
     "All strings.",
     [CFG + ": Config._resolve_enable_disable_all"])
prop("C65", "A config file that excludes in-file configuration keeps its own settings",
     "When the config file in force excludes in-file configuration, its other options still apply.",
     "all config files and all ways of selecting them",
     "Depends on how the config file was selected; all option lists.",
     [CFG + ": get_config_many"])
prop("C66", "A file whose config file cannot be loaded is not skipped silently",
     "Every Python file given is checked or the run reports a failure through its result.",
     "all files and all config files",
     "The failing condition lies outside the program and combines with any grouping.",
     [CFG + ": get_config_many, parse_config_file"])

prop("C67", "A checked file is ordered as a file",
     "Problems in a checked file are ordered by the position of its path argument, whatever the file is called.",
     "all file names",
     "All strings as names.",
     [LI + ": sort, is_pylint_out_of_file_problem"])
prop("C68", "Tweaks of linter messages do what the options say",
     "A disallowed one-character name is dropped iff listed in allowed-onechar-names and otherwise reworded; a redefined builtin is dropped iff disallowed-builtin-names is non-empty and does not list it; unused imports of ib111 modules and parentheses after 'not' are dropped; a repeated operation is dropped iff no group is set and at most one '*' precedes the first full stop; comparisons to booleans are reworded; everything else is kept as it is, and no message of these linters makes tweaking fail.",
     "all names, expressions, message lists and configurations",
     "Decisions go through regular expressions matched against arbitrary texts.",
     ["edulint/linting/tweakers.py: TWEAKERS", LI + ": apply_tweaks"])
prop("C69", "A translated message shows no unfilled placeholder",
     "When a message of a linter is translated by a template whose placeholders ask for no more snippets than the message has, every placeholder of the template is replaced by a (translated) snippet of the message.",
     "all messages of the linters, snippets and templates",
     "Whether the message is recognised depends on arbitrary snippet texts, on how the linter spells the message and on earlier rewording.",
     ["edulint/config/language_translations.py: Translation.translate, to_pattern", "edulint/config/raw_flake8_patterns.py: FLAKE8", LI + ": apply_translations"])
prop("C70", "A faulty translation does not hide problems",
     "If a check without translations reports problems, the same check with any translations of the messages also reports problems.",
     "all translations",
     "Translations are arbitrary user data.",
     ["edulint/config/language_translations.py: Translation.translate", "edulint/edulint.py: check_and_print"])
FC = "edulint/config/file_config.py"
prop("C71", "A downloaded remote config stays available offline",
     "Once a remote configuration has been downloaded and stored, requests for it within the offline limit succeed even if the server does not answer.",
     "all histories of requests, all contents and server failures",
     "All histories and contents.",
     [FC + ": CachedHTTPGet.http_get, _read_version_from_disk"])
prop("C72", "The server is asked at most once in five minutes",
     "Within five minutes of a request for a remote configuration, further requests for the same address are answered without asking the server.",
     "all histories of requests and answers",
     "All histories.",
     [FC + ": CachedHTTPGet.http_get"])
prop("C73", "Caching does not change the text",
     "A remote configuration served from the cache is exactly the text the server sent.",
     "all texts",
     "All texts; text files translate line ends.",
     [FC + ": CachedHTTPGet"])
VC = "edulint/versions/version_checker.py"
prop("C74", "The version check recovers from an interrupted run",
     "After a version check was interrupted at any point, a later version check works again.",
     "all points of interruption and all later checks",
     "Interruptions inside a write cannot be scheduled by unit tests.",
     [VC + ": PackageInfoManager._save_package_info_locally, _get_package_info_locally"])
prop("C75", "The latest version reported is the newest one offered",
     "Any version reported as the latest was, at the time the index was asked, offered (with builds, not yanked) and no newer version was offered.",
     "all histories of checks and all contents of the index",
     "All sets of versions, including pre-releases.",
     [VC + ": PackageInfoManager.get_latest_version", "edulint/versions/pypi_helper.py: get_versions"])
prop("C76", "Explanation updates are rate limited",
     "In any sequence of runs, the server of explanations is asked at most once per TTL period, failed attempts included.",
     "all histories with a non-decreasing clock, all outcomes",
     "All histories.",
     ["edulint/explanations.py: _thread_update_explanations"])
prop("C77", "Background updates can be switched off",
     "With --disable-version-check no version check is started and with --disable-explanations-update no update of explanations is started, for every command.",
     "all commands and combinations of switches",
     "Threads are started in several places.",
     ["edulint/edulint.py: main, get_message_explanations", "edulint/explanations.py: get_explanations"])
prop("C78", "Explanations asked for are given",
     "The explanations returned are exactly those of the requested message ids that have one, each once, ids without an explanation are warned about in order, and 'all' in any letter case gives all of them.",
     "all lists of ids and all explanation files",
     "All lists.",
     ["edulint/edulint.py: get_message_explanations, print_message_explanations"])
prop("C79", "Newest patch of each minor version",
     "The versions chosen for compatibility tests contain, for every minor version, exactly one version, the newest one, in ascending order.",
     "all lists of versions",
     "All lists.",
     ["edulint/versions/pypi_helper.py: _only_last_patch_of_each_minor"])
prop("C80", "Version check at most once per hour",
     "As the help of --disable-version-check says, the index is asked at most once per hour.",
     "all histories of checks",
     "All histories.",
     ["edulint/edulint.py: setup_argparse, _update_check"])
prop("C81", "Checks of if statements always finish",
     "Linting any if statement finishes, without an exception, whatever statements its branches hold.",
     "all if statements",
     "All programs.",
     [SI + ": _get_refactored, _refactored_cond_from_then_orelse, _basic_checks"])
prop("C82", "Guessing types terminates, also for variables defined in terms of one another",
     "For every program and every expression in it, guessing the type of the expression ends, however the variables' assignments refer to one another.",
     "all programs, all expressions, all cyclic definitions",
     "Definitions can form arbitrary cycles through loops.",
     ["edulint/linting/analyses/types.py: guess_type"])
prop("C83", "Using a value directly instead of comparing it with True or False",
     "Replacing a comparison with True or False by 'is' or 'is not' by the R6613 suggestion text keeps the truth of the condition.",
     "all operand expressions, all values",
     "All values of the operand; tests use a handful.",
     [LD + ": _check_no_is"])
prop("C84", "Redundant elif and unreachable else",
     "When R6611 is reported, the elif can become an else without changing the behaviour; when R6612 is reported, the else branch is never executed.",
     "all programs and states",
     "All conditions and states.",
     [LD + ": _check_redundant_elif"])
prop("C85", "Appending instead of extending by one element",
     "Following R6601 leaves the list with the same elements.",
     "all list displays of one element, all lists",
     "All lists and elements, including starred ones.",
     [LD + ": _check_extend, _check_augassign_extend"])
prop("C86", "The check for multiplied lists answers for every product",
     "For every product the check R6610 ends without an exception and reports exactly the list displays with a list, set or dict (display or call) as an element.",
     "all products",
     "All operands, including two list displays.",
     [LD + ": _check_multiplied_list"])
prop("C87", "Conditions handed to the solver do not crash the linter",
     "The checks that ask the solver (R6216, R6222) end without an exception for every condition, whatever the types of its parts are guessed to be and whatever the solver answers; what the solver is given is well-typed for it.",
     "all conditions, all type guesses, all solvers",
     "All conditions, e.g. abs of something that cannot be translated.",
     ["edulint/linting/analyses/z3_analysis.py: initialize_variables, convert_condition_to_z3_expression", SI + ": _make_suggestion_for_redundant_condition_part, visit_compare"])
prop("C88", "The chain check ends, and without an exception",
     "Checking an if/elif/else chain (R6217-R6221) terminates and raises no exception, whatever the tests are, whatever the solver answers and whatever the types are guessed to be.",
     "all chains, all type guesses, all solvers",
     "The rounds that move branches up and the rewriting of tests depend on each other; all chain lengths and solver answers.",
     [SI + ": _immediate_simplifications_for_if, _simplify_if_by_moving_conditions_up, _check_for_redundant_condition_part_in_if"])
prop("C89", "The check of consecutive ifs ends, and without an exception",
     "Checking consecutive if statements (R6223, R6224) terminates and raises no exception, whatever the conditions are, whatever the solver answers and whatever the types are guessed to be.",
     "all sequences of if statements, all type guesses, all solvers",
     "The loop keeps two lists of translated conditions with their own positions; all lengths and solver answers.",
     [SI + ": _report_all_mergeable_consecutive_ifs, _get_most_consecutive_ifs_without_var_modification"])
prop("C90", "Building control flow graphs never fails",
     "Building the control flow graphs of a program succeeds, whatever statements are nested in each other.",
     "all programs",
     "The places of statements are read back from attributes set while visiting other statements, and blocks are removed from sets they must be in; all nestings.",
     ["edulint/linting/analyses/cfg/visitor.py: CFGVisitor", "edulint/linting/analyses/cfg/graph.py: link_or_merge, multiple_link_or_merge, add_CF_statement"])
prop("C91", "Loops reported as one-iteration end in their first iteration",
     "If the message one-iteration (E9996) is reported for a loop, no execution of the program does a second iteration of it; the check raises no exception.",
     "all programs, all outcomes of conditions, iterators and exceptions",
     "All nestings of jumps and all executions.",
     ["edulint/linting/checkers/python_ta_checkers.py: _check_one_iteration"])
prop("C92", "Uses are linked to the definitions whose values they can see",
     "After the analysis of a module, a read or modification of a variable lists a definition exactly if there is a way through the control flow graph from the definition to the use on which the variable is not defined again; the same holds for the definitions a definition replaces. The analysis ends without an exception.",
     "all control flow graphs, all placements of events, all calls whose effects may happen or not",
     "All graphs, all paths and all interleavings of events of several variables.",
     ["edulint/linting/analyses/data_dependency.py: collect_reaching_definitions"])
prop("C93", "Branches reported as identical are identical",
     "If R6501 (identical-if-branches) is reported because the branches have a common core without variables, all branches are the same code, up to names of variables that can be interchanged.",
     "all branches of an if statement",
     "All syntax trees; the report depends on every attribute of every class of nodes.",
     ["edulint/linting/checkers/duplication/duplicate_if.py: duplicate_in_if", "edulint/linting/analyses/antiunify.py: antiunify"])
prop("C94", "Names of duplicate blocks correspond one-to-one",
     "If anti-unification with require_name_consistency=True (as for duplicate blocks and functions) succeeds, then for any two fragments, two places have the same name in one fragment exactly if they have the same name in the other one.",
     "all lists of syntax trees",
     "All trees and all assignments of names to places.",
     ["edulint/linting/analyses/antiunify.py: get_merge_candidates"])
prop("C95", "Anti-unification raises no exception",
     "Comparing fragments of code for duplication ends with a core or with the answer that there is none, and never with an exception.",
     "all lists of syntax trees",
     "All trees.",
     ["edulint/linting/analyses/antiunify.py: antiunify", "edulint/linting/analyses/utils.py: new_node"])
prop("C96", "Moving identical code out of the branches keeps what the program does",
     "If R6502 (identical-if-branches-part) tells to move n lines before or after an if statement, or R6501 (identical-if-branches) tells to remove it, the program does the same afterwards, for all values and effects of the conditions and statements.",
     "all if statements with elif and else branches, all programs around them, all states",
     "All programs and states; a test can run a suggestion in a few states only.",
     ["edulint/linting/checkers/duplication/duplicate_if.py: identical_before_after_branch", "edulint/linting/checkers/duplication/duplicate_if.py: extract_from_elif"])
prop("C97", "Joining identical branches with 'or' keeps what the program does",
     "If R6503 (identical-seq-ifs) or R6504 (identical-seq-elifs) is reported, the branches have the same code, and one branch with their conditions joined by 'or' does the same as the reported ones.",
     "all sequences of if statements with elif and else branches, all states",
     "All programs and states.",
     ["edulint/linting/checkers/duplication/duplicate_if.py: identical_seq_ifs", "edulint/linting/checkers/duplication/duplicate_if.py: extract_from_siblings"])
prop("C98", "Reported parts of branches are the longest ones and none is missed",
     "The lines that R6502 names are the longest common beginning or end of all branches of an if statement. If neither R6501 nor R6502 is reported for an if statement with else whose first and last branch are not a single if, its branches do not begin alike, and end alike in at most one statement, which is a return. The comparison raises no exception.",
     "all if statements with elif and else branches",
     "All statements with any number of branches of any length.",
     ["edulint/linting/checkers/duplication/duplicate_if.py: identical_before_after_branch"])
prop("C99", "The untwisted condition keeps what the program does",
     "If R6557 (similar-if-to-untwisted) is reported, an if with the suggested condition and the branches of the first inner if does the same as the two nested if statements.",
     "all nested if statements, all states",
     "All programs and states.",
     ["edulint/linting/checkers/duplication/duplicate_if.py: get_fixed_by_restructuring_twisted"])
prop("C100", "The suggested if expression has the value of the branch that runs",
     "If R6558 (similar-if-to-expr) suggests an if expression for values that differ between branches, the expression evaluates the conditions in the order of the branches and has the value that stands in the branch that would run.",
     "all lists of conditions and values, all states",
     "All chains and states.",
     ["edulint/linting/checkers/duplication/duplicate_if.py: get_fixed_by_ternary", "edulint/linting/checkers/duplication/utils.py: to_node"])
prop("C101", "The suggested list or dictionary gives what the branches give",
     "If R6561 (similar-if-to-list) or R6562 (similar-if-to-dict) is reported for a chain of comparisons with constants, looking up the values of the variables gives the branch that the chain takes, and nothing is found exactly when no condition holds; a list is suggested only if the constants are 0, 1, ..., n - 1 in some order.",
     "all conditions built of comparisons, and, or; all values of the variables",
     "All chains and all values.",
     ["edulint/linting/checkers/duplication/duplicate_if.py: get_fixed_by_container", "edulint/linting/checkers/duplication/duplicate_if.py: vals_from_simple_test"])
prop("C102", "A suggested loop has as many iterations as there are repetitions",
     "If R6552 (similar-block-to-loop-range) or R6560 (similar-block-to-loop-collection) tells to iterate over something instead of n repetitions, it has n elements.",
     "all numbers of repetitions, all values and expressions that vary, any number of places that vary",
     "All sequences of values and expressions of any length.",
     ["edulint/linting/checkers/duplication/duplicate_sequence.py: similar_to_loop", "edulint/linting/checkers/duplication/duplicate_sequence.py: get_nice_iters", "edulint/linting/checkers/duplication/duplicate_sequence.py: consolidate_ranges"])
prop("C103", "A suggested loop goes through the values that vary",
     "If R6552 or R6560 tells to iterate over something, its elements are the values at the places that vary, in the order of the repetitions; a range is suggested only for numbers or characters that are equally far apart; the loop over names does the same as the repetitions.",
     "all values and names that vary, any number of places, all programs and states for names",
     "All sequences of values; for names all programs and states.",
     ["edulint/linting/checkers/duplication/duplicate_sequence.py: to_iter_use", "edulint/linting/checkers/duplication/duplicate_sequence.py: to_range_args", "edulint/linting/checkers/duplication/duplicate_sequence.py: from_chars"])
prop("C104", "Looking for repetitions raises no exception",
     "Deciding whether repeated code can be written as a loop raises no exception, whatever the fragments differ in.",
     "all values and expressions that vary, all loops around the code",
     "All values and nestings of expressions.",
     ["edulint/linting/checkers/duplication/duplicate_sequence.py: similar_to_loop", "edulint/linting/checkers/duplication/duplicate_sequence.py: iter_use_from_partition"])
prop("C105", "Repeating the outer loop more often does the same",
     "If R6553 (similar-block-to-loop-merge) tells to repeat the outer loop t times, the loop with only one of the parts as its body and range(t) does the same as the loop over all of them.",
     "all loops over range(b), all numbers of parts, all programs and states",
     "All programs, states and numbers of iterations.",
     ["edulint/linting/checkers/duplication/duplicate_sequence.py: get_fixed_by_merging_with_parent_loop"])
prop("C106", "All repetitions at the beginning of a block are tried, the longest first",
     "The fragments that are compared are exactly the ways to cut a beginning of the block into at least two consecutive parts of the same length; longer beginnings come first, and among equally long ones smaller parts do; none comes twice.",
     "all blocks of statements",
     "All blocks of any length.",
     ["edulint/linting/checkers/duplication/utils.py: get_loop_repetitions"])
prop("C107", "A loop 'while True' that starts with a break can have the negated condition",
     "If R6301 (no-while-true) is reported, the loop whose condition is the negation of the text in the message and whose body is the rest of the body, followed by the statements that came before the break, does the same: it ends in the same states, and ends if and only if the reported loop does.",
     "all while loops, all programs and states",
     "All loops, states and numbers of iterations, including endless ones.",
     ["edulint/linting/checkers/unsuited_loop.py: UnsuitedLoop._check_no_while_true"])
prop("C108", "The iteration that 'never happens' does not happen",
     "If R6302 (use-tighter-boundaries) is reported, the loop without its first or last iteration and without the test does the same as the reported loop, apart from the value of the target.",
     "all for loops over range, all bounds and steps, all programs and states",
     "All ranges, including descending ones and ones whose step does not divide their length, and all states.",
     ["edulint/linting/checkers/unsuited_loop.py: UnsuitedLoop._check_use_tighter_bounds"])
prop("C109", "A while loop that should be a for loop counts",
     "If R6305 (use-for-loop) is reported, the loop does the same as a for loop with the same body over a range that starts with the value of the variable, has step 1 or -1 and ends at the other side of the comparison.",
     "all while loops, all programs and states",
     "All conditions, ways to write an increment, numbers of iterations and states.",
     ["edulint/linting/checkers/unsuited_loop.py: UnsuitedLoop._check_use_for_loop"])
prop("C110", "Iterating over a structure directly does the same",
     "If R6307 (use-foreach) or R6308 (use-enumerate) is reported for a loop over range(len(a)), replacing a[i] by the element everywhere in its body and iterating over a (or enumerate(a)) does the same; after use-foreach the index is no longer needed, and after use-enumerate it still is.",
     "all for loops over range(len(a)) where a is a name, all bodies, programs and states",
     "All bodies with nested blocks, all numbers of iterations, all ways in which the body may end.",
     ["edulint/linting/checkers/unsuited_loop.py: UnsuitedLoop._check_improve_for_loop"])
prop("C111", "Names are taken for the variables they mean",
     "The variable that the analysis records for an occurrence of a name is the one that Python's scoping rules give: local, of an enclosing function, or of the module, with global and nonlocal declarations, classes, parameters, lambdas and comprehensions.",
     "all modules with any nesting of functions, classes, lambdas, comprehensions and blocks, all names in them",
     "All nestings of scopes and all ways in which the same name may be bound in several of them.",
     ["edulint/linting/analyses/variable_scope.py: VarEventListener"])
prop("C112", "No binding of a name is missed",
     "Every name bound by an assignment, a loop, a comprehension, a parameter, an import or a definition has an event that records it as assigned.",
     "all modules that the analysis accepts, all names bound in them",
     "All statements and expressions at all depths.",
     ["edulint/linting/analyses/variable_scope.py: VarEventListener"])
prop("C113", "Uses of a module's names in functions and classes are seen",
     "Where a function or a class of the module uses a name that the module binds, wherever in the module it does so, the use is recorded.",
     "all modules that the analysis accepts, all their functions and classes, all names",
     "All orders of statements and definitions, all depths of nesting.",
     ["edulint/linting/analyses/variable_scope.py: VarEventListener"])
prop("C114", "The analysis of variables gives up only for locals() and globals()",
     "The analysis fails only for modules with a call of the built-in functions locals or globals; for all others it gives a result.",
     "all modules",
     "All modules, not only those tried.",
     ["edulint/linting/analyses/variable_scope.py: VarEventListener.visit_call", "edulint/linting/analyses/patcher.py: run_analyses"])
prop("C115", "Walking over the control flow graph from a location yields exactly what control can get to, once",
     "successors_from_loc (predecessors_from_loc) without exploring functions and classes ends without a failing assertion, yields no location twice, and yields exactly the locations on paths forward (backward) from the given one on which at most the last location is one to stop at: with include_start the paths start at the location itself, otherwise after it; without include_end the locations to stop at are left out.",
     "for all grammatical programs, locations, stop functions, directions and values of include_start and include_end",
     "Partial visits of blocks (a start in the middle of a loop's block, revisited from its beginning) depend on the shape of the graph; tests have a few shapes.",
     ["edulint/linting/analyses/cfg/utils.py:42-168", "edulint/linting/analyses/cfg/utils.py:223-345"])
prop("C116", "Walking from several locations yields what control can get to from any of them",
     "successors_from_locs and its backward counterpart with several locations yield, each once, exactly the locations on such paths from at least one of them.",
     "for all grammatical programs, lists of locations, stop functions and flags",
     "Whether a start is skipped depends on what the walks from the earlier starts have marked as visited; tests use one start.",
     ["edulint/linting/analyses/cfg/utils.py:137-168", "edulint/linting/analyses/cfg/utils.py:310-345"])
prop("C117", "What Python executes after a statement is found by walking on from it",
     "If in some execution y is executed after x, with no location to stop at in between, then the walk forward from the location of x yields the location of y, and the walk backward from the location of y yields the location of x (unless it is one to stop at and those are left out).",
     "for all programs, executions (whatever conditions, iterators and exceptions do) and stop functions",
     "It speaks of all executions of all programs; tests check graphs of single programs.",
     ["edulint/linting/analyses/cfg/utils.py:42-168", "edulint/linting/analyses/cfg/visitor.py:58-425"])

prop("C118", "A condition said to be implied after a block of code holds there",
     "If the analysis says that the first condition implies the second after a block, then in every run where the first condition holds and the block comes to its end, the second condition holds there.",
     "for all pairs of conditions, all blocks of assignments, assertions, nested if statements and ends, all states and all sound solvers",
     "It speaks of all states and all blocks; tests run the analysis on a few blocks and compare its answer only.",
     ["edulint/linting/analyses/z3_block_analysis.py:31-670", "edulint/linting/analyses/z3_analysis.py:417-430"])
prop("C119", "A while loop reported as explicitly infinite does not end by its condition",
     "If a while loop is reported as explicitly infinite, then no execution of it ends because its condition does not hold.",
     "for all conditions, bodies and states",
     "Nontermination cannot be observed by a test, and the values a condition may take are unbounded.",
     ["edulint/linting/checkers/unsuited_loop.py:236-243"])
prop("C120", "A while loop reported as implicitly infinite does not end by its condition once entered",
     "If a while loop is reported as implicitly infinite and its condition holds at first, then no execution of it ends because its condition does not hold.",
     "for all conditions, bodies, states and numbers of iterations",
     "Nontermination cannot be observed by a test; the claim is about all states in which the loop may be entered.",
     ["edulint/linting/checkers/unsuited_loop.py:236-249", "edulint/linting/analyses/z3_block_analysis.py:632-670"])
prop("C121", "The check for infinite loops raises no exception",
     "Linting a while loop for being infinite never raises an exception, whatever its condition and body are.",
     "for all conditions and bodies",
     "There are infinitely many bodies; tests lint a few.",
     ["edulint/linting/checkers/unsuited_loop.py:236-249", "edulint/linting/analyses/z3_block_analysis.py:478-518"])

prop("C122", "Returning early where it is advised does the same",
     "Where edulint advises to return early, putting the short branch first under the negated condition and the long one after it without indentation changes nothing about what the code does: same effects, same value returned, same exceptions. The check itself raises no exception.",
     "for all if statements, conditions (with effects and exceptions), surrounding code and states of the program",
     "That two programs do the same in all states, with conditions that may have effects or raise, cannot be settled by running some of them.",
     ["edulint/linting/checkers/local_defects.py:462-500"])

prop("C123", "Long functions and scripts are reported",
     "A function or script is reported as too long, with the number of its statements, exactly if it has more than twenty statements, not counting imports, nested definitions and the main block.",
     "for all function bodies and scripts",
     "There are infinitely many ways to nest statements; tests count a few.",
     ["edulint/linting/checkers/basic_checker.py:75-89", "edulint/linting/analyses/utils.py:528-563"])

prop("C124", "Comprehension variables that shadow are reported",
     "The variables reported for shadowing in a comprehension are exactly the variables it binds that are names of the enclosing scope, apart from _.",
     "for all targets of comprehensions and all sets of names outside",
     "Targets nest without a bound; tests have a few.",
     ["edulint/linting/checkers/python_ta_checkers.py:121-135"])

prop("C125", "An enabled message that is found is reported whatever else is enabled",
     "For every check outside duplication: enabling a message is enough to get it. What is reported for a node is exactly what the checks find, in their order, restricted to the enabled messages, independently of which other messages are enabled.",
     "for all checkers but that for duplication, all their methods, all sets of enabled messages, all that the checks may find",
     "There are 2 to the number of messages sets of enabled messages; tests enable one message or all of them.",
     ["edulint/linting/checkers/local_defects.py:707-760", "edulint/linting/checkers/simplifiable_if.py:1342-1404", "edulint/linting/checkers/simplifiable_if.py:2271-2316",
      "edulint/linting/checkers/unsuited_loop.py:251-261", "edulint/linting/checkers/unsuited_loop.py:515-527"])

prop("C126", "Disabling messages does not hide other messages about duplication",
     "If some messages are disabled, every message about repetitions to be loops and about similar or identical branches that is reported when all messages are enabled and is itself enabled is still reported, for the same statement; and no disabled one is.",
     "for all programs (nesting of statements), all that is found in them, all sets of enabled messages",
     "It is about all sets of enabled messages and all ways in which code already reported keeps other code from being looked at.",
     ["edulint/linting/checkers/duplication/checker.py:374-409", "edulint/linting/checkers/duplication/duplicate_if.py:983-1130"])

prop("C127", "Duplication found for a disabled message does not silence enabled ones",
     "If an enabled message about the branches of an if statement applies, something is reported about the statement or about code it is part of; that a disabled message applies as well does not lead to silence.",
     "for all programs (nesting of statements), all that is found in them, all sets of enabled messages",
     "It is about all sets of enabled messages; tests enable one message or all of them.",
     ["edulint/linting/checkers/duplication/checker.py:374-409", "edulint/linting/checkers/duplication/duplicate_if.py:983-1130"])

prop("C128", "Blocks reported as similar are runs of statements alike to each other",
     "A message about similar blocks of code is about at least two runs of consecutive statements with the same number of statements, in the order of the program, each but the first alike to an earlier one: statements of the same kinds in the same order, also inside of them up to the start of the last, and not overlapping it.",
     "for all programs (statements, lines, kinds, nesting), all that is found by comparing blocks",
     "The groups result from the order in which all pairs of runs in a program are entered into a dictionary; tests have a few programs.",
     ["edulint/linting/checkers/duplication/checker.py:168-262", "edulint/linting/checkers/duplication/checker.py:384-409"])

prop("C129", "Blocks that look alike are compared with each other",
     "If two runs of statements that do not overlap look alike, they are compared, so they are reported if they are similar enough and nothing else was reported about them.",
     "for all programs (statements, lines, kinds, nesting), all that is found by comparing blocks",
     "Whether a pair is lost depends on all other pairs of runs in the program.",
     ["edulint/linting/checkers/duplication/checker.py:168-262", "edulint/linting/checkers/duplication/checker.py:384-409"])

prop("C130", "Blocks reported as similar do not overlap",
     "The blocks that one message says to be similar, and to be extracted into a function, have no statement in common; and no message starts in code of an earlier message.",
     "for all programs (statements, lines, kinds, nesting), all that is found by comparing blocks",
     "Whether blocks overlap depends on all pairs of runs in the program.",
     ["edulint/linting/checkers/duplication/checker.py:82-92", "edulint/linting/checkers/duplication/checker.py:168-262"])

prop("C131", "A message about a global variable is right",
     "A message about a global variable names a variable that gets a value in code outside of functions and classes, at the place of the message and not later, and gives a line on which code in a function or class changes it. There is at most one message for a variable.",
     "for all programs (locations, events of variables, nesting of functions and classes)",
     "It is about all orders in which assignments and changes of several variables occur in nested code.",
     ["edulint/linting/checkers/basic_checker.py:25-56"])

prop("C132", "Global variables that are changed are reported",
     "A global variable that is changed by code in a function or a class is reported.",
     "for all programs (locations, events of variables, nesting of functions and classes)",
     "It is about code nested in any way; tests have a few programs.",
     ["edulint/linting/checkers/basic_checker.py:25-56", "edulint/linting/analyses/cfg/utils.py:223-269"])

prop("C133", "A message that an iterated structure is modified is right",
     "If a loop is said to modify the structure it iterates over, then some execution of its body makes that modification on that structure and asks for the next element afterwards.",
     "for all bodies of loops (modifications, assignments, ifs nested in any way, jumps) and all executions",
     "It is about all executions of a body; tests compare messages for a few loops.",
     ["edulint/linting/checkers/unsuited_loop.py:338-372", "edulint/linting/analyses/cfg/utils.py:88-135"])
prop("C134", "Modifying an iterated structure is reported",
     "A modification of the structure a loop iterates over, after which the next element can be asked for, is reported.",
     "for all bodies of loops (modifications, assignments, ifs nested in any way, jumps) and all executions",
     "It is about all executions of a body; tests compare messages for a few loops.",
     ["edulint/linting/checkers/unsuited_loop.py:338-372", "edulint/linting/analyses/cfg/utils.py:88-135"])

prop("C135", "A variable counts as changed exactly if it is changed on a path",
     "The check whether a variable is changed between a location and some others (made for the variables of tests before branches are suggested to be replaced by one expression) says yes exactly if the variable is changed on a path of the control flow graph to one of the others that does not come through the first location.",
     "for all programs, their control flow graphs, all events of variables, all locations",
     "It is about all paths through all graphs; tests have a few programs.",
     ["edulint/linting/analyses/data_dependency.py:632-640", "edulint/linting/checkers/duplication/duplicate_if.py:161-169"])
prop("C136", "Changes that Python makes between two locations are noticed",
     "If Python executes a location, then one that changes a variable, and then a third one, then the variable counts as changed between the first and the third one; and only then.",
     "for all programs, all their executions, all events of variables",
     "It is about all executions of all programs; tests have a few programs.",
     ["edulint/linting/analyses/data_dependency.py:632-640", "edulint/linting/analyses/cfg/utils.py:42-168"])

prop("C137", "Loop variables that are parts of larger objects are reported",
     "Exactly the parts of the target of a loop or a comprehension that are assigned to and that are elements or attributes of another object are reported.",
     "for all targets (names, subscripts, attributes, tuples and lists nested in any way, starred parts, any expressions in them)",
     "Targets may be nested in any way; tests have a few.",
     ["edulint/linting/checkers/python_ta_checkers.py:38-50"])
prop("C138", "A module without forbidden top-level code can be imported safely",
     "If no forbidden top-level code is reported, importing the module executes only imports, definitions and assignments; and if the module has only these, nothing is reported.",
     "for all modules (kinds of statements, ifs nested in any way, tests)",
     "It is about all modules; tests have a few.",
     ["edulint/linting/checkers/python_ta_checkers.py:152-194", "edulint/linting/analyses/utils.py:503-517"])

prop("C139", "A loop that is said to be infinite has a test that its body cannot change, also in functions",
     "If the analysis that precedes the reports of infinite loops and of mergeable ifs says that the variables of a test are not modified in a block, then executing the block does not change them, neither directly nor in any function that it calls, directly or through others.",
     "for all programs: any functions, any (mutually recursive) calls, any definitions of the names that are called",
     "Calls can be nested and recursive in any way; tests have a few short chains of calls.",
     ["edulint/linting/analyses/mutability.py:50-103", "edulint/linting/checkers/unsuited_loop.py:238-250", "edulint/linting/checkers/simplifiable_if.py:1155-1173"])
prop("C140", "The search for modifications in functions ends and does not invent them",
     "For every program the search for modifications in called functions ends, also if functions are recursive; and if it says that the variables may be modified, there is a chain of calls to a modification or to something whose body is not known.",
     "for all programs with finitely many names, any (mutually recursive) calls",
     "It is about all graphs of calls, with all cycles.",
     ["edulint/linting/analyses/mutability.py:66-103"])

prop("C141", "Students cannot turn off checks by comments without a report",
     "If in-file configuration of a linter (or of all) is to be ignored, every line with a comment that turns off its checks (noqa, flake8: noqa, pylint: disable), however it is spelled, is reported at its line.",
     "for all files, lines, spellings (letters, white space, what is before and after), lists of linters",
     "There are infinitely many spellings; the documentation promises that there is always at least this report, tests have a few lines.",
     ["edulint/linting/nonparsing_checkers.py:11-73", "docs/source/user_guides.rst:60"])
prop("C142", "Only comments that turn off checks are reported as forbidden",
     "What is reported as a forbidden magic comment is one, of a linter whose in-file configuration is to be ignored, with the line, the column of the hash and the text that stand in the file.",
     "for all files, lines and lists of linters",
     "It is about all lines; tests check the text and the line of a few reports.",
     ["edulint/linting/nonparsing_checkers.py:34-73"])

prop("C143", "All files that are linted are searched for forbidden comments",
     "The files searched for forbidden comments are exactly the Python files among the given paths and in the given directories, at any depth; in particular every file that is linted is searched.",
     "for all trees of directories and all lists of paths",
     "Directories can be nested in any way; tests use single files.",
     ["edulint/linting/nonparsing_checkers.py:24-31", "edulint/config/config.py:522-530"])

# --- status of the proofs ----------------------------------------------------------------
exec(open(os.path.join(ROOT, "tools", "claims.py")).read())

if __name__ == "__main__":
    with open(os.path.join(ROOT, "properties.jsonl"), "w") as f:
        for p in P:
            f.write(json.dumps(p, ensure_ascii=False) + "\n")
    out = []
    for p in P:
        st, th, note = M.get(p["id"], ("partial", [], "Not proved yet; see DESIGN.md for the plan."))
        out.append(dict(property=p["id"], status=st, theorems=th, note=note))
    with open(os.path.join(ROOT, "MANIFEST.json"), "w") as f:
        json.dump({"claims": out}, f, indent=1, ensure_ascii=False)
        f.write("\n")
    ids = [p["id"] for p in P]
    assert len(ids) == len(set(ids)), "duplicate ids"
