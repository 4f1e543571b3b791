{"id": "C01", "title": "Layer precedence of replace-options", "statement": "For every option that is combined by replacement, the value in force for a checked file is the one given by the strongest layer that sets it: command line, else in-file comments, else the selected config file, else its base config chain, else the default; inside one layer the last occurrence wins.", "quantifier": "all option lists in all layers, all options", "why_tests_cant": "The number of layer/occurrence combinations is unbounded; tests fix a handful.", "anchors": ["edulint/config/config.py: Config._combine, Config.combine, Config.get_last_value, get_config_many"]}
{"id": "C02", "title": "Accumulation of linter arguments", "statement": "The pylint (resp. flake8) argument list handed to the linter is the concatenation, in layer order base config, config file, in-file, command line and in textual order inside a layer, of everything the layers and the expanded option sets supplied; nothing is lost, duplicated or reordered before enable/disable-all resolution.", "quantifier": "all option lists in all layers", "why_tests_cant": "Order and loss bugs depend on interleavings of options across layers that cannot be enumerated.", "anchors": ["edulint/config/config.py: Config._combine, Config.combine, Config._translate"]}
{"id": "C03", "title": "Enable/disable-all resolution keeps the meaning", "statement": "Dropping pylint arguments that precede an 'enable=all'/'disable=all' does not change which messages pylint ends up enabling, compared with pylint processing the complete argument list from left to right (for arguments whose --enable.../--disable... options are the message switches '--enable=...' and '--disable=...').", "quantifier": "all argument lists, all message names, all initial pylint states", "why_tests_cant": "Correctness is a statement about every argument order; the resolution scans backwards while pylint reads forwards.", "anchors": ["edulint/config/config.py: Config._resolve_enable_disable_all"]}
{"id": "C04", "title": "Linter arguments reach pylint verbatim", "statement": "Every pylint argument that survives enable/disable-all resolution is passed to pylint exactly as the user wrote it (same spelling, e.g. of file paths and regular expressions).", "quantifier": "all pylint argument lists", "why_tests_cant": "Tests use lower-case arguments only; the claim is about every string.", "anchors": ["edulint/config/config.py: Config._resolve_enable_disable_all"]}
{"id": "C05", "title": "Configuration of a file is independent of its companions", "statement": "The linter arguments used for a file when it is checked together with other files are those used when it is checked alone with the same command line.", "quantifier": "all sets of files with arbitrary in-file configuration, all command lines, all config files", "why_tests_cant": "It is a hyperproperty over two runs with arbitrary companions.", "anchors": ["edulint/config/config.py: _parse_infile_configs, get_config_many, Config.to_immutable"]}
{"id": "C06", "title": "Every Python file is covered exactly once, by its own in-file configuration", "statement": "Unless a config file cannot be loaded, expanding the groups returned for the given files and directories yields every Python file below them exactly once, each in a group whose key equals the in-file configuration of that very file; collapsing a directory into one entry never pulls in a file with another in-file configuration.", "quantifier": "all directory trees of any depth and shape, all assignments of in-file configuration", "why_tests_cant": "Directory trees are unbounded; the collapse step is recursive.", "anchors": ["edulint/config/config.py: _parse_infile_configs"]}
{"id": "C07", "title": "Translations of one file group do not leak into another", "statement": "The message translations used for a group of files depend only on that group's own config file and language file, not on other groups checked in the same call.", "quantifier": "all lists of groups, config files and language files", "why_tests_cant": "It relates two runs with different companion groups; a memo table is shared across groups.", "anchors": ["edulint/config/config.py: get_config_many"]}
{"id": "C08", "title": "Config inheritance is prepending", "statement": "A config file that names a base config behaves as if the base config's options were written before its own, through inheritance chains of any length; option sets and translations of the extending file win over the base's.", "quantifier": "all finite inheritance chains and all file contents", "why_tests_cant": "Chain length is unbounded.", "anchors": ["edulint/config/config.py: parse_config_file"]}
{"id": "C09", "title": "Config inheritance always terminates", "statement": "Loading a config file finishes (with a configuration or a reported error) whatever config files refer to one another.", "quantifier": "all reference graphs between config files", "why_tests_cant": "Termination over all graphs, including cyclic ones, is not testable.", "anchors": ["edulint/config/config.py: parse_config_file"]}
{"id": "C10", "title": "TOML lists and comma separated strings are interchangeable", "statement": "Writing an option value as a TOML list of non-empty comma-free strings has the same effect as writing the comma separated string, for every option but the two that name a file; the parsed list option contains exactly the listed elements in order.", "quantifier": "all lists of non-empty comma-free strings", "why_tests_cant": "All list lengths and contents.", "anchors": ["edulint/config/utils.py: config_file_val_to_str", "edulint/option_parses.py: get_option_parses", "edulint/config/config.py: parse_option"]}
{"id": "C11", "title": "An option settable in files and on the command line is settable in a config file", "statement": "Every option name accepted in-file and on the command line has some TOML value that makes a config file set it.", "quantifier": "all options, all TOML values", "why_tests_cant": "A claim about the non-existence of any working value.", "anchors": ["edulint/config/config.py: parse_option, parse_config_file", "edulint/option_parses.py"]}
{"id": "C12", "title": "An implicit configuration file in a parent directory is honoured", "statement": "If no configuration file is named and edulint.toml or .edulint.toml lies in the directory of the checked file or any of its parents, it is used.", "quantifier": "all directory chains and contents", "why_tests_cant": "Depth is unbounded; the claim is that no directory layout triggers the feature.", "anchors": ["edulint/config/config.py: search_for_config_in_parents"]}
{"id": "C13", "title": "Command line exclusion of in-file configuration is total", "statement": "With ignore-infile-config-for containing edulint or all on the command line, the configuration used does not depend on any in-file edulint comment.", "quantifier": "all files and in-file comments", "why_tests_cant": "Non-interference over all file contents.", "anchors": ["edulint/config/config.py: _parse_infile_configs, _ignore_infile, get_config_many"]}
{"id": "C14", "title": "Option splitting", "statement": "An option text 'name=value' sets the option to everything after the first '=', for every value (including values containing '='), the option name being matched case-insensitively; the flag option takes no value; texts are interpreted independently of one another and anything else sets nothing.", "quantifier": "all option names and value strings", "why_tests_cant": "All strings.", "anchors": ["edulint/config/config.py: parse_args, parse_option", "edulint/options.py: Option"]}
{"id": "C15", "title": "Config path resolution is stable", "statement": "Resolving a config path relative to the file that mentions it leaves packaged names, URLs and absolute paths alone and turns any other path into the absolute path of the same place seen from the directory of that file; resolving the result again (relative to anything) changes nothing.", "quantifier": "all path strings and all base paths", "why_tests_cant": "All strings.", "anchors": ["edulint/config/file_config.py: get_config_type, get_path_relative_to"]}
{"id": "C16", "title": "Overriding drops exactly the overridden problems", "statement": "A problem is dropped by overriding iff another problem with one of its overriding codes is reported for the same path and line; surviving problems keep their order and content, and applying overriding again changes nothing.", "quantifier": "all problem lists and all override tables", "why_tests_cant": "Lists of any length; drops are decided simultaneously.", "anchors": ["edulint/linting/linting.py: apply_overrides", "edulint/linting/overrides.py"]}
{"id": "C17", "title": "Overriding never silences a line", "statement": "Every (file, line) that has a reported problem before overriding still has one afterwards.", "quantifier": "all problem lists", "why_tests_cant": "Depends on the override table being acyclic for every combination of codes on a line.", "anchors": ["edulint/linting/linting.py: apply_overrides", "edulint/linting/overrides.py: get_overriders"]}
{"id": "C18", "title": "Tweaking only drops or rewords", "statement": "Message tweaking never adds, reorders or relocates a problem: the result is a subsequence of the input with only message texts changed, and problems whose code has no tweaker are untouched.", "quantifier": "all problem lists and configurations", "why_tests_cant": "All lists.", "anchors": ["edulint/linting/linting.py: apply_tweaks", "edulint/linting/tweakers.py"]}
{"id": "C19", "title": "Reported problems are ordered", "statement": "The problem list is a permutation of the found problems ordered by position of the path argument they belong to, then path, line and column; problems reported for the command line or a configuration file come first; ties keep linter order.", "quantifier": "all problem lists and argument lists", "why_tests_cant": "All lists.", "anchors": ["edulint/linting/linting.py: sort"]}
{"id": "C20", "title": "Sorting never fails on a problem in a checked file", "statement": "Whatever path spelling the user passes, sorting the problems found in the checked files succeeds.", "quantifier": "all path spellings, including '..' segments", "why_tests_cant": "All path strings; tests use already normalised paths.", "anchors": ["edulint/linting/linting.py: sort, get_proper_path"]}
{"id": "C21", "title": "Reported path denotes the checked file", "statement": "The relative path computed for a pylint problem denotes, from the current directory, the very file pylint reported by absolute path.", "quantifier": "all absolute paths and all working directories", "why_tests_cant": "All directory relations (prefix, sibling, disjoint).", "anchors": ["edulint/linting/linting.py: pylint_to_problem, get_proper_path"]}
{"id": "C22", "title": "A linter failure is never reported as a clean file", "statement": "If flake8 or pylint signals an internal failure, the caller gets an error, not an empty problem list; conversely a regular exit with well-formed output never raises.", "quantifier": "all exit codes and outputs", "why_tests_cant": "All integers as exit codes.", "anchors": ["edulint/linting/linting.py: process_results, lint_flake8, lint_pylint"]}
{"id": "C23", "title": "Standard streams are restored", "statement": "After linting, sys.stdout and sys.stderr are the caller's streams again, whether the linter finishes, exits or raises.", "quantifier": "all outcomes of the wrapped linter", "why_tests_cant": "Exception paths at arbitrary points.", "anchors": ["edulint/linting/linting.py: lint_flake8, lint_pylint"]}
{"id": "C24", "title": "Translations fill in the extracted snippets", "statement": "For a message produced from a linter's pattern with the given snippets, the translated text is the template with these snippets in place, provided the snippets cannot be confused with the pattern's literal text.", "quantifier": "all patterns, snippets and templates", "why_tests_cant": "All strings; matching is greedy and may mis-split.", "anchors": ["edulint/config/language_translations.py: Translation, to_pattern"]}
{"id": "C25", "title": "Exit status reflects the outcome", "statement": "'edulint check' exits with 0 only if the check ran and found nothing, with 1 if problems were found and 2 if the check could not be carried out.", "quantifier": "all outcomes of the check, including unexpected exceptions", "why_tests_cant": "Exceptions can come from any point.", "anchors": ["edulint/edulint.py: check_and_print, _check_code, main"]}
{"id": "C26", "title": "Report lists every problem under its file", "statement": "The textual report contains every problem exactly once, in order, and each problem is preceded by the header of its own file, a header being printed exactly when the file changes.", "quantifier": "all problem lists", "why_tests_cant": "All lists.", "anchors": ["edulint/edulint.py: check_and_print"]}
{"id": "C27", "title": "Remote config cache freshness", "statement": "A remote configuration obtained through the cache is (up to the convention of line ends) the content the server last sent for that very URL, either now, or less than 5 minutes ago, or - only if the server does not answer successfully - less than the offline limit ago.", "quantifier": "all histories of requests, server answers and clock values", "why_tests_cant": "All histories.", "anchors": ["edulint/config/file_config.py: CachedHTTPGet"]}
{"id": "C28", "title": "Remote config cache survives crashes", "statement": "After a crash at any point of a cache update, later requests return only complete contents the server sent for that URL.", "quantifier": "all crash points and histories", "why_tests_cant": "Crash points inside a write cannot be scheduled by unit tests.", "anchors": ["edulint/config/file_config.py: CachedHTTPGet"]}
{"id": "C29", "title": "Offline limit is 500 days", "statement": "An unreachable remote config is served from the cache for 500 days.", "quantifier": "all cache ages", "why_tests_cant": "All ages.", "anchors": ["edulint/config/file_config.py: CachedHTTPGet"]}
{"id": "C30", "title": "Version check rate limit", "statement": "In any sequence of version checks, the package index is contacted at most once per TTL period, failed attempts included.", "quantifier": "all histories with a non-decreasing clock, all outcomes", "why_tests_cant": "All histories.", "anchors": ["edulint/versions/version_checker.py: PackageInfoManager"]}
{"id": "C31", "title": "Update notice only for a newer version", "statement": "An update is announced only if a version newer than the installed one is known.", "quantifier": "all installed versions, all index states", "why_tests_cant": "All version pairs and network failures.", "anchors": ["edulint/versions/version_checker.py"]}
{"id": "C32", "title": "Downloaded explanations are used", "statement": "After a successful download of newer explanations, they are the ones shown.", "quantifier": "all contents", "why_tests_cant": "All contents.", "anchors": ["edulint/explanations.py"]}
{"id": "C33", "title": "Merged comparisons with constants keep the truth value", "statement": "For R6211/R6212/R6214, the condition suggested for a group of comparisons of one expression with constants is true exactly when the original and/or of these comparisons is true (expressions whose text starts with 'abs(' without being a call of abs are the subject of C34).", "quantifier": "all groups of comparisons, all constants, all values of the expression", "why_tests_cant": "All integers, all group sizes.", "anchors": ["edulint/linting/checkers/simplifiable_if.py: _suggestion_for_group_of_boolops, _remove_redundant_compare, _check_if_always_true_or_false, _check_for_simplification_of_single_and, _check_for_simplification_of_single_or"]}
{"id": "C34", "title": "abs() suggestion is right for every expression text", "statement": "The R6211 suggestion is equivalent to the original for every compared expression, including those whose text begins with 'abs('.", "quantifier": "all expressions, all environments", "why_tests_cant": "All expression shapes.", "anchors": ["edulint/linting/checkers/simplifiable_if.py: _add_abs_if_necessary"]}
{"id": "C35", "title": "max/min suggestion keeps the truth value", "statement": "The R6213 suggestion (comparison with max or min) is true exactly when the original and/or of comparisons is.", "quantifier": "all operand lists, all values", "why_tests_cant": "All list lengths.", "anchors": ["edulint/linting/checkers/simplifiable_if.py: _make_suggestion_for_using_max_min_if_possible, _put_into_max_or_min"]}
{"id": "C36", "title": "max/min suggestion is well formed", "statement": "The text suggested by R6213 has balanced parentheses whenever the operands have.", "quantifier": "all operand texts", "why_tests_cant": "All strings.", "anchors": ["edulint/linting/checkers/simplifiable_if.py: _put_into_max_or_min"]}
{"id": "C37", "title": "Remainder comparison suggestion keeps the truth value", "statement": "The R6215 suggestion ('x % n == y % n', 'x % n != y % n' or 'True') is true exactly when the quoted or-part of the condition is.", "quantifier": "all moduli, all sequences of comparison pairs, all integers", "why_tests_cant": "All moduli and lists.", "anchors": ["edulint/linting/checkers/simplifiable_if.py: PairsOfModComparisonsWithNum, _make_suggestion_for_simplifiable_test_by_equals"]}
{"id": "C38", "title": "Redundant operands are removed safely", "statement": "The R6216 suggestion obtained by removing operands of an and/or, using a solver that may answer 'unknown', has the same truth value as the original; R6222 'always True/False' is right.", "quantifier": "all operand lists, all sound (incomplete) solvers, all environments", "why_tests_cant": "All solvers' answer patterns.", "anchors": ["edulint/linting/checkers/simplifiable_if.py: _redundant_condition_parts, _make_suggestion_for_redundant_condition_part"]}
{"id": "C39", "title": "if/elif chain simplification keeps the selected branch", "statement": "Simplifying an if/elif/else chain (R6217-R6221) selects the same branch body as the original for every environment, for every sound solver.", "quantifier": "all chains, all sound solvers, all environments", "why_tests_cant": "All chain lengths and solver answers.", "anchors": ["edulint/linting/checkers/simplifiable_if.py: _immediate_simplifications_for_if, _simplify_if_by_moving_conditions_up, _convert_else_to_elif_when_simple_enough"]}
{"id": "C40", "title": "Consecutive ifs merge safely", "statement": "When R6223 says consecutive ifs whose conditions' variables are not modified can become elifs, executing the merged statement has the same effect as executing them in sequence.", "quantifier": "all if sequences, all states, all sound solvers", "why_tests_cant": "All sequences.", "anchors": ["edulint/linting/checkers/simplifiable_if.py: can_merge_ifs_together, _count_of_mergeable_consecutive_ifs"]}
{"id": "C41", "title": "Replacing an if by its condition keeps truthiness", "statement": "The R6201-R6204, R6209 and R6210 suggestions give a value with the same truthiness and the same side effects as the original if, for every condition and value.", "quantifier": "all conditions, values and states", "why_tests_cant": "All values.", "anchors": ["edulint/linting/checkers/simplifiable_if.py: _refactored_cond_from_then_orelse"]}
{"id": "C42", "title": "Replacing an if by its condition keeps the value", "statement": "The R6201 suggestion returns the same value as the original if.", "quantifier": "all conditions and values", "why_tests_cant": "All values.", "anchors": ["edulint/linting/checkers/simplifiable_if.py: _refactored_cond_from_then_orelse"]}
{"id": "C43", "title": "Merging nested, sequential and pass ifs is behaviour preserving", "statement": "The R6205, R6207 and R6208 rewrites execute the same tests in the same order with the same final state and result.", "quantifier": "all conditions, bodies and states, side effects included", "why_tests_cant": "All programs.", "anchors": ["edulint/linting/checkers/simplifiable_if.py: _merge_nested, _merge_sequential, _basic_checks"]}
{"id": "C44", "title": "Membership in a range rewritten to comparisons", "statement": "The R6617/R6618/R6619 suggestions are true exactly when the tested integer is in (not in) the range, for all bounds and non-zero steps.", "quantifier": "all integers, bounds, steps", "why_tests_cant": "All integers.", "anchors": ["edulint/linting/checkers/local_defects.py: _check_in_range_instead_of_compare"]}
{"id": "C45", "title": "Membership rewrite evaluates its operand alike", "statement": "The R6617-R6619 rewrites are equivalent also when evaluating the tested expression has a side effect.", "quantifier": "all expressions", "why_tests_cant": "All evaluation histories.", "anchors": ["edulint/linting/checkers/local_defects.py: _check_in_range_instead_of_compare"]}
{"id": "C46", "title": "Iteration count report is exact", "statement": "R6606 reports 'no iterations' exactly for ranges that are empty and 'only one iteration' exactly for ranges with one element.", "quantifier": "all integer range bounds and steps", "why_tests_cant": "All integers.", "anchors": ["edulint/linting/checkers/local_defects.py: _check_iteration_count"]}
{"id": "C47", "title": "Repeated operation report has equal operands", "statement": "R6607 is reported only if all operands of the chain are the same expression.", "quantifier": "all binary operation trees", "why_tests_cant": "All trees.", "anchors": ["edulint/linting/checkers/local_defects.py: _check_repeated_operation, _check_repeated_operation_rec"]}
{"id": "C48", "title": "Replacing a magic constant by ord() keeps the value", "statement": "Replacing the constant by the R6614 suggestion text leaves the value of the expression unchanged.", "quantifier": "all constants in range, both operators and positions, all operand values", "why_tests_cant": "All constants and positions.", "anchors": ["edulint/linting/checkers/local_defects.py: _check_use_ord_letter"]}
{"id": "C49", "title": "Comparing letters instead of codes", "statement": "The R6615 suggestion is true exactly when the original comparison of ord(c) with the constant is.", "quantifier": "all characters, constants and comparison operators", "why_tests_cant": "All characters.", "anchors": ["edulint/linting/checkers/local_defects.py: _check_magical_constant_in_ord_compare"]}
{"id": "C50", "title": "Checker does not crash on comparisons with ord()", "statement": "The R6615 check handles every comparison containing ord() without an exception.", "quantifier": "all comparisons", "why_tests_cant": "All constant types.", "anchors": ["edulint/linting/checkers/local_defects.py: _check_magical_constant_in_ord_compare"]}
{"id": "C51", "title": "Redundant arithmetic is redundant", "statement": "Whenever R6608 is reported on integer operands and the expression evaluates, its value is 0, 1, one of the operands or the negation of one.", "quantifier": "all operand values", "why_tests_cant": "All integers.", "anchors": ["edulint/linting/checkers/local_defects.py: _check_redundant_arithmetic"]}
{"id": "C52", "title": "Negation detection is sound", "statement": "When R6611/R6612/R6218 consider the elif condition the negation of the if condition, in every environment exactly one of the two is true.", "quantifier": "all condition pairs, all environments", "why_tests_cant": "All expression pairs.", "anchors": ["edulint/linting/analyses/utils.py: is_negation"]}
{"id": "C53", "title": "Constant folding agrees with Python", "statement": "If the constant folder returns a value for an expression, Python evaluates the expression to that value.", "quantifier": "all expressions", "why_tests_cant": "All expression trees.", "anchors": ["edulint/linting/analyses/utils.py: get_const_value"]}
{"id": "C54", "title": "Constant folding never raises", "statement": "The constant folder returns a value or None for every expression, never an exception.", "quantifier": "all expressions", "why_tests_cant": "All expression trees.", "anchors": ["edulint/linting/analyses/utils.py: get_const_value"]}
{"id": "C55", "title": "Augmented assignment suggestion keeps the effect", "statement": "Replacing the assignment by the R6609 suggestion leaves the same final state.", "quantifier": "all assignments, all states", "why_tests_cant": "All states.", "anchors": ["edulint/linting/checkers/local_defects.py: _check_augmentable"]}
{"id": "C56", "title": "Integral division suggestion", "statement": "Replacing int(a / b) by a // b keeps the value.", "quantifier": "all integers", "why_tests_cant": "All sign combinations.", "anchors": ["edulint/linting/checkers/local_defects.py: _check_div"]}
{"id": "C57", "title": "Block enumeration is exact", "statement": "Enumerating the blocks of a control flow graph yields every block reachable from the start exactly once and terminates on cyclic graphs.", "quantifier": "all finite graphs", "why_tests_cant": "All graphs.", "anchors": ["edulint/linting/analyses/cfg/graph.py: get_blocks"]}
{"id": "C58", "title": "Reaching definitions are exact", "statement": "The computed set of definitions reaching a block is exactly the set of blocks that define the variable and have a path to it without another definition in between; the iteration terminates.", "quantifier": "all finite graphs and all definition placements", "why_tests_cant": "All graphs and paths.", "anchors": ["edulint/linting/analyses/data_dependency.py: collect_reaching_definitions"]}
{"id": "C59", "title": "Type guess operations form a set algebra", "statement": "A type guess behaves as a set of types: membership, union, intersection, 'has only' and counting agree with sets.", "quantifier": "all sets of types", "why_tests_cant": "All combinations.", "anchors": ["edulint/linting/analyses/types.py: Types"]}
{"id": "C60", "title": "Type guesses are sound", "statement": "If the guessed types of an expression are known, its run-time type is among them.", "quantifier": "all expressions and environments", "why_tests_cant": "All expressions.", "anchors": ["edulint/linting/analyses/types.py: guess_type"]}
{"id": "C61", "title": "Anti-unification generalises", "statement": "Substituting the i-th sub-variants for the variables of the common core gives back the i-th code fragment.", "quantifier": "all lists of syntax trees", "why_tests_cant": "All trees.", "anchors": ["edulint/linting/analyses/antiunify.py: Antiunify"]}
{"id": "C62", "title": "Solver translation preserves meaning", "statement": "The formula a condition is translated to is true in exactly the integer environments in which Python evaluates the condition to true.", "quantifier": "all conditions in the supported fragment, all environments", "why_tests_cant": "All expressions and integers.", "anchors": ["edulint/linting/analyses/z3_analysis.py: convert_condition_to_z3_expression"]}
{"id": "C63", "title": "Handlers are part of the control flow graph", "statement": "Every statement that Python can execute is reachable in the control flow graph built for it.", "quantifier": "all programs", "why_tests_cant": "All programs.", "anchors": ["edulint/linting/analyses/cfg/visitor.py: CFGVisitor", "edulint/linting/analyses/cfg/graph.py"]}
{"id": "C64", "title": "Only message switches are dropped", "statement": "Enable/disable-all resolution drops nothing but the message switches '--enable=...' and '--disable=...'; every other pylint argument is passed on.", "quantifier": "all pylint argument lists", "why_tests_cant": "All strings.", "anchors": ["edulint/config/config.py: Config._resolve_enable_disable_all"]}
{"id": "C65", "title": "A config file that excludes in-file configuration keeps its own settings", "statement": "When the config file in force excludes in-file configuration, its other options still apply.", "quantifier": "all config files and all ways of selecting them", "why_tests_cant": "Depends on how the config file was selected; all option lists.", "anchors": ["edulint/config/config.py: get_config_many"]}
{"id": "C66", "title": "A file whose config file cannot be loaded is not skipped silently", "statement": "Every Python file given is checked or the run reports a failure through its result.", "quantifier": "all files and all config files", "why_tests_cant": "The failing condition lies outside the program and combines with any grouping.", "anchors": ["edulint/config/config.py: get_config_many, parse_config_file"]}
{"id": "C67", "title": "A checked file is ordered as a file", "statement": "Problems in a checked file are ordered by the position of its path argument, whatever the file is called.", "quantifier": "all file names", "why_tests_cant": "All strings as names.", "anchors": ["edulint/linting/linting.py: sort, is_pylint_out_of_file_problem"]}
{"id": "C68", "title": "Tweaks of linter messages do what the options say", "statement": "A disallowed one-character name is dropped iff listed in allowed-onechar-names and otherwise reworded; a redefined builtin is dropped iff disallowed-builtin-names is non-empty and does not list it; unused imports of ib111 modules and parentheses after 'not' are dropped; a repeated operation is dropped iff no group is set and at most one '*' precedes the first full stop; comparisons to booleans are reworded; everything else is kept as it is, and no message of these linters makes tweaking fail.", "quantifier": "all names, expressions, message lists and configurations", "why_tests_cant": "Decisions go through regular expressions matched against arbitrary texts.", "anchors": ["edulint/linting/tweakers.py: TWEAKERS", "edulint/linting/linting.py: apply_tweaks"]}
{"id": "C69", "title": "A translated message shows no unfilled placeholder", "statement": "When a message of a linter is translated by a template whose placeholders ask for no more snippets than the message has, every placeholder of the template is replaced by a (translated) snippet of the message.", "quantifier": "all messages of the linters, snippets and templates", "why_tests_cant": "Whether the message is recognised depends on arbitrary snippet texts, on how the linter spells the message and on earlier rewording.", "anchors": ["edulint/config/language_translations.py: Translation.translate, to_pattern", "edulint/config/raw_flake8_patterns.py: FLAKE8", "edulint/linting/linting.py: apply_translations"]}
{"id": "C70", "title": "A faulty translation does not hide problems", "statement": "If a check without translations reports problems, the same check with any translations of the messages also reports problems.", "quantifier": "all translations", "why_tests_cant": "Translations are arbitrary user data.", "anchors": ["edulint/config/language_translations.py: Translation.translate", "edulint/edulint.py: check_and_print"]}
{"id": "C71", "title": "A downloaded remote config stays available offline", "statement": "Once a remote configuration has been downloaded and stored, requests for it within the offline limit succeed even if the server does not answer.", "quantifier": "all histories of requests, all contents and server failures", "why_tests_cant": "All histories and contents.", "anchors": ["edulint/config/file_config.py: CachedHTTPGet.http_get, _read_version_from_disk"]}
{"id": "C72", "title": "The server is asked at most once in five minutes", "statement": "Within five minutes of a request for a remote configuration, further requests for the same address are answered without asking the server.", "quantifier": "all histories of requests and answers", "why_tests_cant": "All histories.", "anchors": ["edulint/config/file_config.py: CachedHTTPGet.http_get"]}
{"id": "C73", "title": "Caching does not change the text", "statement": "A remote configuration served from the cache is exactly the text the server sent.", "quantifier": "all texts", "why_tests_cant": "All texts; text files translate line ends.", "anchors": ["edulint/config/file_config.py: CachedHTTPGet"]}
{"id": "C74", "title": "The version check recovers from an interrupted run", "statement": "After a version check was interrupted at any point, a later version check works again.", "quantifier": "all points of interruption and all later checks", "why_tests_cant": "Interruptions inside a write cannot be scheduled by unit tests.", "anchors": ["edulint/versions/version_checker.py: PackageInfoManager._save_package_info_locally, _get_package_info_locally"]}
{"id": "C75", "title": "The latest version reported is the newest one offered", "statement": "Any version reported as the latest was, at the time the index was asked, offered (with builds, not yanked) and no newer version was offered.", "quantifier": "all histories of checks and all contents of the index", "why_tests_cant": "All sets of versions, including pre-releases.", "anchors": ["edulint/versions/version_checker.py: PackageInfoManager.get_latest_version", "edulint/versions/pypi_helper.py: get_versions"]}
{"id": "C76", "title": "Explanation updates are rate limited", "statement": "In any sequence of runs, the server of explanations is asked at most once per TTL period, failed attempts included.", "quantifier": "all histories with a non-decreasing clock, all outcomes", "why_tests_cant": "All histories.", "anchors": ["edulint/explanations.py: _thread_update_explanations"]}
{"id": "C77", "title": "Background updates can be switched off", "statement": "With --disable-version-check no version check is started and with --disable-explanations-update no update of explanations is started, for every command.", "quantifier": "all commands and combinations of switches", "why_tests_cant": "Threads are started in several places.", "anchors": ["edulint/edulint.py: main, get_message_explanations", "edulint/explanations.py: get_explanations"]}
{"id": "C78", "title": "Explanations asked for are given", "statement": "The explanations returned are exactly those of the requested message ids that have one, each once, ids without an explanation are warned about in order, and 'all' in any letter case gives all of them.", "quantifier": "all lists of ids and all explanation files", "why_tests_cant": "All lists.", "anchors": ["edulint/edulint.py: get_message_explanations, print_message_explanations"]}
{"id": "C79", "title": "Newest patch of each minor version", "statement": "The versions chosen for compatibility tests contain, for every minor version, exactly one version, the newest one, in ascending order.", "quantifier": "all lists of versions", "why_tests_cant": "All lists.", "anchors": ["edulint/versions/pypi_helper.py: _only_last_patch_of_each_minor"]}
{"id": "C80", "title": "Version check at most once per hour", "statement": "As the help of --disable-version-check says, the index is asked at most once per hour.", "quantifier": "all histories of checks", "why_tests_cant": "All histories.", "anchors": ["edulint/edulint.py: setup_argparse, _update_check"]}
{"id": "C81", "title": "Checks of if statements always finish", "statement": "Linting any if statement finishes, without an exception, whatever statements its branches hold.", "quantifier": "all if statements", "why_tests_cant": "All programs.", "anchors": ["edulint/linting/checkers/simplifiable_if.py: _get_refactored, _refactored_cond_from_then_orelse, _basic_checks"]}
{"id": "C82", "title": "Guessing types terminates, also for variables defined in terms of one another", "statement": "For every program and every expression in it, guessing the type of the expression ends, however the variables' assignments refer to one another.", "quantifier": "all programs, all expressions, all cyclic definitions", "why_tests_cant": "Definitions can form arbitrary cycles through loops.", "anchors": ["edulint/linting/analyses/types.py: guess_type"]}
{"id": "C83", "title": "Using a value directly instead of comparing it with True or False", "statement": "Replacing a comparison with True or False by 'is' or 'is not' by the R6613 suggestion text keeps the truth of the condition.", "quantifier": "all operand expressions, all values", "why_tests_cant": "All values of the operand; tests use a handful.", "anchors": ["edulint/linting/checkers/local_defects.py: _check_no_is"]}
{"id": "C84", "title": "Redundant elif and unreachable else", "statement": "When R6611 is reported, the elif can become an else without changing the behaviour; when R6612 is reported, the else branch is never executed.", "quantifier": "all programs and states", "why_tests_cant": "All conditions and states.", "anchors": ["edulint/linting/checkers/local_defects.py: _check_redundant_elif"]}
{"id": "C85", "title": "Appending instead of extending by one element", "statement": "Following R6601 leaves the list with the same elements.", "quantifier": "all list displays of one element, all lists", "why_tests_cant": "All lists and elements, including starred ones.", "anchors": ["edulint/linting/checkers/local_defects.py: _check_extend, _check_augassign_extend"]}
{"id": "C86", "title": "The check for multiplied lists answers for every product", "statement": "For every product the check R6610 ends without an exception and reports exactly the list displays with a list, set or dict (display or call) as an element.", "quantifier": "all products", "why_tests_cant": "All operands, including two list displays.", "anchors": ["edulint/linting/checkers/local_defects.py: _check_multiplied_list"]}
{"id": "C87", "title": "Conditions handed to the solver do not crash the linter", "statement": "The checks that ask the solver (R6216, R6222) end without an exception for every condition, whatever the types of its parts are guessed to be and whatever the solver answers; what the solver is given is well-typed for it.", "quantifier": "all conditions, all type guesses, all solvers", "why_tests_cant": "All conditions, e.g. abs of something that cannot be translated.", "anchors": ["edulint/linting/analyses/z3_analysis.py: initialize_variables, convert_condition_to_z3_expression", "edulint/linting/checkers/simplifiable_if.py: _make_suggestion_for_redundant_condition_part, visit_compare"]}
{"id": "C88", "title": "The chain check ends, and without an exception", "statement": "Checking an if/elif/else chain (R6217-R6221) terminates and raises no exception, whatever the tests are, whatever the solver answers and whatever the types are guessed to be.", "quantifier": "all chains, all type guesses, all solvers", "why_tests_cant": "The rounds that move branches up and the rewriting of tests depend on each other; all chain lengths and solver answers.", "anchors": ["edulint/linting/checkers/simplifiable_if.py: _immediate_simplifications_for_if, _simplify_if_by_moving_conditions_up, _check_for_redundant_condition_part_in_if"]}
{"id": "C89", "title": "The check of consecutive ifs ends, and without an exception", "statement": "Checking consecutive if statements (R6223, R6224) terminates and raises no exception, whatever the conditions are, whatever the solver answers and whatever the types are guessed to be.", "quantifier": "all sequences of if statements, all type guesses, all solvers", "why_tests_cant": "The loop keeps two lists of translated conditions with their own positions; all lengths and solver answers.", "anchors": ["edulint/linting/checkers/simplifiable_if.py: _report_all_mergeable_consecutive_ifs, _get_most_consecutive_ifs_without_var_modification"]}
{"id": "C90", "title": "Building control flow graphs never fails", "statement": "Building the control flow graphs of a program succeeds, whatever statements are nested in each other.", "quantifier": "all programs", "why_tests_cant": "The places of statements are read back from attributes set while visiting other statements, and blocks are removed from sets they must be in; all nestings.", "anchors": ["edulint/linting/analyses/cfg/visitor.py: CFGVisitor", "edulint/linting/analyses/cfg/graph.py: link_or_merge, multiple_link_or_merge, add_CF_statement"]}
{"id": "C91", "title": "Loops reported as one-iteration end in their first iteration", "statement": "If the message one-iteration (E9996) is reported for a loop, no execution of the program does a second iteration of it; the check raises no exception.", "quantifier": "all programs, all outcomes of conditions, iterators and exceptions", "why_tests_cant": "All nestings of jumps and all executions.", "anchors": ["edulint/linting/checkers/python_ta_checkers.py: _check_one_iteration"]}
{"id": "C92", "title": "Uses are linked to the definitions whose values they can see", "statement": "After the analysis of a module, a read or modification of a variable lists a definition exactly if there is a way through the control flow graph from the definition to the use on which the variable is not defined again; the same holds for the definitions a definition replaces. The analysis ends without an exception.", "quantifier": "all control flow graphs, all placements of events, all calls whose effects may happen or not", "why_tests_cant": "All graphs, all paths and all interleavings of events of several variables.", "anchors": ["edulint/linting/analyses/data_dependency.py: collect_reaching_definitions"]}
{"id": "C93", "title": "Branches reported as identical are identical", "statement": "If R6501 (identical-if-branches) is reported because the branches have a common core without variables, all branches are the same code, up to names of variables that can be interchanged.", "quantifier": "all branches of an if statement", "why_tests_cant": "All syntax trees; the report depends on every attribute of every class of nodes.", "anchors": ["edulint/linting/checkers/duplication/duplicate_if.py: duplicate_in_if", "edulint/linting/analyses/antiunify.py: antiunify"]}
{"id": "C94", "title": "Names of duplicate blocks correspond one-to-one", "statement": "If anti-unification with require_name_consistency=True (as for duplicate blocks and functions) succeeds, then for any two fragments, two places have the same name in one fragment exactly if they have the same name in the other one.", "quantifier": "all lists of syntax trees", "why_tests_cant": "All trees and all assignments of names to places.", "anchors": ["edulint/linting/analyses/antiunify.py: get_merge_candidates"]}
{"id": "C95", "title": "Anti-unification raises no exception", "statement": "Comparing fragments of code for duplication ends with a core or with the answer that there is none, and never with an exception.", "quantifier": "all lists of syntax trees", "why_tests_cant": "All trees.", "anchors": ["edulint/linting/analyses/antiunify.py: antiunify", "edulint/linting/analyses/utils.py: new_node"]}
{"id": "C96", "title": "Moving identical code out of the branches keeps what the program does", "statement": "If R6502 (identical-if-branches-part) tells to move n lines before or after an if statement, or R6501 (identical-if-branches) tells to remove it, the program does the same afterwards, for all values and effects of the conditions and statements.", "quantifier": "all if statements with elif and else branches, all programs around them, all states", "why_tests_cant": "All programs and states; a test can run a suggestion in a few states only.", "anchors": ["edulint/linting/checkers/duplication/duplicate_if.py: identical_before_after_branch", "edulint/linting/checkers/duplication/duplicate_if.py: extract_from_elif"]}
{"id": "C97", "title": "Joining identical branches with 'or' keeps what the program does", "statement": "If R6503 (identical-seq-ifs) or R6504 (identical-seq-elifs) is reported, the branches have the same code, and one branch with their conditions joined by 'or' does the same as the reported ones.", "quantifier": "all sequences of if statements with elif and else branches, all states", "why_tests_cant": "All programs and states.", "anchors": ["edulint/linting/checkers/duplication/duplicate_if.py: identical_seq_ifs", "edulint/linting/checkers/duplication/duplicate_if.py: extract_from_siblings"]}
{"id": "C98", "title": "Reported parts of branches are the longest ones and none is missed", "statement": "The lines that R6502 names are the longest common beginning or end of all branches of an if statement. If neither R6501 nor R6502 is reported for an if statement with else whose first and last branch are not a single if, its branches do not begin alike, and end alike in at most one statement, which is a return. The comparison raises no exception.", "quantifier": "all if statements with elif and else branches", "why_tests_cant": "All statements with any number of branches of any length.", "anchors": ["edulint/linting/checkers/duplication/duplicate_if.py: identical_before_after_branch"]}
{"id": "C99", "title": "The untwisted condition keeps what the program does", "statement": "If R6557 (similar-if-to-untwisted) is reported, an if with the suggested condition and the branches of the first inner if does the same as the two nested if statements.", "quantifier": "all nested if statements, all states", "why_tests_cant": "All programs and states.", "anchors": ["edulint/linting/checkers/duplication/duplicate_if.py: get_fixed_by_restructuring_twisted"]}
{"id": "C100", "title": "The suggested if expression has the value of the branch that runs", "statement": "If R6558 (similar-if-to-expr) suggests an if expression for values that differ between branches, the expression evaluates the conditions in the order of the branches and has the value that stands in the branch that would run.", "quantifier": "all lists of conditions and values, all states", "why_tests_cant": "All chains and states.", "anchors": ["edulint/linting/checkers/duplication/duplicate_if.py: get_fixed_by_ternary", "edulint/linting/checkers/duplication/utils.py: to_node"]}
{"id": "C101", "title": "The suggested list or dictionary gives what the branches give", "statement": "If R6561 (similar-if-to-list) or R6562 (similar-if-to-dict) is reported for a chain of comparisons with constants, looking up the values of the variables gives the branch that the chain takes, and nothing is found exactly when no condition holds; a list is suggested only if the constants are 0, 1, ..., n - 1 in some order.", "quantifier": "all conditions built of comparisons, and, or; all values of the variables", "why_tests_cant": "All chains and all values.", "anchors": ["edulint/linting/checkers/duplication/duplicate_if.py: get_fixed_by_container", "edulint/linting/checkers/duplication/duplicate_if.py: vals_from_simple_test"]}
{"id": "C102", "title": "A suggested loop has as many iterations as there are repetitions", "statement": "If R6552 (similar-block-to-loop-range) or R6560 (similar-block-to-loop-collection) tells to iterate over something instead of n repetitions, it has n elements.", "quantifier": "all numbers of repetitions, all values and expressions that vary, any number of places that vary", "why_tests_cant": "All sequences of values and expressions of any length.", "anchors": ["edulint/linting/checkers/duplication/duplicate_sequence.py: similar_to_loop", "edulint/linting/checkers/duplication/duplicate_sequence.py: get_nice_iters", "edulint/linting/checkers/duplication/duplicate_sequence.py: consolidate_ranges"]}
{"id": "C103", "title": "A suggested loop goes through the values that vary", "statement": "If R6552 or R6560 tells to iterate over something, its elements are the values at the places that vary, in the order of the repetitions; a range is suggested only for numbers or characters that are equally far apart; the loop over names does the same as the repetitions.", "quantifier": "all values and names that vary, any number of places, all programs and states for names", "why_tests_cant": "All sequences of values; for names all programs and states.", "anchors": ["edulint/linting/checkers/duplication/duplicate_sequence.py: to_iter_use", "edulint/linting/checkers/duplication/duplicate_sequence.py: to_range_args", "edulint/linting/checkers/duplication/duplicate_sequence.py: from_chars"]}
{"id": "C104", "title": "Looking for repetitions raises no exception", "statement": "Deciding whether repeated code can be written as a loop raises no exception, whatever the fragments differ in.", "quantifier": "all values and expressions that vary, all loops around the code", "why_tests_cant": "All values and nestings of expressions.", "anchors": ["edulint/linting/checkers/duplication/duplicate_sequence.py: similar_to_loop", "edulint/linting/checkers/duplication/duplicate_sequence.py: iter_use_from_partition"]}
{"id": "C105", "title": "Repeating the outer loop more often does the same", "statement": "If R6553 (similar-block-to-loop-merge) tells to repeat the outer loop t times, the loop with only one of the parts as its body and range(t) does the same as the loop over all of them.", "quantifier": "all loops over range(b), all numbers of parts, all programs and states", "why_tests_cant": "All programs, states and numbers of iterations.", "anchors": ["edulint/linting/checkers/duplication/duplicate_sequence.py: get_fixed_by_merging_with_parent_loop"]}
{"id": "C106", "title": "All repetitions at the beginning of a block are tried, the longest first", "statement": "The fragments that are compared are exactly the ways to cut a beginning of the block into at least two consecutive parts of the same length; longer beginnings come first, and among equally long ones smaller parts do; none comes twice.", "quantifier": "all blocks of statements", "why_tests_cant": "All blocks of any length.", "anchors": ["edulint/linting/checkers/duplication/utils.py: get_loop_repetitions"]}
{"id": "C107", "title": "A loop 'while True' that starts with a break can have the negated condition", "statement": "If R6301 (no-while-true) is reported, the loop whose condition is the negation of the text in the message and whose body is the rest of the body, followed by the statements that came before the break, does the same: it ends in the same states, and ends if and only if the reported loop does.", "quantifier": "all while loops, all programs and states", "why_tests_cant": "All loops, states and numbers of iterations, including endless ones.", "anchors": ["edulint/linting/checkers/unsuited_loop.py: UnsuitedLoop._check_no_while_true"]}
{"id": "C108", "title": "The iteration that 'never happens' does not happen", "statement": "If R6302 (use-tighter-boundaries) is reported, the loop without its first or last iteration and without the test does the same as the reported loop, apart from the value of the target.", "quantifier": "all for loops over range, all bounds and steps, all programs and states", "why_tests_cant": "All ranges, including descending ones and ones whose step does not divide their length, and all states.", "anchors": ["edulint/linting/checkers/unsuited_loop.py: UnsuitedLoop._check_use_tighter_bounds"]}
{"id": "C109", "title": "A while loop that should be a for loop counts", "statement": "If R6305 (use-for-loop) is reported, the loop does the same as a for loop with the same body over a range that starts with the value of the variable, has step 1 or -1 and ends at the other side of the comparison.", "quantifier": "all while loops, all programs and states", "why_tests_cant": "All conditions, ways to write an increment, numbers of iterations and states.", "anchors": ["edulint/linting/checkers/unsuited_loop.py: UnsuitedLoop._check_use_for_loop"]}
{"id": "C110", "title": "Iterating over a structure directly does the same", "statement": "If R6307 (use-foreach) or R6308 (use-enumerate) is reported for a loop over range(len(a)), replacing a[i] by the element everywhere in its body and iterating over a (or enumerate(a)) does the same; after use-foreach the index is no longer needed, and after use-enumerate it still is.", "quantifier": "all for loops over range(len(a)) where a is a name, all bodies, programs and states", "why_tests_cant": "All bodies with nested blocks, all numbers of iterations, all ways in which the body may end.", "anchors": ["edulint/linting/checkers/unsuited_loop.py: UnsuitedLoop._check_improve_for_loop"]}
{"id": "C111", "title": "Names are taken for the variables they mean", "statement": "The variable that the analysis records for an occurrence of a name is the one that Python's scoping rules give: local, of an enclosing function, or of the module, with global and nonlocal declarations, classes, parameters, lambdas and comprehensions.", "quantifier": "all modules with any nesting of functions, classes, lambdas, comprehensions and blocks, all names in them", "why_tests_cant": "All nestings of scopes and all ways in which the same name may be bound in several of them.", "anchors": ["edulint/linting/analyses/variable_scope.py: VarEventListener"]}
{"id": "C112", "title": "No binding of a name is missed", "statement": "Every name bound by an assignment, a loop, a comprehension, a parameter, an import or a definition has an event that records it as assigned.", "quantifier": "all modules that the analysis accepts, all names bound in them", "why_tests_cant": "All statements and expressions at all depths.", "anchors": ["edulint/linting/analyses/variable_scope.py: VarEventListener"]}
{"id": "C113", "title": "Uses of a module's names in functions and classes are seen", "statement": "Where a function or a class of the module uses a name that the module binds, wherever in the module it does so, the use is recorded.", "quantifier": "all modules that the analysis accepts, all their functions and classes, all names", "why_tests_cant": "All orders of statements and definitions, all depths of nesting.", "anchors": ["edulint/linting/analyses/variable_scope.py: VarEventListener"]}
{"id": "C114", "title": "The analysis of variables gives up only for locals() and globals()", "statement": "The analysis fails only for modules with a call of the built-in functions locals or globals; for all others it gives a result.", "quantifier": "all modules", "why_tests_cant": "All modules, not only those tried.", "anchors": ["edulint/linting/analyses/variable_scope.py: VarEventListener.visit_call", "edulint/linting/analyses/patcher.py: run_analyses"]}
{"id": "C115", "title": "Walking over the control flow graph from a location yields exactly what control can get to, once", "statement": "successors_from_loc (predecessors_from_loc) without exploring functions and classes ends without a failing assertion, yields no location twice, and yields exactly the locations on paths forward (backward) from the given one on which at most the last location is one to stop at: with include_start the paths start at the location itself, otherwise after it; without include_end the locations to stop at are left out.", "quantifier": "for all grammatical programs, locations, stop functions, directions and values of include_start and include_end", "why_tests_cant": "Partial visits of blocks (a start in the middle of a loop's block, revisited from its beginning) depend on the shape of the graph; tests have a few shapes.", "anchors": ["edulint/linting/analyses/cfg/utils.py:42-168", "edulint/linting/analyses/cfg/utils.py:223-345"]}
{"id": "C116", "title": "Walking from several locations yields what control can get to from any of them", "statement": "successors_from_locs and its backward counterpart with several locations yield, each once, exactly the locations on such paths from at least one of them.", "quantifier": "for all grammatical programs, lists of locations, stop functions and flags", "why_tests_cant": "Whether a start is skipped depends on what the walks from the earlier starts have marked as visited; tests use one start.", "anchors": ["edulint/linting/analyses/cfg/utils.py:137-168", "edulint/linting/analyses/cfg/utils.py:310-345"]}
{"id": "C117", "title": "What Python executes after a statement is found by walking on from it", "statement": "If in some execution y is executed after x, with no location to stop at in between, then the walk forward from the location of x yields the location of y, and the walk backward from the location of y yields the location of x (unless it is one to stop at and those are left out).", "quantifier": "for all programs, executions (whatever conditions, iterators and exceptions do) and stop functions", "why_tests_cant": "It speaks of all executions of all programs; tests check graphs of single programs.", "anchors": ["edulint/linting/analyses/cfg/utils.py:42-168", "edulint/linting/analyses/cfg/visitor.py:58-425"]}
{"id": "C118", "title": "A condition said to be implied after a block of code holds there", "statement": "If the analysis says that the first condition implies the second after a block, then in every run where the first condition holds and the block comes to its end, the second condition holds there.", "quantifier": "for all pairs of conditions, all blocks of assignments, assertions, nested if statements and ends, all states and all sound solvers", "why_tests_cant": "It speaks of all states and all blocks; tests run the analysis on a few blocks and compare its answer only.", "anchors": ["edulint/linting/analyses/z3_block_analysis.py:31-670", "edulint/linting/analyses/z3_analysis.py:417-430"]}
{"id": "C119", "title": "A while loop reported as explicitly infinite does not end by its condition", "statement": "If a while loop is reported as explicitly infinite, then no execution of it ends because its condition does not hold.", "quantifier": "for all conditions, bodies and states", "why_tests_cant": "Nontermination cannot be observed by a test, and the values a condition may take are unbounded.", "anchors": ["edulint/linting/checkers/unsuited_loop.py:236-243"]}
{"id": "C120", "title": "A while loop reported as implicitly infinite does not end by its condition once entered", "statement": "If a while loop is reported as implicitly infinite and its condition holds at first, then no execution of it ends because its condition does not hold.", "quantifier": "for all conditions, bodies, states and numbers of iterations", "why_tests_cant": "Nontermination cannot be observed by a test; the claim is about all states in which the loop may be entered.", "anchors": ["edulint/linting/checkers/unsuited_loop.py:236-249", "edulint/linting/analyses/z3_block_analysis.py:632-670"]}
{"id": "C121", "title": "The check for infinite loops raises no exception", "statement": "Linting a while loop for being infinite never raises an exception, whatever its condition and body are.", "quantifier": "for all conditions and bodies", "why_tests_cant": "There are infinitely many bodies; tests lint a few.", "anchors": ["edulint/linting/checkers/unsuited_loop.py:236-249", "edulint/linting/analyses/z3_block_analysis.py:478-518"]}
{"id": "C122", "title": "Returning early where it is advised does the same", "statement": "Where edulint advises to return early, putting the short branch first under the negated condition and the long one after it without indentation changes nothing about what the code does: same effects, same value returned, same exceptions. The check itself raises no exception.", "quantifier": "for all if statements, conditions (with effects and exceptions), surrounding code and states of the program", "why_tests_cant": "That two programs do the same in all states, with conditions that may have effects or raise, cannot be settled by running some of them.", "anchors": ["edulint/linting/checkers/local_defects.py:462-500"]}
{"id": "C123", "title": "Long functions and scripts are reported", "statement": "A function or script is reported as too long, with the number of its statements, exactly if it has more than twenty statements, not counting imports, nested definitions and the main block.", "quantifier": "for all function bodies and scripts", "why_tests_cant": "There are infinitely many ways to nest statements; tests count a few.", "anchors": ["edulint/linting/checkers/basic_checker.py:75-89", "edulint/linting/analyses/utils.py:528-563"]}
{"id": "C124", "title": "Comprehension variables that shadow are reported", "statement": "The variables reported for shadowing in a comprehension are exactly the variables it binds that are names of the enclosing scope, apart from _.", "quantifier": "for all targets of comprehensions and all sets of names outside", "why_tests_cant": "Targets nest without a bound; tests have a few.", "anchors": ["edulint/linting/checkers/python_ta_checkers.py:121-135"]}
{"id": "C125", "title": "An enabled message that is found is reported whatever else is enabled", "statement": "For every check outside duplication: enabling a message is enough to get it. What is reported for a node is exactly what the checks find, in their order, restricted to the enabled messages, independently of which other messages are enabled.", "quantifier": "for all checkers but that for duplication, all their methods, all sets of enabled messages, all that the checks may find", "why_tests_cant": "There are 2 to the number of messages sets of enabled messages; tests enable one message or all of them.", "anchors": ["edulint/linting/checkers/local_defects.py:707-760", "edulint/linting/checkers/simplifiable_if.py:1342-1404", "edulint/linting/checkers/simplifiable_if.py:2271-2316", "edulint/linting/checkers/unsuited_loop.py:251-261", "edulint/linting/checkers/unsuited_loop.py:515-527"]}
{"id": "C126", "title": "Disabling messages does not hide other messages about duplication", "statement": "If some messages are disabled, every message about repetitions to be loops and about similar or identical branches that is reported when all messages are enabled and is itself enabled is still reported, for the same statement; and no disabled one is.", "quantifier": "for all programs (nesting of statements), all that is found in them, all sets of enabled messages", "why_tests_cant": "It is about all sets of enabled messages and all ways in which code already reported keeps other code from being looked at.", "anchors": ["edulint/linting/checkers/duplication/checker.py:374-409", "edulint/linting/checkers/duplication/duplicate_if.py:983-1130"]}
{"id": "C127", "title": "Duplication found for a disabled message does not silence enabled ones", "statement": "If an enabled message about the branches of an if statement applies, something is reported about the statement or about code it is part of; that a disabled message applies as well does not lead to silence.", "quantifier": "for all programs (nesting of statements), all that is found in them, all sets of enabled messages", "why_tests_cant": "It is about all sets of enabled messages; tests enable one message or all of them.", "anchors": ["edulint/linting/checkers/duplication/checker.py:374-409", "edulint/linting/checkers/duplication/duplicate_if.py:983-1130"]}
{"id": "C128", "title": "Blocks reported as similar are runs of statements alike to each other", "statement": "A message about similar blocks of code is about at least two runs of consecutive statements with the same number of statements, in the order of the program, each but the first alike to an earlier one: statements of the same kinds in the same order, also inside of them up to the start of the last, and not overlapping it.", "quantifier": "for all programs (statements, lines, kinds, nesting), all that is found by comparing blocks", "why_tests_cant": "The groups result from the order in which all pairs of runs in a program are entered into a dictionary; tests have a few programs.", "anchors": ["edulint/linting/checkers/duplication/checker.py:168-262", "edulint/linting/checkers/duplication/checker.py:384-409"]}
{"id": "C129", "title": "Blocks that look alike are compared with each other", "statement": "If two runs of statements that do not overlap look alike, they are compared, so they are reported if they are similar enough and nothing else was reported about them.", "quantifier": "for all programs (statements, lines, kinds, nesting), all that is found by comparing blocks", "why_tests_cant": "Whether a pair is lost depends on all other pairs of runs in the program.", "anchors": ["edulint/linting/checkers/duplication/checker.py:168-262", "edulint/linting/checkers/duplication/checker.py:384-409"]}
{"id": "C130", "title": "Blocks reported as similar do not overlap", "statement": "The blocks that one message says to be similar, and to be extracted into a function, have no statement in common; and no message starts in code of an earlier message.", "quantifier": "for all programs (statements, lines, kinds, nesting), all that is found by comparing blocks", "why_tests_cant": "Whether blocks overlap depends on all pairs of runs in the program.", "anchors": ["edulint/linting/checkers/duplication/checker.py:82-92", "edulint/linting/checkers/duplication/checker.py:168-262"]}
{"id": "C131", "title": "A message about a global variable is right", "statement": "A message about a global variable names a variable that gets a value in code outside of functions and classes, at the place of the message and not later, and gives a line on which code in a function or class changes it. There is at most one message for a variable.", "quantifier": "for all programs (locations, events of variables, nesting of functions and classes)", "why_tests_cant": "It is about all orders in which assignments and changes of several variables occur in nested code.", "anchors": ["edulint/linting/checkers/basic_checker.py:25-56"]}
{"id": "C132", "title": "Global variables that are changed are reported", "statement": "A global variable that is changed by code in a function or a class is reported.", "quantifier": "for all programs (locations, events of variables, nesting of functions and classes)", "why_tests_cant": "It is about code nested in any way; tests have a few programs.", "anchors": ["edulint/linting/checkers/basic_checker.py:25-56", "edulint/linting/analyses/cfg/utils.py:223-269"]}
{"id": "C133", "title": "A message that an iterated structure is modified is right", "statement": "If a loop is said to modify the structure it iterates over, then some execution of its body makes that modification on that structure and asks for the next element afterwards.", "quantifier": "for all bodies of loops (modifications, assignments, ifs nested in any way, jumps) and all executions", "why_tests_cant": "It is about all executions of a body; tests compare messages for a few loops.", "anchors": ["edulint/linting/checkers/unsuited_loop.py:338-372", "edulint/linting/analyses/cfg/utils.py:88-135"]}
{"id": "C134", "title": "Modifying an iterated structure is reported", "statement": "A modification of the structure a loop iterates over, after which the next element can be asked for, is reported.", "quantifier": "for all bodies of loops (modifications, assignments, ifs nested in any way, jumps) and all executions", "why_tests_cant": "It is about all executions of a body; tests compare messages for a few loops.", "anchors": ["edulint/linting/checkers/unsuited_loop.py:338-372", "edulint/linting/analyses/cfg/utils.py:88-135"]}
{"id": "C135", "title": "A variable counts as changed exactly if it is changed on a path", "statement": "The check whether a variable is changed between a location and some others (made for the variables of tests before branches are suggested to be replaced by one expression) says yes exactly if the variable is changed on a path of the control flow graph to one of the others that does not come through the first location.", "quantifier": "for all programs, their control flow graphs, all events of variables, all locations", "why_tests_cant": "It is about all paths through all graphs; tests have a few programs.", "anchors": ["edulint/linting/analyses/data_dependency.py:632-640", "edulint/linting/checkers/duplication/duplicate_if.py:161-169"]}
{"id": "C136", "title": "Changes that Python makes between two locations are noticed", "statement": "If Python executes a location, then one that changes a variable, and then a third one, then the variable counts as changed between the first and the third one; and only then.", "quantifier": "for all programs, all their executions, all events of variables", "why_tests_cant": "It is about all executions of all programs; tests have a few programs.", "anchors": ["edulint/linting/analyses/data_dependency.py:632-640", "edulint/linting/analyses/cfg/utils.py:42-168"]}
{"id": "C137", "title": "Loop variables that are parts of larger objects are reported", "statement": "Exactly the parts of the target of a loop or a comprehension that are assigned to and that are elements or attributes of another object are reported.", "quantifier": "for all targets (names, subscripts, attributes, tuples and lists nested in any way, starred parts, any expressions in them)", "why_tests_cant": "Targets may be nested in any way; tests have a few.", "anchors": ["edulint/linting/checkers/python_ta_checkers.py:38-50"]}
{"id": "C138", "title": "A module without forbidden top-level code can be imported safely", "statement": "If no forbidden top-level code is reported, importing the module executes only imports, definitions and assignments; and if the module has only these, nothing is reported.", "quantifier": "for all modules (kinds of statements, ifs nested in any way, tests)", "why_tests_cant": "It is about all modules; tests have a few.", "anchors": ["edulint/linting/checkers/python_ta_checkers.py:152-194", "edulint/linting/analyses/utils.py:503-517"]}
{"id": "C139", "title": "A loop that is said to be infinite has a test that its body cannot change, also in functions", "statement": "If the analysis that precedes the reports of infinite loops and of mergeable ifs says that the variables of a test are not modified in a block, then executing the block does not change them, neither directly nor in any function that it calls, directly or through others.", "quantifier": "for all programs: any functions, any (mutually recursive) calls, any definitions of the names that are called", "why_tests_cant": "Calls can be nested and recursive in any way; tests have a few short chains of calls.", "anchors": ["edulint/linting/analyses/mutability.py:50-103", "edulint/linting/checkers/unsuited_loop.py:238-250", "edulint/linting/checkers/simplifiable_if.py:1155-1173"]}
{"id": "C140", "title": "The search for modifications in functions ends and does not invent them", "statement": "For every program the search for modifications in called functions ends, also if functions are recursive; and if it says that the variables may be modified, there is a chain of calls to a modification or to something whose body is not known.", "quantifier": "for all programs with finitely many names, any (mutually recursive) calls", "why_tests_cant": "It is about all graphs of calls, with all cycles.", "anchors": ["edulint/linting/analyses/mutability.py:66-103"]}
{"id": "C141", "title": "Students cannot turn off checks by comments without a report", "statement": "If in-file configuration of a linter (or of all) is to be ignored, every line with a comment that turns off its checks (noqa, flake8: noqa, pylint: disable), however it is spelled, is reported at its line.", "quantifier": "for all files, lines, spellings (letters, white space, what is before and after), lists of linters", "why_tests_cant": "There are infinitely many spellings; the documentation promises that there is always at least this report, tests have a few lines.", "anchors": ["edulint/linting/nonparsing_checkers.py:11-73", "docs/source/user_guides.rst:60"]}
{"id": "C142", "title": "Only comments that turn off checks are reported as forbidden", "statement": "What is reported as a forbidden magic comment is one, of a linter whose in-file configuration is to be ignored, with the line, the column of the hash and the text that stand in the file.", "quantifier": "for all files, lines and lists of linters", "why_tests_cant": "It is about all lines; tests check the text and the line of a few reports.", "anchors": ["edulint/linting/nonparsing_checkers.py:34-73"]}
{"id": "C143", "title": "All files that are linted are searched for forbidden comments", "statement": "The files searched for forbidden comments are exactly the Python files among the given paths and in the given directories, at any depth; in particular every file that is linted is searched.", "quantifier": "for all trees of directories and all lists of paths", "why_tests_cant": "Directories can be nested in any way; tests use single files.", "anchors": ["edulint/linting/nonparsing_checkers.py:24-31", "edulint/config/config.py:522-530"]}
