# EduLint: formal model and trusted base

The code under study is the Python package `edulint` (read as text from `/repo`, never run).
The model is written in Rocq/Coq 8.16.1, standard library only, under `rocq/theories` (logical name `Verif`).
This file is put together by `tools/design.py` from `tools/design_head.md`, `properties.jsonl`, `MANIFEST.json` and the
`Print Assumptions` lines of the build.

## Layout

Each area has these files.

* `XModel.v` - executable Gallina functions that mirror the Python functions branch by branch. Every definition cites file and
  lines in `/repo` and says what was simplified. No proofs.
* `XSpec.v` - a small specification: what the program's user or Python itself means by the words of the property. It does not use
  the helpers of the model.
* `XProofs.v` (and files such as `ChainRightProofs.v`) - lemmas.
* `XExamples.v` - witnesses of refuted claims and concrete cases for the hypotheses.
* `XProps.v` - the theorems named in `MANIFEST.json` (by `exact lemma`), next to each an `Example` that meets its hypotheses, and
  `Print Assumptions` for each.

Python exceptions are error values (`Raise exn`), mutation is state passing, `while` loops are structural recursion or recursion on
fuel; running out of fuel is an explicit error value, and theorems exclude it.
A claim that is false of the faithful model is kept as a theorem `..._refuted` with a witness; the strongest true variant
found is proved beside it (`..._partial`).

## Trusted base

* Coq's kernel (8.16.1). No kernel check is switched off, there are no axioms, admitted proofs, functors or module types.
* `Print Assumptions` says "Closed under the global context" for every theorem listed below: no axiom at all, not even from the
  standard library. (The library declares a few axioms that merely get loaded with it; no theorem here depends on any.)
* The models themselves: that each definition does what the cited lines do. What was left out is said in the comments and below.
* What stands outside the code and appears as an oracle (a section variable, quantified over in the theorems), with the assumption
  made about it written in the theorem:
  * pylint and flake8 (arbitrary exits and outputs); JSON parsing; the file system as a tree of files (no links, no permissions);
  * TOML parsing (the models start from parsed values); `re` for the patterns that occur (RegexModel, greedy matching with backtracking);
  * the network, the clock and crash points of the caches (arbitrary histories; a write is a sequence of steps that may stop anywhere);
    file names of the cache (SHA-256) do not collide for the addresses in use; `packaging.Version` as an order;
  * Python's evaluation of expressions (`python W` in PySpec: integers, bools and strings are fixed, everything else - names, calls,
    attributes, subscripts, operators on other values, truth of objects - is arbitrary, may change the state and may raise);
  * the operators of the interpreter that runs the linter (`host`), assumed to agree with the checked program's;
  * astroid: parsing of suggestion texts (`reads` in PySpec is a grammar of Python expressions over tokens), inference, purity of calls,
    definitions that may reach a name;
  * z3: `unsat : zexpr -> bool` with the assumption `sound unsat` (if it answers true then no assignment of numbers makes the formula true).
    `unknown` and timeouts are the answer false. The semantics of the formulas is `zeval` in SolverSpec.
* The comparison of texts: texts are lists of bytes, or lists of tokens where suggestions are built from expressions. White space of
  suggestions is not modelled; literals that would not read back (quotes) are an unreadable token.

## How to read seeded/LOG.jsonl

`tools/mutate.py` edits one definition in a scratch copy and lists the theorems whose existing proofs no longer go through (or that
depend on such a lemma). This is weaker than showing that the statement is false of the edited definition: a proof can also break because
its script followed the old definition, although the statement would still hold. So a theorem under `failed` may be there for the second
reason - most visibly when the claim named in the entry belongs to another theorem - and only the converse is certain: a theorem that is
not listed was still proved for the edited definition. Entries that are known to change no answer say so in their `note`.

## What is modelled, and what is not

| part of edulint | modelled in | left out |
|---|---|---|
| config/arg.py, options.py, option_parses.py, linters.py, config/config.py (`Config`) | ConfigModel | the texts of warnings |
| config/utils.py, option_sets.py, language_translations.py (parsing), config.py (files, in-file comments, groups) | ConfigFileModel, PathModel | links in directories; TOML syntax; the logger |
| config/language_translations.py (patterns, filling in) | TranslateModel, RegexModel | conversions and format specifications in templates |
| config/file_config.py (cache of remote configurations) | CacheModel | directories; several processes at once |
| linting/linting.py, problem.py, overrides.py, tweakers.py, edulint.py (check) | LintModel | threads, KeyboardInterrupt, JSON and configuration printing |
| versions/*, explanations.py, edulint.py (explain, version check) | VersionModel | threads; the texts of help |
| linting/analyses/utils.py (folding, negation) | FoldModel | sets, complex numbers |
| linting/analyses/types.py | TypeModel | the data-flow analysis that finds definitions (oracle) |
| linting/analyses/z3_analysis.py | SolverModel | literals inf and nan |
| linting/checkers/simplifiable_if.py 430-642, 1390-1404 (R6201-R6210) | IfModel | - |
| the same, R6211, R6212, R6214 | CompareModel | constants other than integers |
| the same, R6213, R6215 | MergeModel | - |
| the same, R6216, R6222 | SolverModel | - |
| the same, R6217-R6221 | ChainModel | bodies (a branch is known by its position) |
| the same, R6223, R6224 | SequenceModel | see the rows below |
| linting/analyses/mutability.py | oracle `may_modify` in SequenceModel | all |
| linting/checkers/local_defects.py 129-170, 183-460, 501-705 | LocalModel | `isdecimal`, loop-else, else-if, early return |
| linting/analyses/cfg/graph.py, cfg/visitor.py | CfgModel | labels of edges, `cfg_id`, options of the visitor that the linter does not use, the places of expressions |
| linting/checkers/python_ta_checkers.py 40-105 (E9996) | CfgLoopModel | - |
| linting/analyses/data_dependency.py 26-34, 124-130, 182-352, 413-437 | ReachModel | how events and calls of a statement are found (`get_calls`, the call graph, `VarEvents`), `make_up_calls`, the order of dictionary entries, `block_kills` |
| linting/analyses/antiunify.py 17-284, 372-423, 450-517; analyses/utils.py 17-70; duplication/utils.py 15-33, 56-57; duplication/duplicate_if.py 886-933, 1008-1018 | AuModel | positions in the control flow graph (`cfg_loc`, `sub_locs`), names of variables beyond their number, `vars_can_be_merged` for names that differ (an oracle), identity of nodes as keys of dictionaries, the renaming of `modname` to `fromname`, what `stop_on` reads through `avar.parent` |
| linting/checkers/duplication/duplicate_if.py 46-93, 195-308, 366-418, 476-500, 633-729, 756-794, 876-884, 983-1007; duplication/utils.py 92-98; analyses/utils.py 482-500, 696-708 | DupModel | statements other than `if`, texts and lines of nodes (a record of functions), the anti-unification before R6557, R6558, R6561 and R6562, numbers of tokens and statements, `get_fixed_by_if_to_use`, `get_fixed_by_moving_if`, `get_fixed_by_vars` |
| linting/checkers/duplication/duplicate_sequence.py 30-471; duplication/utils.py 80-97 | IterModel | anti-unification (its variables are given), the expressions in which the loop variable is used (`use`), numbers of tokens and statements (an oracle), `vars_in` of the parts (a flag), anti-unification of operands other than names, constants and binary operations, floats beyond equality of their texts |
| linting/checkers/unsuited_loop.py 102-134, 195-234, 263-328 | LoopModel | which statements modify the variables of a condition, their order and the paths through the body (given), `relevant_nodes` (never called), methods and other expressions with effects beyond the oracle |
| linting/checkers/unsuited_loop.py 338-344, 398-513; analyses/var_events.py 27-74, 129-140; analyses/variable_scope.py 47-49, 266-348; analyses/data_dependency.py 689-706 | EachModel | structures that are attributes or subscripts (`filter_events_for`), scopes (names stand for variables), events of statements other than assignments, expressions, `if`, loops and returns, targets that are tuples, `len` and `range` that are shadowed |
| linting/analyses/variable_scope.py 19-39, 80-337; analyses/var_events.py 28-33; analyses/utils.py 107-115 | ScopeModel | astroid's trees and the order of `get_children` (nodes and scopes are numbers), MODIFY events, places in the control flow graph, the call graph, `outside_scope_events`, `function_defs`, assignment expressions, keyword arguments' order beyond that of the children |
| linting/analyses/cfg/utils.py 15-168, 223-383 | WalkModel | exploring functions and classes (`explore_function`, `explore_class`), laziness of the generators (all is yielded at once), nodes (locations are blocks and positions), `unwrap` (starts are given unwrapped) |
| linting/analyses/z3_block_analysis.py (all); linting/checkers/unsuited_loop.py 236-249; analyses/utils.py 267-284; analyses/z3_analysis.py 376-393, 417-430 | BlockModel | the solver, the guess of types, `may_contain_mutable_var`, `modified_in` and `vars_from_node_may_be_modified_in` (oracles), the value of a return and the message of an assertion, the order of sets of changed variables, `is_in_try_block` and `contains_node_of_type_or_exit` (given) |
| linting/checkers/local_defects.py 462-500; checkers/basic_checker.py 75-89; analyses/utils.py 482-485, 503-563; checkers/python_ta_checkers.py 121-135 | EarlyModel | astroid's `has_elif_block`, `locals` of a scope, sibling and parent links (given), the text of the messages; asynchronous statements are their synchronous counterparts |
| decorators and conditions on enabled messages of all checkers (local_defects.py 707-760, simplifiable_if.py 1342-1404, 2271-2316, unsuited_loop.py 251-261, 515-527, basic_checker.py, python_ta_checkers.py); duplication/duplicate_if.py 983-1130 (the loop over attempts); duplication/checker.py 43-72, 139-154, 374-409 | SwitchModel | pylint's dispatch (`only_required_for_messages`, `prepare_checkers`, `is_message_enabled`, `add_message` written from its documentation), what the checks find (given), the candidates for similar blocks, `get_duplicate_nodes` (given, assumed nested), the order of statements (given) |
| linting/checkers/duplication/checker.py 32-40, 75-92, 157-262, 384-409; duplication/utils.py 63-67 | AlikeModel | `similar_to_block`, `all_children_of_one_statement`, `get_duplicate_nodes`, siblings, lines and classes of nodes (given), Python's dictionaries (association lists in the order of insertion) and its sorting (insertion sort, stable) |
| linting/checkers/basic_checker.py 25-56; analyses/cfg/utils.py 223-269 (functions and classes) | GlobalModel | walks inside one graph (given as lists; see WalkModel), which events are recorded (given; see ScopeModel), astroid's `scope` |
| linting/checkers/unsuited_loop.py 338-372 (loops over a variable) | DuringModel | inner loops, exception handlers and definitions in the body, methods that are known to modify (given), the walk over the graph (its order for ifs and jumps is written out) |
| analyses/data_dependency.py 632-640; checkers/duplication/duplicate_if.py 161-169; analyses/cfg/utils.py 348-383 (with WalkModel) | BetweenModel | which events are recorded at a location (given; see ScopeModel, ReachModel), the variables of the tests and the locations of differing statements (given) |
| linting/checkers/python_ta_checkers.py 38-50, 152-194 (without `_is_constant_assignment`, which is not used); analyses/utils.py 503-517 | TargetModel | astroid's `nodes_of_class` (written from its documentation), kinds of statements other than those named, what definitions and assignments execute |
| linting/analyses/mutability.py 50-103; analyses/data_dependency.py 831-836 | SureModel | `may_contain_mutable_var` and which events modify a variable (given), definitions in functions (the code looks for modifications in their bodies, too), the order of definitions (given) |
| linting/nonparsing_checkers.py 11-21, 34-73 | MagicModel | `to_file_paths` (files and lines are given), characters outside ASCII (white space and letters that are equal when case is ignored), the order in which a set is gone through, warnings in the log |
| linting/nonparsing_checkers.py 24-31 (with ConfigFileModel) | SeekModel | links, paths that do not exist, files that pylint and flake8 find in directories themselves |
| pylint plug-in glue, message tables, cfg/dot_generator.py, old_duplication_checker.py, the rest of python_ta_checkers.py, basic_checker.py 91-97, prepare_explanations | - | not modelled |

Performance and memory use are not modelled. Floats are opaque values given by their `repr`, except where a theorem says that numbers
are integers; real numbers occur only inside the solver's formulas.

## Findings

Behaviour of the program that contradicts a property; each has a `..._refuted` theorem with a witness in the model.

Configuration
* C04: arguments of pylint are lower-cased by the resolution of enable/disable-all (paths and regular expressions change).
* C05: grouping files by in-file configuration ignores the order of options, and an option set to its default counts as not set, so
  companions change the configuration of a file.
* C07: the memo of language files stores merged translations; they leak into other groups.
* C09: config files that name each other recurse until Python's recursion limit.
* C11: no value of `no-flake8` in a config file sets it. C12: a file name is compared with a tuple (`config.py:345`), so no implicit
  config file is ever found. C64: `--enable-all-extensions` is dropped like a message switch.
* C65: a config file that excludes in-file configuration loses its own settings. C66: files whose config file cannot be loaded are skipped.

Linting
* C20: sorting raises for `a/../b.py` and when the working directory is `/`. C67: files whose path mentions "command line" or
  "configuration file" sort first. C23: the streams stay replaced after an exception. C25: unexpected exceptions end with status 0.
* C69, C70: patterns of F501-F509 contain `%%` and never match; a reworded message shows its raw template; a placeholder too many raises
  IndexError, and the status is 0.

Caches and versions
* C28: a torn write leaves new content with old metadata, served offline. C29: the offline limit is 720000 s. C71: an empty text
  counts as a miss. C72: a server that fails is asked every time. C73: CR becomes LF.
* C31: an update is announced when the index is unreachable and when the local version is newer. C32: downloaded explanations are never
  shown. C74: a killed write makes every later check fail. C75: a release candidate counts as latest. C77: `explain` updates in spite of
  the switch. C80: the limit is ten minutes, not an hour.

Suggestions
* C34: `abs(x) - 5` is taken for a call of abs. C35: the max/min suggestion drops a guard, parentheses and the partial order of sets and
  cuts `max(a, b) + max(c, d)`. C36: unbalanced parentheses for `max(a, b) + c`. C37: floats.
* C38, C62: `//` by a negative constant, decimals (`0.1 + 0.2 == 0.3` is "always true"), nan; `x != 0 and 10 // x > 2 and x > 5` loses its guard.
  C87: `abs(x % 1)` and `abs()` crash the check.
* C39: the suggested order of branches may divide by zero; `x % 2 == 0` and `x % 2 == 5` count as opposites. C88: chains of four tests crash
  (a stale number of elifs).
* C40: merging changes which conditions are evaluated (a ZeroDivisionError disappears). Modifications by method calls are not seen
  (`mutability.py:66-96`); the theorem assumes that they are.
* C41-C43: conditional expressions joined with and/or are read differently; augmented assignments become plain ones; values that are not
  bools change. C81: a bare annotation makes the check loop forever; `del` raises AttributeError.
* C44: bounds that are conditions lose their brackets; floats guessed to be integers. C45: the operand is evaluated twice. C47: `a + a + b`.
  C48: `ord(c) - 96`; the character `'` gives an unreadable text. C49, C50: `97 <= x <= ord(c)`, `ord(c) == "a"`. C51: `f() % f()`.
  C52: chained comparisons, remainders, negations inside operands, nan. C54: `0 ** -1`. C55: `x = y = x + 1`. C56: `int(-1 / 2)`,
  `2 ** 53 + 1`. C83: `5 is True`; `(a or b) is False`. C85: `x.extend([*y])`. C86: `[1] * [2]`.
* C60: `5 or 0`, `2 * 1.5`, `abs(1.5)` and `1 + z` are guessed wrongly; only methods of strings are found in the table of methods.
Control flow graphs
* C63: bodies of finally, match, async loops and try-star are not in the graph (`cfg/visitor.py:331-411, 58-61`); class bodies start in a block
  nothing leads to (`86-112`); a handler is entered only from the end of the try body, so it is unreachable if the body ends with a jump
  (`try: return f()`), a raise of a subclass does not lead to it, and a handler that starts with `while` is cut off by the merging of its empty
  block. `is_jump` compares a CFGLoc with node classes and is always false (`cfg/graph.py:247-255`). Statements after `with suppress(...): raise` are
  unreachable.
* C91: `while True: try: x = int(input()); break` / `except ValueError: print()` is reported as a loop with one iteration. A loop that is the first
  statement of a module is never reported (its block has no predecessors).

Reaching definitions
* C92: a call that may assign a global variable counts as a definition that surely happens when values come from earlier blocks, but not within a
  block (`data_dependency.py:224-233, 279-281`): in `x = 1` / `if c: pass` / `f()` / `print(x)` the read is not linked to `x = 1`, without the `if` it is.
  The events of a call are added to the last group of definitions of the block; if that is also the first group, `connect_events` (`346-349`) makes the
  definition in the call replace definitions of earlier blocks that cannot be there (`x = 1` / `if c: pass` / `x = 2` / `f()`).
* Only calls in expression statements and assignments are looked at (`get_calls`, `41-49`): in `x = 1` / `if f(): pass` / `print(x)` the assignment in
  `f` is not seen. The events of a call come before those of the statement, so in `print(x, f())` the read of `x` is linked to the assignment in `f`.
* C61/C93: constants are compared by `==` (`antiunify.py:109`), so `1`, `True` and `1.0` need no variable: `if c: x = 1` / `else: x = True` is reported as
  identical-if-branches. Attributes that are neither children nor in `ASTROID_EXTRA_FIELDS` are not compared: the conversion of f-strings (`f"{x!r}"`
  against `f"{x}"`), the level of relative imports, the names of keyword patterns, and the names of `*args` and `**kwargs`.
* C61: `get_sub_variant` of lists of different lengths gives the list in a list (`antiunify.py:513-517`).
* C95: the names of classes and of async functions are missing in `ASTROID_EXTRA_FIELDS`, so `new_node` raises TypeError when two fragments define a class
  in the same place; `set_parents` (`antiunify.py:507-510`) does not know complex numbers and raises AssertionError for `1j` in both fragments.
* Without `require_name_consistency` names can be merged though they do not correspond one-to-one: with the pairs (a, b), (a, c), (d, c) the second
  pair is forgotten and the third one makes a group (`antiunify.py:398-418`).
* C96: R6502 tells to move code before an `if` though it changes a variable of the condition (`if x > 0: x = 0; a()` / `else: x = 0; b()`), unlike the
  similar-if checks, which ask `test_variables_change`; and the parts before and after are counted independently, so for branches `a; b; a` and `a; b; c; b; a` it
  tells to move two lines before and two lines after, though the first branch has three (`duplicate_if.py:229-251`).
* C97: R6503 tells to join `if a: x += 1` and `if b: x += 1` though both may run, and joins an `if` with an `else`: `extract_from_siblings` stops on
  `not extract_from_elif(...)`, which is a pair and never false (`duplicate_if.py:85-93`).
* C100: values of attributes other than names and constants, such as names of keyword arguments, become strings in the suggestion (`utils.py:92-98`).
* C101: two branches that test for the same constant give a dictionary in which the later branch replaces the earlier one (`duplicate_if.py:710-729`);
  `get_fixed_by_container` never returns True, so that the following checks may report the same `if` again (`duplicate_if.py:756-847`); the elements of a
  suggested list are in the order of the branches, not of the constants (`duplicate_if.py:692-707`; the list is only counted, not shown).
* C102: `consolidate_ranges` computes the number of iterations as `(stop - start - 1) // step + 1`, which is 2 too many for step -1 and 1 too many for step -2:
  for `f(1, 3); f(2, 2); f(3, 1)` the message suggests `range(5)` (`duplicate_sequence.py:284`). For `f(x); f(x ** 2); f(x ** 3)` it suggests `range(2, 4)`, since
  `exclusive_nums` has no entry for powers (`duplicate_sequence.py:201-214`). For `f(2); f(1 + 1); f(4 - 2)` it suggests `range(2, 1, 0)`, which raises ValueError.
* C103: characters are compared by their distance from the least one, so `"a", "c", "b"` and `"b", "d", "c"` count as the same list; operators of unary operations count as values
  (`['-', '+', '~']`, `called_aunify_var` does not look at unary and boolean operations, `utils.py:36-53`); for `x, x % 2, x % 3` the range starts with 1 though `x % 1` is 0.
* C104: `f(1, 2); f(2, 1 + 1); f(3, 4 - 2)` raises ZeroDivisionError in the linter (`duplicate_sequence.py:284`), and `for _ in range(None): f(); f(); f()` raises TypeError
  (`duplicate_sequence.py:374`).
* C105: the message for `range(n + 1)` says "n + 1 * 3 times" (`duplicate_sequence.py:376`); `continue` in the parts and uses of the target after the loop are not looked for.
* C107: R6301 does not look for an `else` of the loop nor for other breaks: with statements before the leading break, another break would afterwards be followed by them
  (`unsuited_loop.py:102-108`).
* C108: R6302 says "the first iteration never happens" for `if i == start: break`, though no iteration happens at all; it takes `stop - step` for the last element of `range(start, stop, step)`,
  which it is not if the step does not divide the length (`range(0, 10, 3)` and 7); it compares texts, so a bound that the loop changes counts as well; the `else` of the loop is not looked at
  (`unsuited_loop.py:263-328`).
* C109: `get_change_value` takes `x = 1 - x` for a decrement by 1 (`unsuited_loop.py:129-134`), so `while x > 0: x = 1 - x` is reported; `x += 1.0` counts as well, since `1.0 in (1, -1)`.
* C110: use-foreach and use-enumerate are reported though the structure is modified, if the block of the modification ends with `break` or `return` (`a.pop(0); print(a[i]); break`,
  `unsuited_loop.py:440-448`), or if it is modified under another name; a dictionary with the keys 0, 1, ... is taken for a list; uses of the index after the loop and in its `else` are not looked for.
* C111: parameters are put into the dictionary before the defaults are visited (`variable_scope.py:189-193`), so the `x` on the right of `def f(x=x)` is taken for the parameter; a read
  before a local assignment is taken for an outer variable; methods see the names of their class; the target of a comprehension hides a name in its first iterable; `nonlocal` always means the
  scope directly around (`variable_scope.py:260-264`); `del` of a declared name removes the declaration (`variable_scope.py:156-162`).
* C112: a function or a class defined inside an `if`, a loop or a `try` is never registered under its name (`variable_scope.py:164-174` looks at bodies only); `import os.path` registers
  `os.path`, not `os` (`variable_scope.py:316-320`).
* C113: decorators, bases, return annotations, defaults of keyword-only parameters and of lambdas are never visited (`variable_scope.py:180-227`).
* C114: `is_builtin` in `visit_call` looks for an event of the function's name, which is recorded only later, so a call of one's own `locals` counts as well (`variable_scope.py:325-331`).
  Read from the text only, not modelled: `isinstance(read_scope, ScopeNode)` with a `typing.Union` (`variable_scope.py:116`) raises `TypeError` before Python 3.10, though `setup.cfg` allows 3.8.
* C116: `essor_blocks_from_locs` marks a block as visited up to its end before it looks for a place to stop (`cfg/utils.py:117`, `150`), and skips later starts within the marked range
  (`cfg/utils.py:152-155`). So of `f()` followed by `if a:` with the body `g(); h()`, starting at `f()` and `h()`, `include_start=True`, and stopping at `g()`, `h()` is never yielded. No caller in the repository
  combines several starts with `stop_on_loc`; it is a defect of the function, not of a check.
* C115: blocks without locations are never passed through (`cfg/utils.py:113-114`). Harmless: it is proved that in the graphs of programs nothing follows such blocks.
* C118, C120: a variable that is an operand of `%` or `//` anywhere in the block has the sort Int for all its later names (`z3_block_analysis.py:285-301`, `z3_analysis.py:417-430`), so the relation for
  `x += 0.5` is a contradiction and every condition is implied. `while x % 2 == 0:` with the body `x += 0.5; x = 1` is reported as implicitly infinite and ends after one pass. The guess of types does not help: the
  definitions that reach the condition are integers.
* C121: `values[i]` (`z3_block_analysis.py:502`) is an `IndexError` if a tuple of targets gets a value with fewer children than targets, such as a string, and one of the targets is a variable of the analysis:
  `while z > 0:` with the body `x = 5`, `if x > 0: z += 1`, `x, y = "ab"`. With a name or a call as the value, children of the wrong kind are taken for the values (hence the restriction of C118 to tuples of values).
* C118: a block that always ends early is treated as doing nothing (`z3_block_analysis.py:558-559`); harmless, as nothing is claimed about the state after it.
* C123: `get_statements_count` (`analyses/utils.py:528-563`) has no case for match statements, so a function that consists of a match with any number of statements has one statement and is never too long. Each
  line `else:` of an if or loop and each try statement counts as one more statement, so functions with fewer than twenty-one statements are reported; elif lines and handlers are not counted that way.
* C124: the elements of a tuple of targets are `AssignName` nodes, but the check asks for `Name` nodes (`python_ta_checkers.py:126`), so `[x for x, y in pairs]` is never reported whatever it shadows.
* C125: the decorator of `visit_if` (`local_defects.py:727`) lacks `unreachable-else`, which the method reports, so enabling only this message reports nothing. The decorator of `visit_compare`
  (`local_defects.py:750-756`) names `magical-constant-in-ord-compare`, which does not exist, instead of `use-literal-letter`; it works only because pylint counts messages that do not exist as enabled.
* C127: the attempts for `identical-*` are made and end the search even if their messages are disabled (`duplicate_if.py:1119-1128`), and `is_similar_to_loop` has no condition on enabled messages at all
  (`checker.py:389-391`). So with only `similar-if-to-expr` enabled, an if whose branches start alike, or which is one of three similar statements, is not reported. `similar_to_loop` also returns True without
  any message if no part of the repetition can be a loop, which keeps all these statements from being looked at.
* C129: `candidates[(ranges[1], to_aunify[1])] = id_` (`duplication/checker.py:407`) overwrites the number of a run that is already in another group. A run that looks like several earlier runs that do not look
  like each other ends up with the last one only; the others may be left alone in their groups, and groups of one are skipped. So for `log(); save(); close()` in one function and `log(); save()` in another, the pair
  of `save(); close()` and `log(); save()` (same kinds of statements) hides the identical pair.
* C130: a run may look like several overlapping runs, which are then in one group (`duplication/checker.py:404-407`). Two similar calls in a function and three in another are reported as three blocks.
* C132: `explore_class` (`cfg/utils.py:250-253`) goes into functions that are statements of the class, but not through its other statements. So `log.append(1)` in the body of a class, and methods of a class in a class
  (or under an `if` in a class), are not looked at. A variable that gets its value in functions only (`global x; x = 1`) is not in `toplevel_vars` and never reported.
* C133: `_check_modifying_iterable` (`unsuited_loop.py:356-372`) stops at assignments that are statements of the body only, and looks at the last statement of the innermost block only, for break and return. So
  `if c: xs = []; xs.append(1)` is reported, as are `if c: xs.append(1)` before a `break` of the body and `xs.append(1); raise E`.
* C134: `xs += [1]` counts as an assignment of another list, so it is not reported and what follows is not either; `del xs[0]` is not reported. The graph is walked depth first, so `xs.append(1)` in an else branch comes after
  an assignment that follows the if, and is not reported; with the branches exchanged it is. A `continue` between the modification and a `break` at the end of the block is not considered.
* C136: `is_changed_between` (`data_dependency.py:632-640`) starts at the last location itself, so a statement that differs between the branches and assigns to a variable of the test (`x = f(1)` under `if x:`) counts as a change
  before it, and no suggestion is made though it would be right. For a location and itself, the walk stops at once, so changes in a loop in between are not noticed (not relevant for the present use).
* C137: `nodes_of_class` (`python_ta_checkers.py:42, 48`) finds all subscripts in the target, so for `for xs[ys[0]] in zs` a second message says that `ys[0]` is a loop variable.
* C138: `is_main_block` (`analyses/utils.py:503-517`) does not look at the else branch, so `if __name__ == "__main__": main()` with `else: print("imported")` is not reported. `_is_assignment` (`python_ta_checkers.py:193-194`)
  knows `Assign` only, so `x: int = 1` and `x += 1` are reported, though the text of the message allows assignments.
* C139: `_may_contain_global_variable_modified_in_function` (`mutability.py:73-78`) remembers names instead of definitions, and does so in the loop over the definitions. If `f` is defined in both branches of an if, one of the
  definitions is never looked at; and a call of a parameter `f` is not looked at if a function `f` was. Only calls of names are considered (`:70`), so a method that modifies a global variable is missed. In each case `while x: ...` can be
  reported as `implicit-infinite-loop` though the body changes `x`. The text of the function promises "not modified ... for sure".
* C140: variables that can be mutable are said to be modified in every block, even an empty one (`mutability.py:93-96`). This is on the safe side.
* C141: `ib111_re.match(line)` (`nonparsing_checkers.py:53, 59`) finds the words anywhere in the line, also in the comment, so `# flake8: noqa from ib111 import` is not reported, although the documentation (`user_guides.rst:60`) says that
  there will always be at least the report of the comment. Whether flake8 obeys that line with the words behind it depends on flake8, which is not modelled; `x = 1  # noqa from ib111 import` has the same effect on the report.
  `# pylint: skip-file` is not among the patterns (`:16-19`). `"all" in ignore_infile` (`:37`) distinguishes letters, `Linter.safe_from_name` does not: `All` leads to a warning in the log and to no reports.
* C142: lines are matched, not tokens, so `print('# noqa')` is reported.
* C143: `to_file_paths` (`nonparsing_checkers.py:28`) wants `.py` in small letters, `_parse_infile_configs_rec` (`config.py:524`) does not, so `hw.PY` is given to the linters, but comments such as `# noqa` in it are not reported if
  a configuration file forbids them. If `ignore-infile-config-for=all` is on the command line, the names are not tested at all (`config.py:538-540`), so a file named `hw` is given to the linters and is not searched either.

## Properties, theorems and what is missing

* **C01 Layer precedence of replace-options** (proved). For every option that is combined by replacement, the value in force for a checked file is the one given by the strongest layer that sets it: command line, else in-file comments, else the selected config file, else its base config chain, else the default; inside one layer the last occurrence wins.
  Theorems: `C01_strongest_layer_wins`, `C01_C02_whole_run`. The second theorem is about whole runs of the configuration stage.
* **C02 Accumulation of linter arguments** (proved). The pylint (resp. flake8) argument list handed to the linter is the concatenation, in layer order base config, config file, in-file, command line and in textual order inside a layer, of everything the layers and the expanded option sets supplied; nothing is lost, duplicated or reordered before enable/disable-all resolution.
  Theorems: `C02_accumulation`, `C02_nothing_superseded`, `C01_C02_whole_run`. 
* **C03 Enable/disable-all resolution keeps the meaning** (proved). Dropping pylint arguments that precede an 'enable=all'/'disable=all' does not change which messages pylint ends up enabling, compared with pylint processing the complete argument list from left to right (for arguments whose --enable.../--disable... options are the message switches '--enable=...' and '--disable=...').
  Theorems: `C03_resolution_keeps_meaning`, `C03_other_arguments_survive`. pylint is modelled as a left-to-right interpreter over an arbitrary message type and arbitrary other settings.
* **C04 Linter arguments reach pylint verbatim** (partial). Every pylint argument that survives enable/disable-all resolution is passed to pylint exactly as the user wrote it (same spelling, e.g. of file paths and regular expressions).
  Theorems: `C04_verbatim_refuted`, `C04_lowercase_verbatim_partial`, `C04_lowercased_partial`. The property is false: surviving arguments are lower-cased. True for lists without upper-case letters.
* **C05 Configuration of a file is independent of its companions** (partial). The linter arguments used for a file when it is checked together with other files are those used when it is checked alone with the same command line.
  Theorems: `C05_companions_refuted`, `C05_reset_refuted`, `C05_companions_partial`. The property is false: grouping ignores the order of options and cannot tell a default that was written from one that was not. Proved for in-file comments that set no group and no option to its default, with pylint arguments beginning like a message switch being one.
* **C06 Every Python file is covered exactly once, by its own in-file configuration** (proved). Unless a config file cannot be loaded, expanding the groups returned for the given files and directories yields every Python file below them exactly once, each in a group whose key equals the in-file configuration of that very file; collapsing a directory into one entry never pulls in a file with another in-file configuration.
  Theorems: `C06_covered_once`, `C06_grouping`. Directory contents are a tree given to the model; links are not modelled. Groups whose config file cannot be loaded are the subject of C66.
* **C07 Translations of one file group do not leak into another** (partial). The message translations used for a group of files depend only on that group's own config file and language file, not on other groups checked in the same call.
  Theorems: `C07_leak_refuted`, `C07_command_line_config_partial`, `C07_options_partial`. The property is false: the memo of language files stores merged translations. Proved when the command line names the config file; the options themselves never leak.
* **C08 Config inheritance is prepending** (proved). A config file that names a base config behaves as if the base config's options were written before its own, through inheritance chains of any length; option sets and translations of the extending file win over the base's.
  Theorems: `C08_inheritance_prepends`. Stated for every loaded config file; whole runs in C01_C02_whole_run.
* **C09 Config inheritance always terminates** (partial). Loading a config file finishes (with a configuration or a reported error) whatever config files refer to one another.
  Theorems: `C09_termination_refuted`, `C09_acyclic_partial`. The property is false: a config file naming itself recurses until Python's limit. Proved for references that end.
* **C10 TOML lists and comma separated strings are interchangeable** (proved). Writing an option value as a TOML list of non-empty comma-free strings has the same effect as writing the comma separated string, for every option but the two that name a file; the parsed list option contains exactly the listed elements in order.
  Theorems: `C10_entry`, `C10_table`, `C10_parsed`. 
* **C11 An option settable in files and on the command line is settable in a config file** (partial). Every option name accepted in-file and on the command line has some TOML value that makes a config file set it.
  Theorems: `C11_no_flake8_refuted`, `C11_settable_partial`. The property is false for no-flake8 and proved for the other options except config-file and language-file, which are resolved as paths.
* **C12 An implicit configuration file in a parent directory is honoured** (partial). If no configuration file is named and edulint.toml or .edulint.toml lies in the directory of the checked file or any of its parents, it is used.
  Theorems: `C12_implicit_refuted`, `C12_never_found`. The property is false: a name is compared with a tuple of names, so no implicit file is ever found.
* **C13 Command line exclusion of in-file configuration is total** (proved). With ignore-infile-config-for containing edulint or all on the command line, the configuration used does not depend on any in-file edulint comment.
  Theorems: `C13_exclusion_total`. 
* **C14 Option splitting** (proved). An option text 'name=value' sets the option to everything after the first '=', for every value (including values containing '='), the option name being matched case-insensitively; the flag option takes no value; texts are interpreted independently of one another and anything else sets nothing.
  Theorems: `C14_value_after_first_equals`, `C14_flag`, `C14_nothing_else`, `C14_independent`. 
* **C15 Config path resolution is stable** (proved). Resolving a config path relative to the file that mentions it leaves packaged names, URLs and absolute paths alone and turns any other path into the absolute path of the same place seen from the directory of that file; resolving the result again (relative to anything) changes nothing.
  Theorems: `C15_resolution_stable`, `C15_meaning`. For an absolute working directory.
* **C16 Overriding drops exactly the overridden problems** (proved). A problem is dropped by overriding iff another problem with one of its overriding codes is reported for the same path and line; surviving problems keep their order and content, and applying overriding again changes nothing.
  Theorems: `C16_overriding_exact`. For any table.
* **C17 Overriding never silences a line** (proved). Every (file, line) that has a reported problem before overriding still has one afterwards.
  Theorems: `C17_line_never_silenced`, `C17_any_ranked_table`, `C17_overridden_line_reported`. 
* **C18 Tweaking only drops or rewords** (proved). Message tweaking never adds, reorders or relocates a problem: the result is a subsequence of the input with only message texts changed, and problems whose code has no tweaker are untouched.
  Theorems: `C18_only_thinned`. For any tweakers; what the tweakers in use decide is C68.
* **C19 Reported problems are ordered** (proved). The problem list is a permutation of the found problems ordered by position of the path argument they belong to, then path, line and column; problems reported for the command line or a configuration file come first; ties keep linter order.
  Theorems: `C19_ordered`. Paths of the command line and of configuration files are recognised by their text, see C67.
* **C20 Sorting never fails on a problem in a checked file** (partial). Whatever path spelling the user passes, sorting the problems found in the checked files succeeds.
  Theorems: `C20_sort_fails_refuted`, `C20_sort_fails_pylint_refuted`, `C20_exact_partial`, `C20_sort_succeeds_partial`. The property is false: 'a/../b.py' (flake8) and 'a.py' checked from '/' (pylint) make sorting fail. Proved for arguments without '..' and a working directory other than the root.
* **C21 Reported path denotes the checked file** (proved). The relative path computed for a pylint problem denotes, from the current directory, the very file pylint reported by absolute path.
  Theorems: `C21_pylint_path`, `C21_flake8_path`, `C21_pylint_total`. For an absolute working directory; links are not modelled.
* **C22 A linter failure is never reported as a clean file** (proved). If flake8 or pylint signals an internal failure, the caller gets an error, not an empty problem list; conversely a regular exit with well-formed output never raises.
  Theorems: `C22_flake8_failure`, `C22_pylint_failure`, `C22_flake8_regular`, `C22_pylint_regular`, `C22_run_fails`. The linters and JSON parsing are arbitrary functions.
* **C23 Standard streams are restored** (partial). After linting, sys.stdout and sys.stderr are the caller's streams again, whether the linter finishes, exits or raises.
  Theorems: `C23_streams_refuted`, `C23_streams_partial`. The property is false: an exception other than SystemExit leaves the streams replaced. Proved if the linters only return or exit.
* **C24 Translations fill in the extracted snippets** (proved). For a message produced from a linter's pattern with the given snippets, the translated text is the template with these snippets in place, provided the snippets cannot be confused with the pattern's literal text.
  Theorems: `C24_translated`, `C24_flake8_messages`. For messages without '%%' and without line ends; 'cannot be confused' means a single snippet or only one way of taking the message apart. Conversions and format specifications in templates are not modelled.
* **C25 Exit status reflects the outcome** (partial). 'edulint check' exits with 0 only if the check ran and found nothing, with 1 if problems were found and 2 if the check could not be carried out.
  Theorems: `C25_status_refuted`, `C25_missing_file`, `C25_linter_failed_partial`, `C25_completed_partial`. The property is false: an unexpected exception is logged and the status is 0. Proved when no unexpected exception occurs.
* **C26 Report lists every problem under its file** (proved). The textual report contains every problem exactly once, in order, and each problem is preceded by the header of its own file, a header being printed exactly when the file changes.
  Theorems: `C26_report`. The textual report.
* **C27 Remote config cache freshness** (proved). A remote configuration obtained through the cache is (up to the convention of line ends) the content the server last sent for that very URL, either now, or less than 5 minutes ago, or - only if the server does not answer successfully - less than the offline limit ago.
  Theorems: `C27_fresh`. Whenever the last successful answer was stored completely, whatever happened before; file names (SHA-256) are assumed to differ for the addresses in use. Sequential requests.
* **C28 Remote config cache survives crashes** (partial). After a crash at any point of a cache update, later requests return only complete contents the server sent for that URL.
  Theorems: `C28_torn_refuted`, `C28_failed_write_refuted`, `C28_beginnings_partial`. The property is false: a crash or failed write leaves a cut text with old metadata. Proved: only beginnings of texts sent for that address are served.
* **C29 Offline limit is 500 days** (partial). An unreachable remote config is served from the cache for 500 days.
  Theorems: `C29_limit_refuted`, `C29_expired_refuted`. The property is false: the limit is 500*24*60 seconds, about 8.3 days.
* **C30 Version check rate limit** (proved). In any sequence of version checks, the package index is contacted at most once per TTL period, failed attempts included.
  Theorems: `C30_rate`. Sequential checks; attempts are counted by the time recorded before asking.
* **C31 Update notice only for a newer version** (partial). An update is announced only if a version newer than the installed one is known.
  Theorems: `C31_unreachable_refuted`, `C31_older_refuted`, `C31_current_partial`, `C31_newer_partial`. The property is false: texts are compared for inequality, also with None. Proved when the index is asked and answers.
* **C32 Downloaded explanations are used** (partial). After a successful download of newer explanations, they are the ones shown.
  Theorems: `C32_downloaded_refuted`, `C32_never_used`. The property is false: the distributed file is opened instead of the downloaded one.
* **C33 Merged comparisons with constants keep the truth value** (proved). For R6211/R6212/R6214, the condition suggested for a group of comparisons of one expression with constants is true exactly when the original and/or of these comparisons is true (expressions whose text starts with 'abs(' without being a call of abs are the subject of C34).
  Theorems: `C33_group_suggestion_equivalent`, `C33_whole_condition_equivalent`, `C33_groups_exact`, `C33_groups_cover`, `C33_no_crash`. Integer constants and values. The excluded texts are the subject of C34.
* **C34 abs() suggestion is right for every expression text** (partial). The R6211 suggestion is equivalent to the original for every compared expression, including those whose text begins with 'abs('.
  Theorems: `C34_abs_text_refuted`. The property is false: texts such as 'abs(x) - 5' start with 'abs(' without being an abs call.
* **C35 max/min suggestion keeps the truth value** (partial). The R6213 suggestion (comparison with max or min) is true exactly when the original and/or of comparisons is.
  Theorems: `C35_ints_partial`, `C35_guard_refuted`, `C35_brackets_refuted`, `C35_sets_refuted`, `C35_maxima_refuted`, `C35_iterable_refuted`. The property is false: a guard is no longer evaluated first, operands lose their parentheses, sets are not ordered totally, and max(...) is cut out of longer operands; proved for integer operands that need no parentheses.
* **C36 max/min suggestion is well formed** (partial). The text suggested by R6213 has balanced parentheses whenever the operands have.
  Theorems: `C36_balanced_partial`, `C36_refuted`. The property is false for max(a, b) + c; proved if operands that start with max( or min( are calls.
* **C37 Remainder comparison suggestion keeps the truth value** (partial). The R6215 suggestion ('x % n == y % n', 'x % n != y % n' or 'True') is true exactly when the quoted or-part of the condition is.
  Theorems: `C37_ints_partial`, `C37_float_refuted`. The property is false for floats; proved for integers (the dividends), for any modulus and any number of comparisons.
* **C38 Redundant operands are removed safely** (partial). The R6216 suggestion obtained by removing operands of an and/or, using a solver that may answer 'unknown', has the same truth value as the original; R6222 'always True/False' is right.
  Theorems: `C38_ints_partial`, `C38_compare_partial`, `C38_guard_refuted`, `C38_floor_refuted`, `C38_decimal_refuted`, `C38_nan_refuted`. The property is false when a removed operand guards another one, for integer division by a negative constant, for decimals and for nan; proved for states in which every number of the condition is an integer, for every sound solver.
* **C39 if/elif chain simplification keeps the selected branch** (partial). Simplifying an if/elif/else chain (R6217-R6221) selects the same branch body as the original for every environment, for every sound solver.
  Theorems: `C39_ints_partial`, `C39_followed_partial`, `C39_guard_refuted`, `C39_negated_refuted`. The property is false when an earlier branch guards a division in a later test, and where C52 is false; proved for states in which every number of the tests is an integer, for every sound solver. Bodies are represented by the positions of the branches.
* **C40 Consecutive ifs merge safely** (partial). When R6223 says consecutive ifs whose conditions' variables are not modified can become elifs, executing the merged statement has the same effect as executing them in sequence.
  Theorems: `C40_ints_partial`, `C40_guard_refuted`. The property is false when a condition divides by a number that an earlier condition excludes: in sequence it raises an exception, merged it does not. Proved for states in which every number of the conditions is an integer, for every sound solver; the analysis of modifications and of assignments is assumed to be right.
* **C41 Replacing an if by its condition keeps truthiness** (partial). The R6201-R6204, R6209 and R6210 suggestions give a value with the same truthiness and the same side effects as the original if, for every condition and value.
  Theorems: `C41_return_truth_partial`, `C41_assign_truth_partial`, `C41_expression_truth_partial`, `C41_conditional_value_refuted`, `C41_augmented_assignment_refuted`, `node_text_read_back`, `text_read_one_way`. The property is false for augmented assignments and for conditional expressions joined with and/or, whose text is read differently; proved for others. Expressions are names, literals, operators, comparisons, calls, attributes, subscripts and conditional expressions.
* **C42 Replacing an if by its condition keeps the value** (partial). The R6201 suggestion returns the same value as the original if.
  Theorems: `C42_value_refuted`, `C42_return_value_partial`, `C42_assign_value_partial`, `C42_expression_value_partial`. The property is false for conditions that do not give a bool; proved if the condition gives a bool or the suggestion negates.
* **C43 Merging nested, sequential and pass ifs is behaviour preserving** (partial). The R6205, R6207 and R6208 rewrites execute the same tests in the same order with the same final state and result.
  Theorems: `C43_pass_same`, `C43_nested_same_partial`, `C43_sequential_same_partial`, `C43_nested_refuted`, `C43_sequential_refuted`. The property is false for conditions that are conditional expressions; proved for others.
* **C44 Membership in a range rewritten to comparisons** (partial). The R6617/R6618/R6619 suggestions are true exactly when the tested integer is in (not in) the range, for all bounds and non-zero steps.
  Theorems: `C44_members_partial`, `C44_unbracketed_refuted`, `C44_float_refuted`. The property is false for bounds that are conditions (no brackets) and for floats guessed to be integers; proved for integer operands without effects and integer bounds.
* **C45 Membership rewrite evaluates its operand alike** (partial). The R6617-R6619 rewrites are equivalent also when evaluating the tested expression has a side effect.
  Theorems: `C45_twice_refuted`, `C45_pure_partial`. The property is false for calls, which are evaluated twice; proved for operands without effects.
* **C46 Iteration count report is exact** (proved). R6606 reports 'no iterations' exactly for ranges that are empty and 'only one iteration' exactly for ranges with one element.
  Theorems: `C46_reported`, `C46_exact`. 
* **C47 Repeated operation report has equal operands** (partial). R6607 is reported only if all operands of the chain are the same expression.
  Theorems: `C47_refuted`, `C47_first_partial`, `C47_right_partial`, `C47_ends`. The property is false for a + a + b; proved for chains whose first operand is not a chain.
* **C48 Replacing a magic constant by ord() keeps the value** (partial). Replacing the constant by the R6614 suggestion text leaves the value of the expression unchanged.
  Theorems: `C48_minus_refuted`, `C48_quote_refuted`, `C48_value_partial`. The property is false for ord(c) - 96 and for quotes and backslashes; proved for the other constants.
* **C49 Comparing letters instead of codes** (partial). The R6615 suggestion is true exactly when the original comparison of ord(c) with the constant is.
  Theorems: `C49_neighbour_refuted`, `C49_first_partial`, `C49_last_partial`. The property is false when the operand next to the constant is not a call of ord; proved when it is.
* **C50 Checker does not crash on comparisons with ord()** (partial). The R6615 check handles every comparison containing ord() without an exception.
  Theorems: `C50_string_refuted`, `C50_ends_partial`. The property is false for strings; proved when all computable operands are integers.
* **C51 Redundant arithmetic is redundant** (partial). Whenever R6608 is reported on integer operands and the expression evaluates, its value is 0, 1, one of the operands or the negation of one.
  Theorems: `C51_effects_refuted`, `C51_value_partial`. The property is false for operands with effects; proved for others, without / (which gives floats).
* **C52 Negation detection is sound** (partial). When R6611/R6612/R6218 consider the elif condition the negation of the if condition, in every environment exactly one of the two is true.
  Theorems: `C52_chain_refuted`, `C52_remainder_refuted`, `C52_operand_refuted`, `C52_nan_refuted`, `C52_opposite_partial`. The property is false for chained comparisons, remainders compared with other numbers than 0 and 1, negations inside operands and floats that are not numbers; proved for the other conditions without effects.
* **C53 Constant folding agrees with Python** (proved). If the constant folder returns a value for an expression, Python evaluates the expression to that value.
  Theorems: `C53_folded`. Provided that the operators of the program do on constants what those of the linter's interpreter do; a folded None means no value.
* **C54 Constant folding never raises** (partial). The constant folder returns a value or None for every expression, never an exception.
  Theorems: `C54_power_refuted`, `C54_ends_partial`. The property is false for 0 ** -1; proved for expressions without powers if operators on values other than integers raise TypeError or ValueError only.
* **C55 Augmented assignment suggestion keeps the effect** (partial). Replacing the assignment by the R6609 suggestion leaves the same final state.
  Theorems: `C55_targets_refuted`, `C55_same_partial`. The property is false for several targets; proved for a single name, for types without in-place operations of their own.
* **C56 Integral division suggestion** (partial). Replacing int(a / b) by a // b keeps the value.
  Theorems: `C56_negative_refuted`, `C56_large_refuted`, `C56_same_partial`. The property is false for negative quotients and large numbers; proved exactly when it holds if quotients are exact.
* **C57 Block enumeration is exact** (proved). Enumerating the blocks of a control flow graph yields every block reachable from the start exactly once and terminates on cyclic graphs.
  Theorems: `C57_exact`, `C57_postorder`, `C57_edges`, `C57_depth_refuted`. The enumerations that call themselves (postorder, edges; nothing in edulint calls them) end with RecursionError for graphs deeper than the limit.
* **C58 Reaching definitions are exact** (proved). The computed set of definitions reaching a block is exactly the set of blocks that define the variable and have a path to it without another definition in between; the iteration terminates.
  Theorems: `C58_exact`. For every list of blocks that is closed under edges and on which edges in and out agree; ex_built shows it for a graph built by the model of the visitor.
* **C59 Type guess operations form a set algebra** (proved). A type guess behaves as a set of types: membership, union, intersection, 'has only' and counting agree with sets.
  Theorems: `C59_none`, `C59_single`, `C59_union`, `C59_intersection`, `C59_list`, `C59_has_only`, `C59_count`, `C59_mutable`, `C59_container`. 
* **C60 Type guesses are sound** (partial). If the guessed types of an expression are known, its run-time type is among them.
  Theorems: `C60_or_refuted`, `C60_times_refuted`, `C60_builtin_refuted`, `C60_unknown_refuted`, `C60_sound_partial`. The property is false for and/or, products with floats, abs and sums with unknown operands; proved for integer arithmetic, comparisons and conditional expressions over soundly guessed names and calls.
* **C61 Anti-unification generalises** (partial). Substituting the i-th sub-variants for the variables of the common core gives back the i-th code fragment.
  Theorems: `C61_unmerged_partial`, `C61_merged_partial`, `C61_variant_partial`, `C61_node_variant_partial`, `C61_constants_refuted`, `C61_variant_refuted`. The property is false for constants that are equal but not the same (1, True, 1.0) and, for get_sub_variant, for lists of different lengths; proved up to == of constants, the attributes that are compared and names merged by the analysis of scopes (an oracle), for classes of nodes of which none is a subclass of another (so not for For against AsyncFor).
* **C62 Solver translation preserves meaning** (partial). The formula a condition is translated to is true in exactly the integer environments in which Python evaluates the condition to true.
  Theorems: `C62_ints_partial`, `C62_floor_refuted`, `C62_decimal_refuted`. The property is false for integer division by a negative constant and for decimal numbers; proved for conditions whose numbers are integers otherwise.
* **C63 Handlers are part of the control flow graph** (partial). Every statement that Python can execute is reachable in the control flow graph built for it.
  Theorems: `C63_module_partial`, `C63_functions_partial`, `C63_finally_refuted`, `C63_raise_refuted`, `C63_loop_in_handler_refuted`, `C63_class_refuted`, `C63_match_refuted`, `C63_suppress_refuted`, `C63_return_refuted`. The property is false for try statements, class bodies, match and context managers that swallow exceptions; proved for modules and functions without them, with the stronger statement that every execution is a walk through the graph.
* **C64 Only message switches are dropped** (partial). Enable/disable-all resolution drops nothing but the message switches '--enable=...' and '--disable=...'; every other pylint argument is passed on.
  Theorems: `C64_only_switches_dropped_refuted`. The property is false: '--enable-all-extensions' before '--disable=all' is dropped.
* **C65 A config file that excludes in-file configuration keeps its own settings** (partial). When the config file in force excludes in-file configuration, its other options still apply.
  Theorems: `C65_excluding_file_refuted`. The property is false unless the command line names the config file (see C01_C02_whole_run).
* **C66 A file whose config file cannot be loaded is not skipped silently** (partial). Every Python file given is checked or the run reports a failure through its result.
  Theorems: `C66_unloadable_refuted`. The property is false.
* **C67 A checked file is ordered as a file** (partial). Problems in a checked file are ordered by the position of its path argument, whatever the file is called.
  Theorems: `C67_named_file_refuted`. The property is false for paths mentioning 'command line' or 'configuration file'.
* **C68 Tweaks of linter messages do what the options say** (proved). A disallowed one-character name is dropped iff listed in allowed-onechar-names and otherwise reworded; a redefined builtin is dropped iff disallowed-builtin-names is non-empty and does not list it; unused imports of ib111 modules and parentheses after 'not' are dropped; a repeated operation is dropped iff no group is set and at most one '*' precedes the first full stop; comparisons to booleans are reworded; everything else is kept as it is, and no message of these linters makes tweaking fail.
  Theorems: `C68_tweaks_exact`, `C68_configs_complete`. Message texts are instances of the linters' templates; characters are bytes.
* **C69 A translated message shows no unfilled placeholder** (partial). When a message of a linter is translated by a template whose placeholders ask for no more snippets than the message has, every placeholder of the template is replaced by a (translated) snippet of the message.
  Theorems: `C69_doubled_refuted`, `C69_placeholder_refuted`, `C69_reworded_refuted`, `C69_filled_partial`. The property is false: the patterns of F501-F509 keep '%%' and never match, and reworded messages are no longer recognised. Proved for other messages as the linter spells them.
* **C70 A faulty translation does not hide problems** (partial). If a check without translations reports problems, the same check with any translations of the messages also reports problems.
  Theorems: `C70_bad_template_refuted`. The property is false: a placeholder too many aborts the check with status 0.
* **C71 A downloaded remote config stays available offline** (partial). Once a remote configuration has been downloaded and stored, requests for it within the offline limit succeed even if the server does not answer.
  Theorems: `C71_empty_refuted`, `C71_available_partial`. The property is false for empty texts, proved for others (valid UTF-8).
* **C72 The server is asked at most once in five minutes** (partial). Within five minutes of a request for a remote configuration, further requests for the same address are answered without asking the server.
  Theorems: `C72_asked_again_refuted`, `C72_not_asked_partial`. The property is false if the server did not send a text; proved after a stored non-empty answer.
* **C73 Caching does not change the text** (partial). A remote configuration served from the cache is exactly the text the server sent.
  Theorems: `C73_line_ends_refuted`, `C73_unchanged_partial`. The property is false for texts with a carriage return; proved for others.
* **C74 The version check recovers from an interrupted run** (partial). After a version check was interrupted at any point, a later version check works again.
  Theorems: `C74_killed_refuted`. The property is false: a truncated versions.json makes every later check fail.
* **C75 The latest version reported is the newest one offered** (partial). Any version reported as the latest was, at the time the index was asked, offered (with builds, not yanked) and no newer version was offered.
  Theorems: `C75_candidate_refuted`, `C75_numbers_partial`. The property is false for pre-releases; proved for (major, minor, micro).
* **C76 Explanation updates are rate limited** (proved). In any sequence of runs, the server of explanations is asked at most once per TTL period, failed attempts included.
  Theorems: `C76_rate`. 
* **C77 Background updates can be switched off** (partial). With --disable-version-check no version check is started and with --disable-explanations-update no update of explanations is started, for every command.
  Theorems: `C77_explain_refuted`, `C77_switches_partial`. The property is false for 'explain'; proved for the other commands.
* **C78 Explanations asked for are given** (proved). The explanations returned are exactly those of the requested message ids that have one, each once, ids without an explanation are warned about in order, and 'all' in any letter case gives all of them.
  Theorems: `C78_explained`, `C78_all`. 
* **C79 Newest patch of each minor version** (proved). The versions chosen for compatibility tests contain, for every minor version, exactly one version, the newest one, in ascending order.
  Theorems: `C79_patches`. For any version order.
* **C80 Version check at most once per hour** (partial). As the help of --disable-version-check says, the index is asked at most once per hour.
  Theorems: `C80_hour_refuted`. The property is false: the limit in use is ten minutes.
* **C81 Checks of if statements always finish** (partial). Linting any if statement finishes, without an exception, whatever statements its branches hold.
  Theorems: `C81_endless_loop_refuted`, `C81_crash_refuted`, `C81_checks_end_partial`. The property is false: a bare annotation loops forever, del raises AttributeError. Proved for the other statements; modelled for the checks R6201-R6210.
* **C82 Guessing types terminates, also for variables defined in terms of one another** (proved). For every program and every expression in it, guessing the type of the expression ends, however the variables' assignments refer to one another.
  Theorems: `C82_ends`. The definitions a name may refer to are given by an oracle (the data-flow analysis); there are finitely many.
* **C83 Using a value directly instead of comparing it with True or False** (partial). Replacing a comparison with True or False by 'is' or 'is not' by the R6613 suggestion text keeps the truth of the condition.
  Theorems: `C83_truthy_refuted`, `C83_misread_refuted`, `C83_bool_partial`. The property is false for operands that are not bools, and 'not' is put before and/or without brackets; proved for bools.
* **C84 Redundant elif and unreachable else** (partial). When R6611 is reported, the elif can become an else without changing the behaviour; when R6612 is reported, the else branch is never executed.
  Theorems: `C84_elif_partial`, `C84_calm_partial`. Follows from C52 where that holds.
* **C85 Appending instead of extending by one element** (partial). Following R6601 leaves the list with the same elements.
  Theorems: `C85_starred_refuted`, `C85_append_partial`, `C85_augmented_partial`. The property is false for starred elements; proved for others.
* **C86 The check for multiplied lists answers for every product** (partial). For every product the check R6610 ends without an exception and reports exactly the list displays with a list, set or dict (display or call) as an element.
  Theorems: `C86_two_refuted`, `C86_exact_partial`. The property is false for a product of two list displays (AssertionError); proved for others.
* **C87 Conditions handed to the solver do not crash the linter** (partial). The checks that ask the solver (R6216, R6222) end without an exception for every condition, whatever the types of its parts are guessed to be and whatever the solver answers; what the solver is given is well-typed for it.
  Theorems: `C87_boolop_partial`, `C87_compare_partial`, `C87_sorted_partial`, `C87_abs_refuted`, `C87_empty_refuted`. The property is false for abs(x % 1) and abs(); proved for conditions without powers in which abs is called with sums, differences and products of variables and numbers.
* **C88 The chain check ends, and without an exception** (partial). Checking an if/elif/else chain (R6217-R6221) terminates and raises no exception, whatever the tests are, whatever the solver answers and whatever the types are guessed to be.
  Theorems: `C88_ends_partial`, `C88_three_partial`, `C88_crash_refuted`. The check ends for all chains without powers; the property is false for some chains of four branches (Z3Exception); proved for chains of up to three branches. Memory and time limits of the interpreter are not modelled.
* **C89 The check of consecutive ifs ends, and without an exception** (partial). Checking consecutive if statements (R6223, R6224) terminates and raises no exception, whatever the conditions are, whatever the solver answers and whatever the types are guessed to be.
  Theorems: `C89_ends_partial`. Proved for conditions without powers in which abs is called with plain arithmetic; the analysis of assignments is assumed not to raise an exception.
* **C90 Building control flow graphs never fails** (proved). Building the control flow graphs of a program succeeds, whatever statements are nested in each other.
  Theorems: `C90_never_fails`. The limit on the recursion of the interpreter is not modelled.
* **C91 Loops reported as one-iteration end in their first iteration** (partial). If the message one-iteration (E9996) is reported for a loop, no execution of the program does a second iteration of it; the check raises no exception.
  Theorems: `C91_module_partial`, `C91_functions_partial`, `C91_second_iteration`, `C91_never_raises`, `C91_handler_refuted`. The property is false for loops with a try statement; proved for modules and functions without try, class, match and context managers that swallow exceptions. The check raises no exception for any program.
* **C92 Uses are linked to the definitions whose values they can see** (partial). After the analysis of a module, a read or modification of a variable lists a definition exactly if there is a way through the control flow graph from the definition to the use on which the variable is not defined again; the same holds for the definitions a definition replaces. The analysis ends without an exception.
  Theorems: `C92_without_calls_partial`, `C92_calls_partial`, `C92_calls_refuted`, `C92_redefines_refuted`. The property is false with calls: a call that may assign a variable hides the definitions of earlier blocks, and its definition is said to replace ones that cannot be there. Proved exactly without calls; with calls no use is linked to a definition that cannot arrive. How events and calls are found in statements, and make_up_calls, are not modelled.
* **C93 Branches reported as identical are identical** (partial). If R6501 (identical-if-branches) is reported because the branches have a common core without variables, all branches are the same code, up to names of variables that can be interchanged.
  Theorems: `C93_alike_partial`, `C93_compared_partial`, `C93_constants_refuted`, `C93_conversion_refuted`, `C93_import_refuted`. The property is false: 1 and True, f-strings that differ in the conversion only, and imports that differ in how far up they go only, are taken for the same; proved up to == of constants, attributes that are not compared and names merged by the analysis of scopes (an oracle).
* **C94 Names of duplicate blocks correspond one-to-one** (partial). If anti-unification with require_name_consistency=True (as for duplicate blocks and functions) succeeds, then for any two fragments, two places have the same name in one fragment exactly if they have the same name in the other one.
  Theorems: `C94_one_to_one_partial`. Proved for places that are at the same path in all fragments, with nodes of the same class on the way, for classes of nodes of which none is a subclass of another.
* **C95 Anti-unification raises no exception** (partial). Comparing fragments of code for duplication ends with a core or with the answer that there is none, and never with an exception.
  Theorems: `C95_total_partial`, `C95_identical_partial`, `C95_class_refuted`, `C95_complex_refuted`. The property is false for two classes in the same place (TypeError) and for complex numbers (AssertionError); proved for classes of nodes that can be made of the attributes that are compared. The analysis of scopes is an oracle that raises nothing; the limit on recursion is not modelled.
* **C96 Moving identical code out of the branches keeps what the program does** (partial). If R6502 (identical-if-branches-part) tells to move n lines before or after an if statement, or R6501 (identical-if-branches) tells to remove it, the program does the same afterwards, for all values and effects of the conditions and statements.
  Theorems: `C96_after_partial`, `C96_before_partial`, `C96_removed_partial`, `C96_before_refuted`, `C96_removed_refuted`, `C96_both_refuted`. Moving code after the if always keeps what the program does. Moving code before it, or removing the if, does so if the code does not change the conditions and the conditions have no effect, and is false otherwise; both parts may be reported though they overlap. Statements other than if, and their texts, are not looked into: the same text is taken to do the same.
* **C97 Joining identical branches with 'or' keeps what the program does** (partial). If R6503 (identical-seq-ifs) or R6504 (identical-seq-elifs) is reported, the branches have the same code, and one branch with their conditions joined by 'or' does the same as the reported ones.
  Theorems: `C97_chain_partial`, `C97_siblings_partial`, `C97_twice_refuted`, `C97_else_refuted`. Always true for branches of one chain of elifs. False for if statements one after another when the body runs twice or a later one has an else; proved for ones without else if no later condition is true after the body.
* **C98 Reported parts of branches are the longest ones and none is missed** (proved). The lines that R6502 names are the longest common beginning or end of all branches of an if statement. If neither R6501 nor R6502 is reported for an if statement with else whose first and last branch are not a single if, its branches do not begin alike, and end alike in at most one statement, which is a return. The comparison raises no exception.
  Theorems: `C98_longest`, `C98_silent`, `C98_total`. The lines of each branch are assumed to be in order, as they are in parsed code.
* **C99 The untwisted condition keeps what the program does** (partial). If R6557 (similar-if-to-untwisted) is reported, an if with the suggested condition and the branches of the first inner if does the same as the two nested if statements.
  Theorems: `C99_same_partial`, `C99_shape_partial`, `C99_effect_refuted`. False if the outer condition has an effect; proved if it has none and the inner condition does not change it. The anti-unification of the branches and the numbers of tokens are left out.
* **C100 The suggested if expression has the value of the branch that runs** (partial). If R6558 (similar-if-to-expr) suggests an if expression for values that differ between branches, the expression evaluates the conditions in the order of the branches and has the value that stands in the branch that would run.
  Theorems: `C100_value_partial`, `C100_made_partial`, `C100_keyword_refuted`. False for attributes that are no expressions, such as names of keyword arguments, which become strings; proved for nodes, names and constants. Where the expression is put, and so the order of evaluation around it, is not modelled.
* **C101 The suggested list or dictionary gives what the branches give** (partial). If R6561 (similar-if-to-list) or R6562 (similar-if-to-dict) is reported for a chain of comparisons with constants, looking up the values of the variables gives the branch that the chain takes, and nothing is found exactly when no condition holds; a list is suggested only if the constants are 0, 1, ..., n - 1 in some order.
  Theorems: `C101_condition_partial`, `C101_dictionary_partial`, `C101_default_partial`, `C101_list_partial`, `C101_keys_partial`, `C101_part_partial`, `C101_overlap_refuted`. False when two branches test for the same constant; proved for dictionaries when no two conditions hold at once, and for lists always. The check also looks at if statements one after another, for which the taken branch is not unique; those are not covered.
* **C102 A suggested loop has as many iterations as there are repetitions** (partial). If R6552 (similar-block-to-loop-range) or R6560 (similar-block-to-loop-collection) tells to iterate over something instead of n repetitions, it has n elements.
  Theorems: `C102_constants_partial`, `C102_expressions_partial`, `C102_descending_refuted`, `C102_powers_refuted`, `C102_equal_refuted`. False if several places vary and one descends by 1 or 2 (one or two iterations too many), for powers of a name and for constant expressions with equal values. Proved in all other cases where all places have constants, and for one place with sums and products.
* **C103 A suggested loop goes through the values that vary** (partial). If R6552 or R6560 tells to iterate over something, its elements are the values at the places that vary, in the order of the repetitions; a range is suggested only for numbers or characters that are equally far apart; the loop over names does the same as the repetitions.
  Theorems: `C103_one_place_partial`, `C103_ranges_partial`, `C103_lists_partial`, `C103_names_partial`, `C103_names_refuted`, `C103_characters_refuted`, `C103_operators_refuted`, `C103_remainders_refuted`. Proved for one place with constants, for lists of constants at several places unless they are characters, and for names that the code does not change. False for characters that start differently at two places, for operators, for remainders and for names that the code changes. How the elements of a range are used at several places is shown in no message and not modelled.
* **C104 Looking for repetitions raises no exception** (partial). Deciding whether repeated code can be written as a loop raises no exception, whatever the fragments differ in.
  Theorems: `C104_total_partial`, `C104_equal_refuted`, `C104_none_refuted`. False for constant expressions with equal values beside another place, and for a loop over range(None). Proved if the values at each place are not all equal and are either no nodes or nodes of different types, as anti-unification yields them.
* **C105 Repeating the outer loop more often does the same** (partial). If R6553 (similar-block-to-loop-merge) tells to repeat the outer loop t times, the loop with only one of the parts as its body and range(t) does the same as the loop over all of them.
  Theorems: `C105_loop_partial`, `C105_text_partial`, `C105_parentheses_refuted`, `C105_continue_refuted`, `C105_target_refuted`. Proved for parts that neither end in continue nor depend on the target, in states that are the same but for the target. False with continue, if the target is used after the loop, and for bounds that need parentheses in a product. Assignments of the loop to its bound are covered as range is evaluated once.
* **C106 All repetitions at the beginning of a block are tried, the longest first** (proved). The fragments that are compared are exactly the ways to cut a beginning of the block into at least two consecutive parts of the same length; longer beginnings come first, and among equally long ones smaller parts do; none comes twice.
  Theorems: `C106_all`, `C106_order`. 
* **C107 A loop 'while True' that starts with a break can have the negated condition** (partial). If R6301 (no-while-true) is reported, the loop whose condition is the negation of the text in the message and whose body is the rest of the body, followed by the statements that came before the break, does the same: it ends in the same states, and ends if and only if the reported loop does.
  Theorems: `C107_same_partial`, `C107_breaks_refuted`, `C107_else_refuted`. Proved for loops without else when nothing comes before the break, or no other break leaves the loop. False otherwise: another break would then be followed by the statements, and the else branch would run.
* **C108 The iteration that 'never happens' does not happen** (partial). If R6302 (use-tighter-boundaries) is reported, the loop without its first or last iteration and without the test does the same as the reported loop, apart from the value of the target.
  Theorems: `C108_first_partial`, `C108_last_partial`, `C108_none_partial`, `C108_break_refuted`, `C108_step_refuted`, `C108_moving_refuted`, `C108_else_refuted`, `C108_target_refuted`. Proved for bounds that keep their values. False for break on the first element (no iteration happens at all), for steps that do not reach stop - step, for bounds that the loop changes, and for break on the last element with an else branch. The target has another value after the loop.
* **C109 A while loop that should be a for loop counts** (partial). If R6305 (use-for-loop) is reported, the loop does the same as a for loop with the same body over a range that starts with the value of the variable, has step 1 or -1 and ends at the other side of the comparison.
  Theorems: `C109_change_partial`, `C109_range_partial`, `C109_last_partial`, `C109_subtraction_refuted`, `C109_float_refuted`, `C109_after_refuted`. Proved for integers if every iteration adds the number that was found, and in particular if the change is the last statement. False for x = 1 - x, which is taken to subtract 1, and for steps of 1.0; without the increment the variable differs after the loop. That every path through the body has one change (event_on_every_path, a traversal of the control flow graph) is given as a flag and not modelled.
* **C110 Iterating over a structure directly does the same** (partial). If R6307 (use-foreach) or R6308 (use-enumerate) is reported for a loop over range(len(a)), replacing a[i] by the element everywhere in its body and iterating over a (or enumerate(a)) does the same; after use-foreach the index is no longer needed, and after use-enumerate it still is.
  Theorems: `C110_body`, `C110_unmodified`, `C110_same_partial`, `C110_modified_refuted`, `C110_alias_refuted`, `C110_dictionary_refuted`, `C110_index_after_refuted`, `C110_else_refuted`. C110_body is proved for all parsed bodies: neither name is assigned, the element is used, and the index is needed afterwards exactly for use-enumerate; C110_unmodified: no method of lists that modifies them is called on the structure outside of blocks that end with break or return. C110_same_partial: the two loops have the same outcomes if calls and other operations of the body keep the structure as it is, up to the index and the element after the loop. False if the structure is modified in a block that ends with break or return, or under another name, for dictionaries with the keys 0, 1, ..., and if the index is used after the loop or in its else branch. Structures that are attributes or subscripts and loops with an else branch are not covered.
* **C111 Names are taken for the variables they mean** (partial). The variable that the analysis records for an occurrence of a name is the one that Python's scoping rules give: local, of an enclosing function, or of the module, with global and nonlocal declarations, classes, parameters, lambdas and comprehensions.
  Theorems: `C111_enclosing_partial`, `C111_python_partial`, `C111_default_refuted`, `C111_early_refuted`, `C111_class_refuted`, `C111_iterable_refuted`, `C111_nonlocal_refuted`, `C111_deleted_refuted`. Proved where every scope around the name that mentions it means Python's variable, for modules whose declarations come first, whose declared names are not deleted, whose nonlocal names belong to the scope directly around and whose imports have no dots (Python itself demands that declarations precede uses, not that they come first). False for defaults named like a parameter, names read before a local assignment, names of a class in its methods, the first iterable of a comprehension, nonlocal names two levels up and declared names after del. Assignment expressions and modifications are not modelled.
* **C112 No binding of a name is missed** (partial). Every name bound by an assignment, a loop, a comprehension, a parameter, an import or a definition has an event that records it as assigned.
  Theorems: `C112_bindings_partial`, `C112_block_refuted`, `C112_import_refuted`. Proved for all bindings but those in defaults of lambdas, in decorators and bases, the names of definitions inside blocks, and imports with dots (recorded under the whole name); the latter two are refuted.
* **C113 Uses of a module's names in functions and classes are seen** (partial). Where a function or a class of the module uses a name that the module binds, wherever in the module it does so, the use is recorded.
  Theorems: `C113_uses_partial`, `C113_decorator_refuted`, `C113_lambda_refuted`. Proved for names never deleted in the module. False for decorators, bases and defaults of lambdas, which are never visited.
* **C114 The analysis of variables gives up only for locals() and globals()** (partial). The analysis fails only for modules with a call of the built-in functions locals or globals; for all others it gives a result.
  Theorems: `C114_total`, `C114_own_refuted`. Proved that a module without a call written locals(...) or globals(...) is accepted. False for a function of the module that is itself called locals: the check for the built-in looks at events of the name that are recorded only afterwards.
* **C115 Walking over the control flow graph from a location yields exactly what control can get to, once** (proved). successors_from_loc (predecessors_from_loc) without exploring functions and classes ends without a failing assertion, yields no location twice, and yields exactly the locations on paths forward (backward) from the given one on which at most the last location is one to stop at: with include_start the paths start at the location itself, otherwise after it; without include_end the locations to stop at are left out.
  Theorems: `C115_program`, `C115_graph_partial`, `C115_empty_refuted`. C115_program covers all programs, as no block without locations has successors in their graphs. C115_graph_partial and C115_empty_refuted are about graphs in general.
* **C116 Walking from several locations yields what control can get to from any of them** (partial). successors_from_locs and its backward counterpart with several locations yield, each once, exactly the locations on such paths from at least one of them.
  Theorems: `C116_starts_partial`, `C116_starts_refuted`. Proved that nothing wrong and nothing twice is yielded, and that all is yielded if the walk stops nowhere. False with a stop function: a start in a block that an earlier walk has entered is skipped, even if that walk stopped before it.
* **C117 What Python executes after a statement is found by walking on from it** (partial). If in some execution y is executed after x, with no location to stop at in between, then the walk forward from the location of x yields the location of y, and the walk backward from the location of y yields the location of x (unless it is one to stop at and those are left out).
  Theorems: `C117_module_partial`, `C117_functions_partial`. Proved for modules and function bodies without try, match, classes, asynchronous loops and context managers that swallow exceptions, for which the graphs themselves are wrong (see C63).
* **C118 A condition said to be implied after a block of code holds there** (partial). If the analysis says that the first condition implies the second after a block, then in every run where the first condition holds and the block comes to its end, the second condition holds there.
  Theorems: `C118_implied_partial`, `C118_fraction_refuted`. Proved for blocks without floats and quotients whose conditions and values are integers where they are evaluated, tuples being assigned from tuples; variables are independent, pure expressions are, and modified variables are known. False with fractions: a variable that is once an operand of % is an integer for the solver, so x += 0.5 is a contradiction from which everything follows.
* **C119 A while loop reported as explicitly infinite does not end by its condition** (proved). If a while loop is reported as explicitly infinite, then no execution of it ends because its condition does not hold.
  Theorems: `C119_explicit`. For all programs whose operators on constants are those of the linter (C119_explicit assumes nothing else).
* **C120 A while loop reported as implicitly infinite does not end by its condition once entered** (partial). If a while loop is reported as implicitly infinite and its condition holds at first, then no execution of it ends because its condition does not hold.
  Theorems: `C120_implicit_partial`, `C120_fraction_refuted`. Proved where all that the loop evaluates is about integers and the body is within the reach of C118. False with fractions: while x % 2 == 0: x += 0.5; x = 1 is reported and ends after one pass.
* **C121 The check for infinite loops raises no exception** (partial). Linting a while loop for being infinite never raises an exception, whatever its condition and body are.
  Theorems: `C121_raises_refuted`. False: assigning a string to several names of which one is a variable of the analysis makes it fail with IndexError. Nothing is proved about the loops for which it does not.
* **C122 Returning early where it is advised does the same** (proved). Where edulint advises to return early, putting the short branch first under the negated condition and the long one after it without indentation changes nothing about what the code does: same effects, same value returned, same exceptions. The check itself raises no exception.
  Theorems: `C122_same`, `C122_total`. For all if statements reported, all code before and after them in their block, all conditions, and any meaning of the statements other than return, break, continue and if. If there is no else branch, the advice is taken to be about the statement after the if, as in the check.
* **C123 Long functions and scripts are reported** (partial). A function or script is reported as too long, with the number of its statements, exactly if it has more than twenty statements, not counting imports, nested definitions and the main block.
  Theorems: `C123_number_partial`, `C123_reported_partial`, `C123_match_refuted`, `C123_else_refuted`. Proved without match statements: all that have more than twenty statements are reported, and the number reported is that of statements, lines 'else:' and try statements together. False with a match statement, which counts as one statement with all it contains, and false in the other direction: eighteen statements with enough else branches are reported as twenty-four.
* **C124 Comprehension variables that shadow are reported** (partial). The variables reported for shadowing in a comprehension are exactly the variables it binds that are names of the enclosing scope, apart from _.
  Theorems: `C124_sound_partial`, `C124_single_partial`, `C124_tuple_refuted`. Proved that what is reported is right and that a single variable is found. False for several: the variables of for x, y in ... are never reported.
* **C125 An enabled message that is found is reported whatever else is enabled** (partial). For every check outside duplication: enabling a message is enough to get it. What is reported for a node is exactly what the checks find, in their order, restricted to the enabled messages, independently of which other messages are enabled.
  Theorems: `C125_reported_partial`, `C125_unreachable_refuted`. Proved for all methods of the nine checkers, unless unreachable-else is enabled without use-elif, redundant-elif and use-early-return: then it is never reported. What a check finds is given; that the check finds the same whatever is enabled holds as no check looks at the enabled messages.
* **C126 Disabling messages does not hide other messages about duplication** (proved). If some messages are disabled, every message about repetitions to be loops and about similar or identical branches that is reported when all messages are enabled and is itself enabled is still reported, for the same statement; and no disabled one is.
  Theorems: `C126_still_reported`. For the messages about loops and ifs; the messages about similar blocks, which come after the loop over the statements, are not modelled. What is found is given. Assumed of the nodes of a piece of code: they are nested.
* **C127 Duplication found for a disabled message does not silence enabled ones** (partial). If an enabled message about the branches of an if statement applies, something is reported about the statement or about code it is part of; that a disabled message applies as well does not lead to silence.
  Theorems: `C127_something_partial`, `C127_branches_refuted`, `C127_loops_refuted`. Proved if the messages about identical code and loops are enabled, those about lists and dictionaries are enabled together or not at all, and a repetition found to be a loop has a message (one way out of similar_to_loop has none). False otherwise: disabled messages about identical branches or loops are looked for first and end the search.
* **C128 Blocks reported as similar are runs of statements alike to each other** (proved). A message about similar blocks of code is about at least two runs of consecutive statements with the same number of statements, in the order of the program, each but the first alike to an earlier one: statements of the same kinds in the same order, also inside of them up to the start of the last, and not overlapping it.
  Theorems: `C128_alike`. For all programs of distinct statements, each the first of its own siblings; which statements were left over by the other checks, and what comparing finds, is arbitrary.
* **C129 Blocks that look alike are compared with each other** (partial). If two runs of statements that do not overlap look alike, they are compared, so they are reported if they are similar enough and nothing else was reported about them.
  Theorems: `C129_second_partial`, `C129_lost_refuted`. Proved that the second of two runs that look alike is compared with some earlier run alike to it. False that it is compared with each: entering a later pair with the same second run takes it away from the first. With log(); save(); close() in one function and log(); save() in another, the common log(); save() is never compared.
* **C130 Blocks reported as similar do not overlap** (partial). The blocks that one message says to be similar, and to be extracted into a function, have no statement in common; and no message starts in code of an earlier message.
  Theorems: `C130_two_partial`, `C130_apart_partial`, `C130_overlap_refuted`. Proved for messages about two blocks, and that no message starts in an earlier one. False for three: two calls in one function and three in another are reported as three similar blocks, of which two share a statement.
* **C131 A message about a global variable is right** (proved). A message about a global variable names a variable that gets a value in code outside of functions and classes, at the place of the message and not later, and gives a line on which code in a function or class changes it. There is at most one message for a variable.
  Theorems: `C131_right`, `C131_once`. For all walks over the program, given as lists of locations; that walks visit what can be reached is C115 and C116.
* **C132 Global variables that are changed are reported** (partial). A global variable that is changed by code in a function or a class is reported.
  Theorems: `C132_found_partial`, `C132_class_refuted`, `C132_nested_refuted`, `C132_functions_refuted`. Proved for functions outside of classes, at any depth, and for methods of classes that are not in classes. False for code in the body of a class, for methods of a class in a class, and for variables that get a value in functions only.
* **C133 A message that an iterated structure is modified is right** (partial). If a loop is said to modify the structure it iterates over, then some execution of its body makes that modification on that structure and asks for the next element afterwards.
  Theorems: `C133_right_partial`, `C133_rebound_refuted`, `C133_leaving_refuted`, `C133_raising_refuted`. Proved for bodies that do not assign to the variable in an if and whose modifications are in blocks that can be left by their ends or a continue there (or that end with a break or a return themselves). False if the variable is bound to something else in the same branch, if an outer block ends with a break, and if the block ends with a raise. Inner loops, exception handlers and definitions are not modelled.
* **C134 Modifying an iterated structure is reported** (partial). A modification of the structure a loop iterates over, after which the next element can be asked for, is reported.
  Theorems: `C134_found_partial`, `C134_extended_refuted`, `C134_deleted_refuted`, `C134_hidden_refuted`, `C134_continued_refuted`. Proved for methods, in bodies without direct assignments to the variable in which blocks that end with a break or a return have no continue. False after an augmented assignment, for del, for the else branch of an if before a direct assignment, and if a continue jumps over the break at the end. Inner loops, exception handlers and definitions are not modelled.
* **C135 A variable counts as changed exactly if it is changed on a path** (proved). The check whether a variable is changed between a location and some others (made for the variables of tests before branches are suggested to be replaced by one expression) says yes exactly if the variable is changed on a path of the control flow graph to one of the others that does not come through the first location.
  Theorems: `C135_between`, `C135_tests`. For the graphs of all programs of the model of control flow graphs and any events of variables. Paths are followed backwards by the incoming edges that the blocks list, as in C115.
* **C136 Changes that Python makes between two locations are noticed** (partial). If Python executes a location, then one that changes a variable, and then a third one, then the variable counts as changed between the first and the third one; and only then.
  Theorems: `C136_module_partial`, `C136_functions_partial`, `C136_again_refuted`, `C136_itself_refuted`. Proved for modules and functions in which the graphs follow the executions (as in C117), if the first location does not come again in between. False if the first and the third one are the same (a test of a loop), and the other way round if only the third one itself changes the variable. Changes made by functions that are called are no events of the location of the call in this model.
* **C137 Loop variables that are parts of larger objects are reported** (partial). Exactly the parts of the target of a loop or a comprehension that are assigned to and that are elements or attributes of another object are reported.
  Theorems: `C137_found_partial`, `C137_right_partial`, `C137_simple_partial`, `C137_index_refuted`. Proved that all these parts are reported, and that what is reported is one or is in one. False that only they are: a subscript in the index of a target is reported, too.
* **C138 A module without forbidden top-level code can be imported safely** (partial). If no forbidden top-level code is reported, importing the module executes only imports, definitions and assignments; and if the module has only these, nothing is reported.
  Theorems: `C138_quiet_partial`, `C138_lines_partial`, `C138_else_refuted`, `C138_annotated_refuted`. Proved for modules whose ifs have no else branch, with the exact lines that are reported. False if the main block has an else branch, which is executed on import. False that assignments are allowed: annotated and augmented ones are reported. What assignments and definitions call is not modelled.
* **C139 A loop that is said to be infinite has a test that its body cannot change, also in functions** (partial). If the analysis that precedes the reports of infinite loops and of mergeable ifs says that the variables of a test are not modified in a block, then executing the block does not change them, neither directly nor in any function that it calls, directly or through others.
  Theorems: `C139_sure_partial`, `C139_two_refuted`, `C139_name_refuted`, `C139_method_refuted`. Proved for programs in which a name that is called has one meaning everywhere and no methods are called. False if a name has two definitions (only one is looked at), if a parameter or a local function has the name of a function that was already looked at, and for methods. Names without definitions are called without effect; definitions in functions are not modelled.
* **C140 The search for modifications in functions ends and does not invent them** (partial). For every program the search for modifications in called functions ends, also if functions are recursive; and if it says that the variables may be modified, there is a chain of calls to a modification or to something whose body is not known.
  Theorems: `C140_only_partial`, `C140_answered`, `C140_mutable_refuted`. That it ends is proved for all programs; that it does not invent modifications is proved if the variables cannot be mutable. False if they can be: they are always said to be modified.
* **C141 Students cannot turn off checks by comments without a report** (partial). If in-file configuration of a linter (or of all) is to be ignored, every line with a comment that turns off its checks (noqa, flake8: noqa, pylint: disable), however it is spelled, is reported at its line.
  Theorems: `C141_found_partial`, `C141_import_refuted`, `C141_skip_refuted`, `C141_all_refuted`. Proved for all spellings of the comments noqa, flake8: noqa, pylint: disable and pylint: enable; those with noqa only on lines without the words of an import from ib111. False on lines with these words anywhere, even in the comment; false for pylint: skip-file (that this turns off pylint is taken from its documentation); and nothing is selected by All, though names of linters may have capital letters. Reading directories and decoding are not modelled.
* **C142 Only comments that turn off checks are reported as forbidden** (partial). What is reported as a forbidden magic comment is one, of a linter whose in-file configuration is to be ignored, with the line, the column of the hash and the text that stand in the file.
  Theorems: `C142_only_partial`, `C142_string_refuted`. Proved for texts that look like such a comment. False for comments proper: the text can stand in a string.
* **C143 All files that are linted are searched for forbidden comments** (partial). The files searched for forbidden comments are exactly the Python files among the given paths and in the given directories, at any depth; in particular every file that is linted is searched.
  Theorems: `C143_searched`, `C143_linted_partial`, `C143_reported_partial`, `C143_there`, `C143_capital_refuted`, `C143_name_refuted`. Proved for names that end with .py in small letters. False for names such as a.PY, whose in-file configuration is read and which are linted, and, if in-file configuration is ignored on the command line, for files of any other name, which are then given to the linters without a test of the name. Links are not modelled.

## Print Assumptions

Each of these theorems is "Closed under the global context".

* AlikeProps.v: `C128_alike`, `C129_second_partial`, `C129_lost_refuted`, `C130_two_partial`, `C130_apart_partial`, `C130_overlap_refuted`
* AuProps.v: `C61_unmerged_partial`, `C61_merged_partial`, `C61_constants_refuted`, `C61_variant_partial`, `C61_node_variant_partial`, `C61_variant_refuted`, `C93_alike_partial`, `C93_constants_refuted`, `C93_conversion_refuted`, `C93_compared_partial`, `C93_import_refuted`, `C94_one_to_one_partial`, `C95_total_partial`, `C95_identical_partial`, `C95_class_refuted`, `C95_complex_refuted`
* BetweenProps.v: `C135_between`, `C135_tests`, `C136_module_partial`, `C136_functions_partial`, `C136_again_refuted`, `C136_itself_refuted`
* BlockProps.v: `C118_implied_partial`, `C118_fraction_refuted`, `C119_explicit`, `C120_implicit_partial`, `C120_fraction_refuted`, `C121_raises_refuted`
* CacheProps.v: `C27_fresh`, `C28_torn_refuted`, `C28_failed_write_refuted`, `C28_beginnings_partial`, `C29_limit_refuted`, `C29_expired_refuted`, `C71_empty_refuted`, `C71_available_partial`, `C72_asked_again_refuted`, `C72_not_asked_partial`, `C73_line_ends_refuted`, `C73_unchanged_partial`
* CfgProps.v: `C57_exact`, `C57_postorder`, `C57_edges`, `C57_depth_refuted`, `C63_module_partial`, `C63_functions_partial`, `C63_finally_refuted`, `C63_raise_refuted`, `C63_loop_in_handler_refuted`, `C63_class_refuted`, `C63_match_refuted`, `C63_suppress_refuted`, `C63_return_refuted`, `C90_never_fails`, `C91_module_partial`, `C91_functions_partial`, `C91_second_iteration`, `C91_never_raises`, `C91_handler_refuted`
* ChainProps.v: `C39_ints_partial`, `C39_followed_partial`, `C39_guard_refuted`, `C39_negated_refuted`, `C88_ends_partial`, `C88_three_partial`, `C88_crash_refuted`
* CompareProps.v: `C33_group_suggestion_equivalent`, `C33_whole_condition_equivalent`, `C33_groups_exact`, `C33_groups_cover`, `C33_no_crash`, `C34_abs_text_refuted`
* ConfigFileProps.v: `C01_C02_whole_run`, `C05_companions_refuted`, `C05_reset_refuted`, `C05_companions_partial`, `C06_covered_once`, `C06_grouping`, `C07_leak_refuted`, `C07_command_line_config_partial`, `C07_options_partial`, `C08_inheritance_prepends`, `C09_termination_refuted`, `C09_acyclic_partial`, `C10_entry`, `C10_table`, `C10_parsed`, `C11_no_flake8_refuted`, `C11_settable_partial`, `C12_implicit_refuted`, `C12_never_found`, `C13_exclusion_total`, `C15_resolution_stable`, `C15_meaning`, `C65_excluding_file_refuted`, `C66_unloadable_refuted`
* ConfigProps.v: `C01_strongest_layer_wins`, `C02_accumulation`, `C02_nothing_superseded`, `C03_resolution_keeps_meaning`, `C03_other_arguments_survive`, `C04_verbatim_refuted`, `C04_lowercase_verbatim_partial`, `C04_lowercased_partial`, `C64_only_switches_dropped_refuted`, `C14_value_after_first_equals`, `C14_flag`, `C14_nothing_else`, `C14_independent`
* DupProps.v: `C96_after_partial`, `C96_before_partial`, `C96_removed_partial`, `C96_before_refuted`, `C96_removed_refuted`, `C96_both_refuted`, `C97_chain_partial`, `C97_siblings_partial`, `C97_twice_refuted`, `C97_else_refuted`, `C98_longest`, `C98_silent`, `C98_total`, `C99_same_partial`, `C99_shape_partial`, `C99_effect_refuted`, `C100_value_partial`, `C100_made_partial`, `C100_keyword_refuted`, `C101_condition_partial`, `C101_dictionary_partial`, `C101_default_partial`, `C101_list_partial`, `C101_keys_partial`, `C101_part_partial`, `C101_overlap_refuted`
* DuringProps.v: `C133_right_partial`, `C133_rebound_refuted`, `C133_leaving_refuted`, `C133_raising_refuted`, `C134_found_partial`, `C134_extended_refuted`, `C134_deleted_refuted`, `C134_hidden_refuted`, `C134_continued_refuted`
* EachProps.v: `C110_body`, `C110_same_partial`, `C110_unmodified`, `C110_modified_refuted`, `C110_alias_refuted`, `C110_dictionary_refuted`, `C110_index_after_refuted`, `C110_else_refuted`
* EarlyProps.v: `C122_same`, `C122_total`, `C123_number_partial`, `C123_reported_partial`, `C123_match_refuted`, `C123_else_refuted`, `C124_sound_partial`, `C124_single_partial`, `C124_tuple_refuted`
* FoldProps.v: `C53_folded`, `C54_ends_partial`, `C54_power_refuted`, `C52_opposite_partial`, `C52_chain_refuted`, `C52_remainder_refuted`, `C52_operand_refuted`, `C52_nan_refuted`
* GlobalProps.v: `C131_right`, `C131_once`, `C132_found_partial`, `C132_class_refuted`, `C132_nested_refuted`, `C132_functions_refuted`
* IfProps.v: `node_text_read_back`, `text_read_one_way`, `C41_return_truth_partial`, `C41_assign_truth_partial`, `C41_expression_truth_partial`, `C41_conditional_value_refuted`, `C41_augmented_assignment_refuted`, `C42_return_value_partial`, `C42_assign_value_partial`, `C42_expression_value_partial`, `C42_value_refuted`, `C43_pass_same`, `C43_nested_same_partial`, `C43_sequential_same_partial`, `C43_nested_refuted`, `C43_sequential_refuted`, `C81_checks_end_partial`, `C81_endless_loop_refuted`, `C81_crash_refuted`
* IterProps.v: `C102_constants_partial`, `C102_expressions_partial`, `C102_descending_refuted`, `C102_powers_refuted`, `C102_equal_refuted`, `C103_one_place_partial`, `C103_ranges_partial`, `C103_lists_partial`, `C103_names_partial`, `C103_names_refuted`, `C103_characters_refuted`, `C103_operators_refuted`, `C103_remainders_refuted`, `C104_total_partial`, `C104_equal_refuted`, `C104_none_refuted`, `C105_loop_partial`, `C105_text_partial`, `C105_parentheses_refuted`, `C105_continue_refuted`, `C105_target_refuted`, `C106_all`, `C106_order`
* LintProps.v: `C16_overriding_exact`, `C17_line_never_silenced`, `C17_any_ranked_table`, `C17_overridden_line_reported`, `C18_only_thinned`, `C68_tweaks_exact`, `C68_configs_complete`, `C19_ordered`, `C67_named_file_refuted`, `C20_sort_fails_refuted`, `C20_sort_fails_pylint_refuted`, `C20_exact_partial`, `C20_sort_succeeds_partial`, `C21_pylint_path`, `C21_flake8_path`, `C21_pylint_total`, `C22_flake8_failure`, `C22_pylint_failure`, `C22_flake8_regular`, `C22_pylint_regular`, `C22_run_fails`, `C23_streams_refuted`, `C23_streams_partial`, `C25_status_refuted`, `C25_missing_file`, `C25_linter_failed_partial`, `C25_completed_partial`, `C26_report`
* LocalProps.v: `C44_members_partial`, `C44_unbracketed_refuted`, `C44_float_refuted`, `C45_twice_refuted`, `C45_pure_partial`, `C46_reported`, `C46_exact`, `C47_first_partial`, `C47_right_partial`, `C47_ends`, `C47_refuted`, `C48_value_partial`, `C48_minus_refuted`, `C48_quote_refuted`, `C49_first_partial`, `C49_last_partial`, `C49_neighbour_refuted`, `C50_ends_partial`, `C50_string_refuted`, `C51_value_partial`, `C51_effects_refuted`, `C55_same_partial`, `C55_targets_refuted`, `C56_same_partial`, `C56_negative_refuted`, `C56_large_refuted`, `C83_bool_partial`, `C83_truthy_refuted`, `C83_misread_refuted`, `C84_elif_partial`, `C84_calm_partial`, `C85_append_partial`, `C85_augmented_partial`, `C85_starred_refuted`, `C86_exact_partial`, `C86_two_refuted`
* LoopProps.v: `C107_same_partial`, `C107_breaks_refuted`, `C107_else_refuted`, `C108_first_partial`, `C108_last_partial`, `C108_none_partial`, `C108_break_refuted`, `C108_step_refuted`, `C108_moving_refuted`, `C108_else_refuted`, `C108_target_refuted`, `C109_change_partial`, `C109_range_partial`, `C109_last_partial`, `C109_subtraction_refuted`, `C109_float_refuted`, `C109_after_refuted`
* MagicProps.v: `C141_found_partial`, `C141_import_refuted`, `C141_skip_refuted`, `C141_all_refuted`, `C142_only_partial`, `C142_string_refuted`
* MergeProps.v: `C35_ints_partial`, `C35_guard_refuted`, `C35_brackets_refuted`, `C35_sets_refuted`, `C35_maxima_refuted`, `C35_iterable_refuted`, `C36_balanced_partial`, `C36_refuted`, `C37_ints_partial`, `C37_float_refuted`
* ReachProps.v: `C58_exact`, `C92_without_calls_partial`, `C92_calls_partial`, `C92_calls_refuted`, `C92_redefines_refuted`
* ScopeProps.v: `C111_enclosing_partial`, `C111_python_partial`, `C111_default_refuted`, `C111_early_refuted`, `C111_class_refuted`, `C111_iterable_refuted`, `C111_nonlocal_refuted`, `C111_deleted_refuted`, `C112_bindings_partial`, `C112_block_refuted`, `C112_import_refuted`, `C113_uses_partial`, `C113_decorator_refuted`, `C113_lambda_refuted`, `C114_total`, `C114_own_refuted`
* SeekProps.v: `C143_searched`, `C143_linted_partial`, `C143_capital_refuted`, `C143_name_refuted`, `C143_reported_partial`, `C143_there`
* SequenceProps.v: `C40_ints_partial`, `C40_guard_refuted`, `C89_ends_partial`
* SolverProps.v: `C62_ints_partial`, `C62_floor_refuted`, `C62_decimal_refuted`, `C38_ints_partial`, `C38_compare_partial`, `C38_guard_refuted`, `C38_floor_refuted`, `C38_decimal_refuted`, `C38_nan_refuted`, `C87_boolop_partial`, `C87_compare_partial`, `C87_sorted_partial`, `C87_abs_refuted`, `C87_empty_refuted`
* SureProps.v: `C139_sure_partial`, `C139_two_refuted`, `C139_name_refuted`, `C139_method_refuted`, `C140_only_partial`, `C140_answered`, `C140_mutable_refuted`
* SwitchProps.v: `C125_reported_partial`, `C125_unreachable_refuted`, `C126_still_reported`, `C127_something_partial`, `C127_branches_refuted`, `C127_loops_refuted`
* TargetProps.v: `C137_found_partial`, `C137_right_partial`, `C137_simple_partial`, `C137_index_refuted`, `C138_quiet_partial`, `C138_lines_partial`, `C138_else_refuted`, `C138_annotated_refuted`
* TranslateProps.v: `C24_translated`, `C24_flake8_messages`, `C69_doubled_refuted`, `C69_placeholder_refuted`, `C69_reworded_refuted`, `C69_filled_partial`, `C70_bad_template_refuted`
* TypeProps.v: `C59_none`, `C59_single`, `C59_union`, `C59_intersection`, `C59_list`, `C59_has_only`, `C59_count`, `C59_mutable`, `C59_container`, `C60_sound_partial`, `C60_or_refuted`, `C60_times_refuted`, `C60_builtin_refuted`, `C60_unknown_refuted`, `C82_ends`
* VersionProps.v: `C30_rate`, `C80_hour_refuted`, `C31_unreachable_refuted`, `C31_older_refuted`, `C31_current_partial`, `C31_newer_partial`, `C32_downloaded_refuted`, `C32_never_used`, `C74_killed_refuted`, `C75_candidate_refuted`, `C75_numbers_partial`, `C76_rate`, `C77_explain_refuted`, `C77_switches_partial`, `C78_explained`, `C78_all`, `C79_patches`
* WalkProps.v: `C115_program`, `C115_graph_partial`, `C115_empty_refuted`, `C116_starts_partial`, `C116_starts_refuted`, `C117_module_partial`, `C117_functions_partial`
