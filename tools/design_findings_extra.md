
Control flow graphs
* C63: bodies of finally, match, async loops and try-star are not in the graph (`cfg/visitor.py:331-411, 58-61`); class bodies start in a block
  nothing leads to (`86-112`); a handler is entered only from the end of the try body, so it is unreachable if the body ends with a jump
  (`try: return f()`), a raise of a subclass does not lead to it, and a handler that starts with `while` is cut off by the merging of its empty
  block. `is_jump` compares a CFGLoc with node classes and is always false (`cfg/graph.py:247-255`). Statements after `with suppress(...): raise` are
  unreachable.
* C91: `while True: try: x = int(input()); break` / `except ValueError: print()` is reported as a loop with one iteration. A loop that is the first
  statement of a module is never reported (its block has no predecessors).

Reaching definitions
* C92: a call that may assign a global variable counts as a definition that surely happens when values come from earlier blocks, but not within a
  block (`data_dependency.py:224-233, 279-281`): in `x = 1` / `if c: pass` / `f()` / `print(x)` the read is not linked to `x = 1`, without the `if` it is.
  The events of a call are added to the last group of definitions of the block; if that is also the first group, `connect_events` (`346-349`) makes the
  definition in the call replace definitions of earlier blocks that cannot be there (`x = 1` / `if c: pass` / `x = 2` / `f()`).
* Only calls in expression statements and assignments are looked at (`get_calls`, `41-49`): in `x = 1` / `if f(): pass` / `print(x)` the assignment in
  `f` is not seen. The events of a call come before those of the statement, so in `print(x, f())` the read of `x` is linked to the assignment in `f`.
* C61/C93: constants are compared by `==` (`antiunify.py:109`), so `1`, `True` and `1.0` need no variable: `if c: x = 1` / `else: x = True` is reported as
  identical-if-branches. Attributes that are neither children nor in `ASTROID_EXTRA_FIELDS` are not compared: the conversion of f-strings (`f"{x!r}"`
  against `f"{x}"`), the level of relative imports, the names of keyword patterns, and the names of `*args` and `**kwargs`.
* C61: `get_sub_variant` of lists of different lengths gives the list in a list (`antiunify.py:513-517`).
* C95: the names of classes and of async functions are missing in `ASTROID_EXTRA_FIELDS`, so `new_node` raises TypeError when two fragments define a class
  in the same place; `set_parents` (`antiunify.py:507-510`) does not know complex numbers and raises AssertionError for `1j` in both fragments.
* Without `require_name_consistency` names can be merged though they do not correspond one-to-one: with the pairs (a, b), (a, c), (d, c) the second
  pair is forgotten and the third one makes a group (`antiunify.py:398-418`).
* C96: R6502 tells to move code before an `if` though it changes a variable of the condition (`if x > 0: x = 0; a()` / `else: x = 0; b()`), unlike the
  similar-if checks, which ask `test_variables_change`; and the parts before and after are counted independently, so for branches `a; b; a` and `a; b; c; b; a` it
  tells to move two lines before and two lines after, though the first branch has three (`duplicate_if.py:229-251`).
* C97: R6503 tells to join `if a: x += 1` and `if b: x += 1` though both may run, and joins an `if` with an `else`: `extract_from_siblings` stops on
  `not extract_from_elif(...)`, which is a pair and never false (`duplicate_if.py:85-93`).
* C100: values of attributes other than names and constants, such as names of keyword arguments, become strings in the suggestion (`utils.py:92-98`).
* C101: two branches that test for the same constant give a dictionary in which the later branch replaces the earlier one (`duplicate_if.py:710-729`);
  `get_fixed_by_container` never returns True, so that the following checks may report the same `if` again (`duplicate_if.py:756-847`); the elements of a
  suggested list are in the order of the branches, not of the constants (`duplicate_if.py:692-707`; the list is only counted, not shown).
* C102: `consolidate_ranges` computes the number of iterations as `(stop - start - 1) // step + 1`, which is 2 too many for step -1 and 1 too many for step -2:
  for `f(1, 3); f(2, 2); f(3, 1)` the message suggests `range(5)` (`duplicate_sequence.py:284`). For `f(x); f(x ** 2); f(x ** 3)` it suggests `range(2, 4)`, since
  `exclusive_nums` has no entry for powers (`duplicate_sequence.py:201-214`). For `f(2); f(1 + 1); f(4 - 2)` it suggests `range(2, 1, 0)`, which raises ValueError.
* C103: characters are compared by their distance from the least one, so `"a", "c", "b"` and `"b", "d", "c"` count as the same list; operators of unary operations count as values
  (`['-', '+', '~']`, `called_aunify_var` does not look at unary and boolean operations, `utils.py:36-53`); for `x, x % 2, x % 3` the range starts with 1 though `x % 1` is 0.
* C104: `f(1, 2); f(2, 1 + 1); f(3, 4 - 2)` raises ZeroDivisionError in the linter (`duplicate_sequence.py:284`), and `for _ in range(None): f(); f(); f()` raises TypeError
  (`duplicate_sequence.py:374`).
* C105: the message for `range(n + 1)` says "n + 1 * 3 times" (`duplicate_sequence.py:376`); `continue` in the parts and uses of the target after the loop are not looked for.
* C107: R6301 does not look for an `else` of the loop nor for other breaks: with statements before the leading break, another break would afterwards be followed by them
  (`unsuited_loop.py:102-108`).
* C108: R6302 says "the first iteration never happens" for `if i == start: break`, though no iteration happens at all; it takes `stop - step` for the last element of `range(start, stop, step)`,
  which it is not if the step does not divide the length (`range(0, 10, 3)` and 7); it compares texts, so a bound that the loop changes counts as well; the `else` of the loop is not looked at
  (`unsuited_loop.py:263-328`).
* C109: `get_change_value` takes `x = 1 - x` for a decrement by 1 (`unsuited_loop.py:129-134`), so `while x > 0: x = 1 - x` is reported; `x += 1.0` counts as well, since `1.0 in (1, -1)`.
* C110: use-foreach and use-enumerate are reported though the structure is modified, if the block of the modification ends with `break` or `return` (`a.pop(0); print(a[i]); break`,
  `unsuited_loop.py:440-448`), or if it is modified under another name; a dictionary with the keys 0, 1, ... is taken for a list; uses of the index after the loop and in its `else` are not looked for.
* C111: parameters are put into the dictionary before the defaults are visited (`variable_scope.py:189-193`), so the `x` on the right of `def f(x=x)` is taken for the parameter; a read
  before a local assignment is taken for an outer variable; methods see the names of their class; the target of a comprehension hides a name in its first iterable; `nonlocal` always means the
  scope directly around (`variable_scope.py:260-264`); `del` of a declared name removes the declaration (`variable_scope.py:156-162`).
* C112: a function or a class defined inside an `if`, a loop or a `try` is never registered under its name (`variable_scope.py:164-174` looks at bodies only); `import os.path` registers
  `os.path`, not `os` (`variable_scope.py:316-320`).
* C113: decorators, bases, return annotations, defaults of keyword-only parameters and of lambdas are never visited (`variable_scope.py:180-227`).
* C114: `is_builtin` in `visit_call` looks for an event of the function's name, which is recorded only later, so a call of one's own `locals` counts as well (`variable_scope.py:325-331`).
  Read from the text only, not modelled: `isinstance(read_scope, ScopeNode)` with a `typing.Union` (`variable_scope.py:116`) raises `TypeError` before Python 3.10, though `setup.cfg` allows 3.8.
* C116: `essor_blocks_from_locs` marks a block as visited up to its end before it looks for a place to stop (`cfg/utils.py:117`, `150`), and skips later starts within the marked range
  (`cfg/utils.py:152-155`). So of `f()` followed by `if a:` with the body `g(); h()`, starting at `f()` and `h()`, `include_start=True`, and stopping at `g()`, `h()` is never yielded. No caller in the repository
  combines several starts with `stop_on_loc`; it is a defect of the function, not of a check.
* C115: blocks without locations are never passed through (`cfg/utils.py:113-114`). Harmless: it is proved that in the graphs of programs nothing follows such blocks.
* C118, C120: a variable that is an operand of `%` or `//` anywhere in the block has the sort Int for all its later names (`z3_block_analysis.py:285-301`, `z3_analysis.py:417-430`), so the relation for
  `x += 0.5` is a contradiction and every condition is implied. `while x % 2 == 0:` with the body `x += 0.5; x = 1` is reported as implicitly infinite and ends after one pass. The guess of types does not help: the
  definitions that reach the condition are integers.
* C121: `values[i]` (`z3_block_analysis.py:502`) is an `IndexError` if a tuple of targets gets a value with fewer children than targets, such as a string, and one of the targets is a variable of the analysis:
  `while z > 0:` with the body `x = 5`, `if x > 0: z += 1`, `x, y = "ab"`. With a name or a call as the value, children of the wrong kind are taken for the values (hence the restriction of C118 to tuples of values).
* C118: a block that always ends early is treated as doing nothing (`z3_block_analysis.py:558-559`); harmless, as nothing is claimed about the state after it.
* C123: `get_statements_count` (`analyses/utils.py:528-563`) has no case for match statements, so a function that consists of a match with any number of statements has one statement and is never too long. Each
  line `else:` of an if or loop and each try statement counts as one more statement, so functions with fewer than twenty-one statements are reported; elif lines and handlers are not counted that way.
* C124: the elements of a tuple of targets are `AssignName` nodes, but the check asks for `Name` nodes (`python_ta_checkers.py:126`), so `[x for x, y in pairs]` is never reported whatever it shadows.
* C125: the decorator of `visit_if` (`local_defects.py:727`) lacks `unreachable-else`, which the method reports, so enabling only this message reports nothing. The decorator of `visit_compare`
  (`local_defects.py:750-756`) names `magical-constant-in-ord-compare`, which does not exist, instead of `use-literal-letter`; it works only because pylint counts messages that do not exist as enabled.
* C127: the attempts for `identical-*` are made and end the search even if their messages are disabled (`duplicate_if.py:1119-1128`), and `is_similar_to_loop` has no condition on enabled messages at all
  (`checker.py:389-391`). So with only `similar-if-to-expr` enabled, an if whose branches start alike, or which is one of three similar statements, is not reported. `similar_to_loop` also returns True without
  any message if no part of the repetition can be a loop, which keeps all these statements from being looked at.
* C129: `candidates[(ranges[1], to_aunify[1])] = id_` (`duplication/checker.py:407`) overwrites the number of a run that is already in another group. A run that looks like several earlier runs that do not look
  like each other ends up with the last one only; the others may be left alone in their groups, and groups of one are skipped. So for `log(); save(); close()` in one function and `log(); save()` in another, the pair
  of `save(); close()` and `log(); save()` (same kinds of statements) hides the identical pair.
* C130: a run may look like several overlapping runs, which are then in one group (`duplication/checker.py:404-407`). Two similar calls in a function and three in another are reported as three blocks.
* C132: `explore_class` (`cfg/utils.py:250-253`) goes into functions that are statements of the class, but not through its other statements. So `log.append(1)` in the body of a class, and methods of a class in a class
  (or under an `if` in a class), are not looked at. A variable that gets its value in functions only (`global x; x = 1`) is not in `toplevel_vars` and never reported.
* C133: `_check_modifying_iterable` (`unsuited_loop.py:356-372`) stops at assignments that are statements of the body only, and looks at the last statement of the innermost block only, for break and return. So
  `if c: xs = []; xs.append(1)` is reported, as are `if c: xs.append(1)` before a `break` of the body and `xs.append(1); raise E`.
* C134: `xs += [1]` counts as an assignment of another list, so it is not reported and what follows is not either; `del xs[0]` is not reported. The graph is walked depth first, so `xs.append(1)` in an else branch comes after
  an assignment that follows the if, and is not reported; with the branches exchanged it is. A `continue` between the modification and a `break` at the end of the block is not considered.
* C136: `is_changed_between` (`data_dependency.py:632-640`) starts at the last location itself, so a statement that differs between the branches and assigns to a variable of the test (`x = f(1)` under `if x:`) counts as a change
  before it, and no suggestion is made though it would be right. For a location and itself, the walk stops at once, so changes in a loop in between are not noticed (not relevant for the present use).
* C137: `nodes_of_class` (`python_ta_checkers.py:42, 48`) finds all subscripts in the target, so for `for xs[ys[0]] in zs` a second message says that `ys[0]` is a loop variable.
* C138: `is_main_block` (`analyses/utils.py:503-517`) does not look at the else branch, so `if __name__ == "__main__": main()` with `else: print("imported")` is not reported. `_is_assignment` (`python_ta_checkers.py:193-194`)
  knows `Assign` only, so `x: int = 1` and `x += 1` are reported, though the text of the message allows assignments.
* C139: `_may_contain_global_variable_modified_in_function` (`mutability.py:73-78`) remembers names instead of definitions, and does so in the loop over the definitions. If `f` is defined in both branches of an if, one of the
  definitions is never looked at; and a call of a parameter `f` is not looked at if a function `f` was. Only calls of names are considered (`:70`), so a method that modifies a global variable is missed. In each case `while x: ...` can be
  reported as `implicit-infinite-loop` though the body changes `x`. The text of the function promises "not modified ... for sure".
* C140: variables that can be mutable are said to be modified in every block, even an empty one (`mutability.py:93-96`). This is on the safe side.
* C141: `ib111_re.match(line)` (`nonparsing_checkers.py:53, 59`) finds the words anywhere in the line, also in the comment, so `# flake8: noqa from ib111 import` is not reported, although the documentation (`user_guides.rst:60`) says that
  there will always be at least the report of the comment. Whether flake8 obeys that line with the words behind it depends on flake8, which is not modelled; `x = 1  # noqa from ib111 import` has the same effect on the report.
  `# pylint: skip-file` is not among the patterns (`:16-19`). `"all" in ignore_infile` (`:37`) distinguishes letters, `Linter.safe_from_name` does not: `All` leads to a warning in the log and to no reports.
* C142: lines are matched, not tokens, so `print('# noqa')` is reported.
* C143: `to_file_paths` (`nonparsing_checkers.py:28`) wants `.py` in small letters, `_parse_infile_configs_rec` (`config.py:524`) does not, so `hw.PY` is given to the linters, but comments such as `# noqa` in it are not reported if
  a configuration file forbids them. If `ignore-infile-config-for=all` is on the command line, the names are not tested at all (`config.py:538-540`), so a file named `hw` is given to the linters and is not searched either.
