| linting/analyses/cfg/graph.py, cfg/visitor.py | CfgModel | labels of edges, `cfg_id`, options of the visitor that the linter does not use, the places of expressions |
| linting/checkers/python_ta_checkers.py 40-105 (E9996) | CfgLoopModel | - |
| linting/analyses/data_dependency.py 26-34, 124-130, 182-352, 413-437 | ReachModel | how events and calls of a statement are found (`get_calls`, the call graph, `VarEvents`), `make_up_calls`, the order of dictionary entries, `block_kills` |
| linting/analyses/antiunify.py 17-284, 372-423, 450-517; analyses/utils.py 17-70; duplication/utils.py 15-33, 56-57; duplication/duplicate_if.py 886-933, 1008-1018 | AuModel | positions in the control flow graph (`cfg_loc`, `sub_locs`), names of variables beyond their number, `vars_can_be_merged` for names that differ (an oracle), identity of nodes as keys of dictionaries, the renaming of `modname` to `fromname`, what `stop_on` reads through `avar.parent` |
| linting/checkers/duplication/duplicate_if.py 46-93, 195-308, 366-418, 476-500, 633-729, 756-794, 876-884, 983-1007; duplication/utils.py 92-98; analyses/utils.py 482-500, 696-708 | DupModel | statements other than `if`, texts and lines of nodes (a record of functions), the anti-unification before R6557, R6558, R6561 and R6562, numbers of tokens and statements, `get_fixed_by_if_to_use`, `get_fixed_by_moving_if`, `get_fixed_by_vars` |
| linting/checkers/duplication/duplicate_sequence.py 30-471; duplication/utils.py 80-97 | IterModel | anti-unification (its variables are given), the expressions in which the loop variable is used (`use`), numbers of tokens and statements (an oracle), `vars_in` of the parts (a flag), anti-unification of operands other than names, constants and binary operations, floats beyond equality of their texts |
| linting/checkers/unsuited_loop.py 102-134, 195-234, 263-328 | LoopModel | which statements modify the variables of a condition, their order and the paths through the body (given), `relevant_nodes` (never called), methods and other expressions with effects beyond the oracle |
| linting/checkers/unsuited_loop.py 338-344, 398-513; analyses/var_events.py 27-74, 129-140; analyses/variable_scope.py 47-49, 266-348; analyses/data_dependency.py 689-706 | EachModel | structures that are attributes or subscripts (`filter_events_for`), scopes (names stand for variables), events of statements other than assignments, expressions, `if`, loops and returns, targets that are tuples, `len` and `range` that are shadowed |
| linting/analyses/variable_scope.py 19-39, 80-337; analyses/var_events.py 28-33; analyses/utils.py 107-115 | ScopeModel | astroid's trees and the order of `get_children` (nodes and scopes are numbers), MODIFY events, places in the control flow graph, the call graph, `outside_scope_events`, `function_defs`, assignment expressions, keyword arguments' order beyond that of the children |
| linting/analyses/cfg/utils.py 15-168, 223-383 | WalkModel | exploring functions and classes (`explore_function`, `explore_class`), laziness of the generators (all is yielded at once), nodes (locations are blocks and positions), `unwrap` (starts are given unwrapped) |
| linting/analyses/z3_block_analysis.py (all); linting/checkers/unsuited_loop.py 236-249; analyses/utils.py 267-284; analyses/z3_analysis.py 376-393, 417-430 | BlockModel | the solver, the guess of types, `may_contain_mutable_var`, `modified_in` and `vars_from_node_may_be_modified_in` (oracles), the value of a return and the message of an assertion, the order of sets of changed variables, `is_in_try_block` and `contains_node_of_type_or_exit` (given) |
| linting/checkers/local_defects.py 462-500; checkers/basic_checker.py 75-89; analyses/utils.py 482-485, 503-563; checkers/python_ta_checkers.py 121-135 | EarlyModel | astroid's `has_elif_block`, `locals` of a scope, sibling and parent links (given), the text of the messages; asynchronous statements are their synchronous counterparts |
| decorators and conditions on enabled messages of all checkers (local_defects.py 707-760, simplifiable_if.py 1342-1404, 2271-2316, unsuited_loop.py 251-261, 515-527, basic_checker.py, python_ta_checkers.py); duplication/duplicate_if.py 983-1130 (the loop over attempts); duplication/checker.py 43-72, 139-154, 374-409 | SwitchModel | pylint's dispatch (`only_required_for_messages`, `prepare_checkers`, `is_message_enabled`, `add_message` written from its documentation), what the checks find (given), the candidates for similar blocks, `get_duplicate_nodes` (given, assumed nested), the order of statements (given) |
| linting/checkers/duplication/checker.py 32-40, 75-92, 157-262, 384-409; duplication/utils.py 63-67 | AlikeModel | `similar_to_block`, `all_children_of_one_statement`, `get_duplicate_nodes`, siblings, lines and classes of nodes (given), Python's dictionaries (association lists in the order of insertion) and its sorting (insertion sort, stable) |
| linting/checkers/basic_checker.py 25-56; analyses/cfg/utils.py 223-269 (functions and classes) | GlobalModel | walks inside one graph (given as lists; see WalkModel), which events are recorded (given; see ScopeModel), astroid's `scope` |
| linting/checkers/unsuited_loop.py 338-372 (loops over a variable) | DuringModel | inner loops, exception handlers and definitions in the body, methods that are known to modify (given), the walk over the graph (its order for ifs and jumps is written out) |
| analyses/data_dependency.py 632-640; checkers/duplication/duplicate_if.py 161-169; analyses/cfg/utils.py 348-383 (with WalkModel) | BetweenModel | which events are recorded at a location (given; see ScopeModel, ReachModel), the variables of the tests and the locations of differing statements (given) |
| linting/checkers/python_ta_checkers.py 38-50, 152-194 (without `_is_constant_assignment`, which is not used); analyses/utils.py 503-517 | TargetModel | astroid's `nodes_of_class` (written from its documentation), kinds of statements other than those named, what definitions and assignments execute |
| linting/analyses/mutability.py 50-103; analyses/data_dependency.py 831-836 | SureModel | `may_contain_mutable_var` and which events modify a variable (given), definitions in functions (the code looks for modifications in their bodies, too), the order of definitions (given) |
| linting/nonparsing_checkers.py 11-21, 34-73 | MagicModel | `to_file_paths` (files and lines are given), characters outside ASCII (white space and letters that are equal when case is ignored), the order in which a set is gone through, warnings in the log |
| linting/nonparsing_checkers.py 24-31 (with ConfigFileModel) | SeekModel | links, paths that do not exist, files that pylint and flake8 find in directories themselves |
