# EduLint: formal model and trusted base

The code under study is the Python package `edulint` (read as text from `/repo`, never run).
The model is written in Rocq/Coq 8.16.1, standard library only, under `rocq/theories` (logical name `Verif`).
This file is put together by `tools/design.py` from `tools/design_head.md`, `properties.jsonl`, `MANIFEST.json` and the
`Print Assumptions` lines of the build.

## Layout

Each area has these files.

* `XModel.v` - executable Gallina functions that mirror the Python functions branch by branch. Every definition cites file and
  lines in `/repo` and says what was simplified. No proofs.
* `XSpec.v` - a small specification: what the program's user or Python itself means by the words of the property. It does not use
  the helpers of the model.
* `XProofs.v` (and files such as `ChainRightProofs.v`) - lemmas.
* `XExamples.v` - witnesses of refuted claims and concrete cases for the hypotheses.
* `XProps.v` - the theorems named in `MANIFEST.json` (by `exact lemma`), next to each an `Example` that meets its hypotheses, and
  `Print Assumptions` for each.

Python exceptions are error values (`Raise exn`), mutation is state passing, `while` loops are structural recursion or recursion on
fuel; running out of fuel is an explicit error value, and theorems exclude it.
A claim that is false of the faithful model is kept as a theorem `..._refuted` with a witness; the strongest true variant
found is proved beside it (`..._partial`).

## Trusted base

* Coq's kernel (8.16.1). No kernel check is switched off, there are no axioms, admitted proofs, functors or module types.
* `Print Assumptions` says "Closed under the global context" for every theorem listed below: no axiom at all, not even from the
  standard library. (The library declares a few axioms that merely get loaded with it; no theorem here depends on any.)
* The models themselves: that each definition does what the cited lines do. What was left out is said in the comments and below.
* What stands outside the code and appears as an oracle (a section variable, quantified over in the theorems), with the assumption
  made about it written in the theorem:
  * pylint and flake8 (arbitrary exits and outputs); JSON parsing; the file system as a tree of files (no links, no permissions);
  * TOML parsing (the models start from parsed values); `re` for the patterns that occur (RegexModel, greedy matching with backtracking);
  * the network, the clock and crash points of the caches (arbitrary histories; a write is a sequence of steps that may stop anywhere);
    file names of the cache (SHA-256) do not collide for the addresses in use; `packaging.Version` as an order;
  * Python's evaluation of expressions (`python W` in PySpec: integers, bools and strings are fixed, everything else - names, calls,
    attributes, subscripts, operators on other values, truth of objects - is arbitrary, may change the state and may raise);
  * the operators of the interpreter that runs the linter (`host`), assumed to agree with the checked program's;
  * astroid: parsing of suggestion texts (`reads` in PySpec is a grammar of Python expressions over tokens), inference, purity of calls,
    definitions that may reach a name;
  * z3: `unsat : zexpr -> bool` with the assumption `sound unsat` (if it answers true then no assignment of numbers makes the formula true).
    `unknown` and timeouts are the answer false. The semantics of the formulas is `zeval` in SolverSpec.
* The comparison of texts: texts are lists of bytes, or lists of tokens where suggestions are built from expressions. White space of
  suggestions is not modelled; literals that would not read back (quotes) are an unreadable token.

## How to read seeded/LOG.jsonl

`tools/mutate.py` edits one definition in a scratch copy and lists the theorems whose existing proofs no longer go through (or that
depend on such a lemma). This is weaker than showing that the statement is false of the edited definition: a proof can also break because
its script followed the old definition, although the statement would still hold. So a theorem under `failed` may be there for the second
reason - most visibly when the claim named in the entry belongs to another theorem - and only the converse is certain: a theorem that is
not listed was still proved for the edited definition. Entries that are known to change no answer say so in their `note`.

## What is modelled, and what is not

| part of edulint | modelled in | left out |
|---|---|---|
| config/arg.py, options.py, option_parses.py, linters.py, config/config.py (`Config`) | ConfigModel | the texts of warnings |
| config/utils.py, option_sets.py, language_translations.py (parsing), config.py (files, in-file comments, groups) | ConfigFileModel, PathModel | links in directories; TOML syntax; the logger |
| config/language_translations.py (patterns, filling in) | TranslateModel, RegexModel | conversions and format specifications in templates |
| config/file_config.py (cache of remote configurations) | CacheModel | directories; several processes at once |
| linting/linting.py, problem.py, overrides.py, tweakers.py, edulint.py (check) | LintModel | threads, KeyboardInterrupt, JSON and configuration printing |
| versions/*, explanations.py, edulint.py (explain, version check) | VersionModel | threads; the texts of help |
| linting/analyses/utils.py (folding, negation) | FoldModel | sets, complex numbers |
| linting/analyses/types.py | TypeModel | the data-flow analysis that finds definitions (oracle) |
| linting/analyses/z3_analysis.py | SolverModel | literals inf and nan |
| linting/checkers/simplifiable_if.py 430-642, 1390-1404 (R6201-R6210) | IfModel | - |
| the same, R6211, R6212, R6214 | CompareModel | constants other than integers |
| the same, R6213, R6215 | MergeModel | - |
| the same, R6216, R6222 | SolverModel | - |
| the same, R6217-R6221 | ChainModel | bodies (a branch is known by its position) |
| the same, R6223, R6224 | SequenceModel | see the rows below |
| linting/analyses/mutability.py | oracle `may_modify` in SequenceModel | all |
| linting/checkers/local_defects.py 129-170, 183-460, 501-705 | LocalModel | `isdecimal`, loop-else, else-if, early return |
@EXTRA@
| pylint plug-in glue, message tables, cfg/dot_generator.py, old_duplication_checker.py, the rest of python_ta_checkers.py, basic_checker.py 91-97, prepare_explanations | - | not modelled |

Performance and memory use are not modelled. Floats are opaque values given by their `repr`, except where a theorem says that numbers
are integers; real numbers occur only inside the solver's formulas.

