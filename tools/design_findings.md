## Findings

Behaviour of the program that contradicts a property; each has a `..._refuted` theorem with a witness in the model.

Configuration
* C04: arguments of pylint are lower-cased by the resolution of enable/disable-all (paths and regular expressions change).
* C05: grouping files by in-file configuration ignores the order of options, and an option set to its default counts as not set, so
  companions change the configuration of a file.
* C07: the memo of language files stores merged translations; they leak into other groups.
* C09: config files that name each other recurse until Python's recursion limit.
* C11: no value of `no-flake8` in a config file sets it. C12: a file name is compared with a tuple (`config.py:345`), so no implicit
  config file is ever found. C64: `--enable-all-extensions` is dropped like a message switch.
* C65: a config file that excludes in-file configuration loses its own settings. C66: files whose config file cannot be loaded are skipped.

Linting
* C20: sorting raises for `a/../b.py` and when the working directory is `/`. C67: files whose path mentions "command line" or
  "configuration file" sort first. C23: the streams stay replaced after an exception. C25: unexpected exceptions end with status 0.
* C69, C70: patterns of F501-F509 contain `%%` and never match; a reworded message shows its raw template; a placeholder too many raises
  IndexError, and the status is 0.

Caches and versions
* C28: a torn write leaves new content with old metadata, served offline. C29: the offline limit is 720000 s. C71: an empty text
  counts as a miss. C72: a server that fails is asked every time. C73: CR becomes LF.
* C31: an update is announced when the index is unreachable and when the local version is newer. C32: downloaded explanations are never
  shown. C74: a killed write makes every later check fail. C75: a release candidate counts as latest. C77: `explain` updates in spite of
  the switch. C80: the limit is ten minutes, not an hour.

Suggestions
* C34: `abs(x) - 5` is taken for a call of abs. C35: the max/min suggestion drops a guard, parentheses and the partial order of sets and
  cuts `max(a, b) + max(c, d)`. C36: unbalanced parentheses for `max(a, b) + c`. C37: floats.
* C38, C62: `//` by a negative constant, decimals (`0.1 + 0.2 == 0.3` is "always true"), nan; `x != 0 and 10 // x > 2 and x > 5` loses its guard.
  C87: `abs(x % 1)` and `abs()` crash the check.
* C39: the suggested order of branches may divide by zero; `x % 2 == 0` and `x % 2 == 5` count as opposites. C88: chains of four tests crash
  (a stale number of elifs).
* C40: merging changes which conditions are evaluated (a ZeroDivisionError disappears). Modifications by method calls are not seen
  (`mutability.py:66-96`); the theorem assumes that they are.
* C41-C43: conditional expressions joined with and/or are read differently; augmented assignments become plain ones; values that are not
  bools change. C81: a bare annotation makes the check loop forever; `del` raises AttributeError.
* C44: bounds that are conditions lose their brackets; floats guessed to be integers. C45: the operand is evaluated twice. C47: `a + a + b`.
  C48: `ord(c) - 96`; the character `'` gives an unreadable text. C49, C50: `97 <= x <= ord(c)`, `ord(c) == "a"`. C51: `f() % f()`.
  C52: chained comparisons, remainders, negations inside operands, nan. C54: `0 ** -1`. C55: `x = y = x + 1`. C56: `int(-1 / 2)`,
  `2 ** 53 + 1`. C83: `5 is True`; `(a or b) is False`. C85: `x.extend([*y])`. C86: `[1] * [2]`.
* C60: `5 or 0`, `2 * 1.5`, `abs(1.5)` and `1 + z` are guessed wrongly; only methods of strings are found in the table of methods.
@EXTRA@

