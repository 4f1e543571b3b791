(** Comments that turn off checks and are forbidden. *)
From Coq Require Import String Ascii List Bool Arith.
From Verif Require Import Base ConfigModel RegexModel.
Import ListNotations.
Local Open Scope string_scope.
Local Open Scope list_scope.

(** The beginning of each pattern, a group with any characters, a hash and white space, edulint/linting/nonparsing_checkers.py:13-18. *)
Definition any_hash : list item := [CapStar any_char; Lit "#"; Star is_space].
(** [(noqa)], edulint/linting/nonparsing_checkers.py:13. *)
Definition noqa_pattern : list item := any_hash ++ [CapLit "noqa"].
(** [(flake8: *noqa)]; the second group is in parts. edulint/linting/nonparsing_checkers.py:14. *)
Definition flake8_pattern : list item := any_hash ++ [CapLit "flake8:"; CapStar (Ascii.eqb " "); CapLit "noqa"].
(** [(pylint:\s*disable)], in parts, edulint/linting/nonparsing_checkers.py:17. *)
Definition disable_pattern : list item := any_hash ++ [CapLit "pylint:"; CapStar is_space; CapLit "disable"].
(** [(pylint:\s*enable)], in parts, edulint/linting/nonparsing_checkers.py:18. *)
Definition enable_pattern : list item := any_hash ++ [CapLit "pylint:"; CapStar is_space; CapLit "enable"].
(** [CONFIG_PATTERNS], edulint/linting/nonparsing_checkers.py:11-21. *)
Definition config_patterns (l : Linter) : list (list item) :=
  match l with FLAKE8_L => [noqa_pattern; flake8_pattern] | PYLINT_L => [disable_pattern; enable_pattern] | EDULINT_L => [] end.
(** [.*from\s+ib111\s+import], edulint/linting/nonparsing_checkers.py:53. *)
Definition ib111_re : list item :=
  [Star any_char; Lit "from"; One is_space; Star is_space; Lit "ib111"; One is_space; Star is_space; Lit "import"].

(** [ignore_infile] with all replaced by the names of the linters. Simplified: a set is a list. edulint/linting/nonparsing_checkers.py:37-38. *)
Definition expand (ignore : list string) : list string :=
  if existsb (String.eqb "all") ignore then filter (fun s => negb (String.eqb s "all")) ignore ++ map linter_name [EDULINT_L; PYLINT_L; FLAKE8_L] else ignore.
(** [patterns]; other names are skipped with a warning. edulint/linting/nonparsing_checkers.py:40-50. *)
Definition patterns (ignore : list string) : list (list item) :=
  flat_map (fun s => match linter_safe_from_name s with Some l => config_patterns l | None => [] end) (expand ignore).

(** [p in s] for texts, edulint/linting/nonparsing_checkers.py:59. *)
Fixpoint contains (p s : string) : bool :=
  String.prefix p s || match s with EmptyString => false | String _ r => contains p r end.
(** A reported comment: path, line, column, [match.group(2)] and the last column. edulint/linting/nonparsing_checkers.py:61-71. *)
Record magic := { m_path : string; m_line : nat; m_column : nat; m_text : string; m_end : nat }.
(** One pattern on one line, edulint/linting/nonparsing_checkers.py:58-72. *)
Definition report_pattern (path : string) (i : nat) (line : string) (p : list item) : list magic :=
  match rmatch true p line with
  | Some (g :: groups, _) =>
      let text := String.concat "" groups in
      if negb (contains "noqa" (lower text)) || match rmatch true ib111_re line with None => true | Some _ => false end
      then [{| m_path := path; m_line := i; m_column := String.length g; m_text := text; m_end := String.length line |}]
      else []
  | _ => []
  end.
(** The lines of a file from the [i]th one on, edulint/linting/nonparsing_checkers.py:56-72. *)
Fixpoint report_lines (ps : list (list item)) (path : string) (i : nat) (lines : list string) : list magic :=
  match lines with [] => [] | line :: r => flat_map (report_pattern path i line) ps ++ report_lines ps path (S i) r end.
(** [report_infile_config]. Simplified: the files with their lines are given (see [to_file_paths], lines 24-31).
    edulint/linting/nonparsing_checkers.py:34-73. *)
Definition report_infile_config (files : list (string * list string)) (ignore : list string) : list magic :=
  flat_map (fun f => report_lines (patterns ignore) (fst f) 1 (snd f)) files.
