(** The checks of targets of loops and of code at the top level. *)
From Coq Require Import String List Bool Arith.
Import ListNotations.
Local Open Scope string_scope.
Local Open Scope list_scope.
Local Open Scope nat_scope.

(** Nodes of expressions, numbered where they can be reported. [Other] is any other expression with its children, such as a call.
    edulint/linting/checkers/python_ta_checkers.py:38. *)
Inductive expr :=
| Name (x : string)
| Subscript (n : nat) (value index : expr)
| AssignAttr (n : nat) (value : expr)
| Attribute (value : expr)
| Group (elts : list expr)
| Starred (value : expr)
| Other (children : list expr).
(** [nodes_of_class(INVALID_TARGETS)]: the node itself, then what is in its children (astroid, given).
    edulint/linting/checkers/python_ta_checkers.py:38, 42, 48. *)
Fixpoint invalid_in (e : expr) : list nat :=
  match e with
  | Name _ => []
  | Subscript n v i => n :: invalid_in v ++ invalid_in i
  | AssignAttr n v => n :: invalid_in v
  | Attribute v | Starred v => invalid_in v
  | Group l | Other l => flat_map invalid_in l
  end.
(** [visit_for], [visit_comprehension]: the nodes that are reported; edulint/linting/checkers/python_ta_checkers.py:40-50. *)
Definition visit_target (target : expr) : list nat := invalid_in target.

(** Parts of tests, edulint/linting/analyses/utils.py:507-517. *)
Inductive operand := Var (x : string) | Text (s : string) | OtherOperand.
(** Tests of ifs, edulint/linting/analyses/utils.py:507-517. *)
Inductive test := Compare (left : operand) (ops : list (string * operand)) | OtherTest.
(** Statements with their lines; [Statement] is any other one. A function or class is a [Def].
    edulint/linting/checkers/python_ta_checkers.py:155-187. *)
Inductive stmt :=
| Import (line : nat) | Def (line : nat) | Assign (line : nat) | AnnAssign (line : nat) | AugAssign (line : nat)
| If (line : nat) (t : test) (body orelse : list stmt)
| Statement (line : nat).
(** [lineno], edulint/linting/checkers/python_ta_checkers.py:161. *)
Definition lineno (s : stmt) : nat :=
  match s with Import n | Def n | Assign n | AnnAssign n | AugAssign n | If n _ _ _ | Statement n => n end.
(** [_is_import], edulint/linting/checkers/python_ta_checkers.py:165-169. *)
Definition is_import (s : stmt) : bool := match s with Import _ => true | _ => false end.
(** [_is_definition], edulint/linting/checkers/python_ta_checkers.py:172-176. *)
Definition is_definition (s : stmt) : bool := match s with Def _ => true | _ => false end.
(** [_is_assignment], edulint/linting/checkers/python_ta_checkers.py:193-194. *)
Definition is_assignment (s : stmt) : bool := match s with Assign _ => true | _ => false end.
(** [is_main_block], edulint/linting/analyses/utils.py:503-517. *)
Definition is_main_block (s : stmt) : bool :=
  match s with
  | If _ (Compare (Var x) [(op, Text s)]) _ _ => String.eqb x "__name__" && String.eqb op "==" && String.eqb s "__main__"
  | _ => false
  end.
(** [TopLevelCodeChecker.visit_module]: the lines of the messages; edulint/linting/checkers/python_ta_checkers.py:152-161. *)
Definition visit_module (body : list stmt) : list nat :=
  map lineno (filter (fun s => negb (is_import s || is_definition s || is_assignment s || is_main_block s)) body).
