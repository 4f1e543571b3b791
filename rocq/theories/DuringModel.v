(** The check of loops that modify what they iterate over. *)
From Coq Require Import List Bool Arith.
Import ListNotations.
Local Open Scope list_scope.
Local Open Scope nat_scope.

(** Statements that end a block, edulint/linting/checkers/unsuited_loop.py:363-366 (raise is not among those). *)
Inductive jump := Break | Continue | Return | Raise.
(** Statements of the body of [for ... in x], as far as [x] is concerned, numbered: [x.append(...)] and the like ([Modify]), [del x\[i\]]
    ([Del]), [x += ...] ([Extend]), [x = ...] ([Rebind]), anything without [x] ([Other]), an if and the statements above. Simplified: there
    are no loops, exceptions handlers and definitions in the body. edulint/linting/checkers/unsuited_loop.py:346-372. *)
Inductive stmt :=
| Modify (n : nat) | Del (n : nat) | Extend (n : nat) | Rebind | Other
| If (body orelse : list stmt)
| Jump (j : jump).

(** Whether the last statement of a block is a break or a return, edulint/linting/checkers/unsuited_loop.py:338-344, 363-366. *)
Definition last_leaves (l : list stmt) : bool := match last l Other with Jump Break | Jump Return => true | _ => false end.
(** Whether the location after a statement is reached from it, edulint/linting/analyses/cfg/visitor.py:164-210. *)
Fixpoint passes (s : stmt) : bool :=
  match s with
  | If a b => forallb passes a || forallb passes b
  | Jump _ => false
  | _ => true
  end.

(** What is used of an event of [x] that is no reading: whether it is a method call and its number ([Direct]) or an assignment ([Assigned]);
    whether its statement is one of the body itself; whether its block ends with a break or a return.
    [x += ...] is an assignment, [del x\[i\]] is a reading. edulint/linting/checkers/unsuited_loop.py:356-372,
    edulint/linting/analyses/variable_scope.py:300-306, 338-345. *)
Inductive event := Direct (n : nat) (leaves : bool) | Assigned (of_body : bool).
(** The events of a statement and of what is walked over after it: first what comes after the first branch that gets there, then the
    other branch. What comes after a jump is no location of the graph. edulint/linting/analyses/cfg/utils.py:88-135, 536-588,
    edulint/linting/analyses/cfg/visitor.py:164-210, edulint/linting/analyses/data_dependency.py:660-686. *)
Fixpoint visit (of_body leaves : bool) (s : stmt) (after : list event) : list event :=
  match s with
  | Modify n => Direct n leaves :: after
  | Del _ | Other => after
  | Extend _ | Rebind => Assigned of_body :: after
  | If a b =>
      if forallb passes a
      then fold_right (visit false (last_leaves a)) after a ++ fold_right (visit false (last_leaves b)) [] b
      else fold_right (visit false (last_leaves a)) [] a ++ fold_right (visit false (last_leaves b)) after b
  | Jump _ => []
  end.
(** The events of the body, in the order in which they are looked at, edulint/linting/checkers/unsuited_loop.py:357. *)
Definition events (body : list stmt) : list event := fold_right (visit true (last_leaves body)) [] body.
(** The loop over the events: the modifications that are reported, edulint/linting/checkers/unsuited_loop.py:357-372. *)
Fixpoint report (l : list event) : list nat :=
  match l with
  | [] => []
  | Assigned true :: _ => []
  | Direct n false :: l => n :: report l
  | _ :: l => report l
  end.
(** [_check_modifying_iterable] of a loop over a variable, edulint/linting/checkers/unsuited_loop.py:346-372. *)
Definition check_modifying_iterable (body : list stmt) : list nat := report (events body).
