(** The checks that count statements: too long functions and scripts, and the suggestion to return early. *)
From Coq Require Import String List Bool Arith.
From Verif Require Import Base PyModel.
Import ListNotations.
Local Open Scope string_scope.
Local Open Scope list_scope.
Local Open Scope nat_scope.

(** Statements; what is not looked at is a number. [Define] is a function or class, [Loop] a for or while loop,
    [Try] has the bodies of its handlers, [Match] the bodies of its cases. Async loops, with statements and functions are subclasses
    of the others and try statements with starred handlers are treated alike, edulint/linting/analyses/utils.py:534-563. *)
Inductive stmt :=
| Simple (n : nat)
| Return (n : nat)
| Break
| Continue
| Import (n : nat)
| Define (n : nat) (body : list stmt)
| If (test : expr) (body orelse : list stmt)
| Loop (n : nat) (body orelse : list stmt)
| Try (n : nat) (body : list stmt) (handlers : list (list stmt)) (orelse final : list stmt)
| With (n : nat) (body : list stmt)
| Match (n : nat) (cases : list (list stmt)).

(** [has_elif_block] (external code): the else branch is one if statement, edulint/linting/analyses/utils.py:485. *)
Definition has_elif_block (orelse : list stmt) : bool := match orelse with [If _ _ _] => true | _ => false end.

(** [has_else_block], edulint/linting/analyses/utils.py:482-485. *)
Definition has_else_block (s : stmt) : bool :=
  match s with
  | If _ _ orelse => Nat.ltb 0 (List.length orelse) && negb (has_elif_block orelse)
  | Loop _ _ orelse => Nat.ltb 0 (List.length orelse)
  | _ => false
  end.

(** [is_main_block], edulint/linting/analyses/utils.py:503-517. *)
Definition is_main_block (s : stmt) : bool :=
  match s with
  | If (Compare (Name x) [(Eq, Const (CStr m))]) _ _ => String.eqb x "__name__" && String.eqb m "__main__"
  | _ => false
  end.

(** [get_statements_count], edulint/linting/analyses/utils.py:528-563. *)
Fixpoint get_statements_count (include_defs include_name_main : bool) (s : stmt) : nat :=
  let count := fun l => list_sum (map (get_statements_count include_defs include_name_main) l) in
  match s with
  | Define _ body => if include_defs then 1 + count body else 0
  | Import _ => if include_defs then 1 else 0
  | If _ body orelse | Loop _ body orelse =>
      if is_main_block s && negb include_name_main then 0
      else 1 + count body + (if has_else_block s then 1 else 0) + count orelse
  | Try _ body handlers orelse final =>
      2 + count body + list_sum (map (fun h => count h) handlers) + count orelse + count final
  | With _ body => 1 + count body
  | _ => 1
  end.
(** [get_statements_count] of a list, edulint/linting/analyses/utils.py:531-535. *)
Definition count (include_defs include_name_main : bool) (l : list stmt) : nat :=
  list_sum (map (get_statements_count include_defs include_name_main) l).

(** [visit_functiondef] of [LongCodeChecker], the number in the message long-function, edulint/linting/checkers/basic_checker.py:83-89. *)
Definition long_function (body : list stmt) : option nat :=
  let n := count false false body in if Nat.ltb 20 n then Some n else None.
(** [visit_module] of [LongCodeChecker], the number in the message long-script; a module is counted as its body,
    edulint/linting/checkers/basic_checker.py:75-81, edulint/linting/analyses/utils.py:548-549. *)
Definition long_script (body : list stmt) : option nat :=
  let n := count false false body in if Nat.ltb 20 n then Some n else None.

(** Something about [l[-1]], edulint/linting/checkers/local_defects.py:466, 468. *)
Definition at_last {A} (f : stmt -> res A) : list stmt -> res A :=
  fix at_last (l : list stmt) : res A :=
    match l with
    | [] => Raise IndexError
    | [s] => f s
    | _ :: l => at_last l
    end.

(** [ends_block], edulint/linting/checkers/local_defects.py:463-470. *)
Fixpoint ends_block (s : stmt) : res bool :=
  match s with
  | If _ body orelse =>
      do b <- at_last ends_block body;
      if b && Nat.ltb 0 (List.length orelse) then at_last ends_block orelse else Ok false
  | Return _ | Break | Continue => Ok true
  | _ => Ok false
  end.

(** [large_terminated_if_elif_block], edulint/linting/checkers/local_defects.py:472-481. *)
Fixpoint large_terminated_if_elif_block (s : stmt) : res bool :=
  match s with
  | If _ body orelse =>
      do b <- at_last ends_block body;
      if b && Nat.ltb 2 (count true true body) then
        match orelse with
        | [] => Ok true
        | [e] => large_terminated_if_elif_block e
        | _ => Ok false
        end
      else Ok false
  | _ => Ok false
  end.

(** The last part of the check, edulint/linting/checkers/local_defects.py:494-500. *)
Definition short_and_long (last_ends : res bool) (last_block body : list stmt) : res bool :=
  do b <- last_ends;
  Ok (b && Nat.leb (count true true last_block) 2 && Nat.leb 4 (count true true body)).

(** [_check_use_early_return]: whether the message is reported for an if statement, given whether it is its parent's elif and the
    statements before and after it in its block; [None] is no block end, edulint/linting/checkers/local_defects.py:462-500. *)
Definition check_use_early_return (elif : bool) (prev : option stmt) (body orelse : list stmt) (next : option stmt) : res bool :=
  if elif then Ok false
  else
    do large <- match prev with Some p => large_terminated_if_elif_block p | None => Ok false end;
    if large then Ok false
    else
      match orelse with
      | _ :: _ => short_and_long (at_last ends_block orelse) orelse body
      | [] =>
          do b <- at_last ends_block body;
          if b then
            match next with
            | Some n => short_and_long (ends_block n) [n] body
            | None => Ok false
            end
          else Ok false
      end.

(** ** Comprehension variables *)

(** Targets of comprehensions; in targets names are [AssignName] nodes (external code), never [Name] nodes,
    edulint/linting/checkers/python_ta_checkers.py:123-132. *)
Inductive target := AssignName (x : string) | Tuple (elts : list target) | OtherTarget (elts : list target).

(** [isinstance(target, nodes.Name)], which no part of a target is, edulint/linting/checkers/python_ta_checkers.py:126. *)
Definition is_name (t : target) : option string := None.

(** [visit_comprehension] of [ShadowingInComprehensionChecker]: the names reported, given the names of the enclosing function, class
    or module, edulint/linting/checkers/python_ta_checkers.py:121-135. *)
Definition shadowing (locals : list string) (t : target) : list string :=
  let reported := fun x => existsb (String.eqb x) locals && negb (String.eqb x "_") in
  match t with
  | Tuple elts => flat_map (fun e => match is_name e with Some x => if reported x then [x] else [] | None => [] end) elts
  | AssignName x => if reported x then [x] else []
  | OtherTarget _ => []
  end.
