(** The check whether a variable is changed between two locations, and its use for the tests of ifs. *)
From Coq Require Import String List Bool Arith.
From Verif Require Import Base.
From Verif Require Import ReachModel WalkModel.
Import ListNotations.
Local Open Scope list_scope.
Local Open Scope nat_scope.

Section Between.
(** [len(block.locs)], edulint/linting/analyses/cfg/utils.py:117. *)
Variable size : nat -> nat.
(** The blocks of the incoming edges, edulint/linting/analyses/cfg/utils.py:35-39. *)
Variable before_block : nat -> list nat.
(** [loc.var_events\[var\]]: the kinds of the events of a variable at a place; edulint/linting/analyses/data_dependency.py:637. *)
Variable events : nat -> nat * nat -> list event_kind.

(** [loc == before_loc], edulint/linting/analyses/data_dependency.py:635. *)
Definition same_place (p q : nat * nat) : bool := Nat.eqb (fst p) (fst q) && Nat.eqb (snd p) (snd q).
(** [event.type != VarEventType.READ] for an event of the place, edulint/linting/analyses/data_dependency.py:637-639. *)
Definition changes (var : nat) (p : nat * nat) : bool := existsb (fun k => match k with Read => false | _ => true end) (events var p).
(** [predecessors_from_loc(after_loc, stop_on_loc=..., include_start=True)]: the end is not included, functions and classes are not
    explored. edulint/linting/analyses/data_dependency.py:634-636, edulint/linting/analyses/cfg/utils.py:348-383. *)
Definition back_from (fuel : nat) (before after : nat * nat) : res (list (nat * nat)) :=
  locs_from_locs size before_block false (Some (fun b i => same_place (b, i) before)) None true false fuel [after].
(** [is_changed_between], edulint/linting/analyses/data_dependency.py:632-640. *)
Fixpoint is_changed_between (fuel var : nat) (before : nat * nat) (afters : list (nat * nat)) : res bool :=
  match afters with
  | [] => Ok false
  | after :: afters =>
      do l <- back_from fuel before after;
      if existsb (changes var) l then Ok true else is_changed_between fuel var before afters
  end.
(** The variables, for the places of one statement that differs between the branches; edulint/linting/checkers/duplication/duplicate_if.py:165-169. *)
Fixpoint any_var (fuel : nat) (vars : list nat) (before : nat * nat) (afters : list (nat * nat)) : res bool :=
  match vars with
  | [] => Ok false
  | v :: vars => do c <- is_changed_between fuel v before afters; if c then Ok true else any_var fuel vars before afters
  end.
(** [test_variables_change]: the variables read in the tests, the place of the first test, the places of the statements that differ between
    the branches. Simplified: the outer loop is over the statements. edulint/linting/checkers/duplication/duplicate_if.py:161-169. *)
Fixpoint test_variables_change (fuel : nat) (vars : list nat) (first : nat * nat) (differing : list (list (nat * nat))) : res bool :=
  match differing with
  | [] => Ok false
  | afters :: differing => do c <- any_var fuel vars first afters; if c then Ok true else test_variables_change fuel vars first differing
  end.
End Between.
