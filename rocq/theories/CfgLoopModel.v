(** The check for loops that end in their first iteration, which asks the control flow graph. *)
From Coq Require Import String List Bool Arith.
From Verif Require Import Base CfgModel CfgSpec.
Import ListNotations.
Local Open Scope list_scope.
Local Open Scope nat_scope.

(** The loops the checker looks at, edulint/linting/checkers/python_ta_checkers.py:66-74. *)
Record loop_stmt := mk_loop { loop_for : bool; loop_number : nat; loop_body : list stmt; loop_else : list stmt }.

(** [node.parent_of]: the node is a part of the loop or of a statement inside it, edulint/linting/checkers/python_ta_checkers.py:101. *)
Definition inside (l : loop_stmt) (x : node) : bool :=
  let among := fun m => existsb (Nat.eqb m) (flat_map numbers (loop_body l) ++ flat_map numbers (loop_else l)) in
  match x with
  | Whole m => among m
  | Part m _ => Nat.eqb m (loop_number l) || among m
  end.

(** The node whose block is looked at, edulint/linting/checkers/python_ta_checkers.py:90. *)
Definition loop_start (l : loop_stmt) : node := if loop_for l then Part (loop_number l) Target else Whole (loop_number l).

(** The loop over the edges in, edulint/linting/checkers/python_ta_checkers.py:99-105; an empty block has no [locs[0]]. *)
Fixpoint only_from_outside (s : state) (l : loop_stmt) (es : list nat) : res bool :=
  match es with
  | [] => Ok true
  | e :: es =>
      match locs s (source s e) with
      | [] => Raise IndexError
      | stmt :: _ =>
          if inside l stmt && reachable s (source s e) then
            if loop_for l && node_eqb stmt (Part (loop_number l) Iter) then only_from_outside s l es else Ok false
          else only_from_outside s l es
      end
  end.

(** [_check_one_iteration], edulint/linting/checkers/python_ta_checkers.py:76-105. *)
Definition check_one_iteration (s : state) (l : loop_stmt) : res bool :=
  match place_of (loop_start l) s with
  | Raise _ => Ok false
  | Ok p =>
      match preds s (fst p) with
      | [] => Ok false
      | es => only_from_outside s l es
      end
  end.
