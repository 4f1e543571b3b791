(** What it means that a loop does a second iteration, in terms of the executions of the program. *)
From Coq Require Import String List Bool Arith.
From Verif Require Import Base CfgModel CfgSpec CfgLoopModel.
Import ListNotations.
Local Open Scope list_scope.
Local Open Scope nat_scope.

(** The statement a node belongs to. *)
Definition number (x : node) : nat := match x with Whole m => m | Part m _ => m end.

(** What is evaluated to decide whether there is another iteration. Python language reference 8.2, 8.3. *)
Definition loop_head (l : loop_stmt) : node := Part (loop_number l) (if loop_for l then Target else Test).

(** The loop is asked for another iteration right after something in its body was executed.
    Python language reference 8.2, 8.3; edulint/linting/checkers/python_ta_checkers.py:52-54. *)
Definition another_iteration (l : loop_stmt) (tr : list node) : Prop :=
  exists a x c, tr = a ++ x :: loop_head l :: c /\ List.In (number x) (flat_map numbers (loop_body l)).

(** The loops of a program, except those in finally branches and in statements like match. *)
Fixpoint loops (s : stmt) : list loop_stmt :=
  let all := flat_map loops in
  match s with
  | Simple _ | Jump _ _ | Opaque _ _ => []
  | Function _ b | Class _ b | With _ _ b => all b
  | If _ b e => all b ++ all e
  | While n b e => mk_loop false n b e :: all b ++ all e
  | For n b e => mk_loop true n b e :: all b ++ all e
  | Try _ b hs e _ => all b ++ flat_map (fun h => all (snd h)) hs ++ all e
  end.
