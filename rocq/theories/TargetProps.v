(** Properties C137 and C138. *)
From Coq Require Import String List Bool Arith.
From Verif Require Import TargetModel TargetSpec TargetProofs TargetExamples.
Import ListNotations.
Local Open Scope string_scope.
Local Open Scope list_scope.
Local Open Scope nat_scope.

(** C137: every part of a target that is assigned to and is a part of a larger object is reported. *)
Theorem C137_found_partial : forall e p n, assigned e p -> larger p n -> In n (visit_target e).
Proof. exact target_found. Qed.
Example ex_found : assigned mixed (AssignAttr 2 (Name "point")) /\ larger (AssignAttr 2 (Name "point")) 2 /\ visit_target mixed = [1; 2].
Proof. split; [exact mixed_assigned|]. split; [right; exists (Name "point"); reflexivity|reflexivity]. Qed.
(** C137: what is reported is such a part, or is in one. *)
Theorem C137_right_partial : forall e n, is_target e -> In n (visit_target e) -> exists p, assigned e p /\ (larger p n \/ exists q, inside p q /\ larger q n).
Proof. exact target_right. Qed.
(** C137: it is such a part if no part that is assigned to has another object's part in it. *)
Theorem C137_simple_partial : forall e n, is_target e -> (forall p q m, assigned e p -> inside p q -> ~ larger q m) ->
  In n (visit_target e) -> exists p, assigned e p /\ larger p n.
Proof. exact target_simple. Qed.
Example ex_right : is_target mixed /\ (forall p q m, assigned mixed p -> inside p q -> ~ larger q m) /\ In 1 (visit_target mixed).
Proof. split; [exact mixed_target|]. split; [exact mixed_simple|left; reflexivity]. Qed.
(** C137: an index that is only read is reported, too. *)
Theorem C137_index_refuted : exists e n, is_target e /\ In n (visit_target e) /\ forall p, assigned e p -> ~ larger p n.
Proof. exact index_refuted. Qed.

(** C138: if nothing is reported, importing the module executes imports, definitions and assignments only, provided that no if of the module
    itself has an else branch. *)
Theorem C138_quiet_partial : forall body s, visit_module body = [] -> (forall n t a b, In (If n t a b) body -> b = []) -> imported body s -> allowed s.
Proof. exact quiet_allowed. Qed.
Example ex_quiet : visit_module proper = [] /\ (forall n t a b, In (If n t a b) proper -> b = []) /\ imported proper (Assign 6).
Proof. split; [reflexivity|]. split; [exact proper_else|exact proper_imported]. Qed.
(** C138: which lines are reported. *)
Theorem C138_lines_partial : forall body line, In line (visit_module body) <-> exists s, In s body /\ lineno s = line /\
  match s with Import _ | Def _ | Assign _ => False | If _ t _ _ => ~ asks_main t | _ => True end.
Proof. exact top_right. Qed.
Example ex_lines : visit_module (AugAssign 1 :: proper ++ [If 12 OtherTest [] []; Statement 15]) = [1; 12; 15].
Proof. reflexivity. Qed.
(** C138: with an else branch of the main block, other statements are executed. *)
Theorem C138_else_refuted : exists body s, visit_module body = [] /\ imported body s /\ ~ allowed s.
Proof. exact else_refuted. Qed.
(** C138: annotated assignments are reported, though assignments are allowed. *)
Theorem C138_annotated_refuted : exists body, (forall s, In s body -> allowed s) /\ visit_module body <> [].
Proof. exact annotated_refuted. Qed.

Print Assumptions C137_found_partial.
Print Assumptions C137_right_partial.
Print Assumptions C137_simple_partial.
Print Assumptions C137_index_refuted.
Print Assumptions C138_quiet_partial.
Print Assumptions C138_lines_partial.
Print Assumptions C138_else_refuted.
Print Assumptions C138_annotated_refuted.
