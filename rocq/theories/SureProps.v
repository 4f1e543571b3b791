(** Theorems about modifications in called functions. *)
From Coq Require Import String List Bool Arith.
From Verif Require Import Base SureModel SureSpec SureProofs SureExamples.
Import ListNotations.
Local Open Scope list_scope.
Local Open Scope nat_scope.

Theorem C139_sure_partial : forall body_of mutable start, one_meaning body_of start -> no_methods body_of start ->
  forall fuel, may_be_modified_in body_of mutable fuel start = Ok false -> ~ may_change body_of start.
Proof. exact sure. Qed.
Print Assumptions C139_sure_partial.
Example C139_sure_example : one_meaning mutual [Call 0 [Fun 0]] /\ no_methods mutual [Call 0 [Fun 0]] /\ names_among mutual [Call 0 [Fun 0]] [0; 1; 2] /\
  may_be_modified_in mutual false 4 [Call 0 [Fun 0]] = Ok false.
Proof. exact mutual_meets. Qed.
Theorem C139_two_refuted : exists body_of l fuel, no_methods body_of l /\ may_be_modified_in body_of false fuel l = Ok false /\
  In (Call 0 [Fun 0; Fun 1]) l /\ In Change (body_of 1).
Proof. exact two_definitions. Qed.
Print Assumptions C139_two_refuted.
Theorem C139_name_refuted : exists body_of l fuel, no_methods body_of l /\ may_be_modified_in body_of false fuel l = Ok false /\
  (forall b x ds, code body_of l b -> In (Call x ds) b -> length ds = 1) /\ may_change body_of l.
Proof. exact same_name. Qed.
Print Assumptions C139_name_refuted.
Theorem C139_method_refuted : exists body_of l fuel, one_meaning body_of l /\ may_be_modified_in body_of false fuel l = Ok false /\
  In (Method [1]) l /\ In Change (body_of 1).
Proof. exact a_method. Qed.
Print Assumptions C139_method_refuted.

Theorem C140_only_partial : forall body_of mutable start, mutable = false -> forall fuel, may_be_modified_in body_of mutable fuel start = Ok true -> may_change body_of start.
Proof. exact only. Qed.
Print Assumptions C140_only_partial.
Example C140_only_example : may_be_modified_in mutual_change false 4 [Call 0 [Fun 0]] = Ok true /\ may_be_modified_in mutual_change false 1 [] = Ok false.
Proof. exact mutual_change_found. Qed.
Theorem C140_answered : forall body_of mutable start names, names_among body_of start names ->
  forall fuel, length names < fuel -> exists r, may_be_modified_in body_of mutable fuel start = Ok r.
Proof. exact answered. Qed.
Print Assumptions C140_answered.
Example C140_answered_example : names_among mutual [Call 0 [Fun 0]] [0; 1; 2] /\ length [0; 1; 2] < 4.
Proof. split; [exact (proj1 (proj2 (proj2 mutual_meets)))|cbn; apply le_n]. Qed.
Theorem C140_mutable_refuted : exists body_of l, (forall fuel, may_be_modified_in body_of true fuel l = Ok true) /\ ~ may_change body_of l.
Proof. exact mutable_always. Qed.
Print Assumptions C140_mutable_refuted.
