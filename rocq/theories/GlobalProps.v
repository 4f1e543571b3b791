(** The claims about global variables. *)
From Coq Require Import String List Bool Arith.
From Verif Require Import GlobalModel GlobalSpec GlobalProofs GlobalExamples.
Import ListNotations.
Local Open Scope string_scope.
Local Open Scope list_scope.
Local Open Scope nat_scope.

(** C131: what a message says is so: the variable gets a value on the top level, last on the line of the message, and it is changed on the
    other line, in a function or a class. *)
Theorem C131_right : forall locs walk line x example, In (line, x, example) (visit_module locs walk) ->
  last_global_at locs x line /\ changed_in (inside walk) x example.
Proof. exact message_right. Qed.
Example ex_right : visit_module counting counting = [(2, "log", 4); (9, "total", 8)].
Proof. vm_compute. reflexivity. Qed.
(** C131: there is one message for a variable. *)
Theorem C131_once : forall locs walk, NoDup (map about (visit_module locs walk)).
Proof. exact message_once. Qed.
Example ex_once : map about (visit_module counting (counting ++ counting)) = ["log"; "total"].
Proof. vm_compute. reflexivity. Qed.

(** C132: global variables changed in functions and methods are reported. *)
Theorem C132_found_partial : forall locs walk x line example, global_at locs x line -> changed_in (inside_functions walk) x example ->
  In x (map about (visit_module locs walk)).
Proof. exact message_complete. Qed.
Example ex_found : global_at counting "log" 2 /\ changed_in (inside_functions counting) "log" 4.
Proof. split; [exact counting_global|exact counting_changed]. Qed.
(** C132: those changed in the body of a class are not. *)
Theorem C132_class_refuted : exists locs x line example, global_at locs x line /\ changed_in (inside locs) x example /\ visit_module locs locs = [].
Proof. exact class_refuted. Qed.
(** C132: nor are those changed in a function that is in a class in another class. *)
Theorem C132_nested_refuted : exists locs x line f example,
  global_at locs x line /\ inside locs (Loc false [] (Function f)) /\ changed_in (fun l => In l f) x example /\ visit_module locs locs = [].
Proof. exact nested_refuted. Qed.
(** C132: nor are those that get a value in functions only. *)
Theorem C132_functions_refuted : exists locs x example, changed_in (inside_functions locs) x example /\ visit_module locs locs = [].
Proof. exact functions_refuted. Qed.

Print Assumptions C131_right.
Print Assumptions C131_once.
Print Assumptions C132_found_partial.
Print Assumptions C132_class_refuted.
Print Assumptions C132_nested_refuted.
Print Assumptions C132_functions_refuted.
