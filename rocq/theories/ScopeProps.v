(** Theorems about the scopes of names. *)
From Coq Require Import String List Bool Arith.
From Verif Require Import Base ScopeModel ScopeSpec ScopeProofs ScopeCoverProofs ScopeExamples.
Import ListNotations.
Local Open Scope string_scope.
Local Open Scope list_scope.

(** C111: the variable of an event is what some scope around the node makes of the name. *)
Theorem C111_enclosing_partial : forall m D body evs ev, plain m D body -> collect m body = Ok evs -> List.In ev evs ->
  exists c v, List.In (node ev, name ev, c, v) (names_of m body) /\ from_enclosing m (name ev) (scope ev) v.
Proof. exact scope_enclosing. Qed.
Print Assumptions C111_enclosing_partial.
(** C111: it is the variable that Python means if the scopes around do not disagree. *)
Theorem C111_python_partial : forall m D body evs ev c v, plain m D body -> one_each m body -> collect m body = Ok evs -> List.In ev evs ->
  List.In (node ev, name ev, c, v) (names_of m body) -> unambiguous m (name ev) c v -> scope ev = resolve m c (name ev).
Proof. exact scope_python. Qed.
Print Assumptions C111_python_partial.
Example C111_plain_example : plain 0 ["total"] counting.
Proof. exact counting_plain. Qed.
Example C111_each_example : one_each 0 counting.
Proof. exact counting_each. Qed.
Example C111_unambiguous_example : forall c v, List.In (6, "total", c, v) (names_of 0 counting) -> unambiguous 0 "total" c v.
Proof. exact counting_unambiguous. Qed.
Example C111_scopes_example : collect 0 counting = Ok counting_events /\ map (fun ev => (node ev, scope ev)) counting_events =
  [(1, 0); (2, 0); (13, 0); (14, 0); (3, 1); (4, 1); (5, 1); (6, 0); (7, 1); (6, 0); (9, 2); (10, 1); (11, 2); (12, 1)].
Proof. exact (conj counting_collected counting_scopes). Qed.

(** C111 is false where scopes around disagree. *)
Theorem C111_default_refuted : mistaken default_module.
Proof. exact default_mistaken. Qed.
Print Assumptions C111_default_refuted.
Theorem C111_early_refuted : mistaken early_module.
Proof. exact early_mistaken. Qed.
Print Assumptions C111_early_refuted.
Theorem C111_class_refuted : mistaken class_module.
Proof. exact class_mistaken. Qed.
Print Assumptions C111_class_refuted.
Theorem C111_iterable_refuted : mistaken iterable_module.
Proof. exact iterable_mistaken. Qed.
Print Assumptions C111_iterable_refuted.
Theorem C111_nonlocal_refuted : mistaken nonlocal_module.
Proof. exact nonlocal_mistaken. Qed.
Print Assumptions C111_nonlocal_refuted.
Theorem C111_deleted_refuted : mistaken deleted_module.
Proof. exact deleted_mistaken. Qed.
Print Assumptions C111_deleted_refuted.

(** C112: names that are bound get an event that says so. *)
Theorem C112_bindings_partial : forall m body evs n x, collect m body = Ok evs -> List.In (n, x) (written_of body) ->
  exists ev, List.In ev evs /\ node ev = n /\ name ev = x /\ (type ev = Assign \/ type ev = Reassign).
Proof. exact bindings_seen. Qed.
Print Assumptions C112_bindings_partial.
Example C112_bindings_example : written_of counting = [(2, "add"); (1, "total"); (3, "k"); (4, "i"); (6, "total"); (9, "j")].
Proof. reflexivity. Qed.
Theorem C112_block_refuted : unseen block_module 2 "f".
Proof. exact block_unseen. Qed.
Print Assumptions C112_block_refuted.
Theorem C112_import_refuted : unseen import_module 1 "os".
Proof. exact import_unseen. Qed.
Print Assumptions C112_import_refuted.

(** C113: names of the module get an event wherever a function or a class uses them. *)
Theorem C113_uses_partial : forall m body evs n x d, collect m body = Ok evs -> ~ List.In x (flat_map deleted_stmt body) ->
  List.In x (sets_of body) -> List.In d body -> definition d = true -> List.In (n, x) (used_stmt d) ->
  exists ev, List.In ev evs /\ node ev = n /\ name ev = x.
Proof. exact uses_seen. Qed.
Print Assumptions C113_uses_partial.
Example C113_uses_example : List.In "total" (sets_of counting) /\ ~ List.In "total" (flat_map deleted_stmt counting)
  /\ existsb (fun d => definition d && existsb (fun p => Nat.eqb (fst p) 6 && String.eqb (snd p) "total") (used_stmt d)) counting = true.
Proof. exact counting_uses. Qed.
Theorem C113_decorator_refuted : unseen decorator_module 2 "g".
Proof. exact decorator_unseen. Qed.
Print Assumptions C113_decorator_refuted.
Theorem C113_lambda_refuted : unseen lambda_module 4 "g".
Proof. exact lambda_unseen. Qed.
Print Assumptions C113_lambda_refuted.

(** C114: the analysis gives up only for calls written locals or globals. *)
Theorem C114_total : forall m body, existsb asks_stmt body = false -> exists evs, collect m body = Ok evs.
Proof. exact collect_total. Qed.
Print Assumptions C114_total.
Example C114_total_example : existsb asks_stmt counting = false.
Proof. reflexivity. Qed.
Theorem C114_own_refuted : collect 0 own_locals = Raise (OtherError "UnknowableLocalsException")
  /\ resolve 0 (module_chain 0 own_locals) "locals" = 0 /\ List.In "locals" (flat_map bound_stmt own_locals).
Proof. exact own_locals_raise. Qed.
Print Assumptions C114_own_refuted.
