(** Properties C33 and C34. *)
From Coq Require Import ZArith String List Bool.
From Verif Require Import CompareModel CompareSpec CompareProofs.
Import ListNotations.
Open Scope Z_scope.

(** C33: the suggested condition and the quoted group have the same truth value, whatever the
    value of the expression. *)
Theorem C33_group_suggestion_equivalent : forall o e g m s env,
  (String.prefix "abs(" (as_string e) = true -> is_abs_call e = true) ->
  suggestion_for_group (as_string e) g o = Msg m s ->
  (suggestion_holds s (value env e) <-> group_holds o g (value env e)).
Proof. exact C33_lemma. Qed.
Print Assumptions C33_group_suggestion_equivalent.

(** C33: and so does the whole condition, when the group is replaced by the suggestion in it. *)
Theorem C33_whole_condition_equivalent : forall ops o e g m s env,
  (String.prefix "abs(" (as_string e) = true -> is_abs_call e = true) ->
  (forall e2 c v, In (e2, c, v) ops -> as_string e2 = as_string e -> value env e2 = value env e) ->
  In (e, g, Msg m s) (group_and_check ops o) ->
  (comb o (suggestion_holds s (value env e))
     (match o with
      | And => forall e2 c v, In (e2, c, v) ops -> as_string e2 <> as_string e -> holds c (value env e2) v
      | Or => exists e2 c v, In (e2, c, v) ops /\ as_string e2 <> as_string e /\ holds c (value env e2) v
      end)
   <->
   match o with
   | And => forall e2 c v, In (e2, c, v) ops -> holds c (value env e2) v
   | Or => exists e2 c v, In (e2, c, v) ops /\ holds c (value env e2) v
   end).
Proof. exact whole_condition_ok. Qed.
Print Assumptions C33_whole_condition_equivalent.

(** C33: the quoted group is exactly the list of all comparisons of that expression, in order. *)
Theorem C33_groups_exact : forall ops e g,
  In (e, g) (group_by_representation (List.length ops) ops) ->
  g = map (fun '(_, c, v) => (c, v))
        (filter (fun '(e2, _, _) => String.eqb (as_string e) (as_string e2)) ops) /\
  exists c v, In (e, c, v) ops.
Proof. exact (fun ops e g => groups_exact (List.length ops) ops e g (le_n _)). Qed.
Print Assumptions C33_groups_exact.

(** C33: no comparison is left out of the grouping. *)
Theorem C33_groups_cover : forall ops e c v, In (e, c, v) ops ->
  exists e' g, In (e', g) (group_by_representation (List.length ops) ops) /\
               as_string e' = as_string e /\ In (c, v) g.
Proof. exact (fun ops e c v => groups_cover (List.length ops) ops e c v (le_n _)). Qed.
Print Assumptions C33_groups_cover.

(** C33: computing a suggestion for a non-empty group never fails. *)
Theorem C33_no_crash : forall o t g, g <> [] -> suggestion_for_group t g o <> Crash.
Proof. exact group_suggestion_no_crash. Qed.
Print Assumptions C33_no_crash.

Example C33_nonvacuous_abs :
  suggestion_for_group (as_string (EVar "x")) [(Lt, 4); (Gt, -4)] And
  = Msg SimplifiableWithAbs (SAbsCmp true Lt 4).
Proof. vm_compute. reflexivity. Qed.
Example C33_nonvacuous_or :
  suggestion_for_group (as_string (EVar "x")) [(Gt, 4); (Ge, 3); (Lt, 0)] Or
  = Msg RedundantCompareInCondition (STwo Lt 0 Or Ge 3).
Proof. vm_compute. reflexivity. Qed.
Example C33_nonvacuous_eq :
  suggestion_for_group (as_string (EVar "x")) [(Ge, 0); (Le, 0)] And
  = Msg UsingCompareInsteadOfEqual (SEq 0).
Proof. vm_compute. reflexivity. Qed.
Example C33_nonvacuous_abs_call :
  suggestion_for_group (as_string (EAbs (EVar "x"))) [(Lt, 4); (Gt, -4)] And
  = Msg SimplifiableWithAbs (SAbsCmp false Lt 4).
Proof. vm_compute. reflexivity. Qed.

(** C34 is false: 'abs(x) - 5 < 4 and abs(x) - 5 > -4' is "replaced" by 'abs(x) - 5 < 4'. *)
Theorem C34_abs_text_refuted : exists e g m s env,
  suggestion_for_group (as_string e) g And = Msg m s /\
  suggestion_holds s (value env e) /\ ~ group_holds And g (value env e).
Proof.
  exact (let '(ex_intro _ m (ex_intro _ s H)) := C34_witness in
         ex_intro _ _ (ex_intro _ _ (ex_intro _ m (ex_intro _ s (ex_intro _ (fun _ => 0) H))))).
Qed.
Print Assumptions C34_abs_text_refuted.
