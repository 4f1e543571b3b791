(** Properties of the basic checks of if statements. *)
From Coq Require Import String List Bool Arith NArith ZArith.
From Verif Require Import Base PyModel PySpec PyProofs IfModel IfSpec IfProofs IfExamples.
Import ListNotations.
Local Open Scope string_scope.
Local Open Scope list_scope.

(** The text of a node is read back as an expression that does the same. *)
Theorem node_text_read_back : forall e, well_formed e = true -> no_nested_compare e = true -> exists e', reads (as_string e) e' /\ same e' e.
Proof. exact printed_same. Qed.
Example ex_text : well_formed ex_cond = true /\ no_nested_compare ex_cond = true /\ as_string (Binary Mul (Binary Add (n "a") (n "b")) ex_or) = [TLP; TName "a"; TBin Add; TName "b"; TRP; TBin Mul; TLP; TName "d"; TOr; TName "e"; TRP].
Proof. repeat split; reflexivity. Qed.
Theorem text_read_one_way : forall t e e', reads t e -> reads t e' -> e = e'.
Proof. exact reads_det. Qed.

(** C41, except for augmented assignments and for conditional expressions joined with and/or: the suggested return, assignment or expression is as true as the original, with the same effects. *)
Theorem C41_return_truth_partial : forall f c body orelse prev pb rest k t,
  fine_stmt (If c body orelse) = true -> forallb fine_stmt rest = true ->
  basic_checks f c body orelse prev (hd_error rest) pb = Ok (Some (MReturn k t)) ->
  (k = true -> no_ifexp c body orelse rest = true) ->
  exists new, follows (MReturn k t) (If c body orelse :: rest) new /\ returns_alike (If c body orelse :: rest) new.
Proof. exact return_alike. Qed.
(** if a < b and not c: return True
    return d or e                                ->   return (a < b and not c) or d or e *)
Example ex_return : exists t,
  basic_checks 5 ex_cond [Return (Some (lit true))] [] None (Some (Return (Some ex_or))) [] = Ok (Some (MReturn true t)) /\
  fine_stmt (If ex_cond [Return (Some (lit true))] []) = true /\ forallb fine_stmt [Return (Some ex_or)] = true /\
  no_ifexp ex_cond [Return (Some (lit true))] [] [Return (Some ex_or)] = true /\
  t = [TLP; TName "a"; TRel Lt; TName "b"; TAnd; TNot; TName "c"; TRP; TOr; TName "d"; TOr; TName "e"].
Proof. eexists. repeat split; reflexivity. Qed.
Theorem C41_assign_truth_partial : forall f c body orelse prev pb rest k xt t,
  fine_stmt (If c body orelse) = true -> forallb (fun s => negb (is_augmented s)) body = true ->
  basic_checks f c body orelse prev (hd_error rest) pb = Ok (Some (MAssign k xt t)) ->
  (k = true -> no_ifexp c body orelse rest = true) ->
  exists new x, reads xt x /\ follows (MAssign k xt t) (If c body orelse :: rest) new /\ assigns_alike x (If c body orelse :: rest) new rest.
Proof. exact assign_alike. Qed.
(** if c: x.y = False
    else: x.y = f(z)                             ->   x.y = <negated c> and f(z) *)
Example ex_assign : exists t xt,
  basic_checks 5 (n "c") [Assign [Attribute (n "x") "y"] (lit false)] [Assign [Attribute (n "x") "y"] (Call (n "f") [n "z"])] None None [] = Ok (Some (MAssign true xt t)) /\
  fine_stmt (If (n "c") [Assign [Attribute (n "x") "y"] (lit false)] [Assign [Attribute (n "x") "y"] (Call (n "f") [n "z"])]) = true /\
  no_ifexp (n "c") [Assign [Attribute (n "x") "y"] (lit false)] [Assign [Attribute (n "x") "y"] (Call (n "f") [n "z"])] [] = true /\
  t = [TNegOpen; TName "c"; TNegClose; TAnd; TName "f"; TLP; TName "z"; TRP] /\ has_negation t.
Proof. eexists _, _. repeat split; try reflexivity. left. reflexivity. Qed.
Theorem C41_expression_truth_partial : forall f c a b k t, fine c = true -> visit_ifexp f c a b = Ok (Some (MExpr k t)) -> (k = true -> is_ifexp c = false) ->
  exists e, reads t e /\ forall W (P : python W), alike P (eval P (IfExp c a b)) (eval P e).
Proof. exact expr_alike. Qed.
Example ex_ifexp : visit_ifexp 5 ex_or (n "v") (lit false) = Ok (Some (MExpr true [TLP; TName "d"; TOr; TName "e"; TRP; TAnd; TName "v"])).
Proof. reflexivity. Qed.
Theorem C41_conditional_value_refuted : exists c body orelse t new,
  fine_stmt (If c body orelse) = true /\
  basic_checks 5 c body orelse None None [] = Ok (Some (MReturn true t)) /\
  follows (MReturn true t) [If c body orelse] new /\ ~ returns_alike [If c body orelse] new.
Proof. exact cond_value_refuted. Qed.
Theorem C41_augmented_assignment_refuted : exists c body orelse x t new,
  fine_stmt (If c body orelse) = true /\ no_ifexp c body orelse [] = true /\
  basic_checks 5 c body orelse None None [] = Ok (Some (MAssign false [TName x] t)) /\
  follows (MAssign false [TName x] t) [If c body orelse] new /\ ~ assigns_alike (Name x) [If c body orelse] new [].
Proof. exact augmented_refuted. Qed.

(** C42: the value is kept if the condition gives a bool or is negated; in general it is not. *)
Theorem C42_return_value_partial : forall f c body orelse prev pb rest k t,
  fine_stmt (If c body orelse) = true -> forallb fine_stmt rest = true ->
  basic_checks f c body orelse prev (hd_error rest) pb = Ok (Some (MReturn k t)) ->
  (k = true -> no_ifexp c body orelse rest = true) ->
  exists new, follows (MReturn k t) (If c body orelse :: rest) new /\
    forall W (P : program W), boolean (py P) c \/ has_negation t -> forall w, block P (If c body orelse :: rest) w = block P new w.
Proof. exact return_value. Qed.
(** Examples for the hypotheses: [ex_return], [ex_assign] and [ex_ifexp] above, and a condition that always gives a bool. *)
Example ex_boolean : boolean (names []) (Unary Not (n "x")).
Proof.
  intros w w' v H. destruct w; cbn in H; unfold andthen in H; cbn in H; injection H as <- <-; eauto.
Qed.
Theorem C42_assign_value_partial : forall f c body orelse prev pb rest k xt t,
  fine_stmt (If c body orelse) = true -> forallb (fun s => negb (is_augmented s)) body = true ->
  basic_checks f c body orelse prev (hd_error rest) pb = Ok (Some (MAssign k xt t)) ->
  (k = true -> no_ifexp c body orelse rest = true) ->
  exists new, follows (MAssign k xt t) (If c body orelse :: rest) new /\
    forall W (P : program W), boolean (py P) c \/ has_negation t -> forall w, block P (If c body orelse :: rest) w = block P new w.
Proof. exact assign_value. Qed.
Theorem C42_expression_value_partial : forall f c a b k t, fine c = true -> visit_ifexp f c a b = Ok (Some (MExpr k t)) -> (k = true -> is_ifexp c = false) ->
  exists e, reads t e /\ forall W (P : python W), boolean P c \/ has_negation t -> forall w, eval P (IfExp c a b) w = eval P e w.
Proof. exact expr_value. Qed.
Theorem C42_value_refuted : exists c body orelse t new,
  fine_stmt (If c body orelse) = true /\
  basic_checks 5 c body orelse None None [] = Ok (Some (MReturn false t)) /\
  follows (MReturn false t) [If c body orelse] new /\ ~ same_block [If c body orelse] new.
Proof. exact value_refuted. Qed.

(** C43, except for conditional expressions as conditions: the merged if statements do the same. *)
Theorem C43_pass_same : forall f c body orelse prev pb rest t,
  fine_stmt (If c body orelse) = true ->
  basic_checks f c body orelse prev (hd_error rest) pb = Ok (Some (MPass t)) ->
  exists new, follows (MPass t) (If c body orelse :: rest) new /\ same_block (If c body orelse :: rest) new.
Proof. exact pass_same. Qed.
Example ex_pass : basic_checks 5 ex_or [Pass] [OtherStmt 1; OtherStmt 2] None None [] = Ok (Some (MPass [TNegOpen; TLP; TName "d"; TOr; TName "e"; TRP; TNegClose])).
Proof. reflexivity. Qed.
Theorem C43_nested_same_partial : forall f c body orelse prev pb rest t,
  fine_stmt (If c body orelse) = true ->
  basic_checks f c body orelse prev (hd_error rest) pb = Ok (Some (MNested t)) ->
  is_ifexp c = false -> (forall c2 b2 o2, body = [If c2 b2 o2] -> is_ifexp c2 = false) ->
  exists new, follows (MNested t) (If c body orelse :: rest) new /\ same_block (If c body orelse :: rest) new.
Proof. exact nested_same. Qed.
Example ex_nested : exists t, basic_checks 5 ex_or [If ex_cond [OtherStmt 1] []] [] None None [] = Ok (Some (MNested t)) /\ fine_stmt (If ex_or [If ex_cond [OtherStmt 1] []] []) = true.
Proof. eexists. split; reflexivity. Qed.
Theorem C43_sequential_same_partial : forall f c body orelse prev pb rest t,
  fine_stmt (If c body orelse) = true -> forallb fine_stmt rest = true ->
  basic_checks f c body orelse prev (hd_error rest) pb = Ok (Some (MSeq t)) ->
  is_ifexp c = false -> (forall c2 b2 o2 rest', rest = If c2 b2 o2 :: rest' -> is_ifexp c2 = false) ->
  exists new, follows (MSeq t) (If c body orelse :: rest) new /\ same_block (If c body orelse :: rest) new.
Proof. exact seq_same. Qed.
Example ex_seq : exists t, basic_checks 5 (n "a") [Return (Some ex_or)] [] None (Some (If (n "b") [Return (Some ex_or)] [])) [] = Ok (Some (MSeq t)).
Proof. eexists. reflexivity. Qed.
Theorem C43_nested_refuted : exists c body t new,
  fine_stmt (If c body []) = true /\
  basic_checks 5 c body [] None None [] = Ok (Some (MNested t)) /\
  follows (MNested t) [If c body []] new /\ ~ same_block [If c body []] new.
Proof. exact nested_refuted. Qed.
Theorem C43_sequential_refuted : exists c body next t new,
  fine_stmt (If c body []) = true /\ fine_stmt next = true /\
  basic_checks 5 c body [] None (Some next) [] = Ok (Some (MSeq t)) /\
  follows (MSeq t) [If c body []; next] new /\ ~ same_block [If c body []; next] new.
Proof. exact seq_refuted. Qed.

(** C81: the checks of an if statement end, without an exception, unless a branch is a [del] or a bare annotation. *)
Theorem C81_checks_end_partial : forall c body orelse prev next pb,
  forallb plain_branch (body ++ orelse) = true -> exists r, basic_checks 5 c body orelse prev next pb = Ok r.
Proof. exact basic_checks_ends. Qed.
Example ex_plain : forallb plain_branch [Return (Some ex_or); Assign [n "x"] ex_cond] = true.
Proof. reflexivity. Qed.
Theorem C81_endless_loop_refuted : exists c body orelse, fine_stmt (If c body orelse) = true /\
  forall fuel, basic_checks fuel c body orelse None None [] = Raise (OtherError "out of fuel").
Proof. exact hang. Qed.
Theorem C81_crash_refuted : exists c body orelse, fine_stmt (If c body orelse) = true /\
  forall fuel, basic_checks fuel c body orelse None None [] = Raise AttributeError.
Proof. exact crash. Qed.

Print Assumptions node_text_read_back.
Print Assumptions text_read_one_way.
Print Assumptions C41_return_truth_partial.
Print Assumptions C41_assign_truth_partial.
Print Assumptions C41_expression_truth_partial.
Print Assumptions C41_conditional_value_refuted.
Print Assumptions C41_augmented_assignment_refuted.
Print Assumptions C42_return_value_partial.
Print Assumptions C42_assign_value_partial.
Print Assumptions C42_expression_value_partial.
Print Assumptions C42_value_refuted.
Print Assumptions C43_pass_same.
Print Assumptions C43_nested_same_partial.
Print Assumptions C43_sequential_same_partial.
Print Assumptions C43_nested_refuted.
Print Assumptions C43_sequential_refuted.
Print Assumptions C81_checks_end_partial.
Print Assumptions C81_endless_loop_refuted.
Print Assumptions C81_crash_refuted.
