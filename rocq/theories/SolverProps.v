(** The properties of the translation of conditions for the solver and of the check for redundant operands. *)
From Coq Require Import String Ascii List Bool Arith NArith ZArith QArith Lia.
From Verif Require Import Base PyModel PySpec PyProofs IfModel IfSpec IfProofs FoldModel FoldSpec FoldProofs FoldExamples TypeModel LocalModel LocalSpec LocalProofs LocalExamples MergeSpec SolverModel SolverSpec SolverProofs RedundantProofs SortProofs SolverExamples.
Import ListNotations.
Local Open Scope string_scope.
Local Open Scope list_scope.
Local Open Scope nat_scope.

(** C62: in a state in which all numbers of a condition are integers, there are values for the variables of its translation, and for all
    such values the translation is true if Python evaluates the condition to a true value, and false if to a false value. *)
Theorem C62_ints_partial : forall H G, closed_host H -> forall W (P : python W) w, agrees P H -> has_abs P w -> forall e d z c,
  fine e = true -> whole P w e -> int_divisions P w e ->
  initialize H G true false true e [] = Ok (true, d) -> convert H d true e = Ok (Some z, c) ->
  (exists E, assigns E P w (numbers e)) /\ forall E, assigns E P w (numbers e) -> exists b, zeval E z = Some (ZB b) /\ test P e w = (w, Ok b).
Proof. intros H G CH W P w AG AB. exact (translation_right H G CH P w AG AB). Qed.
(** abs(x - 1) > 2 and not x % 3 == 2 or x // 2 *)
Definition mixed : expr :=
  BoolOp Or [BoolOp And [rel (Call (Name "abs") [Binary Sub (var "x") (num 1)]) Gt (num 2); Unary Not (rel (Binary Mod (var "x") (num 3)) Eq (num 2))]; Binary FloorDiv (var "x") (num 2)].
Definition five : python unit := with_abs [("x", VInt (-5))].
Lemma mixed_whole : whole five tt mixed.
Proof.
  unfold whole. cbn [mixed rel numbers flat_map app snd num var is_abs String.eqb Ascii.eqb Bool.eqb].
  repeat (constructor; [eexists; eexists; split; [reflexivity|reflexivity]|]). constructor.
Qed.
Lemma mixed_divisions : int_divisions five tt mixed.
Proof.
  cbn [mixed rel int_divisions map fold_right snd num var is_abs String.eqb Ascii.eqb Bool.eqb length].
  refine (conj (conj (conj (conj eq_refl (conj (conj Logic.I (conj Logic.I Logic.I)) Logic.I)) (conj Logic.I Logic.I)) (conj (conj (conj Logic.I (conj Logic.I Logic.I)) (conj Logic.I Logic.I)) Logic.I)) (conj (conj _ (conj Logic.I Logic.I)) Logic.I)).
  intros _ z (v & V & A). unfold gives in V. cbn in V. injection V as <-. injection A as <-. reflexivity.
Qed.
Example ex_translation : exists d z, closed_host floats /\ agrees five floats /\ has_abs five tt /\ fine mixed = true /\ whole five tt mixed /\ int_divisions five tt mixed /\
  initialize floats (typed "int") true false true mixed [] = Ok (true, d) /\ convert floats d true mixed = Ok (Some z, true) /\ test five mixed tt = (tt, Ok true).
Proof.
  eexists. eexists. refine (conj floats_closed (conj (floats_agree _) (conj (with_abs_ok [("x", VInt (-5))] eq_refl) (conj eq_refl (conj mixed_whole (conj mixed_divisions (conj _ (conj _ eq_refl)))))))); vm_compute; reflexivity.
Qed.
(** x // -2 == -1 for x = 3: Z3 rounds so that the remainder is not negative, Python rounds down. *)
Theorem C62_floor_refuted : exists d z c E, fine floor_case = true /\ whole (with_abs [("x", VInt 3)]) tt floor_case /\
  initialize floats (typed "int") true false true floor_case [] = Ok (true, d) /\ convert floats d true floor_case = Ok (Some z, c) /\
  assigns E (with_abs [("x", VInt 3)]) tt (numbers floor_case) /\
  zeval E z = Some (ZB true) /\ test (with_abs [("x", VInt 3)]) floor_case tt = (tt, Ok false).
Proof. exact translated_floor_refuted. Qed.
(** 0.1 + 0.2 == 0.3 *)
Theorem C62_decimal_refuted : exists d z c, fine decimal_case = true /\
  initialize floats (typed "int") true false true decimal_case [] = Ok (true, d) /\ convert floats d true decimal_case = Ok (Some z, c) /\
  (forall E, zeval E z = Some (ZB true)) /\ test (with_abs []) decimal_case tt = (tt, Ok false).
Proof. exact translated_decimal_refuted. Qed.

(** C38: for every solver that is right when it says that a condition cannot hold, and every state in which all numbers of the and/or are
    integers, each message is right: the condition always has the stated truth value, or the suggestion has its truth value (its value,
    if the and/or is not an operand of another condition). *)
Theorem C38_ints_partial : forall unsat text_length, sound unsat -> forall H G, closed_host H -> forall W (P : python W) w, agrees P H -> has_abs P w ->
  forall I boolop_parent bp e ms, fine e = true -> whole P w e -> int_divisions P w e ->
  check_boolop unsat text_length I H G boolop_parent bp e = Ok ms -> Forall (right P w bp) ms.
Proof. intros unsat tl SU H G CH W P w AG AB. exact (boolop_right unsat tl SU H G CH P w AG AB). Qed.
(** x > 3 and x > 1 and y, x > 3 and x > 1 *)
Definition three : expr := BoolOp And [rel (var "x") Gt (num 3); rel (var "x") Gt (num 1); var "y"].
Definition four : python unit := with_abs [("x", VInt 4); ("y", VInt 0)].
Example ex_redundant : sound tiny /\ fine three = true /\ whole four tt three /\ int_divisions four tt three /\
  check_boolop tiny (@length token) all_pure floats (typed "int") false true three = Ok [Redundant three [TName "x"; TRel Gt; TConst (CInt 3); TAnd; TName "y"]] /\
  test four three tt = (tt, Ok false).
Proof.
  refine (conj tiny_sound (conj eq_refl (conj _ (conj _ (conj _ eq_refl))))).
  - unfold whole. cbn [three rel numbers flat_map app snd num var]. repeat (constructor; [eexists; eexists; split; [reflexivity|reflexivity]|]). constructor.
  - cbn. tauto.
  - vm_compute. reflexivity.
Qed.
(** The same for comparisons on their own. *)
Theorem C38_compare_partial : forall unsat, sound unsat -> forall H G, closed_host H -> forall W (P : python W) w, agrees P H -> has_abs P w ->
  forall I boolop_parent e m, fine e = true -> whole P w e -> int_divisions P w e ->
  check_compare unsat I H G boolop_parent e = Ok (Some m) -> right P w true m.
Proof. intros unsat SU H G CH W P w AG AB. exact (compare_right unsat SU H G CH P w AG AB). Qed.
(** abs(-3) > 5 - 3 *)
Definition known : expr := rel (Call (Name "abs") [neg 3]) Gt (Binary Sub (num 5) (num 3)).
Example ex_always : fine known = true /\ whole four tt known /\ int_divisions four tt known /\
  check_compare tiny all_pure floats (typed "int") false known = Ok (Some (Always known true)) /\ test four known tt = (tt, Ok true).
Proof.
  refine (conj eq_refl (conj _ (conj _ (conj _ eq_refl)))).
  - unfold whole. cbn [known neg rel numbers flat_map app snd num var is_abs String.eqb Ascii.eqb Bool.eqb]. repeat (constructor; [eexists; eexists; split; [reflexivity|reflexivity]|]). constructor.
  - cbn. tauto.
  - vm_compute. reflexivity.
Qed.
(** x != 0 and 10 // x > 2 and x > 5, of which x != 0 is removed; for x = 0 *)
Theorem C38_guard_refuted : exists t e, fine guard_case = true /\ check_boolop tiny (@length token) all_pure floats (typed "int") false true guard_case = Ok [Redundant guard_case t] /\ reads t e /\
  test (with_abs [("x", VInt 0)]) guard_case tt = (tt, Ok false) /\ test (with_abs [("x", VInt 0)]) e tt = (tt, Raise ZeroDivisionError).
Proof. exact guarded_refuted. Qed.
(** 3 // -2 == -1 is said to be always true *)
Theorem C38_floor_refuted : fine constant_case = true /\ check_compare tiny all_pure floats (typed "int") false constant_case = Ok (Some (Always constant_case true)) /\
  test (with_abs []) constant_case tt = (tt, Ok false).
Proof. exact constant_refuted. Qed.
(** 0.1 + 0.2 == 0.3 is said to be always true *)
Theorem C38_decimal_refuted : fine decimal_case = true /\ check_compare tiny all_pure floats (typed "int") false decimal_case = Ok (Some (Always decimal_case true)) /\
  test (with_abs []) decimal_case tt = (tt, Ok false).
Proof. exact decimals_refuted. Qed.
(** x < y or x >= y is said to be always true; for x = nan *)
Theorem C38_nan_refuted : fine nan_case = true /\ check_boolop tiny (@length token) all_pure floats (typed "float") false true nan_case = Ok [Always nan_case true] /\
  test (with_abs [("x", VFloat "nan"); ("y", VFloat "1.0")]) nan_case tt = (tt, Ok false).
Proof. exact not_a_number_refuted. Qed.

(** C87: the checks end without an exception, whatever the solver answers and the types are guessed to be, on conditions without powers in
    which abs is called with sums, differences and products of variables and numbers. *)
Theorem C87_boolop_partial : forall H G unsat text_length, tame_host H -> numeric_host H -> forall I boolop_parent bp e,
  well_formed e = true -> no_power e = true -> plain_abs e = true -> exists ms, check_boolop unsat text_length I H G boolop_parent bp e = Ok ms.
Proof. intros H G u tl TH NH I p bp e A B C. exact (check_boolop_ends H G u tl TH NH I p bp e (conj A (conj B C))). Qed.
Theorem C87_compare_partial : forall H G unsat, tame_host H -> numeric_host H -> forall I boolop_parent e,
  well_formed e = true -> no_power e = true -> plain_abs e = true -> exists m, check_compare unsat I H G boolop_parent e = Ok m.
Proof. intros H G u TH NH I p e A B C. exact (check_compare_ends H G u TH NH I p e (conj A (conj B C))). Qed.
(** What is given to the solver is a condition for it, not a number, and no operator in it is applied to a wrong kind of operand. *)
Theorem C87_sorted_partial : forall H G, tame_host H -> numeric_host H -> forall e d z c,
  well_formed e = true -> no_power e = true -> plain_abs e = true ->
  initialize H G true false true e [] = Ok (true, d) -> convert H d true e = Ok (Some z, c) -> sort_of z = Some SBool.
Proof. intros H G TH NH e d z c A B C. exact (translated_sorted H G TH NH e d z c (conj A (conj B C))). Qed.
Example ex_no_crash : tame_host floats /\ numeric_host floats /\ well_formed mixed = true /\ no_power mixed = true /\ plain_abs mixed = true /\
  exists d, initialize floats (typed "int") true false true mixed [] = Ok (true, d) /\ length d = 1.
Proof.
  refine (conj floats_tame (conj floats_numeric (conj eq_refl (conj eq_refl (conj eq_refl _))))). eexists. split; [vm_compute; reflexivity|reflexivity].
Qed.
(** abs(x % 1) > 0 *)
Theorem C87_abs_refuted : forall unsat, check_compare unsat all_pure floats (typed "int") false (abs_case [Binary Mod (var "x") (num 1)]) = Raise TypeError.
Proof. exact abs_crash. Qed.
(** abs() > 0 *)
Theorem C87_empty_refuted : forall unsat, check_compare unsat all_pure floats (typed "int") false (abs_case []) = Raise IndexError.
Proof. exact abs_empty. Qed.

Print Assumptions C62_ints_partial.
Print Assumptions C62_floor_refuted.
Print Assumptions C62_decimal_refuted.
Print Assumptions C38_ints_partial.
Print Assumptions C38_compare_partial.
Print Assumptions C38_guard_refuted.
Print Assumptions C38_floor_refuted.
Print Assumptions C38_decimal_refuted.
Print Assumptions C38_nan_refuted.
Print Assumptions C87_boolop_partial.
Print Assumptions C87_compare_partial.
Print Assumptions C87_sorted_partial.
Print Assumptions C87_abs_refuted.
Print Assumptions C87_empty_refuted.
