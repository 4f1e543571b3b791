(** The properties of the messages that merge comparisons. *)
From Coq Require Import String Ascii List Bool Arith NArith ZArith Lia.
From Verif Require Import Base PyModel PySpec PyProofs IfModel IfSpec IfProofs FoldModel FoldSpec FoldProofs FoldExamples TypeModel LocalModel LocalSpec TextProofs LocalProofs LetterProofs RangeProofs LocalExamples MergeModel MergeSpec MergeProofs BalanceProofs RemainderProofs MergeExamples.
Import ListNotations.
Local Open Scope string_scope.
Local Open Scope list_scope.

(** C35: the quoted part consists of two or more operands, and the suggested comparison with "max" or "min" has the truth value of
    these operands joined by the and/or, if the operands compared by order are integers that need no parentheses. *)
Theorem C35_ints_partial : forall W (P : python W) w H, closed_host H -> agrees P H -> forall I o vs ms q t,
  merge_checks I H o vs = Ok (ms, Some (q, t)) -> Forall (fun v => fine v = true) vs -> int_comparisons P w vs -> has_max_min P w -> replaces P w o vs q t.
Proof. intros W P w H CH AG. exact (max_min_ok P w H CH AG). Qed.
(** x > a or b < x or c or x >= max(d, 2) or x > 7, which becomes x > min(a, b, 7); in a state where it is true *)
Definition many_comparisons : list expr :=
  [Compare (var "x") [(Gt, var "a")]; less (var "b") (var "x"); var "c"; Compare (var "x") [(Ge, Call (Name "max") [var "d"; num 2])]; Compare (var "x") [(Gt, num 7)]].
Example ex_ints :
  let env := [("x", VInt 5); ("a", VInt 9); ("b", VInt 4); ("c", VInt 0); ("d", VInt 1)] in
  merge_checks all_pure rich Or many_comparisons = Ok ([],
    Some ([TName "x"; TRel Gt; TName "a"; TOr; TName "b"; TRel Lt; TName "x"; TOr; TName "x"; TRel Gt; TConst (CInt 7)],
      [TName "min"; TLP; TName "a"; TComma; TName "b"; TComma; TConst (CInt 7); TRP; TRel Lt; TName "x"])) /\
  Forall (fun v => fine v = true) many_comparisons /\ int_comparisons (program env) tt many_comparisons /\ has_max_min (program env) tt /\
  test (program env) (BoolOp Or many_comparisons) tt = (tt, Ok true).
Proof.
  cbv zeta. refine (conj eq_refl (conj _ (conj _ (conj _ eq_refl)))).
  - repeat constructor.
  - assert (V : forall env x z, String.eqb x "max" = false -> String.eqb x "min" = false -> rich_name env x = Ok (VInt z) -> int_operand (program env) tt (var x)).
    { intros env x z NX NN L. split; [reflexivity|]. split; [exists z, (VInt z); split; [unfold gives; cbn [eval var program lookup]; rewrite L; reflexivity|reflexivity]|]. intros f rest _ K. cbn in K. discriminate. }
    intros a c b IN _. cbn [many_comparisons List.In] in IN.
    destruct IN as [E|[E|[E|[E|[E|[]]]]]]; try discriminate E; unfold less in E; injection E as <- <- <-; split; try (eapply V; reflexivity).
    + split; [reflexivity|]. split; [exists 2%Z, (VInt 2); split; reflexivity|]. intros f rest _ K. cbn in K. injection K as <- _. eexists. split; [reflexivity|]. split; [cbn; lia|].
      constructor; [exists 1%Z, (VInt 1); split; reflexivity|]. constructor; [exists 2%Z, (VInt 2); split; reflexivity|constructor].
    + split; [reflexivity|]. split; [exists 7%Z, (VInt 7); split; reflexivity|]. intros f rest _ K. discriminate K.
  - apply program_max_min; reflexivity.
Qed.
(** i < len(xs) and i < xs[i], which becomes i < min(len(xs), xs[i]) *)
Theorem C35_guard_refuted : exists env ms q t s, has_max_min (program env) tt /\ closed_host rich /\ agrees (program env) rich /\ Forall (fun v => fine v = true) guarded /\
  merge_checks all_pure rich And guarded = Ok (ms, Some (q, t)) /\ reads q (BoolOp And guarded) /\ reads t s /\
  test (program env) (BoolOp And guarded) tt = (tt, Ok false) /\ test (program env) s tt = (tt, Raise IndexError).
Proof. exact guard_refuted. Qed.
(** (a or b) < c and (a or b) < d, which becomes a or b < min(c, d) *)
Theorem C35_brackets_refuted : exists env ms q t s, has_max_min (program env) tt /\ closed_host rich /\ agrees (program env) rich /\ Forall (fun v => fine v = true) bracketed /\
  merge_checks all_pure rich And bracketed = Ok (ms, Some (q, t)) /\ reads t s /\ (forall x, List.In x ["a"; "b"; "c"; "d"] -> an_int (program env) tt (var x)) /\
  test (program env) (BoolOp And bracketed) tt = (tt, Ok false) /\ test (program env) s tt = (tt, Ok true).
Proof. exact bracketed_refuted. Qed.
(** a < b and a < c for sets, which becomes a < min(b, c) *)
Theorem C35_sets_refuted : exists env ms q t s, has_max_min (program env) tt /\ closed_host rich /\ agrees (program env) rich /\ Forall (fun v => fine v = true) two_less /\
  merge_checks all_pure rich And two_less = Ok (ms, Some (q, t)) /\ reads q (BoolOp And two_less) /\ reads t s /\
  test (program env) (BoolOp And two_less) tt = (tt, Ok false) /\ test (program env) s tt = (tt, Ok true).
Proof. exact sets_refuted. Qed.
(** y < max(a, b) + max(c, d) or y < e, which becomes y < max(a, b) + max(c, d, e) *)
Theorem C35_maxima_refuted : exists env ms q t s, has_max_min (program env) tt /\ closed_host rich /\ agrees (program env) rich /\ Forall (fun v => fine v = true) two_maxima /\
  merge_checks all_pure rich Or two_maxima = Ok (ms, Some (q, t)) /\ reads q (BoolOp Or two_maxima) /\ reads t s /\ (forall x, List.In x ["a"; "b"; "c"; "d"; "e"; "y"] -> an_int (program env) tt (var x)) /\
  test (program env) (BoolOp Or two_maxima) tt = (tt, Ok false) /\ test (program env) s tt = (tt, Ok true).
Proof. exact two_maxima_refuted. Qed.
(** y < max(xs) or y < e, which becomes y < max(xs, e) *)
Theorem C35_iterable_refuted : exists env ms q t s, has_max_min (program env) tt /\ closed_host rich /\ agrees (program env) rich /\ Forall (fun v => fine v = true) one_maximum /\
  merge_checks all_pure rich Or one_maximum = Ok (ms, Some (q, t)) /\ reads q (BoolOp Or one_maximum) /\ reads t s /\
  an_int (program env) tt (Call (Name "max") [var "xs"]) /\ an_int (program env) tt (var "y") /\ an_int (program env) tt (var "e") /\
  test (program env) (BoolOp Or one_maximum) tt = (tt, Ok true) /\ test (program env) s tt = (tt, Raise TypeError).
Proof. exact one_maximum_refuted. Qed.

(** C36: the quoted text is balanced; the suggested text is if operands of comparisons that start with "max(" or "min(" are calls. *)
Theorem C36_balanced_partial : forall H I o vs ms q t, merge_checks I H o vs = Ok (ms, Some (q, t)) -> balanced q /\ (sides_one_call vs -> balanced t).
Proof. exact max_min_balanced. Qed.
(** y < max(a, b) or y < f(e), which becomes y < max(a, b, f(e)) *)
Example ex_balanced : let vs := [less (var "y") (call2 "max" "a" "b"); less (var "y") (Call (Name "f") [var "e"])] in
  merge_checks all_pure rich Or vs = Ok ([], Some (as_string (BoolOp Or vs),
    less_call [TName "y"] "max" [[TName "a"]; [TName "b"]; as_string (Call (Name "f") [var "e"])])) /\ sides_one_call vs.
Proof.
  cbv zeta. split; [reflexivity|]. intros a c b [E|[E|[]]]; injection E as <- <- <-; split; intros f rest F K; cbn in K; try discriminate K; injection K as <- _; try (eexists; reflexivity).
Qed.
(** y < max(a, b) + c or y < e, which becomes y < max(a, b) + , e) *)
Theorem C36_refuted : exists ms q t, Forall (fun v => fine v = true) maximum_plus /\ Forall (fun v => balanced (as_string v)) maximum_plus /\
  merge_checks all_pure rich Or maximum_plus = Ok (ms, Some (q, t)) /\ ~ balanced t.
Proof. exact unbalanced_refuted. Qed.

(** C37: the quoted part consists of two or more operands, and the suggested comparison of remainders has the truth value of these
    operands joined by or, if the dividends are integers. *)
Theorem C37_ints_partial : forall W (P : python W) w H, closed_host H -> agrees P H -> forall I o vs ms m q t,
  merge_checks I H o vs = Ok (ms, m) -> List.In (q, t) ms -> Forall (fun v => fine v = true) vs -> Forall (an_int P w) (flat_map dividends vs) ->
  o = Or /\ replaces P w Or vs q t.
Proof. intros W P w H CH AG. exact (remainders_ok P w H CH AG). Qed.
Definition six_cases : list expr :=
  [both (rem "x" 3 Eq 1) (Compare (num 1) [(Eq, Binary Mod (var "y") (num 3))]); both (rem "y" 3 Eq 0) (rem "x" 3 Eq 0); var "z"; both (rem "x" 3 Eq 2) (rem "y" 3 Eq 2);
   both (rem "x" 2 Ne 0) (rem "y" 2 Eq 0); both (rem "x" 2 Eq 0) (rem "y" 2 Ne 0)].
Example ex_remainders : let env := [("x", VInt (-2)); ("y", VInt 7); ("z", VInt 0)] in exists q q',
  merge_checks all_pure rich Or six_cases = Ok ([(q, as_string (Compare (Binary Mod (var "x") (num 3)) [(Eq, Binary Mod (var "y") (num 3))]));
    (q', as_string (Compare (Binary Mod (var "x") (num 2)) [(Ne, Binary Mod (var "y") (num 2))]))], None) /\
  Forall (fun v => fine v = true) six_cases /\ Forall (an_int (program env) tt) (flat_map dividends six_cases) /\ test (program env) (BoolOp Or six_cases) tt = (tt, Ok true).
Proof.
  cbv zeta. eexists _, _. refine (conj eq_refl (conj _ (conj _ eq_refl))).
  - repeat constructor.
  - repeat constructor; first [exists (-2)%Z, (VInt (-2)); split; reflexivity|exists 7%Z, (VInt 7); split; reflexivity].
Qed.
(** x % 2 == 0 and y % 2 == 0 or ..., which becomes True, for x = 0.5 *)
Theorem C37_float_refuted : exists env q, closed_host rich /\ agrees (program env) rich /\ Forall (fun v => fine v = true) four_cases /\
  merge_checks all_pure rich Or four_cases = Ok ([(q, [TConst (CBool true)])], None) /\ reads q (BoolOp Or four_cases) /\ gives (program env) tt (var "x") (VFloat "0.5") /\
  test (program env) (BoolOp Or four_cases) tt = (tt, Ok false).
Proof. exact half_refuted. Qed.

Print Assumptions C35_ints_partial.
Print Assumptions C35_guard_refuted.
Print Assumptions C35_brackets_refuted.
Print Assumptions C35_sets_refuted.
Print Assumptions C35_maxima_refuted.
Print Assumptions C35_iterable_refuted.
Print Assumptions C36_balanced_partial.
Print Assumptions C36_refuted.
Print Assumptions C37_ints_partial.
Print Assumptions C37_float_refuted.
