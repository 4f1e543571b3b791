(** Properties of constant folding and of the detection of negations. *)
From Coq Require Import String List Bool Arith NArith ZArith.
From Verif Require Import Base PyModel PySpec PyProofs IfModel IfSpec IfProofs FoldModel FoldSpec FoldProofs FoldExamples.
Import ListNotations.
Local Open Scope string_scope.
Local Open Scope list_scope.

(** C53: the value of a folded expression is the one Python computes, in every state, without effects. *)
Theorem C53_folded : forall H, closed_host H -> forall e v, get_const_value H e = Ok v -> v <> VNone ->
  forall W (P : python W), agrees P H -> forall w, eval P e w = (w, Ok v).
Proof. exact folded_value. Qed.
(** (2 + 3) * -4 < 7 and not 0 *)
Example ex_folded : get_const_value ints (BoolOp And [Compare (Binary Mul (Binary Add (num 2) (num 3)) (Unary Neg (num 4))) [(Lt, num 7)]; Unary Not (num 0)]) = Ok (VBool true).
Proof. reflexivity. Qed.

(** C54: folding never raises, unless the expression has a power; operators on values that are not integers may only raise TypeError or ValueError. *)
Theorem C54_ends_partial : forall H, tame_host H -> forall e, well_formed e = true -> no_power e = true -> exists v, get_const_value H e = Ok v.
Proof. exact folding_ends. Qed.
Example ex_ends : no_power (Binary Div (num 1) (Binary Sub (num 2) (num 2))) = true /\ get_const_value ints (Binary Div (num 1) (Binary Sub (num 2) (num 2))) = Ok VNone /\ tame_host ints.
Proof. split; [reflexivity|]. split; [reflexivity|apply ints_tame]. Qed.
Theorem C54_power_refuted : exists e, well_formed e = true /\ forall H, get_const_value H e = Raise ZeroDivisionError.
Proof. exact power_refuted. Qed.

(** C52: of a condition and its detected negation exactly one holds, for conditions without effects whose comparisons
    have one operator and compare integers (or use in, is), and whose remainders are compared with 0 or 1. *)
Theorem C52_opposite_partial : forall H, closed_host H -> forall W (P : python W), agrees P H -> forall w a b,
  is_negation H a b false = Ok true -> fine a = true -> fine b = true -> calm P w a -> calm P w b -> paired P w a b -> opposite P w a b.
Proof. intros H CH W P AG w. exact (fun a b => negation_turned H CH P AG w a b false). Qed.
(** x % 2 == 0 or not y < z, and x % 2 == 1 and y < z *)
Example ex_negation :
  let a := BoolOp Or [rem2 Eq 0; Unary Not (Compare (var "y") [(Lt, var "z")])] in
  let b := BoolOp And [rem2 Eq 1; Compare (var "y") [(Lt, var "z")]] in
  let P := vars [("x", 3); ("y", 1); ("z", 2)]%Z in
  is_negation ints a b false = Ok true /\ fine a = true /\ fine b = true /\ calm P tt a /\ calm P tt b /\ paired P tt a b.
Proof.
  cbn zeta. split; [reflexivity|]. split; [reflexivity|]. split; [reflexivity|].
  assert (C : forall n, operand (Binary Mod (var "x") (num 2)) = true /\ operand (num n) = true /\
    exists v u, gives (vars [("x", 3); ("y", 1); ("z", 2)]%Z) tt (Binary Mod (var "x") (num 2)) v /\ gives (vars [("x", 3); ("y", 1); ("z", 2)]%Z) tt (num n) u /\ exists i j, v = VInt i /\ u = VInt j).
  { intro n. split; [reflexivity|]. split; [reflexivity|]. exists (VInt 1), (VInt (Z.of_N n)). repeat split; eauto. }
  assert (D : operand (var "y") = true /\ operand (var "z") = true /\
    exists v u, gives (vars [("x", 3); ("y", 1); ("z", 2)]%Z) tt (var "y") v /\ gives (vars [("x", 3); ("y", 1); ("z", 2)]%Z) tt (var "z") u /\ exists i j, v = VInt i /\ u = VInt j).
  { split; [reflexivity|]. split; [reflexivity|]. exists (VInt 1), (VInt 2). repeat split; eauto. }
  split; [exact (conj (C 0%N) (conj D I))|]. split; [exact (conj (C 1%N) (conj D I))|].
  intros c x y v c' x' y' v' [A|[]] [B|[]]. injection A as <- <- <- <-. injection B as <- <- <- <-. split.
  - right. split; [left|right]; reflexivity.
  - exists 3%Z, 2%Z, 3%Z, 2%Z. repeat split.
Qed.
(** C52: a < b < c and a >= b >= c can both be false. *)
Theorem C52_chain_refuted : exists H P, closed_host H /\ agrees P H /\ fine (Compare (Name "a") [(Lt, Name "b"); (Lt, Name "c")]) = true /\ fine (Compare (Name "a") [(Ge, Name "b"); (Ge, Name "c")]) = true /\
  is_negation H (Compare (Name "a") [(Lt, Name "b"); (Lt, Name "c")]) (Compare (Name "a") [(Ge, Name "b"); (Ge, Name "c")]) false = Ok true /\ test P (Compare (Name "a") [(Lt, Name "b"); (Lt, Name "c")]) tt = (tt, Ok false) /\ test P (Compare (Name "a") [(Ge, Name "b"); (Ge, Name "c")]) tt = (tt, Ok false).
Proof. exact chain_refuted. Qed.
(** C52: x % 2 == 0 and x % 2 == 5 can both be false. *)
Theorem C52_remainder_refuted : exists H P, closed_host H /\ agrees P H /\ fine (Compare (Binary Mod (Name "x") (Const (CInt 2))) [(Eq, Const (CInt 0))]) = true /\ fine (Compare (Binary Mod (Name "x") (Const (CInt 2))) [(Eq, Const (CInt 5))]) = true /\
  is_negation H (Compare (Binary Mod (Name "x") (Const (CInt 2))) [(Eq, Const (CInt 0))]) (Compare (Binary Mod (Name "x") (Const (CInt 2))) [(Eq, Const (CInt 5))]) false = Ok true /\ test P (Compare (Binary Mod (Name "x") (Const (CInt 2))) [(Eq, Const (CInt 0))]) tt = (tt, Ok false) /\ test P (Compare (Binary Mod (Name "x") (Const (CInt 2))) [(Eq, Const (CInt 5))]) tt = (tt, Ok false).
Proof. exact remainder_refuted. Qed.
(** C52: (not not a) == b and not a == b can both be false. *)
Theorem C52_operand_refuted : exists H P, closed_host H /\ agrees P H /\ fine (Compare (Unary Not (Unary Not (Name "a"))) [(Eq, Name "b")]) = true /\ fine (Unary Not (Compare (Name "a") [(Eq, Name "b")])) = true /\
  is_negation H (Compare (Unary Not (Unary Not (Name "a"))) [(Eq, Name "b")]) (Unary Not (Compare (Name "a") [(Eq, Name "b")])) false = Ok true /\ test P (Compare (Unary Not (Unary Not (Name "a"))) [(Eq, Name "b")]) tt = (tt, Ok false) /\ test P (Unary Not (Compare (Name "a") [(Eq, Name "b")])) tt = (tt, Ok false).
Proof. exact operand_refuted. Qed.
(** C52: x < y and x >= y can both be false, for a float that is not a number. *)
Theorem C52_nan_refuted : exists H P, closed_host H /\ agrees P H /\ fine (Compare (Name "x") [(Lt, Name "y")]) = true /\ fine (Compare (Name "x") [(Ge, Name "y")]) = true /\
  is_negation H (Compare (Name "x") [(Lt, Name "y")]) (Compare (Name "x") [(Ge, Name "y")]) false = Ok true /\ test P (Compare (Name "x") [(Lt, Name "y")]) tt = (tt, Ok false) /\ test P (Compare (Name "x") [(Ge, Name "y")]) tt = (tt, Ok false).
Proof. exact nan_refuted. Qed.

Print Assumptions C53_folded.
Print Assumptions C54_ends_partial.
Print Assumptions C54_power_refuted.
Print Assumptions C52_opposite_partial.
Print Assumptions C52_chain_refuted.
Print Assumptions C52_remainder_refuted.
Print Assumptions C52_operand_refuted.
Print Assumptions C52_nan_refuted.
