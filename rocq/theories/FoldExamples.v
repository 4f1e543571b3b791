(** Witnesses and examples for constant folding and negations. *)
From Coq Require Import String List Bool Arith NArith ZArith Lia.
From Verif Require Import Base PyModel PySpec PyProofs IfModel IfSpec IfProofs FoldModel FoldSpec FoldProofs.
Import ListNotations.
Local Open Scope string_scope.
Local Open Scope list_scope.

(** Operators that only work on integers. *)
Definition ints : host := {| host_unary := fun _ _ => Raise TypeError; host_binary := fun _ _ _ => Raise TypeError; host_compare := fun _ _ _ => Raise TypeError |}.
(** A program with integer variables. *)
Definition vars (env : list (string * Z)) : python unit := {|
  lookup := fun x _ => match find (fun p => String.eqb (fst p) x) env with Some (_, z) => Ok (VInt z) | None => Raise (OtherError "NameError") end;
  opaque := fun _ w => (w, Raise TypeError);
  call := fun _ _ w => (w, Raise TypeError);
  attribute := fun _ _ w => (w, Raise TypeError);
  item := fun _ _ w => (w, Raise TypeError);
  unary_op := fun _ _ w => (w, Raise TypeError);
  binary_op := fun _ _ _ w => (w, Raise TypeError);
  compare_op := fun _ _ _ w => (w, Raise TypeError);
  obj_truth := fun _ _ => Ok true
|}.
Lemma ints_closed : closed_host ints.
Proof. split; intros; discriminate. Qed.
Lemma ints_tame : tame_host ints.
Proof. split; cbn; intros; left; congruence. Qed.
Lemma ints_agree env : agrees (vars env) ints.
Proof. split; reflexivity. Qed.

Definition num (n : N) : expr := Const (CInt n).
Definition var (x : string) : expr := Name x.
Definition rem2 (c : cmpop) (n : N) : expr := Compare (Binary Mod (var "x") (num 2)) [(c, num n)].

(** a < b < c and a >= b >= c *)
Lemma chain_refuted : exists H P, closed_host H /\ agrees P H /\ fine (Compare (Name "a") [(Lt, Name "b"); (Lt, Name "c")]) = true /\ fine (Compare (Name "a") [(Ge, Name "b"); (Ge, Name "c")]) = true /\
  is_negation H (Compare (Name "a") [(Lt, Name "b"); (Lt, Name "c")]) (Compare (Name "a") [(Ge, Name "b"); (Ge, Name "c")]) false = Ok true /\ test P (Compare (Name "a") [(Lt, Name "b"); (Lt, Name "c")]) tt = (tt, Ok false) /\ test P (Compare (Name "a") [(Ge, Name "b"); (Ge, Name "c")]) tt = (tt, Ok false).
Proof.
  exists ints, (vars [("a", 1); ("b", 2); ("c", 0)]%Z).
  split; [apply ints_closed|]. split; [apply ints_agree|]. repeat split; reflexivity.
Qed.
(** x % 2 == 0 and x % 2 == 5 *)
Lemma remainder_refuted : exists H P, closed_host H /\ agrees P H /\ fine (Compare (Binary Mod (Name "x") (Const (CInt 2))) [(Eq, Const (CInt 0))]) = true /\ fine (Compare (Binary Mod (Name "x") (Const (CInt 2))) [(Eq, Const (CInt 5))]) = true /\
  is_negation H (Compare (Binary Mod (Name "x") (Const (CInt 2))) [(Eq, Const (CInt 0))]) (Compare (Binary Mod (Name "x") (Const (CInt 2))) [(Eq, Const (CInt 5))]) false = Ok true /\ test P (Compare (Binary Mod (Name "x") (Const (CInt 2))) [(Eq, Const (CInt 0))]) tt = (tt, Ok false) /\ test P (Compare (Binary Mod (Name "x") (Const (CInt 2))) [(Eq, Const (CInt 5))]) tt = (tt, Ok false).
Proof.
  exists ints, (vars [("x", 3)]%Z).
  split; [apply ints_closed|]. split; [apply ints_agree|]. repeat split; reflexivity.
Qed.
(** (not not a) == b and not a == b *)
Lemma operand_refuted : exists H P, closed_host H /\ agrees P H /\ fine (Compare (Unary Not (Unary Not (Name "a"))) [(Eq, Name "b")]) = true /\ fine (Unary Not (Compare (Name "a") [(Eq, Name "b")])) = true /\
  is_negation H (Compare (Unary Not (Unary Not (Name "a"))) [(Eq, Name "b")]) (Unary Not (Compare (Name "a") [(Eq, Name "b")])) false = Ok true /\ test P (Compare (Unary Not (Unary Not (Name "a"))) [(Eq, Name "b")]) tt = (tt, Ok false) /\ test P (Unary Not (Compare (Name "a") [(Eq, Name "b")])) tt = (tt, Ok false).
Proof.
  exists ints, (vars [("a", 5); ("b", 5)]%Z).
  split; [apply ints_closed|]. split; [apply ints_agree|]. repeat split; reflexivity.
Qed.
(** A program where every comparison of the floats nan and 1.0 is false. *)
Definition nan_host : host := {| host_unary := fun _ _ => Raise TypeError; host_binary := fun _ _ _ => Raise TypeError;
  host_compare := fun c _ _ => match c with Lt | Le | Gt | Ge => Ok (VBool false) | _ => Raise TypeError end |}.
Definition nan : python unit := {|
  lookup := fun x _ => Ok (VFloat (if String.eqb x "x" then "nan" else "1.0"));
  opaque := fun _ w => (w, Raise TypeError);
  call := fun _ _ w => (w, Raise TypeError);
  attribute := fun _ _ w => (w, Raise TypeError);
  item := fun _ _ w => (w, Raise TypeError);
  unary_op := fun _ _ w => (w, Raise TypeError);
  binary_op := fun _ _ _ w => (w, Raise TypeError);
  compare_op := fun c v u w => (w, host_compare nan_host c v u);
  obj_truth := fun _ _ => Ok true
|}.
(** x < y and x >= y for a float that is not a number *)
Lemma nan_refuted : exists H P, closed_host H /\ agrees P H /\ fine (Compare (Name "x") [(Lt, Name "y")]) = true /\ fine (Compare (Name "x") [(Ge, Name "y")]) = true /\
  is_negation H (Compare (Name "x") [(Lt, Name "y")]) (Compare (Name "x") [(Ge, Name "y")]) false = Ok true /\ test P (Compare (Name "x") [(Lt, Name "y")]) tt = (tt, Ok false) /\ test P (Compare (Name "x") [(Ge, Name "y")]) tt = (tt, Ok false).
Proof.
  exists nan_host, nan.
  split; [split; cbn; try discriminate; intros [] ? ? ? E; inversion E; exact I|]. split; [split; reflexivity|]. repeat split; reflexivity.
Qed.

(** 0 ** -1 *)
Lemma power_refuted : exists e, well_formed e = true /\ forall H, get_const_value H e = Raise ZeroDivisionError.
Proof. exists (Binary Pow (num 0) (Unary Neg (num 1))). split; reflexivity. Qed.
