(** Meaning of the conditions handled by CompareModel, written independently of the checker. *)
From Coq Require Import ZArith String List Bool.
From Verif Require Import CompareModel.
Import ListNotations.
Open Scope Z_scope.

(** Python's meaning of a comparison of integers. *)
Definition holds (c : cmp) (x k : Z) : Prop :=
  match c with Lt => x < k | Le => x <= k | Gt => x > k | Ge => x >= k end.

(** Python's meaning of the compared expression. *)
Fixpoint value (env : string -> Z) (e : expr) : Z :=
  match e with
  | EVar x => env x
  | EInt n => Z.of_nat n
  | EAbs e => Z.abs (value env e)
  | EAdd a b => value env a + value env b
  | ESub a b => value env a - value env b
  | EMul a b => value env a * value env b
  end.

(** Meaning of 'A op B'. *)
Definition comb (o : boolop) (A B : Prop) : Prop :=
  match o with And => A /\ B | Or => A \/ B end.

(** "x c1 k1 op x c2 k2 op ...". *)
Definition group_holds (o : boolop) (g : list (cmp * Z)) (x : Z) : Prop :=
  match o with
  | And => forall c k, In (c, k) g -> holds c x k
  | Or => exists c k, In (c, k) g /\ holds c x k
  end.

(** Meaning of the suggested condition. *)
Definition suggestion_holds (s : suggestion) (x : Z) : Prop :=
  match s with
  | SCmp c v => holds c x v
  | STwo c v And c' v' => holds c x v /\ holds c' x v'
  | STwo c v Or c' v' => holds c x v \/ holds c' x v'
  | SConst b => b = true
  | SEq v => x = v
  | SNe v => x <> v
  | SAbsCmp w c v => holds c (if w then Z.abs x else x) v
  end.

(** The compared expression is itself a call of abs. *)
Definition is_abs_call (e : expr) : bool := match e with EAbs _ => true | _ => false end.
