(** What constant folding and the detection of negations promise, in terms of Python's evaluation. *)
From Coq Require Import String List Bool Arith NArith ZArith.
From Verif Require Import Base PyModel PySpec FoldModel.
Import ListNotations.
Local Open Scope string_scope.
Local Open Scope list_scope.

Definition constant (v : value) : Prop := match v with VObj _ => False | _ => True end.
(** The operators of the program do on constants what those of the linter do. *)
Record agrees {W} (P : python W) (H : host) : Prop := {
  agree_unary : forall o v w, constant v -> unary_op P o v w = (w, host_unary H o v);
  agree_binary : forall o v u w, constant v -> constant u -> binary_op P o v u w = (w, host_binary H o v u);
  agree_compare : forall c v u w, constant v -> constant u -> compare_op P c v u w = (w, host_compare H c v u)
}.
(** Operators give constants for constants. *)
Record closed_host (H : host) : Prop := {
  closed_unary : forall o v r, host_unary H o v = Ok r -> constant r;
  closed_binary : forall o v u r, host_binary H o v u = Ok r -> constant r;
  closed_compare : forall c v u r, host_compare H c v u = Ok r -> constant r
}.
(** Operators on floats, strings and None fail with TypeError or ValueError only. *)
Record tame_host (H : host) : Prop := {
  tame_unary : forall o v x, host_unary H o v = Raise x -> x = TypeError \/ x = ValueError;
  tame_binary : forall o v u x, host_binary H o v u = Raise x -> x = TypeError \/ x = ValueError;
  tame_compare : forall c v u x, host_compare H c v u = Raise x -> x = TypeError \/ x = ValueError
}.
(** An expression without powers. *)
Fixpoint no_power (e : expr) : bool :=
  match e with
  | Name _ | Const _ | Other _ => true
  | Unary _ a | Attribute a _ => no_power a
  | Binary o a b => (match o with Pow => false | _ => true end) && no_power a && no_power b
  | Subscript a b => no_power a && no_power b
  | BoolOp _ vs => forallb no_power vs
  | Compare a ops => no_power a && forallb (fun cv => no_power (snd cv)) ops
  | Call a args => no_power a && forallb no_power args
  | IfExp c a b => no_power c && no_power a && no_power b
  end.

Section Conditions.
  Context {W : Type}.
  Variable P : python W.
  Variable w : W.

  (** In state [w], [e] gives [v] without effects. *)
  Definition gives (e : expr) (v : value) : Prop := eval P e w = (w, Ok v).
  (** An expression that is not itself a condition. *)
  Definition operand (e : expr) : bool := match e with Unary Not _ | BoolOp _ _ | Compare _ _ => false | _ => true end.
  (** A comparison of integers, or one with in, not in, is, is not, where "not" has its usual meaning. *)
  Definition decided (c : cmpop) (v u : value) : Prop :=
    let two pos neg := exists r, compare P pos v u w = (w, Ok (VBool r)) /\ compare P neg v u w = (w, Ok (VBool (negb r))) in
    match c with
    | Is | IsNot => two Is IsNot
    | In | NotIn => two In NotIn
    | _ => exists x y, v = VInt x /\ u = VInt y
    end.
  (** A condition without effects: comparisons have one operator and compare integers. *)
  Fixpoint calm (e : expr) : Prop :=
    match e with
    | Unary Not a => calm a
    | BoolOp _ vs => (fix all (l : list expr) : Prop := match l with [] => True | x :: l => calm x /\ all l end) vs
    | Compare a ops =>
        match ops with
        | [(c, b)] => operand a = true /\ operand b = true /\ exists v u, gives a v /\ gives b u /\ decided c v u
        | _ => False
        end
    | e => exists v b, gives e v /\ truth P v w = (w, Ok b)
    end.
  (** The comparisons x % y == v and x % y != v in a condition, as (operator, x, y, v). *)
  Definition remainder (c : cmpop) (a b : expr) : list (cmpop * expr * expr * expr) :=
    match c, a with Eq, Binary Mod x y | Ne, Binary Mod x y => [(c, x, y, b)] | _, _ => [] end.
  Fixpoint remainders (e : expr) : list (cmpop * expr * expr * expr) :=
    match e with
    | Unary Not a => remainders a
    | BoolOp _ vs => flat_map remainders vs
    | Compare a [(c, b)] => remainder c a b ++ remainder c b a
    | _ => []
    end.
  Definition zero_or_one (e : expr) : Prop := e = Const (CInt 0) \/ e = Const (CInt 1).
  (** Remainders of integers are compared with 0 or 1, or with the same expression. *)
  Definition paired (a b : expr) : Prop :=
    forall c x y v c' x' y' v', List.In (c, x, y, v) (remainders a) -> List.In (c', x', y', v') (remainders b) ->
      (v = v' \/ (zero_or_one v /\ zero_or_one v')) /\
      exists i j i' j', gives x (VInt i) /\ gives y (VInt j) /\ gives x' (VInt i') /\ gives y' (VInt j').
End Conditions.

(** Exactly one of two conditions holds in [w]. *)
Definition opposite {W} (P : python W) (w : W) (a b : expr) : Prop :=
  exists t, test P a w = (w, Ok t) /\ test P b w = (w, Ok (negb t)).
