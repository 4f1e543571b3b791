(** What sets of types and type guesses promise. *)
From Coq Require Import String List Bool Arith NArith ZArith.
From Verif Require Import Base PyModel PySpec TypeModel.
Import ListNotations.
Local Open Scope string_scope.
Local Open Scope list_scope.

(** The values of the class that can be made with its operations. *)
Inductive made : types -> Prop :=
| made_none : made no_types
| made_only : forall t, made (only t)
| made_join : forall a b, made a -> made b -> made (join a b)
| made_meet : forall a b, made a -> made b -> made (meet a b).

(** The type of a value; the types of other objects are given. *)
Definition type_of (obj : nat -> option ty) (v : value) : option ty :=
  match v with
  | VNone => None
  | VBool _ => Some TBool
  | VInt _ => Some TInt
  | VFloat _ => Some TFloat
  | VStr _ => Some TString
  | VObj n => obj n
  end.
(** No object other than the integers is one. *)
Definition not_numbers (obj : nat -> option ty) : Prop := forall n, obj n <> Some TInt.
(** Every value of the expression has a type among [ts]. *)
Definition sound {W} (P : python W) (obj : nat -> option ty) (e : expr) (ts : types) : Prop :=
  forall w w' v, eval P e w = (w', Ok v) -> exists t, type_of obj v = Some t /\ has ts t = true.

(** Operators that give an integer for two integers. *)
Definition int_result (o : binop) : bool :=
  match o with Div | Pow | MatMul => false | _ => true end.
(** Comparisons by order. *)
Definition by_order (c : cmpop) : bool := match c with Lt | Le | Gt | Ge | Eq | Ne => true | _ => false end.
(** Names, calls and so on. *)
Definition is_leaf (e : expr) : bool :=
  match e with Name _ | Call _ _ | Attribute _ _ | Subscript _ _ | Other _ => true | _ => false end.

Section Typed.
  Context {W : Type}.
  Variable P : python W.
  Variable obj : nat -> option ty.
  Variable A : analysis.
  (** All values of the expression have type [t] and the guess, if there is one, is [t]. *)
  Definition trusted (e : expr) (t : ty) : Prop :=
    (forall w w' v, eval P e w = (w', Ok v) -> type_of obj v = Some t) /\
    (forall fuel vis g, visit_type fuel A vis e = Ok g -> snd g = no_types \/ snd g = only t).
  (** Expressions of integer arithmetic, comparisons and constants over trusted leaves. *)
  Inductive typed : expr -> ty -> Prop :=
  | t_leaf : forall e t, is_leaf e = true -> trusted e t -> typed e t
  | t_int : forall n, typed (Const (CInt n)) TInt
  | t_bool : forall b, typed (Const (CBool b)) TBool
  | t_float : forall r, typed (Const (CFloat r)) TFloat
  | t_str : forall s, typed (Const (CStr s)) TString
  | t_arith : forall o a b, int_result o = true -> typed a TInt -> typed b TInt -> typed (Binary o a b) TInt
  | t_sign : forall o a, o <> Not -> typed a TInt -> typed (Unary o a) TInt
  | t_not : forall a, typed (Unary Not a) TBool
  | t_compare : forall a c b, by_order c = true -> typed a TInt -> typed b TInt -> typed (Compare a [(c, b)]) TBool
  | t_if : forall c a b t, typed a t -> typed b t -> typed (IfExp c a b) t.
End Typed.

(** All definitions of names have numbers in [ids]. *)
Definition numbered (A : analysis) (ids : list nat) : Prop := forall x n d, List.In (n, d) (defs A x) -> List.In n ids.
