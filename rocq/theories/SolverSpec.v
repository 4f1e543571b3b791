(** What the terms of the solver mean, and what the check for redundant operands promises. *)
From Coq Require Import String Ascii List Bool Arith NArith ZArith QArith Qabs Qround.
From Verif Require Import Base PyModel PySpec IfModel IfSpec FoldModel FoldSpec LocalSpec MergeSpec SolverModel.
Import ListNotations.
Local Open Scope string_scope.
Local Open Scope list_scope.
Local Open Scope nat_scope.

(** ** Numbers *)
Definition digit (c : ascii) : option Z :=
  let n := nat_of_ascii c in if Nat.leb 48 n && Nat.leb n 57 then Some (Z.of_nat (n - 48)) else None.
(** The number written by digits, a point and digits, with [scale] once the point is seen. *)
Fixpoint decimal_digits (s : string) (acc : Q) (scale : option Q) : Q :=
  match s with
  | EmptyString => acc
  | String c s =>
      match digit c, scale with
      | Some k, None => decimal_digits s (acc * 10 + inject_Z k)%Q None
      | Some k, Some p => decimal_digits s (acc + inject_Z k * p)%Q (Some (p / 10)%Q)
      | None, None => decimal_digits s acc (Some (1 # 10)%Q)
      | None, Some _ => acc
      end
  end.
(** The number a float literal such as 0.25 writes down. *)
Definition decimal (s : string) : Q := decimal_digits s 0%Q None.
Definition number_of (v : value) : Q :=
  match v with VInt z => inject_Z z | VBool b => inject_Z (Z.b2z b) | VFloat r => decimal r | _ => 0%Q end.

(** ** Meaning of terms *)
(** The values of variables; a quotient by zero can be anything. *)
Record environment := { int_var : text -> Z; real_var : text -> Q; quot0 : Q -> Z; over0 : Q -> Q }.
Inductive zvalue := ZN (q : Q) | ZB (b : bool).
Definition zcompare (c : cmpop) (a b : Q) : option bool := decide c (negb (Qle_bool b a)) (Qeq_bool a b).
(** The quotient rounded so that the remainder is not negative. *)
Definition euclid (a n : Z) : Z := (if Z.ltb 0 n then a / n else - (a / - n))%Z.
Definition znumber (f : Q -> zvalue) (v : option zvalue) : option zvalue := match v with Some (ZN q) => Some (f q) | _ => None end.
Definition znumbers (f : Q -> Q -> option zvalue) (v w : option zvalue) : option zvalue :=
  match v, w with Some (ZN p), Some (ZN q) => f p q | _, _ => None end.
Definition ztruths (f : list bool -> bool) (l : list (option zvalue)) : option zvalue :=
  match fold_right (fun v r => match v, r with Some (ZB b), Some l => Some (b :: l) | _, _ => None end) (Some []) l with
  | Some l => Some (ZB (f l))
  | None => None
  end.
Fixpoint zeval (E : environment) (z : zexpr) : option zvalue :=
  match z with
  | ZVar k int => Some (ZN (if int then inject_Z (int_var E k) else real_var E k))
  | ZBool b => Some (ZB b)
  | ZInt z => Some (ZN (inject_Z z))
  | ZReal r => Some (ZN (decimal r))
  | ZAbs a => znumber (fun q => ZN (Qabs q)) (zeval E a)
  | ZNeg a => znumber (fun q => ZN (- q)%Q) (zeval E a)
  | ZNot a => match zeval E a with Some (ZB b) => Some (ZB (negb b)) | _ => None end
  | ZAdd a b => znumbers (fun p q => Some (ZN (p + q)%Q)) (zeval E a) (zeval E b)
  | ZSub a b => znumbers (fun p q => Some (ZN (p - q)%Q)) (zeval E a) (zeval E b)
  | ZMul a b => znumbers (fun p q => Some (ZN (p * q)%Q)) (zeval E a) (zeval E b)
  | ZMod a n => znumber (fun q => ZN (inject_Z (Qfloor q mod n)%Z)) (zeval E a)
  | ZQuot a n => znumber (fun q => ZN (inject_Z (if Z.eqb n 0 then quot0 E q else euclid (Qfloor q) n))) (zeval E a)
  | ZOver a v => znumber (fun q => ZN (if Qeq_bool (number_of v) 0 then over0 E q else q / number_of v)%Q) (zeval E a)
  | ZRel c a b =>
      znumbers (fun p q => match zcompare c p q with Some b => Some (ZB b) | None => None end) (zeval E a) (zeval E b)
  | ZAnd l => ztruths (forallb (fun b => b)) (map (zeval E) l)
  | ZOr l => ztruths (existsb (fun b => b)) (map (zeval E) l)
  end.
(** The solver may fail to notice that a condition cannot hold, but is right when it says so. *)
Definition sound (unsat : zexpr -> bool) : Prop := forall z, unsat z = true -> forall E, zeval E z <> Some (ZB true).

(** ** Conditions about integers *)
(** All numbers in a condition: the operands of comparisons, arithmetic, abs, not, and, or. *)
Definition is_abs (f : expr) : bool := match f with Name x => String.eqb x "abs" | _ => false end.
Fixpoint numbers (e : expr) : list expr :=
  match e with
  | BoolOp _ vs => flat_map numbers vs
  | Compare a ops => numbers a ++ flat_map (fun cv => numbers (snd cv)) ops
  | Unary Not a => numbers a
  | Unary _ a => e :: numbers a
  | Binary _ a b => e :: numbers a ++ numbers b
  | Call f args => e :: (if is_abs f then flat_map numbers args else [])
  | Const (CBool _) => []
  | _ => [e]
  end.
Definition whole {W} (P : python W) (w : W) (e : expr) : Prop := Forall (an_int P w) (numbers e).
(** Made of constants and operators only. *)
Fixpoint closed (e : expr) : bool :=
  match e with
  | Const _ => true
  | Unary _ a => closed a
  | Binary _ a b => closed a && closed b
  | BoolOp _ vs => forallb closed vs
  | Compare a ops => closed a && forallb (fun cv => closed (snd cv)) ops
  | _ => false
  end.
(** No quotients "/", no integer quotients by negative constants; abs has one argument. *)
Fixpoint int_divisions {W} (P : python W) (w : W) (e : expr) : Prop :=
  match e with
  | BoolOp _ vs => fold_right and True (map (int_divisions P w) vs)
  | Compare a ops => int_divisions P w a /\ fold_right and True (map (fun cv => int_divisions P w (snd cv)) ops)
  | Unary _ a => int_divisions P w a
  | Binary o a b =>
      match o with
      | Div => False
      | FloorDiv => closed b = true -> forall z, is_int P w b z -> (0 < z)%Z
      | _ => True
      end /\ int_divisions P w a /\ int_divisions P w b
  | Call f args => if is_abs f then length args = 1 /\ fold_right and True (map (int_divisions P w) args) else True
  | _ => True
  end.
(** In state [w], "abs" is Python's abs. *)
Definition has_abs {W} (P : python W) (w : W) : Prop :=
  exists r, lookup P "abs" w = Ok r /\ forall v z, as_int v = Some z -> call P r [v] w = (w, Ok (VInt (Z.abs z))).
(** The variables have the values of the expressions they stand for. *)
Definition assigns (E : environment) {W} (P : python W) (w : W) (es : list expr) : Prop :=
  forall s z, List.In s es -> is_int P w s z -> int_var E (as_string s) = z /\ real_var E (as_string s) = inject_Z z.

(** ** Right messages *)
(** As conditions, the node and the suggestion come out the same; as values too where the value is used. *)
Definition right {W} (P : python W) (w : W) (condition : bool) (m : verdict) : Prop :=
  match m with
  | Always e b => test P e w = (w, Ok b)
  | Redundant e t => exists e', reads t e' /\ test P e w = test P e' w /\ (condition = false -> eval P e w = eval P e' w)
  end.
(** The node a message is about. *)
Definition about (m : verdict) : expr := match m with Always e _ => e | Redundant e _ => e end.

(** ** Conditions whose translation cannot fail *)
(** Arithmetic without quotients, remainders, powers and abs. *)
Fixpoint linear (e : expr) : bool :=
  match e with
  | Name _ | Attribute _ _ | Subscript _ _ | Const (CInt _) | Const (CFloat _) => true
  | Call f _ => negb (is_abs f)
  | Unary Neg a | Unary Pos a => linear a
  | Binary Add a b | Binary Sub a b | Binary Mul a b => linear a && linear b
  | _ => false
  end.
(** Calls of abs have an argument, which is such arithmetic. *)
Fixpoint plain_abs (e : expr) : bool :=
  match e with
  | BoolOp _ vs => forallb plain_abs vs
  | Compare a ops => plain_abs a && forallb (fun cv => plain_abs (snd cv)) ops
  | Unary _ a => plain_abs a
  | Binary _ a b => plain_abs a && plain_abs b
  | Call f args => negb (is_abs f) || match args with [] => false | a :: _ => linear a end
  | _ => true
  end.
(** Arithmetic gives numbers for numbers only. *)
Definition numeric (v : value) : bool := match v with VBool _ | VInt _ | VFloat _ => true | _ => false end.
Definition numeric_host (H : host) : Prop := forall o v u r, host_binary H o v u = Ok r ->
  match r with VInt _ | VFloat _ => numeric u = true | _ => True end.
(** A term Z3 accepts, of the kind asked for. *)
Definition sorted (condition : bool) (z : zexpr) : Prop := if condition then sort_of z = Some SBool else sort_of z = Some SInt \/ sort_of z = Some SReal.
