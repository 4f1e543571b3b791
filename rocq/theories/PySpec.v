(** What Python makes of the text of an expression (its grammar) and of an expression (its value),
    independently of the checkers. *)
From Coq Require Import String Ascii List Bool Arith NArith ZArith.
From Verif Require Import Base PyModel.
Import ListNotations.
Local Open Scope string_scope.
Local Open Scope list_scope.

(** ** Grammar *)

(** Recursive descent over the levels of the grammar of expressions: 1 conditional expression, 2 [or],
    3 [and], 4 [not], 5 comparison, 6-11 binary operators, 12 unary operators, 13 power, 14-15 primary.
    "<negated e>" is the checkers' own notation for the negation of e. *)
Definition op_of_level (l : nat) (t : token) : option binop :=
  match t with
  | TBin o => if Nat.eqb (bin_prec o) l then Some o else None
  | _ => None
  end.
Definition rel (ts : text) : option (cmpop * text) :=
  match ts with
  | TRel c :: r => Some (c, r)
  | TIs :: TNot :: r => Some (IsNot, r)
  | TIs :: r => Some (Is, r)
  | TIn :: r => Some (In, r)
  | TNot :: TIn :: r => Some (NotIn, r)
  | _ => None
  end.
Definition bool_level (l : nat) (t : token) : option boolop :=
  match l, t with
  | 2, TOr => Some Or
  | 3, TAnd => Some And
  | _, _ => None
  end.
Definition prefix_op (t : token) : option unop :=
  match t with TBin Sub => Some Neg | TBin Add => Some Pos | TTilde => Some Inv | _ => None end.
Definition level_op (l : nat) : boolop := match l with 2 => Or | _ => And end.
Definition make_bool (l : nat) (vs : list expr) : option expr :=
  match vs with
  | [] => None
  | [v] => Some v
  | _ => Some (BoolOp (level_op l) vs)
  end.
Definition make_cmp (e : expr) (ops : list (cmpop * expr)) : expr :=
  match ops with [] => e | _ => Compare e ops end.

Fixpoint parse (f l : nat) (ts : text) {struct f} : option (expr * text) :=
  match f with
  | 0 => None
  | S f =>
      match l with
      | 0 => None
      | 1 =>
          match parse f 2 ts with
          | Some (a, TIf :: r) =>
              match parse f 2 r with
              | Some (c, TElse :: r') =>
                  match parse f 1 r' with
                  | Some (b, r'') => Some (IfExp c a b, r'')
                  | None => None
                  end
              | _ => None
              end
          | x => x
          end
      | 2 | 3 =>
          match parse f (S l) ts with
          | Some (a, r) =>
              match bools f l r with
              | Some (vs, r') => match make_bool l (a :: vs) with Some e => Some (e, r') | None => None end
              | None => None
              end
          | None => None
          end
      | 4 =>
          match ts with
          | TNot :: r => match parse f 4 r with Some (e, r') => Some (Unary Not e, r') | None => None end
          | _ => parse f 5 ts
          end
      | 5 =>
          match parse f 6 ts with
          | Some (a, r) => match rels f r with Some (ops, r') => Some (make_cmp a ops, r') | None => None end
          | None => None
          end
      | 12 =>
          match ts with
          | t :: r =>
              match prefix_op t with
              | Some o => match parse f 12 r with Some (e, r') => Some (Unary o e, r') | None => None end
              | None => parse f 13 ts
              end
          | [] => None
          end
      | 13 =>
          match parse f 15 ts with
          | Some (a, TBin Pow :: r) => match parse f 12 r with Some (b, r') => Some (Binary Pow a b, r') | None => None end
          | x => x
          end
      | 15 =>
          match ts with
          | TName x :: r => trailers f (Name x) r
          | TConst c :: r => trailers f (Const c) r
          | TOther n :: r => trailers f (Other n) r
          | TLP :: r => match parse f 1 r with Some (e, TRP :: r') => trailers f e r' | _ => None end
          | TNegOpen :: r => match parse f 1 r with Some (e, TNegClose :: r') => trailers f (Unary Not e) r' | _ => None end
          | _ => None
          end
      | _ => (* 6 to 11, 14 *)
          match parse f (S l) ts with
          | Some (a, r) => binaries f l a r
          | None => None
          end
      end
  end
with bools (f l : nat) (ts : text) {struct f} : option (list expr * text) :=
  match f with
  | 0 => None
  | S f =>
      match ts with
      | t :: r =>
          match bool_level l t with
          | Some _ =>
              match parse f (S l) r with
              | Some (a, r') => match bools f l r' with Some (vs, r'') => Some (a :: vs, r'') | None => None end
              | None => None
              end
          | None => Some ([], ts)
          end
      | [] => Some ([], [])
      end
  end
with rels (f : nat) (ts : text) {struct f} : option (list (cmpop * expr) * text) :=
  match f with
  | 0 => None
  | S f =>
      match rel ts with
      | Some (c, r) =>
          match parse f 6 r with
          | Some (a, r') => match rels f r' with Some (ops, r'') => Some ((c, a) :: ops, r'') | None => None end
          | None => None
          end
      | None => Some ([], ts)
      end
  end
with binaries (f l : nat) (acc : expr) (ts : text) {struct f} : option (expr * text) :=
  match f with
  | 0 => None
  | S f =>
      match ts with
      | t :: r =>
          match op_of_level l t with
          | Some o => match parse f (S l) r with Some (b, r') => binaries f l (Binary o acc b) r' | None => None end
          | None => Some (acc, ts)
          end
      | [] => Some (acc, [])
      end
  end
with trailers (f : nat) (acc : expr) (ts : text) {struct f} : option (expr * text) :=
  match f with
  | 0 => None
  | S f =>
      match ts with
      | TLP :: TRP :: r => trailers f (Call acc []) r
      | TLP :: r => match arguments f r with Some (vs, TRP :: r') => trailers f (Call acc vs) r' | _ => None end
      | TLB :: r => match parse f 1 r with Some (i, TRB :: r') => trailers f (Subscript acc i) r' | _ => None end
      | TDot :: TName x :: r => trailers f (Attribute acc x) r
      | TDot :: _ => None
      | _ => Some (acc, ts)
      end
  end
with arguments (f : nat) (ts : text) {struct f} : option (list expr * text) :=
  match f with
  | 0 => None
  | S f =>
      match parse f 1 ts with
      | Some (a, TComma :: r) => match arguments f r with Some (vs, r') => Some (a :: vs, r') | None => None end
      | Some (a, r) => Some ([a], r)
      | None => None
      end
  end.

(** [t] is the text of an expression, read as [e]. *)
Definition reads (t : text) (e : expr) : Prop := exists f, parse f 1 t = Some (e, []).

(** ** Values *)

(** Numbers, strings and other objects; a float is given by its [repr]. *)
Inductive value := VNone | VBool (b : bool) | VInt (z : Z) | VFloat (repr : string) | VStr (s : string) | VObj (n : nat).

(** What the rest of the program and of Python does, in states [W]: names, calls, attributes and so on
    may do anything to the state and may raise. The truth of an object can depend on the state. *)
Record python (W : Type) := {
  lookup : string -> W -> res value;
  opaque : nat -> W -> W * res value;
  call : value -> list value -> W -> W * res value;
  attribute : value -> string -> W -> W * res value;
  item : value -> value -> W -> W * res value;
  unary_op : unop -> value -> W -> W * res value;
  binary_op : binop -> value -> value -> W -> W * res value;
  compare_op : cmpop -> value -> value -> W -> W * res value;
  obj_truth : nat -> W -> res bool
}.
Arguments lookup {W}. Arguments opaque {W}. Arguments call {W}. Arguments attribute {W}. Arguments item {W}.
Arguments unary_op {W}. Arguments binary_op {W}. Arguments compare_op {W}. Arguments obj_truth {W}.

Section Eval.
  Context {W : Type}.
  Variable P : python W.

  Definition comp (A : Type) := W -> W * res A.
  Definition pure {A} (a : A) : comp A := fun w => (w, Ok a).
  Definition andthen {A B} (m : comp A) (k : A -> comp B) : comp B :=
    fun w => let (w', r) := m w in match r with Ok a => k a w' | Raise e => (w', Raise e) end.

  (** Integers; a bool is one. *)
  Definition as_int (v : value) : option Z :=
    match v with VInt z => Some z | VBool b => Some (Z.b2z b) | _ => None end.

  Definition truth (v : value) : comp bool := fun w =>
    (w, match v with
        | VNone => Ok false
        | VBool b => Ok b
        | VInt z => Ok (negb (Z.eqb z 0))
        | VFloat r => Ok (negb (String.eqb r "0.0" || String.eqb r "-0.0"))
        | VStr s => Ok (negb (String.eqb s ""))
        | VObj n => obj_truth P n w
        end).

  Definition int_op (o : binop) (a b : Z) : option (res Z) :=
    match o with
    | Add => Some (Ok (a + b)%Z)
    | Sub => Some (Ok (a - b)%Z)
    | Mul => Some (Ok (a * b)%Z)
    | FloorDiv => Some (if Z.eqb b 0 then Raise ZeroDivisionError else Ok (a / b)%Z)
    | Mod => Some (if Z.eqb b 0 then Raise ZeroDivisionError else Ok (a mod b)%Z)
    | Pow => if Z.leb 0 b then Some (Ok (a ^ b)%Z) else if Z.eqb a 0 then Some (Raise ZeroDivisionError) else None
    | Div => if Z.eqb b 0 then Some (Raise ZeroDivisionError) else None
    | LShift => Some (if Z.leb 0 b then Ok (Z.shiftl a b) else Raise ValueError)
    | RShift => Some (if Z.leb 0 b then Ok (Z.shiftr a b) else Raise ValueError)
    | BitAnd => Some (Ok (Z.land a b))
    | BitOr => Some (Ok (Z.lor a b))
    | BitXor => Some (Ok (Z.lxor a b))
    | MatMul => Some (Raise TypeError)
    end.
  (** [&], [|] and [^] of two bools are bools. *)
  Definition bool_result (o : binop) (v w : value) (z : Z) : value :=
    match o, v, w with
    | BitAnd, VBool _, VBool _ | BitOr, VBool _, VBool _ | BitXor, VBool _, VBool _ => VBool (negb (Z.eqb z 0))
    | _, _, _ => VInt z
    end.
  Definition binary (o : binop) (v w : value) : comp value :=
    match as_int v, as_int w with
    | Some a, Some b =>
        match int_op o a b with
        | Some (Ok z) => pure (bool_result o v w z)
        | Some (Raise e) => fun s => (s, Raise e)
        | None => binary_op P o v w
        end
    | _, _ => binary_op P o v w
    end.

  Definition unary (o : unop) (v : value) : comp value :=
    match o with
    | Not => andthen (truth v) (fun b => pure (VBool (negb b)))
    | _ =>
        match as_int v with
        | Some z => pure (VInt (match o with Neg => - z | Inv => - z - 1 | _ => z end)%Z)
        | None => unary_op P o v
        end
    end.

  (** Order of strings, by code points. *)
  Fixpoint str_ltb (a b : string) : bool :=
    match a, b with
    | _, EmptyString => false
    | EmptyString, String _ _ => true
    | String x r, String y s =>
        if Nat.eqb (nat_of_ascii x) (nat_of_ascii y) then str_ltb r s else Nat.ltb (nat_of_ascii x) (nat_of_ascii y)
    end.
  Definition decide (c : cmpop) (lt eq : bool) : option bool :=
    match c with
    | Lt => Some lt | Le => Some (lt || eq) | Gt => Some (negb (lt || eq)) | Ge => Some (negb lt)
    | Eq => Some eq | Ne => Some (negb eq) | _ => None
    end.
  Definition compare (c : cmpop) (v w : value) : comp value :=
    let other := compare_op P c v w in
    let known lt eq := match decide c lt eq with Some b => pure (VBool b) | None => other end in
    match as_int v, as_int w with
    | Some a, Some b => known (Z.ltb a b) (Z.eqb a b)
    | _, _ =>
        match v, w with
        | VStr a, VStr b => known (str_ltb a b) (String.eqb a b)
        | _, _ => other
        end
    end.

  Definition const_value (c : const) : value :=
    match c with
    | CNone => VNone | CBool b => VBool b | CInt n => VInt (Z.of_N n) | CFloat r => VFloat r | CStr s => VStr s
    end.

  Fixpoint eval (e : expr) : comp value :=
    match e with
    | Name x => fun w => (w, lookup P x w)
    | Const c => pure (const_value c)
    | Other n => opaque P n
    | Unary o a => andthen (eval a) (unary o)
    | Binary o a b => andthen (eval a) (fun v => andthen (eval b) (binary o v))
    | BoolOp o vs =>
        (fix go (l : list expr) : comp value :=
           match l with
           | [] => pure (VBool (match o with And => true | Or => false end))
           | a :: r =>
               match r with
               | [] => eval a
               | _ =>
                   andthen (eval a) (fun v => andthen (truth v) (fun b =>
                     if Bool.eqb b (match o with And => true | Or => false end) then go r else pure v))
               end
           end) vs
    | Compare a ops =>
        andthen (eval a) ((fix go (l : list (cmpop * expr)) (v : value) : comp value :=
           match l with
           | [] => pure v
           | (c, b) :: r =>
               andthen (eval b) (fun u =>
                 match r with
                 | [] => compare c v u
                 | _ => andthen (compare c v u) (fun x => andthen (truth x) (fun t => if t then go r u else pure x))
                 end)
           end) ops)
    | Call f args =>
        andthen (eval f) (fun g =>
          andthen ((fix go (l : list expr) : comp (list value) :=
             match l with
             | [] => pure []
             | a :: r => andthen (eval a) (fun v => andthen (go r) (fun vs => pure (v :: vs)))
             end) args) (call P g))
    | Attribute a x => andthen (eval a) (fun v => attribute P v x)
    | Subscript a i => andthen (eval a) (fun v => andthen (eval i) (item P v))
    | IfExp c a b => andthen (eval c) (fun v => andthen (truth v) (fun t => if t then eval a else eval b))
    end.

  (** The value of an expression used as a condition. *)
  Definition test (e : expr) : comp bool := andthen (eval e) truth.
End Eval.

(** Same value, same effects, same exceptions. *)
Definition same (a b : expr) : Prop := forall W (P : python W) w, eval P a w = eval P b w.
(** The same as conditions. *)
Definition same_test (a b : expr) : Prop := forall W (P : python W) w, test P a w = test P b w.

(** Trees that Python's parser can produce: [and]/[or] with at least two operands, comparisons with at least one. *)
Fixpoint well_formed (e : expr) : bool :=
  match e with
  | Name _ | Const _ | Other _ => true
  | Unary _ a | Attribute a _ => well_formed a
  | Binary _ a b | Subscript a b => well_formed a && well_formed b
  | BoolOp _ vs => Nat.leb 2 (length vs) && forallb well_formed vs
  | Compare a ops => Nat.leb 1 (length ops) && well_formed a && forallb (fun cv => well_formed (snd cv)) ops
  | Call a args => well_formed a && forallb well_formed args
  | IfExp c a b => well_formed c && well_formed a && well_formed b
  end.
(** No comparison is the first operand of a comparison, as in [(a < b) < c]. *)
Definition is_compare (e : expr) : bool := match e with Compare _ _ => true | _ => false end.
Fixpoint no_nested_compare (e : expr) : bool :=
  match e with
  | Name _ | Const _ | Other _ => true
  | Unary _ a | Attribute a _ => no_nested_compare a
  | Binary _ a b | Subscript a b => no_nested_compare a && no_nested_compare b
  | BoolOp _ vs => forallb no_nested_compare vs
  | Compare a ops => negb (is_compare a) && no_nested_compare a && forallb (fun cv => no_nested_compare (snd cv)) ops
  | Call a args => no_nested_compare a && forallb no_nested_compare args
  | IfExp c a b => no_nested_compare c && no_nested_compare a && no_nested_compare b
  end.
