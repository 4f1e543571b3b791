(** What following the messages about single expressions and statements promises. *)
From Coq Require Import String Ascii List Bool Arith NArith ZArith.
From Verif Require Import Base PyModel PySpec IfModel IfSpec FoldModel FoldSpec LocalModel.
Import ListNotations.
Local Open Scope string_scope.
Local Open Scope list_scope.

(** [x] is an element of Python's range(a, b, s). *)
Definition member (a b s x : Z) : Prop :=
  exists k, (0 <= k /\ x = a + k * s /\ (0 < s -> x < b) /\ (s < 0 -> b < x))%Z.
(** The expression gives an integer, or a bool, which is one. *)
Definition is_int {W} (P : python W) (w : W) (e : expr) (z : Z) : Prop := exists v, gives P w e v /\ as_int v = Some z.
(** The arguments of range give start [a], stop [b] and step [s]. *)
Definition range_arguments {W} (P : python W) (w : W) (args : list expr) (a b s : Z) : Prop :=
  match args with
  | [y] => a = 0%Z /\ is_int P w y b /\ s = 1%Z
  | [x; y] => is_int P w x a /\ is_int P w y b /\ s = 1%Z
  | [x; y; z] => is_int P w x a /\ is_int P w y b /\ is_int P w z s
  | _ => False
  end.
(** The linter can compute the expression. *)
Definition known (H : host) (e : expr) : Prop := exists v, get_const_value H e = Ok v /\ v <> VNone.

(** In state [w], "range" is Python's range, and "in" looks for an element. *)
Definition has_range {W} (P : python W) (w : W) : Prop :=
  exists r, lookup P "range" w = Ok r /\ forall vs a b s,
    match map as_int vs with
    | [Some y] => a = 0%Z /\ y = b /\ s = 1%Z
    | [Some x; Some y] => x = a /\ y = b /\ s = 1%Z
    | [Some x; Some y; Some z] => x = a /\ y = b /\ z = s
    | _ => False
    end -> s <> 0%Z ->
    exists o, call P r vs w = (w, Ok (VObj o)) /\ forall x, exists m, (m = true <-> member a b s x) /\
      compare_op P In (VInt x) (VObj o) w = (w, Ok (VBool m)) /\ compare_op P NotIn (VInt x) (VObj o) w = (w, Ok (VBool (negb m))).
(** An operand that needs no parentheses in a comparison. *)
Definition tight (e : expr) : bool := Nat.ltb 5 (prec e).
(** If the bound is a sum or difference, its operands are integers. *)
Definition int_sum {W} (P : python W) (w : W) (e : expr) : Prop :=
  match e with
  | Binary Add a b | Binary Sub a b => exists i j, is_int P w a i /\ is_int P w b j
  | _ => True
  end.

(** The operands of a tree of one operator, from left to right. *)
Fixpoint operands (o : binop) (e : expr) : list expr :=
  match e with
  | Binary o' a b => if binop_eqb o' o then operands o a ++ operands o b else [e]
  | _ => [e]
  end.

(** In state [w], "ord" is Python's ord. *)
Definition has_ord {W} (P : python W) (w : W) : Prop :=
  exists r, lookup P "ord" w = Ok r /\ forall c, call P r [VStr (String c "")] w = (w, Ok (VInt (Z.of_nat (nat_of_ascii c)))).
(** The text of a binary operation after replacing an operand by a text. *)
Definition replaced (o : binop) (a b : expr) (s : side) (t : text) : text :=
  match s with
  | LeftSide => t ++ TBin o :: wrap (prec (Binary o a b)) (prec b) true (as_string b)
  | RightSide => wrap (prec (Binary o a b)) (prec a) false (as_string a) ++ TBin o :: t
  end.
(** Code points of characters that need no escape between quotes. *)
Definition plain_letter (z : Z) : Prop := z <> 39%Z /\ z <> 92%Z.

(** An assignment of [v] to the name [x] only. *)
Definition assigned (x : string) (v : expr) (s : stmt) : Prop := s = Assign [Name x] v \/ s = AnnAssign (Name x) (Some v).
(** An augmented assignment to a name: the name, the value, the operation, the assignment. *)
Definition augmented {W} (P : program W) (inplace : binop -> value -> value -> comp (W := W) value) (x : string) (o : binop) (e : expr) : comp flow :=
  andthen (eval (py P) (Name x)) (fun v =>
  andthen (eval (py P) e) (fun u =>
  andthen (inplace o v u) (fun r =>
  andthen (store_name P x r) (fun _ => pure Next)))).

(** In state [w], "int" cuts off the fraction of a quotient, as if quotients were exact. *)
Definition has_int {W} (P : python W) (w : W) : Prop :=
  exists r, lookup P "int" w = Ok r /\ forall a b, b <> 0%Z ->
    exists q, binary_op P Div (VInt a) (VInt b) w = (w, Ok q) /\ call P r [q] w = (w, Ok (VInt (Z.quot a b))).
(** The float nearest to a positive integer, which has 53 significant bits; of two equally near the even one. *)
Definition nearest (z : Z) : Z :=
  let d := (2 ^ Z.max 0 (Z.log2 z - 52))%Z in
  let q := (z / d)%Z in
  let r := (z mod d)%Z in
  (if Z.ltb (2 * r) d then q * d else if Z.ltb d (2 * r) then (q + 1) * d else if Z.even q then q * d else (q + 1) * d)%Z.
(** In state [w], z / 1 is the float nearest to z, and "int" gives it back as an integer. *)
Definition has_float {W} (P : python W) (w : W) : Prop :=
  exists r, lookup P "int" w = Ok r /\ forall z, (0 < z)%Z ->
    exists q, binary_op P Div (VInt z) (VInt 1) w = (w, Ok q) /\ call P r [q] w = (w, Ok (VInt (nearest z))).

(** Codes just before the letters a, z, A, Z, 0 and 9. *)
Definition before_bound (z : Z) : Prop := List.In z [96; 121; 64; 89; 47; 56]%Z.
(** A string of one character. *)
Definition one_letter {W} (P : python W) (w : W) (x : expr) : Prop := exists c, gives P w x (VStr (String c "")).
(** Comparisons by order. *)
Definition ordering (c : cmpop) : bool := match c with Lt | Le | Gt | Ge | Eq | Ne => true | _ => false end.

(** An expression that the linter cannot compute, or can compute to an integer. *)
Definition int_or_unknown (H : host) (e : expr) : Prop := exists v, get_const_value H e = Ok v /\ (v = VNone \/ exists z, as_int v = Some z).

(** "is" tells the two bools from each other and from everything else. *)
Definition has_is {W} (P : python W) : Prop := forall v b w,
  let r := match v with VBool b' => Bool.eqb b b' | _ => false end in
  compare_op P Is v (VBool b) w = (w, Ok (VBool r)) /\ compare_op P IsNot v (VBool b) w = (w, Ok (VBool (negb r))).

(** The list after extending it by a list display, where [value] gives the value of an expression and [items] those of an iterable. *)
Definition extended (value : expr -> value) (items : expr -> list PySpec.value) (l : list PySpec.value) (es : list elt) : list PySpec.value :=
  l ++ flat_map (fun x => match x with Single e => [value e] | Starred e => items e end) es.
(** The list after calling append with an argument. Append takes exactly one value. *)
Definition appended (value : expr -> value) (items : expr -> list PySpec.value) (l : list PySpec.value) (x : elt) : res (list PySpec.value) :=
  match x with
  | Single e => Ok (l ++ [value e])
  | Starred e => match items e with [v] => Ok (l ++ [v]) | _ => Raise TypeError end
  end.
