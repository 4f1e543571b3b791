(** Model of the "comparison with constants" suggestions R6211, R6212, R6214 of
    edulint/linting/checkers/simplifiable_if.py.  Definitions only. *)
From Coq Require Import ZArith String List Bool Arith.
Import ListNotations.
Open Scope string_scope.
Open Scope Z_scope.

(** Comparison operators that reach this code: keys of [SWITCHED_COMPARATOR]
    (simplifiable_if.py:1406-1411). *)
Inductive cmp := Lt | Le | Gt | Ge.

(** Operator spelling (simplifiable_if.py:1406-1411). *)
Definition cmp_str (c : cmp) : string :=
  match c with Lt => "<" | Le => "<=" | Gt => ">" | Ge => ">=" end.

(** [len(cmp)] used at simplifiable_if.py:1454, 1549, 1552. *)
Definition cmp_len (c : cmp) : nat := String.length (cmp_str c).

(** [cmp[0] == "<"] (simplifiable_if.py:1561, 1595). *)
Definition is_less (c : cmp) : bool :=
  match c with Lt | Le => true | Gt | Ge => false end.

(** [cmp1 == cmp2] on operator strings, edulint/linting/checkers/simplifiable_if.py:1561, 1595. *)
Definition cmp_eqb (a b : cmp) : bool := String.eqb (cmp_str a) (cmp_str b).

(** [SWITCHED_COMPARATOR] (simplifiable_if.py:1406-1411). *)
Definition switched (c : cmp) : cmp :=
  match c with Ge => Le | Gt => Lt | Le => Ge | Lt => Gt end.

(** [node.op] of a BoolOp, edulint/linting/checkers/simplifiable_if.py:1406-1411. *)
Inductive boolop := And | Or.

(** [node.op == "and"] (simplifiable_if.py:1601, 1668). *)
Definition is_and (o : boolop) : bool := match o with And => true | Or => false end.

(** The compared expressions; a fragment of Python integer expressions that is enough to tell
    apart texts starting with "abs(" (simplifiable_if.py:1486-1490).  Simplified: names, integer
    literals, calls of abs and three binary operators. *)
Inductive expr :=
| EVar (x : string)
| EInt (n : nat)
| EAbs (e : expr)
| EAdd (a b : expr)
| ESub (a b : expr)
| EMul (a b : expr).

(** Decimal digits of a number (Python [str(int)]); used only for printing,
    edulint/linting/checkers/simplifiable_if.py:1511, 1579. *)
Fixpoint digits (fuel : nat) (n : nat) : string :=
  match fuel with
  | O => ""
  | S f =>
      let d := String (Ascii.ascii_of_nat (48 + Nat.modulo n 10)) "" in
      if Nat.ltb n 10 then d else digits f (Nat.div n 10) ++ d
  end.

(** Binding strength, as used by astroid's [as_string] to decide on parentheses (external code;
    simplified to the operators above), edulint/linting/checkers/simplifiable_if.py:1707, 1714. *)
Definition prec (e : expr) : nat :=
  match e with EVar _ | EInt _ | EAbs _ => 3 | EMul _ _ => 2 | EAdd _ _ | ESub _ _ => 1 end%nat.

(** Parenthesise a subexpression of lower strength (external code, astroid),
    edulint/linting/checkers/simplifiable_if.py:1707, 1714. *)
Definition paren (b : bool) (s : string) : string := if b then "(" ++ s ++ ")" else s.

(** [node.as_string()] (external code, astroid; simplified to the fragment above),
    edulint/linting/checkers/simplifiable_if.py:1707, 1714. *)
Fixpoint as_string (e : expr) : string :=
  match e with
  | EVar x => x
  | EInt n => digits (S n) n
  | EAbs e => "abs(" ++ as_string e ++ ")"
  | EAdd a b => as_string a ++ " + " ++ paren (Nat.leb (prec b) 1) (as_string b)
  | ESub a b => as_string a ++ " - " ++ paren (Nat.leb (prec b) 1) (as_string b)
  | EMul a b => paren (Nat.ltb (prec a) 2) (as_string a) ++ " * " ++
                paren (Nat.leb (prec b) 2) (as_string b)
  end.

(** The suggestion texts this code can produce, structured:
    [SCmp c v] is "<expr> c v" (line 1618, 1626), [STwo] is "<expr> c v <op> <expr> c' v'" (1653-1663),
    [SConst] is "True"/"False" (1507, 1534, 1556, 1558, 1563, 1568), [SEq]/[SNe] are
    "<expr> == v" / "<expr> != v" (1550, 1553), [SAbsCmp w c v] is what
    [_add_abs_if_necessary(expr) + c + v] yields (1511, 1514, 1538, 1541), where [w] tells whether
    "abs(...)" was wrapped around the expression text (1486-1490), edulint/linting/checkers/simplifiable_if.py:1486-1490. *)
Inductive suggestion :=
| SCmp (c : cmp) (v : Z)
| STwo (c : cmp) (v : Z) (o : boolop) (c' : cmp) (v' : Z)
| SConst (b : bool)
| SEq (v : Z)
| SNe (v : Z)
| SAbsCmp (wrapped : bool) (c : cmp) (v : Z).

(** [_get_comparator_by_restriction] (simplifiable_if.py:1453-1457). *)
Definition get_comparator_by_restriction (cmp1 cmp2 : cmp) (more_restrictive : bool) : cmp :=
  let '(cmp1, cmp2) :=
    if Nat.ltb (cmp_len cmp2) (cmp_len cmp1) then (cmp2, cmp1) else (cmp1, cmp2) in
  if more_restrictive then cmp1 else cmp2.

(** [_remove_redundant_compare] (simplifiable_if.py:1459-1484).  Constants are integers
    (Python: int or float). *)
Definition remove_redundant_compare (cmp1 : cmp) (const1 : Z) (cmp2 : cmp) (const2 : Z)
    (and_ : bool) : cmp * Z :=
  if const1 =? const2 then (get_comparator_by_restriction cmp1 cmp2 and_, const1)
  else
    let '(cmp1, const1, cmp2, const2) :=
      if const1 >? const2 then (cmp2, const2, cmp1, const1) else (cmp1, const1, cmp2, const2) in
    if cmp_eqb cmp1 Gt || cmp_eqb cmp1 Ge then
      if and_ then (cmp2, const2) else (cmp1, const1)
    else if and_ then (cmp1, const1)
    else (cmp2, const2).

(** [_add_abs_if_necessary] (simplifiable_if.py:1486-1490): [true] iff "abs(" is wrapped around. *)
Definition add_abs_if_necessary (expr_string : string) : bool :=
  negb (String.prefix "abs(" expr_string).

(** [_check_for_simplification_of_single_or] (simplifiable_if.py:1492-1516). *)
Definition check_for_simplification_of_single_or (const1 : Z) (cmp1 : cmp) (const2 : Z)
    (cmp2 : cmp) (expr_string : string) : suggestion :=
  if negb (is_less cmp1) then
    if const1 >? 0 then SAbsCmp (add_abs_if_necessary expr_string) cmp1 const1 else SConst true
  else
    if const1 <? 0 then SAbsCmp (add_abs_if_necessary expr_string) cmp2 const2 else SConst true.

(** [_check_for_simplification_of_single_and] (simplifiable_if.py:1518-1543). *)
Definition check_for_simplification_of_single_and (const1 : Z) (cmp1 : cmp) (const2 : Z)
    (cmp2 : cmp) (expr_string : string) : suggestion :=
  if negb (is_less cmp1) then
    if const1 <? 0 then SAbsCmp (add_abs_if_necessary expr_string) cmp2 const2 else SConst false
  else
    if const1 >? 0 then SAbsCmp (add_abs_if_necessary expr_string) cmp1 const1 else SConst false.

(** [_check_if_always_true_or_false] (simplifiable_if.py:1545-1570); [None] is the empty string. *)
Definition check_if_always_true_or_false (const1 : Z) (cmp1 : cmp) (const2 : Z) (cmp2 : cmp)
    (op : boolop) : option suggestion :=
  if const1 =? const2 then
    if Nat.eqb (cmp_len cmp1) 1 && Nat.eqb (cmp_len cmp2) 1 && negb (is_and op)
    then Some (SNe const1)
    else if Nat.eqb (cmp_len cmp1) 2 && Nat.eqb (cmp_len cmp2) 2 && is_and op
    then Some (SEq const1)
    else if negb (is_and op) then Some (SConst true)
    else Some (SConst false)
  else if is_and op && (((const1 <? const2) && is_less cmp1) || ((const1 >? const2) && is_less cmp2))
  then Some (SConst false)
  else if negb (is_and op) &&
          (((const1 <? const2) && negb (is_less cmp1)) || ((const1 >? const2) && negb (is_less cmp2)))
  then Some (SConst true)
  else None.

(** Loop state of lines 1590-1592: [cmp_less, val1], [cmp_greater, val2], [changed],
    edulint/linting/checkers/simplifiable_if.py:1590-1592. *)
Record bounds := { less : option (cmp * Z); greater : option (cmp * Z); changed : bool }.

(** Initial loop state (simplifiable_if.py:1590-1592). *)
Definition no_bounds : bounds := {| less := None; greater := None; changed := false |}.

(** One iteration of the loop (simplifiable_if.py:1594-1610). *)
Definition bounds_step (op : boolop) (b : bounds) (cv : cmp * Z) : bounds :=
  let '(c, v) := cv in
  if is_less c then
    match less b with
    | None => {| less := Some (c, v); greater := greater b; changed := changed b |}
    | Some (cl, v1) =>
        {| less := Some (remove_redundant_compare cl v1 c v (is_and op));
           greater := greater b; changed := true |}
    end
  else
    match greater b with
    | None => {| less := less b; greater := Some (c, v); changed := changed b |}
    | Some (cg, v2) =>
        {| less := less b;
           greater := Some (remove_redundant_compare cg v2 c v (is_and op)); changed := true |}
    end.

(** The emitted message symbols (simplifiable_if.py:1616, 1638-1639, 1678). *)
Inductive symbol :=
| RedundantCompareInCondition | UsingCompareInsteadOfEqual | SimplifiableWithAbs.

(** Outcome of the suggestion: a message, nothing, or the TypeError Python would raise when both
    [cmp_less] and [cmp_greater] are None at line 1618, edulint/linting/checkers/simplifiable_if.py:1618. *)
Inductive outcome := Msg (m : symbol) (s : suggestion) | NoMsg | Crash.

(** [_suggestion_for_group_of_boolops] (simplifiable_if.py:1585-1683).  The quoted original text
    (line 1612) is the group itself. *)
Definition suggestion_for_group (expr_string : string) (group : list (cmp * Z)) (op : boolop)
  : outcome :=
  let b := fold_left (bounds_step op) group no_bounds in
  match less b, greater b with
  | None, None => Crash
  | None, Some (cg, v2) => Msg RedundantCompareInCondition (SCmp cg v2)
  | Some (cl, v1), None => Msg RedundantCompareInCondition (SCmp cl v1)
  | Some (cl, v1), Some (cg, v2) =>
      match check_if_always_true_or_false v1 cl v2 cg op with
      | Some new_expr =>
          Msg (match new_expr with
               | SConst _ => RedundantCompareInCondition
               | _ => UsingCompareInsteadOfEqual end) new_expr
      | None =>
          if negb (v1 =? - v2) || negb (cmp_eqb cl (switched cg)) then
            if changed b then Msg RedundantCompareInCondition (STwo cl v1 op cg v2) else NoMsg
          else
            Msg SimplifiableWithAbs
              (if is_and op
               then check_for_simplification_of_single_and v1 cl v2 cg expr_string
               else check_for_simplification_of_single_or v1 cl v2 cg expr_string)
      end
  end.

(** [_group_and_check_by_representation] (simplifiable_if.py:1685-1714).  The two index loops with
    the [already_checked] set are rendered as: take the first unchecked operand, collect all later
    unchecked operands with the same text, continue with the rest.  Fuel is the list length. *)
Fixpoint group_by_representation (fuel : nat) (ops : list (expr * cmp * Z))
  : list (expr * list (cmp * Z)) :=
  match fuel, ops with
  | S f, (e1, c1, v1) :: rest =>
      let same := fun '(e2, _, _) => String.eqb (as_string e1) (as_string e2) in
      (e1, (c1, v1) :: map (fun '(_, c, v) => (c, v)) (filter same rest))
        :: group_by_representation f (filter (fun o => negb (same o)) rest)
  | _, _ => []
  end.

(** Groups with fewer than two members are skipped (simplifiable_if.py:1711-1712); for the others the
    suggestion is computed (1714). *)
Definition group_and_check (ops : list (expr * cmp * Z)) (op : boolop)
  : list (expr * list (cmp * Z) * outcome) :=
  map (fun '(e, g) => (e, g, suggestion_for_group (as_string e) g op))
    (filter (fun '(_, g) => Nat.leb 2 (List.length g))
       (group_by_representation (List.length ops) ops)).
