(** Statements and the basic checks of if statements. Definitions only.
    edulint/linting/checkers/simplifiable_if.py:430-642, 1390-1404. *)
From Coq Require Import String List Bool Arith NArith.
From Verif Require Import Base PyModel.
Import ListNotations.
Local Open Scope string_scope.
Local Open Scope list_scope.

(** Statements; the ones the checks do not look into are opaque. Targets are expressions.
    edulint/linting/checkers/simplifiable_if.py:530-554, edulint/linting/analyses/utils.py:247-264. *)
Inductive stmt :=
| Return (v : option expr)
| Assign (targets : list expr) (value : expr)
| AugAssign (target : expr) (o : binop) (value : expr)
| AnnAssign (target : expr) (value : option expr)
| Delete (targets : list expr)
| Pass
| If (test : expr) (body orelse : list stmt)
| For (target : expr) (n : nat)
| OtherStmt (n : nat).

(** Equality of texts, edulint/linting/checkers/simplifiable_if.py:532. *)
Definition const_eqb (a b : const) : bool :=
  match a, b with
  | CNone, CNone => true
  | CBool x, CBool y => Bool.eqb x y
  | CInt x, CInt y => N.eqb x y
  | CFloat x, CFloat y => String.eqb x y
  | CStr x, CStr y => String.eqb x y
  | _, _ => false
  end.
(** Equality of operators, edulint/linting/checkers/simplifiable_if.py:532. *)
Definition binop_eqb (a b : binop) : bool :=
  match a, b with
  | Add, Add | Sub, Sub | Mul, Mul | Div, Div | FloorDiv, FloorDiv | Mod, Mod | Pow, Pow | LShift, LShift
  | RShift, RShift | BitAnd, BitAnd | BitOr, BitOr | BitXor, BitXor | MatMul, MatMul => true
  | _, _ => false
  end.
(** Equality of comparisons, edulint/linting/checkers/simplifiable_if.py:532. *)
Definition cmpop_eqb (a b : cmpop) : bool :=
  match a, b with
  | Lt, Lt | Le, Le | Gt, Gt | Ge, Ge | Eq, Eq | Ne, Ne | Is, Is | IsNot, IsNot | In, In | NotIn, NotIn => true
  | _, _ => false
  end.
(** Equality of tokens, edulint/linting/checkers/simplifiable_if.py:532. *)
Definition token_eqb (a b : token) : bool :=
  match a, b with
  | TName x, TName y => String.eqb x y
  | TConst x, TConst y => const_eqb x y
  | TOther x, TOther y => Nat.eqb x y
  | TBin x, TBin y => binop_eqb x y
  | TRel x, TRel y => cmpop_eqb x y
  | TNot, TNot | TAnd, TAnd | TOr, TOr | TIf, TIf | TElse, TElse | TIn, TIn | TIs, TIs | TTilde, TTilde
  | TLP, TLP | TRP, TRP | TLB, TLB | TRB, TRB | TComma, TComma | TDot, TDot | TNegOpen, TNegOpen | TNegClose, TNegClose => true
  | _, _ => false
  end.
(** [node1.as_string() == node2.as_string()], edulint/linting/checkers/simplifiable_if.py:532. *)
Fixpoint text_eqb (a b : text) : bool :=
  match a, b with
  | [], [] => true
  | x :: r, y :: s => token_eqb x y && text_eqb r s
  | _, _ => false
  end.

(** [_get_refactored]: its arguments are words and nodes; [ANone] is a missing node.
    edulint/linting/checkers/simplifiable_if.py:442. *)
Inductive word := WNot | WAnd | WOr.
(** An argument, edulint/linting/checkers/simplifiable_if.py:442. *)
Inductive arg := AWord (w : word) | ANode (e : expr) | ANone.

(** [isinstance(v, nodes.BoolOp)], edulint/linting/checkers/simplifiable_if.py:452. *)
Definition is_boolop (e : expr) : bool := match e with BoolOp _ _ => true | _ => false end.
(** [isinstance(prev, nodes.BoolOp) and prev.op != arg], edulint/linting/checkers/simplifiable_if.py:461-462, 468. *)
Definition other_boolop (a : arg) (w : word) : bool :=
  match a, w with
  | ANode (BoolOp Or _), WAnd | ANode (BoolOp And _), WOr => true
  | _, _ => false
  end.
(** The word as a token, edulint/linting/checkers/simplifiable_if.py:466. *)
Definition word_token (w : word) : token := match w with WNot => TNot | WAnd => TAnd | WOr => TOr end.
(** [result[-1] = f"({result[-1]})"], edulint/linting/checkers/simplifiable_if.py:465. *)
Definition wrap_last (l : list text) : res (list text) :=
  match rev l with
  | [] => Raise IndexError
  | t :: r => Ok (rev r ++ [paren t])
  end.
(** Python's indexing of a tuple with [i - 1], edulint/linting/checkers/simplifiable_if.py:458. *)
Definition before (args : list arg) (i : nat) : res arg :=
  match match i with 0 => nth_error args (length args - 1) | S k => nth_error args k end with
  | Some a => Ok a
  | None => Raise IndexError
  end.
(** Python's indexing of a tuple with [i + 1], edulint/linting/checkers/simplifiable_if.py:448, 459. *)
Definition after (args : list arg) (i : nat) : res arg :=
  match nth_error args (S i) with Some a => Ok a | None => Raise IndexError end.
(** [args[i - 2] != "not"], edulint/linting/checkers/simplifiable_if.py:463. *)
Definition not_at (args : list arg) (i : nat) : bool :=
  match i with
  | S (S k) => match nth_error args k with Some (AWord WNot) => true | _ => false end
  | _ => false
  end.

(** [_get_refactored], the loop; a run that never ends is out of fuel for every amount of fuel.
    edulint/linting/checkers/simplifiable_if.py:445-473. *)
Fixpoint refactored_loop (fuel : nat) (args : list arg) (i : nat) (result : list text) : res (list text) :=
  match fuel with
  | 0 => Raise (OtherError "out of fuel")
  | S fuel =>
      match nth_error args i with
      | None => Ok result
      | Some (AWord WNot) =>
          do v <- after args i;
          match v with
          | ANode e =>
              let refactored := as_string e in
              let piece := if is_boolop e then TNegOpen :: paren refactored ++ [TNegClose] else TNegOpen :: refactored ++ [TNegClose] in
              refactored_loop fuel args (i + 2) (result ++ [piece])
          | _ => Raise AssertionError
          end
      | Some (AWord w) =>
          do prev <- before args i;
          do next <- after args i;
          do result <- if other_boolop prev w && negb (not_at args i) then wrap_last result else Ok result;
          let result := result ++ [[word_token w]] in
          if other_boolop next w
          then match next with
               | ANode e => refactored_loop fuel args (i + 2) (result ++ [paren (as_string e)])
               | _ => Raise AssertionError
               end
          else refactored_loop fuel args (i + 1) result
      | Some (ANode e) => refactored_loop fuel args (i + 1) (result ++ [as_string e])
      | Some ANone => refactored_loop fuel args i result
      end
  end.
(** [_get_refactored], edulint/linting/checkers/simplifiable_if.py:442-475. *)
Definition get_refactored (fuel : nat) (args : list arg) : res text :=
  do l <- refactored_loop fuel args 0 []; Ok (concat l).

(** A node or None as an argument, edulint/linting/checkers/simplifiable_if.py:512, 515, 518, 521. *)
Definition node_arg (e : option expr) : arg := match e with Some e => ANode e | None => ANone end.
(** [then_value.value if self._is_bool(then_value) else None], edulint/linting/checkers/simplifiable_if.py:422-423, 498-499. *)
Definition bool_value (e : option expr) : option bool := match e with Some (Const (CBool b)) => Some b | _ => None end.

(** [_refactored_cond_from_then_orelse], edulint/linting/checkers/simplifiable_if.py:495-524. *)
Definition refactored_cond (fuel : nat) (test : expr) (then_value orelse_value : option expr) : res (option (text * bool)) :=
  let go args only := do t <- get_refactored fuel args; Ok (Some (t, only)) in
  match bool_value then_value, bool_value orelse_value with
  | None, None => Ok None
  | Some true, Some false => go [ANode test] true
  | Some false, Some true => go [AWord WNot; ANode test] true
  | Some _, Some _ => Ok None
  | Some true, None => go [ANode test; AWord WOr; node_arg orelse_value] false
  | Some false, None => go [AWord WNot; ANode test; AWord WAnd; node_arg orelse_value] false
  | None, Some true => go [AWord WNot; ANode test; AWord WOr; node_arg then_value] false
  | None, Some false => go [ANode test; AWord WAnd; node_arg then_value] false
  end.

(** [isinstance(node1, type(node2))] for statements, edulint/linting/checkers/simplifiable_if.py:536, 571. *)
Definition same_kind (a b : stmt) : bool :=
  match a, b with
  | Return _, Return _ | Assign _ _, Assign _ _ | AugAssign _ _ _, AugAssign _ _ _ | AnnAssign _ _, AnnAssign _ _
  | Delete _, Delete _ | Pass, Pass | If _ _ _, If _ _ _ | For _ _, For _ _ | OtherStmt _, OtherStmt _ => true
  | _, _ => false
  end.
(** [isinstance(assigned_to1[0], type(assigned_to2[0]))]; targets with the same text that are neither names,
    attributes nor subscripts have the same class. edulint/linting/checkers/simplifiable_if.py:548. *)
Definition same_target_kind (a b : expr) : bool :=
  match a, b with
  | Name _, Name _ | Attribute _ _, Attribute _ _ | Subscript _ _, Subscript _ _ | Other _, Other _ => true
  | _, _ => false
  end.
(** [is_any_assign], edulint/linting/analyses/utils.py:247-256. *)
Definition is_any_assign (s : stmt) : bool :=
  match s with Assign _ _ | AugAssign _ _ _ | AnnAssign _ _ | Delete _ | For _ _ => true | _ => false end.
(** [isinstance(node, nodes.For)], edulint/linting/checkers/simplifiable_if.py:542. *)
Definition is_for (s : stmt) : bool := match s with For _ _ => true | _ => false end.
(** [get_assigned_to], edulint/linting/analyses/utils.py:259-264. *)
Definition get_assigned_to (s : stmt) : list expr :=
  match s with
  | Assign ts _ | Delete ts => ts
  | AugAssign t _ _ | AnnAssign t _ | For t _ => [t]
  | _ => []
  end.
(** [isinstance(assigned_to1[0], nodes.Subscript)], edulint/linting/checkers/simplifiable_if.py:549. *)
Definition is_subscript (e : expr) : bool := match e with Subscript _ _ => true | _ => false end.
(** [node.value], edulint/linting/checkers/simplifiable_if.py:539, 635. *)
Definition value_of (s : stmt) : res (option expr) :=
  match s with
  | Return v | AnnAssign _ v => Ok v
  | Assign _ v | AugAssign _ _ v => Ok (Some v)
  | _ => Raise AttributeError
  end.

(** [_mergeable], edulint/linting/checkers/simplifiable_if.py:535-554. The sorted lists of the names of one
    target each are equal if the names are. *)
Definition mergeable (a b : stmt) : bool :=
  if negb (same_kind a b) then false
  else match a, b with
       | Return v, Return w => match v, w with Some _, Some _ => true | _, _ => false end
       | _, _ =>
           if is_any_assign a && negb (is_for a)
           then match get_assigned_to a, get_assigned_to b with
                | [x], [y] => same_target_kind x y && negb (is_subscript x) && text_eqb (as_string x) (as_string y)
                | _, _ => false
                end
           else false
       end.

(** [_same_values], edulint/linting/checkers/simplifiable_if.py:530-533. *)
Definition same_values (a b : option expr) : bool :=
  match a, b with
  | None, None => true
  | Some x, Some y => text_eqb (as_string x) (as_string y)
  | _, _ => false
  end.

(** Messages, edulint/linting/checkers/simplifiable_if.py:278-420. *)
Inductive msg :=
| MReturn (conj : bool) (t : text)
| MAssign (conj : bool) (x t : text)
| MExpr (conj : bool) (t : text)
| MPass (t : text)
| MNoValue
| MNested (t : text)
| MSeq (t : text).

(** [_simplifiable_if_message] for an if statement, edulint/linting/checkers/simplifiable_if.py:425-440. *)
Definition if_message (then_ : stmt) (t : text) (only_replaces : bool) : res msg :=
  match then_ with
  | Return _ => Ok (MReturn (negb only_replaces) t)
  | _ => match get_assigned_to then_ with x :: _ => Ok (MAssign (negb only_replaces) (as_string x) t) | [] => Raise IndexError end
  end.

(** [isinstance(n, nodes.If)], edulint/linting/checkers/simplifiable_if.py:580, 594. *)
Definition is_if (s : stmt) : bool := match s with If _ _ _ => true | _ => false end.
(** [isinstance(n, nodes.Return)], edulint/linting/checkers/simplifiable_if.py:488, 572. *)
Definition is_return (s : stmt) : bool := match s with Return _ => true | _ => false end.

(** [_merge_sequential]; [parent_body] is [node.parent.body]. edulint/linting/checkers/simplifiable_if.py:556-590. *)
Definition merge_sequential (fuel : nat) (test : expr) (body : list stmt) (second : stmt) (parent_body : list stmt) : res (option msg) :=
  match second with
  | If test2 body2 orelse2 =>
      if is_boolop test || is_boolop test2 || negb (Nat.eqb (length orelse2) 0) || negb (Nat.eqb (length body) 1) || negb (Nat.eqb (length body2) 1)
      then Ok None
      else match body, body2 with
           | [Return v], [Return w] =>
               if negb (same_values v w) then Ok None
               else if forallb (fun n => is_if n || is_return n || (is_any_assign n && negb (is_for n))) parent_body
                       && Nat.ltb 2 (length (filter is_if parent_body))
                    then Ok None
                    else do t <- get_refactored fuel [ANode test; AWord WOr; ANode test2]; Ok (Some (MSeq t))
           | _, _ => Ok None
           end
  | _ => Raise AttributeError
  end.

(** [_get_then_orelse], edulint/linting/checkers/simplifiable_if.py:480-493. *)
Definition get_then_orelse (body orelse : list stmt) (next : option stmt) : option (stmt * stmt) :=
  match body, orelse with
  | [t], [o] => Some (t, o)
  | [t], [] =>
      match t, next with
      | Return _, Some (Return v) => Some (t, Return v)
      | _, _ => None
      end
  | _, _ => None
  end.

(** [_is_just_returning_if], edulint/linting/checkers/simplifiable_if.py:592-597. *)
Definition just_returning_if (s : option stmt) : bool :=
  match s with
  | Some (If _ body _) => match rev body with Return _ :: _ => true | _ => false end
  | _ => false
  end.

(** [_basic_checks] from the comparison of the two values on, edulint/linting/checkers/simplifiable_if.py:632-642. *)
Definition value_checks (fuel : nat) (test : expr) (orelse : list stmt) (prev : option stmt) (then_ else_ : stmt) : res (option msg) :=
  if negb (mergeable then_ else_) then Ok None
  else if Nat.eqb (length orelse) 0 && just_returning_if prev then Ok None
  else
    do v <- value_of then_;
    do w <- value_of else_;
    do r <- refactored_cond fuel test v w;
    match r with Some (t, only) => do m <- if_message then_ t only; Ok (Some m) | None => Ok None end.
(** One of two returns has no value, edulint/linting/checkers/simplifiable_if.py:624-630. *)
Definition no_value (then_ else_ : stmt) : bool :=
  match then_, else_ with
  | Return None, Return (Some _) | Return (Some _), Return None => true
  | _, _ => false
  end.
(** [_basic_checks] from the check of [pass] on, edulint/linting/checkers/simplifiable_if.py:612-642. *)
Definition branch_checks (fuel : nat) (test : expr) (body orelse : list stmt) (prev next : option stmt) : res (option msg) :=
  match body, orelse with
  | [Pass], _ :: _ => do t <- get_refactored fuel [AWord WNot; ANode test]; Ok (Some (MPass t))
  | _, _ =>
      match get_then_orelse body orelse next with
      | None => Ok None
      | Some (then_, else_) =>
          if no_value then_ else_ then Ok (Some MNoValue)
          else value_checks fuel test orelse prev then_ else_
      end
  end.
(** [_basic_checks]; [prev] and [next] are the siblings of the node. edulint/linting/checkers/simplifiable_if.py:599-642. *)
Definition basic_checks (fuel : nat) (test : expr) (body orelse : list stmt) (prev next : option stmt) (parent_body : list stmt) : res (option msg) :=
  match orelse with
  | [] =>
      match body with
      | [If test2 _ []] => do t <- get_refactored fuel [ANode test; AWord WAnd; ANode test2]; Ok (Some (MNested t))
      | _ =>
          match next with
          | Some (If t2 b2 o2) => merge_sequential fuel test body (If t2 b2 o2) parent_body
          | _ => branch_checks fuel test body orelse prev next
          end
      end
  | _ => branch_checks fuel test body orelse prev next
  end.

(** [isinstance(then, nodes.Const)] or a name, edulint/linting/checkers/simplifiable_if.py:1395-1396. *)
Definition const_or_name (e : expr) : bool := match e with Const _ | Name _ => true | _ => false end.
(** [visit_ifexp], edulint/linting/checkers/simplifiable_if.py:1390-1404. *)
Definition visit_ifexp (fuel : nat) (test then_ orelse : expr) : res (option msg) :=
  if negb (const_or_name then_) || negb (const_or_name orelse) then Ok None
  else do r <- refactored_cond fuel test (Some then_) (Some orelse);
       match r with Some (t, only) => Ok (Some (MExpr (negb only) t)) | None => Ok None end.
