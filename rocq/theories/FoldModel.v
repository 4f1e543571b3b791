(** Constant folding and the detection of negated conditions. Definitions only.
    edulint/linting/analyses/utils.py:232-244, 379-447, 600-708. *)
From Coq Require Import String List Bool Arith NArith ZArith.
From Verif Require Import Base PyModel PySpec IfModel.
Import ListNotations.
Local Open Scope string_scope.
Local Open Scope list_scope.

(** The functions of Python's module operator on values other than integers and strings
    (external code), edulint/linting/analyses/utils.py:379-411. *)
Record host := {
  host_unary : unop -> value -> res value;
  host_binary : binop -> value -> value -> res value;
  host_compare : cmpop -> value -> value -> res value
}.

(** The interpreter that runs the linter, as far as operators are concerned (external code),
    edulint/linting/analyses/utils.py:379-411. *)
Definition host_python (H : host) : python unit := {|
  lookup := fun _ _ => Raise (OtherError "NameError");
  opaque := fun _ w => (w, Raise (OtherError "NameError"));
  call := fun _ _ w => (w, Raise TypeError);
  attribute := fun _ _ w => (w, Raise AttributeError);
  item := fun _ _ w => (w, Raise TypeError);
  unary_op := fun o v w => (w, host_unary H o v);
  binary_op := fun o v u w => (w, host_binary H o v u);
  compare_op := fun c v u w => (w, host_compare H c v u);
  obj_truth := fun _ _ => Ok true
|}.
(** [UNARY_SYMBOL_TO_OP], edulint/linting/analyses/utils.py:381-386. *)
Definition unary_operator (H : host) (o : unop) (v : value) : res value := snd (unary (host_python H) o v tt).
(** [BINARY_SYMBOL_TO_OP] for arithmetic; matrix multiplication has no entry. edulint/linting/analyses/utils.py:388-411. *)
Definition binary_operator (H : host) (o : binop) : res (value -> value -> res value) :=
  match o with
  | MatMul => Raise KeyError
  | _ => Ok (fun v w => snd (binary (host_python H) o v w tt))
  end.
(** [BINARY_SYMBOL_TO_OP] for comparisons; in and not in have no entry. edulint/linting/analyses/utils.py:396-408. *)
Definition compare_operator (H : host) (c : cmpop) : res (value -> value -> res value) :=
  match c with
  | In | NotIn => Raise KeyError
  | _ => Ok (fun v w => snd (compare (host_python H) c v w tt))
  end.
(** The truth of a constant, edulint/linting/analyses/utils.py:409-410. *)
Definition const_truth (v : value) : bool :=
  match v with
  | VNone => false
  | VBool b => b
  | VInt z => negb (Z.eqb z 0)
  | VFloat r => negb (String.eqb r "0.0" || String.eqb r "-0.0")
  | VStr s => negb (String.eqb s "")
  | VObj _ => true
  end.
(** [lt and rt], [lt or rt], edulint/linting/analyses/utils.py:409-410. *)
Definition bool_operator (o : boolop) (v w : value) : value :=
  match o with
  | And => if const_truth v then w else v
  | Or => if const_truth v then v else w
  end.
(** [isinstance(val, (int, float))]; a bool is an int. edulint/linting/analyses/utils.py:423. *)
Definition is_num (v : value) : bool := match v with VBool _ | VInt _ | VFloat _ => true | _ => false end.
(** [rt_val != 0], edulint/linting/analyses/utils.py:428. *)
Definition not_zero (v : value) : bool :=
  match v with
  | VBool b => b
  | VInt z => negb (Z.eqb z 0)
  | VFloat r => negb (String.eqb r "0.0" || String.eqb r "-0.0")
  | _ => true
  end.
(** [node.op not in ("/", "//", "%")], edulint/linting/analyses/utils.py:428. *)
Definition no_division (o : binop) : bool := match o with Div | FloorDiv | Mod => false | _ => true end.

(** [get_const_value_rec], edulint/linting/analyses/utils.py:414-440. *)
Fixpoint fold (H : host) (e : expr) : res value :=
  match e with
  | Const c => Ok (const_value c)
  | Unary o a => do v <- fold H a; if is_num v then unary_operator H o v else Raise ValueError
  | Binary o a b =>
      do w <- fold H b;
      if no_division o || not_zero w
      then do f <- binary_operator H o; do v <- fold H a; f v w
      else Raise ValueError
  | BoolOp o vs =>
      match vs with
      | a :: b :: r =>
          do v <- fold H a;
          (fix go (acc : value) (l : list expr) : res value :=
             match l with
             | [] => Ok acc
             | x :: l => do u <- fold H x; go (bool_operator o acc u) l
             end) v (b :: r)
      | _ => Raise AssertionError
      end
  | Compare a ops =>
      match ops with
      | [(c, b)] => do f <- compare_operator H c; do v <- fold H a; do w <- fold H b; f v w
      | _ => Raise ValueError
      end
  | _ => Raise ValueError
  end.
(** [except (ValueError, KeyError, TypeError)], edulint/linting/analyses/utils.py:446. *)
Definition caught (x : exn) : bool := match x with ValueError | KeyError | TypeError => true | _ => false end.
(** [get_const_value], edulint/linting/analyses/utils.py:443-447. *)
Definition get_const_value (H : host) (e : expr) : res value :=
  match fold H e with
  | Ok v => Ok v
  | Raise x => if caught x then Ok VNone else Raise x
  end.

(** [is_number], edulint/linting/analyses/utils.py:232-234. *)
Definition is_number (H : host) (e : expr) : res bool :=
  do v <- get_const_value H e; Ok (match v with VInt _ | VFloat _ => true | _ => false end).
(** [is_integer], edulint/linting/analyses/utils.py:237-239. *)
Definition is_integer (H : host) (e : expr) : res bool :=
  do v <- get_const_value H e; Ok (match v with VInt _ => true | _ => false end).
(** [is_float], edulint/linting/analyses/utils.py:242-244. *)
Definition is_float (H : host) (e : expr) : res bool :=
  do v <- get_const_value H e; Ok (match v with VFloat _ => true | _ => false end).

(** [NEGATED_OP] for comparisons, edulint/linting/analyses/utils.py:600-610. *)
Definition negated_cmp (c : cmpop) : cmpop :=
  match c with
  | Ge => Lt | Le => Gt | Gt => Le | Lt => Ge | Eq => Ne | Ne => Eq
  | Is => IsNot | IsNot => Is | In => NotIn | NotIn => In
  end.
(** [lt.op == rt.op], edulint/linting/analyses/utils.py:669. *)
Definition boolop_eqb (a b : boolop) : bool := match a, b with And, And | Or, Or => true | _, _ => false end.
(** [NEGATED_OP] for and/or, edulint/linting/analyses/utils.py:611-612. *)
Definition negated_bool (o : boolop) : boolop := match o with And => Or | Or => And end.
(** [isinstance(lt, type(rt))], edulint/linting/analyses/utils.py:664. *)
Definition same_type (a b : expr) : bool :=
  match a, b with
  | Name _, Name _ | Const _, Const _ | Unary _ _, Unary _ _ | Binary _ _ _, Binary _ _ _ | BoolOp _ _, BoolOp _ _
  | Compare _ _, Compare _ _ | Call _ _, Call _ _ | Attribute _ _, Attribute _ _ | Subscript _ _, Subscript _ _
  | IfExp _ _ _, IfExp _ _ _ | Other _, Other _ => true
  | _, _ => false
  end.
(** [have_same_value], [are_identical]; opaque expressions of different classes have different texts.
    edulint/linting/analyses/utils.py:692-708. *)
Definition have_same_value (a b : expr) : bool := text_eqb (as_string a) (as_string b).
(** [strip_nots], edulint/linting/analyses/utils.py:628-632. *)
Fixpoint strip_nots (e : expr) (negated : bool) : expr * bool :=
  match e with Unary Not a => strip_nots a (negb negated) | _ => (e, negated) end.
(** [ops_match], edulint/linting/analyses/utils.py:617-618. *)
Fixpoint ops_match (f : cmpop -> cmpop) (a b : list (cmpop * expr)) : bool :=
  match a, b with
  | (x, _) :: r, (y, _) :: s => cmpop_eqb (f x) y && ops_match f r s
  | _, _ => true
  end.
(** A value equal to 2, edulint/linting/analyses/utils.py:635. *)
Definition is_two (v : value) : bool := match v with VInt z => Z.eqb z 2 | VFloat r => String.eqb r "2.0" | _ => false end.
(** [is_mod_two], edulint/linting/analyses/utils.py:634-635. *)
Definition is_mod_two (H : host) (e : expr) : res bool :=
  match e with
  | Binary Mod _ b => do v <- get_const_value H b; Ok (is_two v)
  | _ => Ok false
  end.
(** [op not in ("==", "!=")], edulint/linting/analyses/utils.py:643. *)
Definition is_eq_op (c : cmpop) : bool := match c with Eq | Ne => true | _ => false end.
(** [is_eq_mod_two], edulint/linting/analyses/utils.py:638-647. *)
Definition is_eq_mod_two (H : host) (a : expr) (ops : list (cmpop * expr)) : res bool :=
  match ops with
  | [(c, b)] =>
      if is_eq_op c
      then do x <- is_mod_two H a; do y <- is_mod_two H b; Ok (negb (Bool.eqb x y))
      else Ok false
  | _ => Ok false
  end.
(** [lt_mod.left], edulint/linting/analyses/utils.py:659. *)
Definition mod_left (e : expr) : res expr := match e with Binary _ a _ => Ok a | _ => Raise AttributeError end.
(** The remainder and the other side, edulint/linting/analyses/utils.py:653-657. *)
Definition mod_and_value (H : host) (a : expr) (ops : list (cmpop * expr)) : res (expr * expr) :=
  match ops with
  | (_, b) :: _ => do x <- is_mod_two H a; Ok (if x then (a, b) else (b, a))
  | [] => Raise IndexError
  end.
(** [mod_two_negation], edulint/linting/analyses/utils.py:649-659. *)
Definition mod_two_negation (H : host) (a : expr) (ops : list (cmpop * expr)) (b : expr) (ops2 : list (cmpop * expr)) : res bool :=
  do x <- is_eq_mod_two H a ops;
  if negb x then Ok false
  else
    do y <- is_eq_mod_two H b ops2;
    if negb y then Ok false
    else
      do p <- mod_and_value H a ops;
      do q <- mod_and_value H b ops2;
      do u <- mod_left (fst p);
      do v <- mod_left (fst q);
      Ok (have_same_value u v && negb (have_same_value (snd p) (snd q))).

(** [is_negation]; [all_are_negations] is the inner loop. edulint/linting/analyses/utils.py:616-689. *)
Fixpoint is_negation (H : host) (lt rt : expr) (negated_rt : bool) {struct lt} : res bool :=
  match lt with
  | Unary Not a => is_negation H a rt (negb negated_rt)
  | _ =>
      let (rt, negated_rt) := strip_nots rt negated_rt in
      if negb (same_type lt rt) then Ok false
      else match lt, rt with
           | BoolOp o vs, BoolOp o2 us =>
               if Nat.eqb (length vs) (length us) && ((negated_rt && boolop_eqb o o2) || (negb negated_rt && boolop_eqb (negated_bool o) o2))
               then (fix all (l r : list expr) : res bool :=
                       match l, r with
                       | x :: l, y :: r => do b <- is_negation H x y negated_rt; if b then all l r else Ok false
                       | _, _ => Ok true
                       end) vs us
               else Ok false
           | Compare a ops, Compare b ops2 =>
               let all_are_negations negated :=
                 do x <- is_negation H a b negated;
                 if x
                 then (fix all (l r : list (cmpop * expr)) : res bool :=
                         match l, r with
                         | (_, x) :: l, (_, y) :: r => do b <- is_negation H x y negated; if b then all l r else Ok false
                         | _, _ => Ok true
                         end) ops ops2
                 else Ok false in
               if negb (Nat.eqb (length ops) (length ops2)) then Ok false
               else if negated_rt && ops_match (fun c => c) ops ops2 then all_are_negations negated_rt
               else
                 do x <- (if negb negated_rt && ops_match negated_cmp ops ops2 then do r <- all_are_negations (negb negated_rt); Ok (Some r) else Ok None);
                 match x with
                 | Some r => Ok r
                 | None =>
                     if negb negated_rt then mod_two_negation H a ops b ops2 else Ok false
                 end
           | _, _ => Ok (negated_rt && have_same_value lt rt)
           end
  end.
