(** Python expressions as the checkers see them (astroid nodes) and their text ([as_string]).
    Both belong to astroid, not to edulint; they are modelled because the checkers build their
    suggestions from such texts. Definitions only.
    Simplified: texts are lists of tokens (white space is not kept); displays, comprehensions, f-strings
    and other expressions with delimiters of their own are opaque; lambdas, [:=], [await], [yield],
    starred and keyword arguments are left out. *)
From Coq Require Import String List Bool Arith NArith.
Import ListNotations.
Local Open Scope string_scope.
Local Open Scope list_scope.

(** Unary operators, edulint/linting/analyses/utils.py:381-386. *)
Inductive unop := Not | Neg | Pos | Inv.
(** Binary operators, edulint/linting/analyses/utils.py:388-411. *)
Inductive binop := Add | Sub | Mul | Div | FloorDiv | Mod | Pow | LShift | RShift | BitAnd | BitOr | BitXor | MatMul.
(** Operators of [BoolOp], edulint/linting/analyses/utils.py:409-410. *)
Inductive boolop := And | Or.
(** Comparisons, edulint/linting/analyses/utils.py:600-610. *)
Inductive cmpop := Lt | Le | Gt | Ge | Eq | Ne | Is | IsNot | In | NotIn.
(** Values of [Const]; a float is given by its [repr], edulint/linting/analyses/utils.py:418-419. *)
Inductive const := CNone | CBool (b : bool) | CInt (n : N) | CFloat (repr : string) | CStr (s : string).

(** Expressions, edulint/linting/analyses/utils.py:71-87. *)
Inductive expr :=
| Name (x : string)
| Const (c : const)
| Unary (o : unop) (e : expr)
| Binary (o : binop) (a b : expr)
| BoolOp (o : boolop) (vs : list expr)
| Compare (left : expr) (ops : list (cmpop * expr))
| Call (f : expr) (args : list expr)
| Attribute (e : expr) (attr : string)
| Subscript (e i : expr)
| IfExp (test body orelse : expr)
| Other (n : nat).

(** Tokens of the text of an expression, as in edulint/linting/checkers/simplifiable_if.py:442-475;
    [TNegOpen] and [TNegClose] are the "<negated" and ">" of lines 453-455. *)
Inductive token :=
| TName (x : string) | TConst (c : const) | TOther (n : nat)
| TNot | TAnd | TOr | TIf | TElse | TIn | TIs
| TBin (o : binop) | TTilde | TRel (c : cmpop)
| TLP | TRP | TLB | TRB | TComma | TDot | TNegOpen | TNegClose.
(** A text, edulint/linting/checkers/simplifiable_if.py:442-475. *)
Definition text := list token.

(** Precedence of operators in astroid, as used by [as_string] (external code),
    edulint/linting/checkers/simplifiable_if.py:451, 472. *)
Definition bin_prec (o : binop) : nat :=
  match o with
  | BitOr => 6 | BitXor => 7 | BitAnd => 8 | LShift | RShift => 9 | Add | Sub => 10
  | Mul | MatMul | Div | FloorDiv | Mod => 11 | Pow => 13
  end.
(** Precedence of the operators and/or (external code), edulint/linting/checkers/simplifiable_if.py:451, 472. *)
Definition bool_prec (o : boolop) : nat := match o with Or => 2 | And => 3 end.
(** [op_precedence] (external code), edulint/linting/checkers/simplifiable_if.py:451, 472. *)
Definition prec (e : expr) : nat :=
  match e with
  | IfExp _ _ _ => 1
  | BoolOp o _ => bool_prec o
  | Unary Not _ => 4
  | Compare _ _ => 5
  | Binary o _ _ => bin_prec o
  | Unary _ _ => 12
  | _ => 15
  end.

(** Parentheses around a text, edulint/linting/checkers/simplifiable_if.py:177. *)
Definition paren (t : text) : text := TLP :: t ++ [TRP].
(** [_precedence_parens] (external code): a child is put into parentheses if it binds less, or
    equally on the side that does not associate, edulint/linting/checkers/simplifiable_if.py:451, 472. *)
Definition wrap (outer inner : nat) (same : bool) (t : text) : text :=
  if Nat.ltb inner outer || (Nat.eqb inner outer && same) then paren t else t.
(** Texts separated by a separator, edulint/linting/checkers/simplifiable_if.py:271. *)
Fixpoint sep_by (s : text) (l : list text) : text :=
  match l with [] => [] | [t] => t | t :: r => t ++ s ++ sep_by s r end.
(** The operator of a comparison, edulint/linting/analyses/utils.py:600-610. *)
Definition cmp_tokens (c : cmpop) : text :=
  match c with Is => [TIs] | IsNot => [TIs; TNot] | In => [TIn] | NotIn => [TNot; TIn] | c => [TRel c] end.
(** and/or, edulint/linting/analyses/utils.py:409-410. *)
Definition bool_token (o : boolop) : token := match o with And => TAnd | Or => TOr end.
(** Unary operators, edulint/linting/analyses/utils.py:381-386. *)
Definition un_token (o : unop) : token :=
  match o with Not => TNot | Neg => TBin Sub | Pos => TBin Add | Inv => TTilde end.

(** [node.as_string()] (external code), edulint/linting/checkers/simplifiable_if.py:451, 472. *)
Fixpoint as_string (e : expr) : text :=
  match e with
  | Name x => [TName x]
  | Const c => [TConst c]
  | Other n => [TOther n]
  | Unary o a => un_token o :: wrap (prec e) (prec a) false (as_string a)
  | Binary o a b =>
      let right_assoc := match o with Pow => true | _ => false end in
      wrap (prec e) (prec a) right_assoc (as_string a) ++ [TBin o] ++
      wrap (prec e) (prec b) (negb right_assoc) (as_string b)
  | BoolOp o vs => sep_by [bool_token o] (map (fun v => wrap (prec e) (prec v) false (as_string v)) vs)
  | Compare l ops =>
      wrap 5 (prec l) false (as_string l) ++
      concat (map (fun cv => cmp_tokens (fst cv) ++ wrap 5 (prec (snd cv)) true (as_string (snd cv))) ops)
  | Call f args => wrap 15 (prec f) false (as_string f) ++ TLP :: sep_by [TComma] (map as_string args) ++ [TRP]
  | Attribute a x =>
      (match a with Const (CInt _) => paren (as_string a) | _ => wrap 15 (prec a) false (as_string a) end) ++ [TDot; TName x]
  | Subscript a i => wrap 15 (prec a) false (as_string a) ++ TLB :: as_string i ++ [TRB]
  | IfExp c a b =>
      wrap 1 (prec a) true (as_string a) ++ [TIf] ++ wrap 1 (prec c) true (as_string c) ++ [TElse] ++ as_string b
  end.
