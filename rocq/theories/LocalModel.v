(** Checks of single expressions and statements. Definitions only.
    edulint/linting/checkers/local_defects.py:129-170, 183-460, 501-705. *)
From Coq Require Import String Ascii List Bool Arith NArith ZArith.
From Verif Require Import Base PyModel PySpec IfModel FoldModel TypeModel.
Import ListNotations.
Local Open Scope string_scope.
Local Open Scope list_scope.

(** ** Integral division *)
(** [_check_div], edulint/linting/checkers/local_defects.py:162-170. *)
Definition check_div (e : expr) : bool :=
  match e with
  | Call (Name x) [Binary Div _ _] => String.eqb x "int"
  | _ => false
  end.

(** ** Numbers of iterations *)
(** The messages of R6606, edulint/linting/checkers/local_defects.py:193-199. *)
Inductive iterations := NoIterations | OneIteration.
(** [_check_iteration_count] for the expression the loop iterates over, edulint/linting/checkers/local_defects.py:183-199. *)
Definition iteration_count (H : host) (iter : expr) : res (option iterations) :=
  match get_range_params iter with
  | None => Ok None
  | Some (start, stop, step) =>
      do a <- get_const_value H start;
      do b <- get_const_value H stop;
      do s <- get_const_value H step;
      Ok (match as_int a, as_int b, as_int s with
          | Some a, Some b, Some s =>
              if (Z.ltb 0 s && Z.leb b a) || (Z.ltb s 0 && Z.leb a b) then Some NoIterations
              else if (Z.ltb 0 s && Z.leb b (a + s)) || (Z.ltb s 0 && Z.leb (a + s) b) then Some OneIteration
              else None
          | _, _, _ => None
          end)
  end.

(** ** Repeated operations *)
(** [type(node) in (nodes.Name, nodes.Attribute, nodes.Subscript)], edulint/linting/checkers/local_defects.py:222. *)
Definition named (e : expr) : bool := match e with Name _ | Attribute _ _ | Subscript _ _ => true | _ => false end.
(** [name is None or name == name_lt], edulint/linting/checkers/local_defects.py:213. *)
Definition same_name (name name_lt : option text) : bool :=
  match name, name_lt with
  | None, _ => true
  | Some n, Some m => text_eqb n m
  | Some _, None => false
  end.
(** [_check_repeated_operation_rec], edulint/linting/checkers/local_defects.py:201-225. *)
Fixpoint repeated_rec (o : binop) (e : expr) (name : option text) : res (option (nat * option text)) :=
  match e with
  | Binary o' a b =>
      if negb (binop_eqb o' o) then Ok None
      else
        do lt <- repeated_rec o a name;
        match lt with
        | None => Ok None
        | Some (count_lt, name_lt) =>
            if negb (same_name name name_lt) then Raise AssertionError
            else
              do rt <- repeated_rec o b name_lt;
              match rt with
              | None => Ok None
              | Some (count_rt, _) => Ok (Some (count_lt + count_rt, name))
              end
        end
  | _ =>
      let t := as_string e in
      match name with
      | None => Ok (if named e then Some (1, Some t) else None)
      | Some n => Ok (if text_eqb n t then Some (1, Some t) else None)
      end
  end.
(** [_check_repeated_operation], edulint/linting/checkers/local_defects.py:227-242. *)
Definition repeated_operation (e : expr) : res bool :=
  match e with
  | Binary Add _ _ => do r <- repeated_rec Add e None; Ok (match r with Some _ => true | None => false end)
  | Binary Mul _ _ => do r <- repeated_rec Mul e None; Ok (match r with Some _ => true | None => false end)
  | _ => Ok false
  end.

(** ** Redundant arithmetic *)
(** [value == n] for the integers 0 and 1; [None] is equal to neither. edulint/linting/checkers/local_defects.py:257-270. *)
Definition equals (n : Z) (v : value) : bool :=
  match v with
  | VBool b => Z.eqb (Z.b2z b) n
  | VInt z => Z.eqb z n
  | VFloat r => if Z.eqb n 0 then String.eqb r "0.0" || String.eqb r "-0.0" else String.eqb r "1.0"
  | _ => false
  end.
(** [value in (0, "")], edulint/linting/checkers/local_defects.py:257. *)
Definition zero_or_empty (v : value) : bool := equals 0 v || match v with VStr s => String.eqb s "" | _ => false end.
(** [value in (0, 1)], edulint/linting/checkers/local_defects.py:259, 270. *)
Definition zero_or_one_value (v : value) : bool := equals 0 v || equals 1 v.
(** The condition of R6608, edulint/linting/checkers/local_defects.py:256-271. *)
Definition is_redundant (o : binop) (lv rv : value) (same : bool) : bool :=
  match o with
  | Add => zero_or_empty lv || zero_or_empty rv
  | Sub => equals 0 lv || equals 0 rv
  | Mul => zero_or_one_value lv || zero_or_one_value rv
  | Div => equals 1 rv || same
  | FloorDiv | Mod => same
  | Pow => zero_or_one_value rv
  | _ => false
  end.
(** [_check_redundant_arithmetic] for a binary operation, edulint/linting/checkers/local_defects.py:244-272. *)
Definition redundant_binary (H : host) (o : binop) (a b : expr) : res bool :=
  do lv <- get_const_value H a;
  do rv <- get_const_value H b;
  Ok (is_redundant o lv rv (text_eqb (as_string a) (as_string b))).
(** [_check_redundant_arithmetic] for an augmented assignment, edulint/linting/checkers/local_defects.py:249-272. *)
Definition redundant_augmented (H : host) (target : expr) (o : binop) (e : expr) : res bool :=
  do rv <- get_const_value H e;
  Ok (is_redundant o VNone rv (text_eqb (as_string target) (as_string e))).

(** ** Augmented assignment *)
(** [bin_op.op in "+*|&"], edulint/linting/checkers/local_defects.py:301. *)
Definition commutes (o : binop) : bool := match o with Add | Mul | BitOr | BitAnd => true | _ => false end.
(** [_check_augmentable]; the result is target, operator and parameter. [guess] is [guess_type].
    edulint/linting/checkers/local_defects.py:275-305. *)
Definition augmentable (guess : expr -> option types) (s : stmt) : res (option (text * binop * text)) :=
  let check (target : text) (value : expr) :=
    match value with
    | Binary o a b =>
        match guess value with
        | None => None
        | Some ts =>
            if any_mutable ts then None
            else if text_eqb target (as_string a) then Some (target, o, as_string b)
            else if commutes o && text_eqb target (as_string b) && negb (any_container ts) then Some (target, o, as_string a)
            else None
        end
    | _ => None
    end in
  match s with
  | Assign ts v =>
      match v with
      | Binary _ _ _ => match ts with t :: _ => Ok (check (as_string t) v) | [] => Raise IndexError end
      | _ => Ok None
      end
  | AnnAssign t (Some v) => Ok (check (as_string t) v)
  | _ => Ok None
  end.

(** ** Extending a list by one element *)
(** An element of a list display: an expression or a starred one. Other displays have no bearing on the checks.
    edulint/linting/checkers/local_defects.py:134-135, 148. *)
Inductive elt := Single (e : expr) | Starred (e : expr).
(** [_check_extend] for the arguments of a call of a method, given as the elements of list displays, [None] for other arguments.
    The result is the argument of the suggested append. edulint/linting/checkers/local_defects.py:129-145. *)
Definition extend (method : string) (args : list (option (list elt))) : option elt :=
  match args with
  | [Some [x]] => if String.eqb method "extend" then Some x else None
  | _ => None
  end.
(** [_check_augassign_extend], edulint/linting/checkers/local_defects.py:147-153. *)
Definition augassign_extend (o : binop) (value : option (list elt)) : option elt :=
  match o, value with Add, Some [x] => Some x | _, _ => None end.

(** ** Multiplied lists *)
(** What matters of an element of a list display: list, set or dict displays, calls of names, all others.
    edulint/linting/checkers/local_defects.py:308-313. *)
Inductive elem := Display | CallOf (f : string) | Elsewise.
(** [is_mutable], edulint/linting/checkers/local_defects.py:308-313. *)
Definition is_mutable (x : elem) : bool :=
  match x with Display => true | CallOf f => existsb (String.eqb f) ["list"; "set"; "dict"] | Elsewise => false end.
(** [_check_multiplied_list] of the operands of a product, given as the elements of list displays, [None] for other operands.
    edulint/linting/checkers/local_defects.py:307-324. *)
Definition multiplied_list (o : binop) (a b : option (list elem)) : res bool :=
  match o, a, b with
  | Mul, None, None => Ok false
  | Mul, Some _, Some _ => Raise AssertionError
  | Mul, Some l, None | Mul, None, Some l => Ok (existsb is_mutable l)
  | _, _, _ => Ok false
  end.

(** ** Negated conditions *)
(** The messages of [_check_redundant_elif], edulint/linting/checkers/local_defects.py:337-343. *)
Inductive elif_msg := RedundantElif | UnreachableElse.
(** [_check_redundant_elif] of an if with test [test] and else branch [orelse], edulint/linting/checkers/local_defects.py:326-343. *)
Definition redundant_elif (H : host) (test : expr) (orelse : list stmt) : res (list elif_msg) :=
  match orelse with
  | [If c _ o] =>
      do n <- is_negation H test c false;
      Ok (if n then RedundantElif :: match o with [] => [] | _ => [UnreachableElse] end else [])
  | _ => Ok []
  end.

(** ** Comparisons with True and False *)
(** [_check_no_is]: the suggestion for one operator with the expressions before and after it,
    edulint/linting/checkers/local_defects.py:346-361. *)
Definition no_is_one (prev : expr) (o : cmpop) (val : expr) : list text :=
  match o, val with
  | Is, Const (CBool b) => [(if Bool.eqb true b then [] else [TNot]) ++ as_string prev]
  | IsNot, Const (CBool b) => [(if Bool.eqb false b then [] else [TNot]) ++ as_string prev]
  | _, _ => []
  end.
(** The loop of [_check_no_is], edulint/linting/checkers/local_defects.py:345-361. *)
Fixpoint no_is (prev : expr) (ops : list (cmpop * expr)) : list text :=
  match ops with [] => [] | (o, v) :: r => no_is_one prev o v ++ no_is v r end.

(** ** Letters *)
(** [_is_ord], edulint/linting/checkers/local_defects.py:363-364. *)
Definition is_ord (e : expr) : bool := match e with Call f _ => text_eqb (as_string f) [TName "ord"] | _ => false end.
(** [_contains_ord], edulint/linting/checkers/local_defects.py:366-371. *)
Definition contains_ord (e : expr) : bool :=
  is_ord e || match e with Binary _ a b => is_ord a || is_ord b | _ => false end.
(** [isinstance(node, nodes.BinOp)], edulint/linting/checkers/local_defects.py:400, 446. *)
Definition is_binop (e : expr) : bool := match e with Binary _ _ _ => true | _ => false end.
(** [chr] (external code) for the codes 31 to 127, edulint/linting/checkers/local_defects.py:374. *)
Definition chr (z : Z) : ascii := ascii_of_N (Z.to_N z).
(** [_is_preffered]: the letters a, z, A, Z, 0 and 9. edulint/linting/checkers/local_defects.py:373-374. *)
Definition is_preferred (z : Z) : bool :=
  let c := chr z in existsb (Ascii.eqb c) ["a"; "z"; "A"; "Z"; "0"; "9"]%char.
(** [f"'{chr(value)}'"]; a quote or a backslash between quotes is not a literal. The text of such a broken literal is
    modelled by a token that no expression starts with. edulint/linting/checkers/local_defects.py:397, 441. *)
Definition letter (z : Z) : text :=
  let c := chr z in if Ascii.eqb c "'" || Ascii.eqb c "\" then [TNegClose] else [TConst (CStr (String c ""))].
(** [f"ord('{chr(value)}')"], edulint/linting/checkers/local_defects.py:397-401. *)
Definition ord_letter (z : Z) : text := [TName "ord"; TLP] ++ letter z ++ [TRP].
(** [_in_suggestable_range] for integers, edulint/linting/checkers/local_defects.py:376-377. *)
Definition in_suggestable_range (z : Z) : bool := Z.leb 32 z && Z.ltb z 127.
(** Which operand is the constant, edulint/linting/checkers/local_defects.py:386. *)
Inductive side := LeftSide | RightSide.
(** One turn of the loop of [_check_use_ord_letter], edulint/linting/checkers/local_defects.py:386-410. *)
Definition use_ord_one (H : host) (o : binop) (ord_param const_param : expr) (s : side) : res (list (side * Z * text)) :=
  do v <- get_const_value H const_param;
  Ok (match as_int v with
      | None => []
      | Some z =>
          if negb (in_suggestable_range z) || negb (contains_ord ord_param) then []
          else
            let message (bracket : bool) (t : text) := [(s, z, if bracket then paren t else t)] in
            if is_preferred (z + 1)
            then message (match o, s with Add, LeftSide => true | _, _ => false end) (ord_letter (z + 1) ++ [TBin Sub; TConst (CInt 1)])
            else if is_preferred (z - 1)
            then message (match o, s with Sub, RightSide => true | _, _ => false end) (ord_letter (z - 1) ++ [TBin Add; TConst (CInt 1)])
            else if negb (is_binop ord_param) || is_preferred z then message false (ord_letter z)
            else []
      end).
(** [_check_use_ord_letter], edulint/linting/checkers/local_defects.py:379-410. *)
Definition use_ord_letter (H : host) (o : binop) (a b : expr) : res (list (side * Z * text)) :=
  match o with
  | Add | Sub =>
      do x <- use_ord_one H o a b RightSide;
      do y <- use_ord_one H o b a LeftSide;
      Ok (x ++ y)
  | _ => Ok []
  end.

(** [change], edulint/linting/checkers/local_defects.py:416-425. *)
Definition change (c : cmpop) : cmpop := match c with Lt => Le | Le => Lt | Gt => Ge | Ge => Gt | c => c end.
(** [_in_suggestable_range] for any constant, edulint/linting/checkers/local_defects.py:376-377. *)
Definition suggestable (H : host) (v : value) : res bool :=
  do a <- snd (compare (host_python H) Le (VInt 32) v tt);
  if const_truth a then do b <- snd (compare (host_python H) Lt v (VInt 127) tt); Ok (const_truth b) else Ok false.
(** [chr(value)] takes integers only, edulint/linting/checkers/local_defects.py:374, 440. *)
Definition to_code (v : value) : res Z := match as_int v with Some z => Ok z | None => Raise TypeError end.
(** The constant and the message of one turn for the first operand, edulint/linting/checkers/local_defects.py:434-449. *)
Definition first_letter (H : host) (param : expr) (op : cmpop) (other : expr) : res (list (Z * text)) :=
  do v <- get_const_value H param;
  match v with
  | VNone => Ok []
  | _ =>
      do s <- suggestable H v;
      if negb s then Ok []
      else
        do z <- to_code v;
        Ok (if is_preferred (z + 1) && (match op with Lt | Ge => true | _ => false end) then [(z, letter (z + 1) ++ cmp_tokens (change op))]
            else if is_preferred (z - 1) && (match op with Gt | Le => true | _ => false end) then [(z, letter (z - 1) ++ cmp_tokens (change op))]
            else if negb (contains_ord other) || negb (is_binop other) || is_preferred z then [(z, letter z ++ cmp_tokens op)]
            else [])
  end.
(** The same for the last operand, edulint/linting/checkers/local_defects.py:434-436, 451-460. *)
Definition last_letter (H : host) (param : expr) (op : cmpop) (other : expr) : res (list (Z * text)) :=
  do v <- get_const_value H param;
  match v with
  | VNone => Ok []
  | _ =>
      do s <- suggestable H v;
      if negb s then Ok []
      else
        do z <- to_code v;
        Ok (if is_preferred (z + 1) && (match op with Gt | Le => true | _ => false end) then [(z, cmp_tokens (change op) ++ letter (z + 1))]
            else if is_preferred (z - 1) && (match op with Lt | Ge => true | _ => false end) then [(z, cmp_tokens (change op) ++ letter (z - 1))]
            else if negb (contains_ord other) || negb (is_binop other) || is_preferred z then [(z, cmp_tokens op ++ letter z)]
            else [])
  end.
(** [node.ops[-1]], edulint/linting/checkers/local_defects.py:433. *)
Definition last_op (ops : list (cmpop * expr)) : option (cmpop * expr) :=
  match rev ops with [] => None | p :: _ => Some p end.
(** [all_ops[-2][1]], edulint/linting/checkers/local_defects.py:427, 457. *)
Definition before_last (left : expr) (ops : list (cmpop * expr)) : expr :=
  match rev ops with _ :: (_, e) :: _ => e | _ => left end.
(** [_check_magical_constant_in_ord_compare], edulint/linting/checkers/local_defects.py:412-460. *)
Definition ord_compare (H : host) (left : expr) (ops : list (cmpop * expr)) : res (list (side * Z * text)) :=
  if negb (existsb contains_ord (left :: map snd ops)) then Ok []
  else
    match ops, last_op ops with
    | (op, other) :: _, Some (op', param) =>
        do x <- first_letter H left op other;
        do y <- last_letter H param op' (before_last left ops);
        Ok (map (fun m => (LeftSide, fst m, snd m)) x ++ map (fun m => (RightSide, fst m, snd m)) y)
    | _, _ => Raise IndexError
    end.

(** ** Membership in a range *)
(** [is_var], edulint/linting/checkers/local_defects.py:512-513. *)
Definition is_var (e : expr) : bool := match e with Name _ | Call _ _ | Subscript _ _ | Attribute _ _ => true | _ => false end.
(** What the inference says: whether a function is a pure builtin and an opaque expression is pure,
    edulint/linting/analyses/utils.py:176-213. *)
Record purity := { pure_function : expr -> bool; pure_opaque : nat -> bool }.
(** [is_pure_expression], edulint/linting/analyses/utils.py:216-229. *)
Fixpoint is_pure_expression (I : purity) (e : expr) : bool :=
  match e with
  | Name _ | Const _ => true
  | Unary _ a | Attribute a _ => is_pure_expression I a
  | Binary _ a b | Subscript a b => is_pure_expression I a && is_pure_expression I b
  | BoolOp _ vs => forallb (is_pure_expression I) vs
  | Compare a ops => is_pure_expression I a && forallb (fun cv => is_pure_expression I (snd cv)) ops
  | Call f args => pure_function I f && forallb (is_pure_expression I) args
  | IfExp _ _ _ => false
  | Other n => pure_opaque I n
  end.
(** [str(value)] for an integer, edulint/linting/checkers/local_defects.py:556. *)
Definition int_text (z : Z) : text :=
  if Z.ltb z 0 then [TBin Sub; TConst (CInt (Z.to_N (- z)))] else [TConst (CInt (Z.to_N z))].
(** [range(start, stop, step)] (external code), edulint/linting/checkers/local_defects.py:556, 584. *)
Definition range_list (start stop step : Z) : list Z :=
  let count := if Z.ltb 0 step then ((stop - start + step - 1) / step)%Z else ((start - stop - step - 1) / - step)%Z in
  map (fun k => (start + Z.of_nat k * step)%Z) (seq 0 (Z.to_nat count)).
(** [value_a < value_b] for constants, edulint/linting/checkers/local_defects.py:507. *)
Definition less (H : host) (c : cmpop) (a b : value) : res bool := do r <- snd (compare (host_python H) c a b tt); Ok (const_truth r).
(** [count_range_values], edulint/linting/checkers/local_defects.py:506-510. *)
Definition count_range_values (H : host) (start stop : value) (step : Z) : res value :=
  do x <- less H Lt start stop;
  if x && Z.ltb step 0 then Ok (VInt 0)
  else
    do y <- less H Gt start stop;
    if y && Z.ltb 0 step then Ok (VInt 0)
    else
      do d <- snd (binary (host_python H) Sub start stop tt);
      do q <- snd (binary (host_python H) FloorDiv d (VInt step) tt);
      snd (unary (host_python H) Neg q tt).
(** [values_count > 3 or values_count > 2 and abs(step) == 1], edulint/linting/checkers/local_defects.py:553, 575. *)
Definition too_many (H : host) (count : value) (step : Z) : res bool :=
  do x <- less H Gt count (VInt 3);
  if x then Ok true
  else do y <- less H Gt count (VInt 2); Ok (y && Z.eqb (Z.abs step) 1).
(** [get_value_plus_constant], edulint/linting/checkers/local_defects.py:525-542. *)
Definition value_plus_constant (H : host) (e : expr) : res (option (text * value)) :=
  if is_var e then Ok (Some (as_string e, VInt 0))
  else
    match e with
    | Binary Add a (Const c) =>
        if is_var a then Ok (Some (as_string a, const_value c)) else Ok None
    | Binary Sub a (Const c) =>
        if is_var a then do v <- snd (unary (host_python H) Neg (const_value c) tt); Ok (Some (as_string a, v)) else Ok None
    | Binary Add (Const c) b =>
        if is_var b then Ok (Some (as_string b, const_value c)) else Ok None
    | _ => Ok None
    end.
(** One value of the list for [val1 + value], edulint/linting/checkers/local_defects.py:579-583. *)
Definition shifted (var : text) (z : Z) : text :=
  if Z.eqb z 0 then var else var ++ [TBin (if Z.ltb 0 z then Add else Sub)] ++ int_text (Z.abs z).
(** [get_all_values_in_range_if_not_many]; [None] as constant is [VNone]. edulint/linting/checkers/local_defects.py:544-587. *)
Definition all_values (H : host) (start : expr) (start_val : value) (stop : expr) (stop_val : value) (step : Z) : res (option (list text)) :=
  match start_val, stop_val with
  | VNone, VNone =>
      do p <- value_plus_constant H start;
      match p with
      | None => Ok None
      | Some (val1, const1) =>
          do q <- value_plus_constant H stop;
          match q with
          | None => Ok None
          | Some (val2, const2) =>
              if negb (text_eqb val1 val2) then Ok None
              else
                do n <- count_range_values H const1 const2 step;
                do m <- too_many H n step;
                if m then Ok None
                else do a <- to_code const1; do b <- to_code const2; Ok (Some (map (shifted val1) (range_list a b step)))
          end
      end
  | VNone, _ | _, VNone => Ok None
  | a, b =>
      do n <- count_range_values H a b step;
      do m <- too_many H n step;
      if m then Ok None
      else do a <- to_code a; do b <- to_code b; Ok (Some (map int_text (range_list a b step)))
  end.
(** [add_brackets_if_necessary], edulint/linting/checkers/local_defects.py:519-523. *)
Definition brackets (e : expr) : text :=
  match e with Binary _ _ _ | Unary _ _ => paren (as_string e) | _ => as_string e end.
(** Not a constant, or an integer that is not a bool, edulint/linting/checkers/local_defects.py:611-614. *)
Definition integer_or_unknown (v : value) : bool := match v with VNone | VInt _ => true | _ => false end.
(** R6617, R6618 and R6619, edulint/linting/checkers/local_defects.py:630-635, 677-683, 701-705. *)
Inductive range_kind := Small | Plain | Stepped.
(** The suggestion once the parameters are known, edulint/linting/checkers/local_defects.py:618-705. *)
Definition range_suggestion (H : host) (var : text) (is_in : bool) (start : expr) (a : value) (stop : expr) (b : value) (s : Z) : res (range_kind * text) :=
  do values <- all_values H start a stop b s;
  match values with
  | Some [] => Ok (Small, [TConst (CBool (negb is_in))])
  | Some l =>
      let comparison := var ++ [TRel (if is_in then Eq else Ne)] in
      Ok (Small, comparison ++ sep_by ((if is_in then TOr else TAnd) :: comparison) l)
  | None =>
      let '(left_compare, right_compare, lo, hi) :=
        if Z.ltb s 0 then (Lt, Le, as_string stop, as_string start) else (Le, Lt, as_string start, as_string stop) in
      let connection := if is_in then TAnd else TOr in
      let base :=
        if is_in then lo ++ [TRel left_compare] ++ var ++ [connection] ++ var ++ [TRel right_compare] ++ hi
        else var ++ [TRel right_compare] ++ lo ++ [connection] ++ hi ++ [TRel left_compare] ++ var in
      if Z.eqb (Z.abs s) 1 then Ok (Plain, base)
      else
        let n := int_text (Z.abs s) in
        Ok (Stepped, base ++ [connection] ++ var ++ [TBin Mod] ++ n ++ [TRel (if is_in then Eq else Ne)] ++
              match a with
              | VInt z => int_text (z mod Z.abs s)%Z
              | _ => brackets start ++ [TBin Mod] ++ n
              end)
  end.
(** [_check_in_range_instead_of_compare]; [only_ints] is [takes_only_int_values]. edulint/linting/checkers/local_defects.py:502-705. *)
Definition in_range (H : host) (I : purity) (only_ints : expr -> bool) (left : expr) (ops : list (cmpop * expr)) : res (option (range_kind * text)) :=
  match ops with
  | [(In, rng)] | [(NotIn, rng)] =>
      let is_in := match ops with (In, _) :: _ => true | _ => false end in
      if negb (is_var left) || negb (only_ints left) then Ok None
      else
        match get_range_params rng with
        | None => Ok None
        | Some (start, stop, step) =>
            do a <- get_const_value H start;
            do b <- get_const_value H stop;
            do s <- get_const_value H step;
            if negb (is_pure_expression I start) || negb (is_pure_expression I stop) then Ok None
            else
              match s with
              | VInt s =>
                  if Z.eqb s 0 || negb (integer_or_unknown a) || negb (integer_or_unknown b) then Ok None
                  else do r <- range_suggestion H (as_string left) is_in start a stop b s; Ok (Some r)
              | _ => Ok None
              end
        end
  | _ => Ok None
  end.
