(** The translation of conditions for the solver Z3 and the check for redundant operands of and/or. Definitions only.
    edulint/linting/analyses/z3_analysis.py; edulint/linting/checkers/simplifiable_if.py:168-178, 2042-2218, 2231-2233, 2274-2310.
    Simplified: a variable of the solver is named by the text of the expression it stands for (in the code by the number of
    variables before it, which is as unique); the solver is an oracle. *)
From Coq Require Import String List Bool Arith NArith ZArith.
From Verif Require Import Base PyModel PySpec IfModel FoldModel TypeModel LocalModel.
Import ListNotations.
Local Open Scope string_scope.
Local Open Scope list_scope.

(** ** Terms of the solver *)
(** Terms of Z3 (external code), edulint/linting/analyses/z3_analysis.py:184, 205-215, 242, 264, 282-293, 322-332, 349-351.
    [ZReal] is the decimal number written in the string, [ZOver] divides by [float(...)] of a value. *)
Inductive zexpr :=
| ZVar (k : text) (int : bool)
| ZBool (b : bool) | ZInt (z : Z) | ZReal (r : string)
| ZAbs (a : zexpr) | ZNeg (a : zexpr) | ZNot (a : zexpr)
| ZAdd (a b : zexpr) | ZSub (a b : zexpr) | ZMul (a b : zexpr)
| ZMod (a : zexpr) (n : Z) | ZQuot (a : zexpr) (n : Z) | ZOver (a : zexpr) (v : value)
| ZRel (c : cmpop) (a b : zexpr)
| ZAnd (l : list zexpr) | ZOr (l : list zexpr).
(** Sorts of terms (external code), edulint/linting/analyses/z3_analysis.py:314, 425-427. *)
Inductive sort := SBool | SInt | SReal.
(** Operands of different sorts are converted to reals (external code), edulint/linting/analyses/z3_analysis.py:283, 328. *)
Definition common_sort (a b : option sort) : option sort :=
  match a, b with
  | Some SInt, Some SInt => Some SInt
  | Some SInt, Some SReal | Some SReal, Some SInt | Some SReal, Some SReal => Some SReal
  | _, _ => None
  end.
(** The sort of a term; [None] if Z3 would raise an exception (external code), edulint/linting/analyses/z3_analysis.py:314. *)
Fixpoint sort_of (z : zexpr) : option sort :=
  match z with
  | ZVar _ int => Some (if int then SInt else SReal)
  | ZBool _ => Some SBool
  | ZInt _ => Some SInt
  | ZReal _ => Some SReal
  | ZAbs a | ZNeg a => match sort_of a with Some SBool => None | s => s end
  | ZNot a => match sort_of a with Some SBool => Some SBool | _ => None end
  | ZAdd a b | ZSub a b | ZMul a b => common_sort (sort_of a) (sort_of b)
  | ZMod a _ | ZQuot a _ => match sort_of a with Some SInt => Some SInt | _ => None end
  | ZOver a _ => match sort_of a with Some SBool => None | Some _ => Some SReal | None => None end
  | ZRel _ a b => match common_sort (sort_of a) (sort_of b) with Some _ => Some SBool | None => None end
  | ZAnd l | ZOr l => if forallb (fun z => match sort_of z with Some SBool => true | _ => false end) l then Some SBool else None
  end.

(** ** Which expressions are translated *)
(** What the translation asks about expressions: the guess of the type (see TypeModel), and whether an opaque expression is a
    slice, list, set, dict or tuple. edulint/linting/analyses/z3_analysis.py:87-96, 145. *)
Record inspection := { guess : expr -> option types; is_collection : nat -> bool }.
(** [_is_bool_node] for an expression, edulint/linting/analyses/z3_analysis.py:18-23. *)
Definition is_bool_node (e : expr) : bool := match e with BoolOp _ _ | Unary Not _ => true | _ => false end.
(** [_is_variable_in_pure_expression], edulint/linting/analyses/z3_analysis.py:26-28. *)
Definition is_variable (e : expr) : bool := match e with Name _ | Subscript _ _ | Attribute _ _ | Call _ _ => true | _ => false end.
(** [_is_expression_with_nonlinear_arithmetic], edulint/linting/analyses/z3_analysis.py:31-40. *)
Definition nonlinear (H : host) (e : expr) : res bool :=
  match e with
  | Binary o a b =>
      do n <- is_number H e;
      if n then Ok false
      else
        match o with
        | Pow => Ok true
        | Div => do m <- is_number H b; Ok (negb m)
        | FloorDiv | Mod => do m <- is_integer H b; Ok (negb m)
        | _ => Ok false
        end
  | _ => Ok false
  end.
(** [_not_allowed_node]; [int_op] is [is_descendant_of_integer_operation], [bp] is [_is_bool_node(parent)].
    edulint/linting/analyses/z3_analysis.py:49-97. *)
Definition not_allowed (H : host) (G : inspection) (e : expr) (int_op bp : bool) : res bool :=
  match e with
  | Binary o a b =>
      match o with
      | LShift | RShift | BitOr | BitAnd | BitXor | MatMul => Ok true
      | Mod | FloorDiv => is_float H b
      | Div => Ok int_op
      | _ => Ok false
      end
  | Compare _ ops =>
      Ok (negb (Nat.eqb (length ops) 1)
          || match ops with (In, _) :: _ | (NotIn, _) :: _ | (Is, _) :: _ | (IsNot, _) :: _ => true | _ => false end
          || negb bp)
  | Unary Inv _ => Ok true
  | Unary Not _ => Ok (negb bp)
  | BoolOp _ _ => Ok (negb bp)
  | Const c => Ok (match c with CNone => true | CBool _ => negb bp | CInt _ => false | CFloat _ => int_op | CStr _ => true end)
  | Other n => Ok (is_collection G n)
  | _ => Ok false
  end.
(** [_is_abs_function]: the arguments, edulint/linting/analyses/z3_analysis.py:100-105. *)
Definition abs_args (e : expr) : option (list expr) :=
  match e with Call (Name x) args => if String.eqb x "abs" then Some args else None | _ => None end.

(** [initialized_variables]: the sorts of variables, edulint/linting/analyses/z3_analysis.py:110, 149-156. *)
Definition variables := list (text * bool).
(** [initialized_variables.get(variable_key)], edulint/linting/analyses/z3_analysis.py:143. *)
Definition find_var (d : variables) (k : text) : option bool := option_map snd (find (fun p => text_eqb (fst p) k) d).
(** Lines 149-156: a new variable is added; a real one becomes an integer under an integer operation.
    edulint/linting/analyses/z3_analysis.py:149-156. *)
Definition set_var (d : variables) (k : text) (int_op : bool) : variables :=
  match find_var d k with
  | None => d ++ [(k, int_op)]
  | Some _ => if int_op then map (fun p => if text_eqb (fst p) k then (fst p, true) else p) d else d
  end.
(** A variable and the check of its type, edulint/linting/analyses/z3_analysis.py:142-161. *)
Definition initialize_variable (G : inspection) (e : expr) (d : variables) (int_op : bool) : bool * variables :=
  match guess G e with
  | None => (false, d)
  | Some ts => (has_only ts (if int_op then [TInt] else [TBool; TFloat; TInt]), set_var d (as_string e) int_op)
  end.
(** [initialize_variables]; [made_up] is [not dont_make_up_new_vars]. edulint/linting/analyses/z3_analysis.py:108-179. *)
Fixpoint initialize (H : host) (G : inspection) (made_up : bool) (int_op bp : bool) (e : expr) (d : variables) {struct e} : res (bool * variables) :=
  do forbidden <- not_allowed H G e int_op bp;
  if forbidden then Ok (false, d)
  else
    let default :=
      do n <- nonlinear H e;
      if negb made_up && (n || match e with Subscript _ _ | Attribute _ _ | Call _ _ => true | _ => false end) then Ok (false, d)
      else if is_variable e || n then Ok (initialize_variable G e d int_op)
      else
        let all := fix all (l : list expr) (d : variables) : res (bool * variables) :=
          match l with
          | [] => Ok (true, d)
          | x :: l => do r <- initialize H G made_up int_op (is_bool_node e) x d; if fst r then all l (snd r) else Ok r
          end in
        match e with
        | Binary o a b =>
            match o with
            | Mod | FloorDiv => initialize H G made_up true false a d
            | _ =>
                do r <- initialize H G made_up int_op false a d;
                if fst r then initialize H G made_up int_op false b (snd r) else Ok r
            end
        | Unary _ a => initialize H G made_up int_op (is_bool_node e) a d
        | BoolOp _ vs => all vs d
        | Compare a ops =>
            do r <- initialize H G made_up int_op false a d;
            if fst r
            then (fix go (l : list (cmpop * expr)) (d : variables) : res (bool * variables) :=
                    match l with
                    | [] => Ok (true, d)
                    | (_, x) :: l => do r <- initialize H G made_up int_op false x d; if fst r then go l (snd r) else Ok r
                    end) ops (snd r)
            else Ok r
        | _ => Ok (true, d)
        end in
    match e with
    | Call (Name x) args =>
        if String.eqb x "abs"
        then match args with [] => Raise IndexError | a :: _ => initialize H G made_up int_op false a d end
        else default
    | _ => default
    end.

(** ** Translation *)
(** [_convert_to_bool_if_necessary], edulint/linting/analyses/z3_analysis.py:187-202. *)
Definition to_bool (e : expr) (bp : bool) (z : option zexpr) : option zexpr * bool :=
  match z with
  | None => (None, false)
  | Some z =>
      if bp && negb (is_bool_node e || match e with Compare _ _ => true | Const (CBool _) => true | _ => false end)
      then (Some (ZRel Ne z (ZInt 0)), true)
      else (Some z, false)
  end.
(** [_convert_const_to_z3], edulint/linting/analyses/z3_analysis.py:205-215. *)
Definition convert_const (c : const) : option zexpr :=
  match c with CBool b => Some (ZBool b) | CInt n => Some (ZInt (Z.of_N n)) | CFloat r => Some (ZReal r) | _ => None end.
(** Comparisons, edulint/linting/analyses/z3_analysis.py:282-295. *)
Definition convert_rel (c : cmpop) (a b : zexpr) : option zexpr :=
  match c with Eq | Ne | Lt | Le | Gt | Ge => Some (ZRel c a b) | _ => None end.
(** [z3.is_int(left)], edulint/linting/analyses/z3_analysis.py:314. *)
Definition is_int_term (z : zexpr) : bool := match sort_of z with Some SInt => true | _ => false end.
(** The operators with a constant on the right, edulint/linting/analyses/z3_analysis.py:320-326. *)
Definition convert_by_constant (H : host) (o : binop) (left : zexpr) (b : expr) : res (option zexpr) :=
  do v <- get_const_value H b;
  match o, v with
  | Mod, VInt n => Ok (if Z.ltb 1 n then Some (ZMod left n) else None)
  | Mod, VBool _ => Ok None
  | Mod, VFloat _ => Raise (OtherError "Z3Exception")
  | FloorDiv, VInt n => Ok (Some (ZQuot left n))
  | FloorDiv, VBool b => Ok (Some (ZQuot left (Z.b2z b)))
  | FloorDiv, VFloat _ => Raise (OtherError "Z3Exception")
  | _, VInt _ | _, VBool _ | _, VFloat _ => Ok (Some (ZOver left v))
  | _, _ => Raise TypeError
  end.
(** [convert_condition_to_z3_expression]; [bp] is [_is_bool_node(parent)]. edulint/linting/analyses/z3_analysis.py:218-356. *)
Fixpoint convert (H : host) (d : variables) (bp : bool) (e : expr) {struct e} : res (option zexpr * bool) :=
  let variable := match find_var d (as_string e) with
                  | None => Raise KeyError
                  | Some int => Ok (to_bool e bp (Some (ZVar (as_string e) int)))
                  end in
  match e with
  | Call (Name x) args =>
      if String.eqb x "abs"
      then match args with
           | [] => Raise IndexError
           | a :: _ =>
               do r <- convert H d false a;
               match fst r with
               | None => Raise TypeError
               | Some z => let r' := to_bool e bp (Some (ZAbs z)) in Ok (fst r', snd r' || snd r)
               end
           end
      else variable
  | Name _ | Subscript _ _ | Attribute _ _ | Call _ _ => variable
  | BoolOp o vs =>
      (fix go (l : list expr) (done : list zexpr) (c : bool) : res (option zexpr * bool) :=
         match l with
         | [] => Ok (Some (match o with And => ZAnd done | Or => ZOr done end), c)
         | x :: l =>
             do r <- convert H d true x;
             match fst r with None => Ok (None, false) | Some z => go l (done ++ [z]) (c || snd r) end
         end) vs [] false
  | Compare a ops =>
      do l <- convert H d false a;
      match ops with
      | [] => Raise IndexError
      | (c, b) :: _ =>
          do r <- convert H d false b;
          match fst l, fst r with
          | Some x, Some y => match convert_rel c x y with Some z => Ok (Some z, snd l || snd r) | None => Ok (None, false) end
          | _, _ => Ok (None, false)
          end
      end
  | Binary o a b =>
      do n <- nonlinear H e;
      if n then variable
      else
        do l <- convert H d false a;
        let finish (z : option zexpr) (c : bool) := let r := to_bool e bp z in Ok (fst r, snd r || c) in
        match o with
        | Add | Sub | Mul =>
            do r <- convert H d false b;
            match fst l, fst r with
            | Some x, Some y => finish (Some (match o with Add => ZAdd x y | Sub => ZSub x y | _ => ZMul x y end)) (snd l || snd r)
            | _, _ => Ok (None, false)
            end
        | Mod | FloorDiv =>
            match fst l with
            | Some x => if is_int_term x then do z <- convert_by_constant H o x b; finish z (snd l) else Ok (None, false)
            | None => Ok (None, false)
            end
        | Div => match fst l with Some x => do z <- convert_by_constant H o x b; finish z (snd l) | None => Ok (None, false) end
        | _ => match fst l with Some _ => finish None (snd l) | None => Ok (None, false) end
        end
  | Const c => Ok (to_bool e bp (convert_const c))
  | Unary o a =>
      do r <- convert H d (is_bool_node e) a;
      match fst r with
      | None => Ok (None, false)
      | Some z =>
          let r' := to_bool e bp (Some (match o with Neg => ZNeg z | Not => ZNot z | _ => z end)) in
          Ok (fst r', snd r' || snd r)
      end
  | IfExp _ _ _ | Other _ => Ok (None, false)
  end.

(** ** Redundant operands *)
(** What the checks report: the condition is always true or false (R6222); part of it is redundant (R6216).
    edulint/linting/checkers/simplifiable_if.py:2129-2142, 2179-2183, 2206-2218. *)
Inductive verdict := Always (node : expr) (b : bool) | Redundant (node : expr) (suggestion : text).
(** [add_brackets_if_composed], edulint/linting/checkers/simplifiable_if.py:168-178. *)
Definition add_brackets (e : expr) (standalone : bool) : text :=
  if standalone then as_string e
  else
    match e with
    | Name _ | Const _ | Call _ _ | Attribute _ _ | Subscript _ _ | Compare _ _ | BoolOp And _ => as_string e
    | _ => paren (as_string e)
    end.
(** [list[i] = True], edulint/linting/checkers/simplifiable_if.py:2084. *)
Fixpoint mark (l : list bool) (i : nat) : list bool :=
  match l, i with [], _ => [] | _ :: l, 0 => true :: l | b :: l, S i => b :: mark l i end.
(** The elements that are not removed, edulint/linting/checkers/simplifiable_if.py:2174-2176, 2186-2188. *)
Definition kept {A} (l : list A) (removed : list bool) : list A :=
  map fst (filter (fun p => negb (snd p)) (combine l removed)).
(** [node.values[i]], edulint/linting/checkers/simplifiable_if.py:2095-2096. *)
Definition get {A} (l : list A) (i : nat) : res A := match nth_error l i with Some x => Ok x | None => Raise IndexError end.

Section Solver.
  (** [unsatisfiable]: the solver says that a condition cannot hold (false if it does not know). Oracle.
      edulint/linting/analyses/z3_analysis.py:359-373. *)
  Variable unsat : zexpr -> bool.
  (** [len(text)], edulint/linting/checkers/simplifiable_if.py:2057. *)
  Variable text_length : text -> nat.

  (** [implies], edulint/linting/analyses/z3_analysis.py:391-393. *)
  Definition implies (a b : zexpr) : bool := unsat (ZAnd [a; ZNot b]).
  (** [_should_remove_ith], edulint/linting/checkers/simplifiable_if.py:2042-2059. *)
  Definition should_remove_ith (forward backward : bool) (x y : expr) (is_or : bool) : bool :=
    (negb (forward && backward) && ((forward && is_or) || (backward && negb is_or)))
    || (forward && backward && Nat.ltb (text_length (as_string y)) (text_length (as_string x))).
  (** [_ith_is_redundant], edulint/linting/checkers/simplifiable_if.py:2061-2069. *)
  Definition ith_is_redundant (excluded : list zexpr) (c : zexpr) (is_or : bool) : bool :=
    (is_or && implies c (ZOr excluded)) || (negb is_or && implies (ZAnd excluded) c).
  (** The inner loop over j, edulint/linting/checkers/simplifiable_if.py:2091-2105. *)
  Fixpoint compare_with (vs : list expr) (cs : list zexpr) (is_or : bool) (i : nat) (js : list nat) (removed : list bool) : res (list bool) :=
    match js with
    | [] => Ok removed
    | j :: js =>
        do rj <- get removed j;
        if (rj : bool) then compare_with vs cs is_or i js removed
        else
          do ci <- get cs i; do cj <- get cs j; do x <- get vs i; do y <- get vs j;
          let forward := implies ci cj in
          let backward := implies cj ci in
          if should_remove_ith forward backward x y is_or then Ok (mark removed i)
          else compare_with vs cs is_or i js (if forward || backward then mark removed j else removed)
    end.
  (** The loop over i, edulint/linting/checkers/simplifiable_if.py:2087-2105. *)
  Fixpoint compare_all (vs : list expr) (cs : list zexpr) (is_or : bool) (is_ : list nat) (removed : list bool) : res (list bool) :=
    match is_ with
    | [] => Ok removed
    | i :: is_ =>
        do ri <- get removed i;
        do r <- (if (ri : bool) then Ok removed else compare_with vs cs is_or i (seq (S i) (length cs - S i)) removed);
        compare_all vs cs is_or is_ r
    end.
  (** The last loop, edulint/linting/checkers/simplifiable_if.py:2108-2122. *)
  Fixpoint implied_by_rest (cs : list zexpr) (is_or : bool) (is_ : list nat) (removed : list bool) : res (list bool) :=
    match is_ with
    | [] => Ok removed
    | i :: is_ =>
        do ri <- get removed i;
        if (ri : bool) then implied_by_rest cs is_or is_ removed
        else
          let excluded := kept cs (mark removed i) in
          do ci <- get cs i;
          match excluded with
          | [] => Ok removed
          | _ => implied_by_rest cs is_or is_ (if ith_is_redundant excluded ci is_or then mark removed i else removed)
          end
    end.
  (** [_redundant_condition_parts], edulint/linting/checkers/simplifiable_if.py:2071-2124. *)
  Definition redundant_parts (vs : list expr) (cs : list zexpr) (is_or : bool) : res (list bool) :=
    let removed := map (fun c => (is_or && unsat c) || (negb is_or && unsat (ZNot c))) cs in
    let all := seq 0 (length cs) in
    do removed <- compare_all vs cs is_or all removed;
    implied_by_rest cs is_or all removed.
  (** [_check_always_true_or_false], edulint/linting/checkers/simplifiable_if.py:2127-2144. *)
  Definition check_always (node : expr) (c : zexpr) : option verdict :=
    if unsat c then Some (Always node false) else if unsat (ZNot c) then Some (Always node true) else None.

  (** The loop that translates the operands; [None] if the check gives up. edulint/linting/checkers/simplifiable_if.py:2154-2170. *)
  Fixpoint convert_operands (H : host) (d : variables) (bool_parent : bool) (vs : list expr) : res (option (list zexpr)) :=
    match vs with
    | [] => Ok (Some [])
    | v :: vs =>
        do r <- convert H d true v;
        match fst r with
        | Some z =>
            if match v with Const (CBool _) => true | _ => false end || (snd r && negb bool_parent) then Ok None
            else do rest <- convert_operands H d bool_parent vs; Ok (match rest with Some l => Some (z :: l) | None => None end)
        | None => Ok None
        end
    end.
  (** The and/or of some conditions, edulint/linting/checkers/simplifiable_if.py:2190-2195. *)
  Definition joined_condition (is_or : bool) (cs : list zexpr) : zexpr :=
    match cs with [c] => c | _ => if is_or then ZOr cs else ZAnd cs end.
  (** [_make_suggestion_for_redundant_condition_part]; [bool_parent] is [_is_bool_node(node.parent)].
      edulint/linting/checkers/simplifiable_if.py:2146-2218. *)
  Fixpoint redundant_operands (H : host) (G : inspection) (bool_parent : bool) (e : expr) {struct e} : res (list verdict) :=
    match e with
    | BoolOp o vs =>
        let is_or := match o with Or => true | And => false end in
        do r <- initialize H G true false true e [];
        if negb (fst r) then Ok []
        else
          do cs <- convert_operands H (snd r) bool_parent vs;
          match cs with
          | None => Ok []
          | Some cs =>
              do removed <- redundant_parts vs cs is_or;
              let operands := kept vs removed in
              match operands with
              | [] => Ok [Always e (negb is_or)]
              | _ =>
                  match check_always e (joined_condition is_or (kept cs removed)) with
                  | Some m => Ok [m]
                  | None =>
                      if Nat.eqb (length operands) (length vs)
                      then (fix go (l : list expr) : res (list verdict) :=
                              match l with
                              | [] => Ok []
                              | x :: l => do a <- redundant_operands H G true x; do b <- go l; Ok (a ++ b)
                              end) vs
                      else Ok [Redundant e (sep_by [bool_token o] (map (fun x => add_brackets x (Nat.eqb (length operands) 1)) operands))]
                  end
              end
          end
    | _ => Ok []
    end.
  (** The call in [_check_for_simplification_of_boolop]; [boolop_parent] is [isinstance(node.parent, BoolOp)].
      edulint/linting/checkers/simplifiable_if.py:2231-2233, 2274-2278. *)
  Definition check_boolop (I : purity) (H : host) (G : inspection) (boolop_parent bool_parent : bool) (e : expr) : res (list verdict) :=
    match e with
    | BoolOp o vs => if forallb (is_pure_expression I) vs && negb boolop_parent then redundant_operands H G bool_parent e else Ok []
    | _ => Ok []
    end.
  (** [visit_compare], edulint/linting/checkers/simplifiable_if.py:2295-2310. *)
  Definition check_compare (I : purity) (H : host) (G : inspection) (boolop_parent : bool) (e : expr) : res (option verdict) :=
    match e with
    | Compare a ops =>
        if boolop_parent || negb (is_pure_expression I e) then Ok None
        else
          do r <- initialize H G true false true e [];
          if negb (fst r) then Ok None
          else
            do c <- convert H (snd r) true e;
            match fst c with None => Ok None | Some z => Ok (check_always e z) end
    | _ => Ok None
    end.
End Solver.
