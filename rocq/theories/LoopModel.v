(** The checker for unsuited loops: while True with a leading break, a while loop that counts, and a for loop over a
    range whose first or last element is skipped. What the data dependency analysis says about the body (which
    assignments change a variable, whether one of them is on every path) is given. *)
From Coq Require Import String List Bool Arith NArith ZArith.
From Verif Require Import Base PyModel PySpec IfModel FoldModel TypeModel.
Import ListNotations.
Local Open Scope string_scope.
Local Open Scope list_scope.

(** Statements (astroid nodes, external code): assignments to a name or to one other target, expressions, breaks and the
    like, if statements, loops with their else branches; other simple statements, function definitions among them, are
    numbers. edulint/linting/checkers/unsuited_loop.py:102-134, 263-328, 398-513. *)
Inductive stmt :=
| SAssign (x : string) (e : expr)
| SAug (x : string) (o : binop) (e : expr)
| SStore (target e : expr)
| SExpr (e : expr)
| SReturn (e : expr)
| SBreak
| SContinue
| SIf (c : expr) (body orelse : list stmt)
| SWhile (c : expr) (body orelse : list stmt)
| SFor (target iter : expr) (body orelse : list stmt)
| SOther (n : nat).

(** [node.bool_value()] of a constant (external code), edulint/linting/checkers/unsuited_loop.py:103. *)
Definition bool_value (c : const) : bool :=
  match c with
  | CNone => false
  | CBool b => b
  | CInt n => negb (N.eqb n 0)
  | CFloat r => negb (String.eqb r "0.0" || String.eqb r "-0.0")
  | CStr s => negb (String.eqb s "")
  end.

(** [isinstance(l[-1], nodes.Break)], edulint/linting/checkers/unsuited_loop.py:107. *)
Fixpoint ends_with_break (l : list stmt) : bool :=
  match l with
  | [] => false
  | [SBreak] => true
  | _ :: r => ends_with_break r
  end.
(** [_check_no_while_true]: the argument of the message, edulint/linting/checkers/unsuited_loop.py:102-108. *)
Definition no_while_true (s : stmt) : option text :=
  match s with
  | SWhile (Const c) (SIf t body _ :: _) _ => if bool_value c && ends_with_break body then Some (as_string t) else None
  | _ => None
  end.

(** ** A while loop that counts *)

(** [- const], edulint/linting/checkers/unsuited_loop.py:134. *)
Definition negated (v : value) : res value :=
  match v with
  | VInt z => Ok (VInt (- z))
  | VBool b => Ok (VInt (- Z.b2z b))
  | VFloat (String c r) => Ok (VFloat (if Ascii.eqb c (Ascii.ascii_of_nat 45) then r else "-" ++ String c r))
  | _ => Raise TypeError
  end.
(** [const if op == "+" else -const], if const is something. edulint/linting/checkers/unsuited_loop.py:131-134. *)
Definition signed (o : binop) (v : value) : res (option value) :=
  match v with
  | VNone => Ok None
  | _ => match o with Add => Ok (Some v) | _ => do u <- negated v; Ok (Some u) end
  end.
(** [in ("+", "-")], edulint/linting/checkers/unsuited_loop.py:120, 125. *)
Definition plus_or_minus (o : binop) : bool := match o with Add | Sub => true | _ => false end.
(** [get_change_value] of the assigned name of a statement, edulint/linting/checkers/unsuited_loop.py:113-134. *)
Definition get_change_value (H : host) (s : stmt) : res (option value) :=
  match s with
  | SAug x o e => if plus_or_minus o then do v <- get_const_value H e; signed o v else Ok None
  | SAssign x (Binary o a b) =>
      if plus_or_minus o
      then
        do u <- (if text_eqb (as_string a) (as_string (Name x)) then get_const_value H b else Ok VNone);
        do v <- (if text_eqb (as_string b) (as_string (Name x)) then get_const_value H a else Ok u);
        signed o v
      else Ok None
  | _ => Ok None
  end.

(** [==] of two numbers; a float is written as an integer followed by ".0". Simplified: strings are equal to strings
    only, other floats to themselves only. edulint/linting/checkers/unsuited_loop.py:221, 224. *)
Definition same_number (v u : value) : bool :=
  match as_int v, as_int u with
  | Some a, Some b => Z.eqb a b
  | Some a, None =>
      match u with
      | VFloat r => (Z.eqb a 1 && String.eqb r "1.0") || (Z.eqb a (-1) && String.eqb r "-1.0")
      | _ => false
      end
  | None, Some b =>
      match v with
      | VFloat r => (Z.eqb b 1 && String.eqb r "1.0") || (Z.eqb b (-1) && String.eqb r "-1.0")
      | _ => false
      end
  | None, None =>
      match v, u with
      | VFloat r, VFloat t => String.eqb r t
      | VStr r, VStr t => String.eqb r t
      | _, _ => false
      end
  end.
(** The function given to [reduce], edulint/linting/checkers/unsuited_loop.py:221. *)
Definition agree (r c : option value) : option value :=
  match r, c with
  | Some u, Some v => if same_number v u then Some v else None
  | _, _ => None
  end.
(** [reduce] over the change values, edulint/linting/checkers/unsuited_loop.py:220-223. *)
Definition common_change (l : list (option value)) : res (option value) :=
  match l with
  | [] => Raise TypeError
  | a :: r => Ok (fold_left agree r a)
  end.

(** [vars_in], as the occurrences of a name. Simplified: every name is a variable.
    edulint/linting/analyses/data_dependency.py:463-486; edulint/linting/checkers/unsuited_loop.py:137, 197, 210. *)
Fixpoint names_in (e : expr) : list string :=
  match e with
  | Name x => [x]
  | Const _ | Other _ => []
  | Unary _ a | Attribute a _ => names_in a
  | Binary _ a b | Subscript a b => names_in a ++ names_in b
  | BoolOp _ vs => flat_map names_in vs
  | Compare a ops => names_in a ++ flat_map (fun cv => names_in (snd cv)) ops
  | Call f args => names_in f ++ flat_map names_in args
  | IfExp c a b => names_in c ++ names_in a ++ names_in b
  end.
(** [x in vars_in(e)], edulint/linting/checkers/unsuited_loop.py:197, 199. *)
Definition occurs (x : string) (e : expr) : bool := existsb (String.eqb x) (names_in e).
(** [var_can_be_from_range]: the variable occurs once, directly on a side of the comparison.
    edulint/linting/checkers/unsuited_loop.py:136-138. *)
Definition var_can_be_from_range (x : string) (a b : expr) : bool :=
  Nat.eqb (length (filter (String.eqb x) (names_in a ++ names_in b))) 1 &&
  (match a with Name y => String.eqb x y | _ => false end || match b with Name y => String.eqb x y | _ => false end).
(** [change not in (1, -1)], and the sign, edulint/linting/checkers/unsuited_loop.py:224, 198, 200. *)
Definition unit_change (v : option value) : option bool :=
  match v with
  | Some u => if same_number u (VInt 1) then Some true else if same_number u (VInt (-1)) then Some false else None
  | None => None
  end.
(** [changes_towards_limit], edulint/linting/checkers/unsuited_loop.py:195-200. *)
Definition changes_towards_limit (x : string) (a : expr) (o : cmpop) (b : expr) (up : bool) : res bool :=
  let less := match o with Lt | Le => true | _ => false end in
  let greater := match o with Gt | Ge => true | _ => false end in
  if occurs x a then Ok ((up && less) || (negb up && greater))
  else if occurs x b then Ok ((negb up && less) || (up && greater))
  else Raise AssertionError.
(** [test.ops[0][0] in ("<", "<=", ">", ">=")], edulint/linting/checkers/unsuited_loop.py:206. *)
Definition is_order (o : cmpop) : bool := match o with Lt | Le | Gt | Ge => true | _ => false end.
(** [_check_use_for_loop]: [events] are the variables of the test that the body modifies, with the modifying
    statements; [placed] says that none of them follows another or is in an inner loop and that every path has one.
    edulint/linting/checkers/unsuited_loop.py:202-234. *)
Definition use_for_loop (H : host) (test : expr) (events : list (string * list stmt)) (placed : bool) : res bool :=
  match test with
  | Compare a [(o, b)] =>
      if is_order o && negb (Nat.eqb (length (names_in test)) 0)
      then
        match events with
        | [(x, l)] =>
            do cs <- mapM (get_change_value H) l;
            do c <- common_change cs;
            match unit_change c with
            | None => Ok false
            | Some up =>
                if var_can_be_from_range x a b
                then do t <- changes_towards_limit x a o b up; Ok (t && placed)
                else Ok false
            end
        | _ => Ok false
        end
      else Ok false
  | _ => Ok false
  end.

(** ** A range with a skipped element *)

(** The argument of the message, edulint/linting/checkers/unsuited_loop.py:326, 328. *)
Inductive boundary := First | Last.

(** [compares_to_start], edulint/linting/checkers/unsuited_loop.py:267-272. *)
Definition compares_to_start (a b : expr) (var : text) (start : expr) : bool :=
  (text_eqb (as_string a) var && text_eqb (as_string b) (as_string start)) ||
  (text_eqb (as_string a) (as_string start) && text_eqb (as_string b) var).
(** [isinstance(v, int)], edulint/linting/checkers/unsuited_loop.py:284-286. *)
Definition an_int (v : value) : option Z := as_int v.
(** [is_last_before_end], edulint/linting/checkers/unsuited_loop.py:274-288. *)
Definition is_last_before_end (H : host) (e stop step : expr) : res bool :=
  do n <- get_const_value H e;
  do b <- get_const_value H stop;
  do s <- get_const_value H step;
  Ok ((match e with
       | Binary Sub l r => text_eqb (as_string l) (as_string stop) && text_eqb (as_string r) (as_string step)
       | _ => false
       end) ||
      (match an_int n, an_int b, an_int s with
       | Some x, Some y, Some z => Z.eqb x (y - z)
       | _, _, _ => false
       end)).
(** [compares_to_last_before_end], edulint/linting/checkers/unsuited_loop.py:290-296. *)
Definition compares_to_last (H : host) (a b : expr) (var : text) (stop step : expr) : res bool :=
  do l <- (if text_eqb (as_string a) var then is_last_before_end H b stop step else Ok false);
  if l then Ok true
  else do r <- is_last_before_end H a stop step; Ok (r && text_eqb (as_string b) var).
(** [_check_use_tighter_bounds], edulint/linting/checkers/unsuited_loop.py:309-328. *)
Definition use_tighter_bounds (H : host) (s : stmt) : res (option boundary) :=
  match s with
  | SFor target iter (SIf (Compare a [(Eq, b)]) [j] _ :: _) _ =>
      match get_range_params iter with
      | Some (start, stop, step) =>
          match j with
          | SBreak | SContinue =>
              if compares_to_start a b (as_string target) start then Ok (Some First)
              else
                do l <- compares_to_last H a b (as_string target) stop step;
                Ok (if l then Some Last else None)
          | _ => Ok None
          end
      | None => Ok None
      end
  | _ => Ok None
  end.
