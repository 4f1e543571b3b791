(** Duplicate code in the branches of if statements: identical beginnings and ends of branches (R6501, R6502), identical branches one after
    another (R6503, R6504), and the conditions and expressions that are suggested for similar branches (R6557, R6558, R6561, R6562).
    edulint/linting/checkers/duplication/duplicate_if.py *)
From Coq Require Import String List Bool Arith ZArith.
From Verif Require Import Base.
Import ListNotations.
Local Open Scope string_scope.
Local Open Scope list_scope.
Local Open Scope nat_scope.

(** Conditions: expressions that are not looked into, known by a number, and what is built of them,
    edulint/linting/checkers/duplication/duplicate_if.py:393-405. *)
Inductive cond := Basic (id : nat) | And (a b : cond) | Or (a b : cond) | Not (a : cond).

(** Statements: those other than [if] are not looked into, and are known by a number. An [elif] is an [If] that is alone in the [else]
    branch, edulint/linting/checkers/duplication/duplicate_if.py:46-73. *)
Inductive stmt := Other (id : nat) | If (test : cond) (body orelse : list stmt).

(** [isinstance(s, nodes.If)], edulint/linting/checkers/duplication/duplicate_if.py:54, 87. *)
Definition is_if (s : stmt) : bool := match s with If _ _ _ => true | Other _ => false end.

(** [if_.body], [if_.orelse], [if_.test]; an exception for other statements, edulint/linting/checkers/duplication/duplicate_if.py:79-81, 917. *)
Definition body_of (s : stmt) : res (list stmt) := match s with If _ b _ => Ok b | Other _ => Raise AttributeError end.
(** [if_.orelse], edulint/linting/checkers/duplication/duplicate_if.py:80-81. *)
Definition orelse_of (s : stmt) : res (list stmt) := match s with If _ _ o => Ok o | Other _ => Raise AttributeError end.
(** [if_.test], edulint/linting/checkers/duplication/duplicate_if.py:917. *)
Definition test_of (s : stmt) : res cond := match s with If t _ _ => Ok t | Other _ => Raise AttributeError end.

(** astroid's [If.has_elif_block] (the [else] branch is one [if]), edulint/linting/checkers/duplication/duplicate_if.py:66. *)
Definition has_elif_block (s : stmt) : bool := match s with If _ _ [If _ _ _] => true | _ => false end.

(** [has_else_block] for an [if], edulint/linting/analyses/utils.py:482-485. *)
Definition has_else_block (s : stmt) : bool :=
  match s with If _ _ o => match o with [] => false | _ => negb (has_elif_block s) end | Other _ => false end.

(** [count_nested_ifs], edulint/linting/checkers/duplication/duplicate_if.py:53-58; [nested_if] is the call for a list of one statement. *)
Fixpoint nested_if (s : stmt) : nat :=
  match s with
  | Other _ => 0
  | If _ b o => Nat.max (match b with [x] => nested_if x | _ => 0 end) (match o with [x] => nested_if x | _ => 0 end) + 1
  end.
(** The call for any list, edulint/linting/checkers/duplication/duplicate_if.py:53-58. *)
Definition count_nested_ifs (ns : list stmt) : nat := match ns with [x] => nested_if x | _ => 0 end.

(** The [elif]s that the loop of [extract_from_elif] appends, and the last [if] of the chain,
    edulint/linting/checkers/duplication/duplicate_if.py:64-69. *)
Fixpoint elifs (s : stmt) : list stmt :=
  match s with
  | If _ _ [e] => match e with If _ _ _ => e :: elifs e | Other _ => [] end
  | _ => []
  end.
(** [current] after the loop, edulint/linting/checkers/duplication/duplicate_if.py:64-71. *)
Definition last_if (s : stmt) : stmt := last (elifs s) s.

(** [result[:-n]] for [n > 0], edulint/linting/checkers/duplication/duplicate_if.py:73. *)
Definition but_last {A} (n : nat) (l : list A) : list A := firstn (length l - n) l.

(** [extract_from_elif] without a second argument, edulint/linting/checkers/duplication/duplicate_if.py:46-73. *)
Definition extract_from_elif (node : stmt) : bool * list stmt :=
  if has_else_block node then (true, [node])
  else
    let nested_count := match node with If _ b _ => count_nested_ifs b | Other _ => 0 end in
    let result := node :: elifs node in
    if (nested_count =? 0) || (length result <=? nested_count) then (has_else_block (last_if node), result)
    else (true, but_last nested_count result).

(** [get_bodies], edulint/linting/checkers/duplication/duplicate_if.py:76-82. *)
Fixpoint get_bodies (ifs : list stmt) : res (list (list stmt)) :=
  match ifs with
  | [] => Ok []
  | i :: rest =>
      do b <- body_of i;
      match rest with
      | [] => do o <- orelse_of i; Ok (b :: match o with [] => [] | _ => [o] end)
      | _ => do bs <- get_bodies rest; Ok (b :: bs)
      end
  end.

(** A member of [seq_ifs]: which of the statements one after another it belongs to (the examined one is 0), how many [if]s it is an [elif]
    of, and the [if] itself, edulint/linting/checkers/duplication/duplicate_if.py:85-93, 877-884. *)
Notation place := (nat * nat)%type.
(** A place with its [if], edulint/linting/checkers/duplication/duplicate_if.py:85-93. *)
Notation item := (place * stmt)%type.
(** The members that one statement gives, edulint/linting/checkers/duplication/duplicate_if.py:85-93. *)
Definition items (sibling : nat) (ifs : list stmt) : list item := map (fun '(d, s) => ((sibling, d), s)) (combine (seq 0 (length ifs)) ifs).

(** [extract_from_siblings]: [extract_from_elif] returns a pair, which is never false, and fills [new] with all [elif]s,
    edulint/linting/checkers/duplication/duplicate_if.py:85-93. *)
Fixpoint from_siblings (sibling : nat) (rest : list stmt) : list item :=
  match rest with
  | s :: rest => if is_if s then items sibling (s :: elifs s) ++ from_siblings (S sibling) rest else []
  | [] => []
  end.

(** [IfStructures.seq_ifs]; [prev] is the statement before and [rest] are the statements after the examined one,
    edulint/linting/checkers/duplication/duplicate_if.py:876-884. *)
Definition seq_ifs (prev : option stmt) (node : stmt) (rest : list stmt) : option (list item) :=
  match prev with
  | Some p => if is_if p && negb (fst (extract_from_elif p)) then None
              else Some (items 0 (snd (extract_from_elif node)) ++ from_siblings 1 rest)
  | None => Some (items 0 (snd (extract_from_elif node)) ++ from_siblings 1 rest)
  end.

(** What is reported: R6501, R6502 with the number of lines and whether they are to be moved before the [if], and R6503 or R6504 with the
    first and the last [if] and their number, edulint/linting/checkers/duplication/duplicate_if.py:223-227, 233, 298-305. *)
Inductive message :=
| IdenticalBranches
| BranchesPart (lines : Z) (before_ : bool)
| SeqIfs (elifs_ : bool) (first_ last_ : place) (count : nat).

(** All that is not modelled about the nodes: their text, their first and last line, and whether a statement is a [return],
    edulint/linting/checkers/duplication/duplicate_if.py:206, 221, 245. *)
Record source := mk_source {
  as_string : stmt -> string;
  fromlineno : stmt -> Z;
  tolineno : stmt -> Z;
  is_return : stmt -> bool }.

Section Identical.
  Variable src : source.

  (** [reference[index].as_string() != branch[index].as_string()], edulint/linting/checkers/duplication/duplicate_if.py:205-206. *)
  Definition at_index (branch : list stmt) (i : nat) (forward : bool) : option stmt :=
    nth_error (if forward then branch else rev branch) i.
  (** Whether the texts differ, edulint/linting/checkers/duplication/duplicate_if.py:206. *)
  Definition differ (reference branch : list stmt) (i : nat) (forward : bool) : bool :=
    match at_index reference i forward, at_index branch i forward with
    | Some a, Some b => negb (String.eqb (as_string src a) (as_string src b))
    | _, _ => true
    end.

  (** [get_stmts_difference]: the loop from [i] on, with [n] steps left, and its start; without a step [i] is not bound,
      edulint/linting/checkers/duplication/duplicate_if.py:199-208. *)
  Fixpoint difference_from (reference : list stmt) (compare : list (list stmt)) (forward : bool) (i n : nat) : nat :=
    match n with
    | 0 => i
    | S n => if existsb (fun branch => differ reference branch i forward) compare then i
             else difference_from reference compare forward (S i) n
    end.
  (** [min(map(len, branches))], edulint/linting/checkers/duplication/duplicate_if.py:203. *)
  Definition min_length (branches : list (list stmt)) : nat :=
    match branches with [] => 0 | b :: bs => fold_right (fun b n => Nat.min (length b) n) (length b) bs end.
  (** The function itself, edulint/linting/checkers/duplication/duplicate_if.py:199-208. *)
  Definition get_stmts_difference (branches : list (list stmt)) (forward : bool) : res nat :=
    match branches with
    | [] => Raise IndexError
    | reference :: compare =>
        match min_length branches with
        | 0 => Raise (OtherError "UnboundLocalError")
        | n => Ok (difference_from reference compare forward 0 n)
        end
    end.

  (** [add_message] with [get_lines_between], edulint/linting/checkers/duplication/duplicate_if.py:210-227,
      edulint/linting/analyses/utils.py:495-500. *)
  Definition part_message (branches : list (list stmt)) (n : nat) (forward : bool) : res message :=
    match branches with
    | [] => Raise IndexError
    | reference :: _ =>
        match at_index reference (if forward then 0 else n - 1) forward, at_index reference (if forward then n - 1 else 0) forward with
        | Some first_, Some last_ =>
            if (fromlineno src first_ <=? fromlineno src last_)%Z
            then Ok (BranchesPart (tolineno src last_ - fromlineno src first_ + 1)%Z forward)
            else Raise AssertionError
        | _, _ => Raise IndexError
        end
    end.

  (** [identical_before_after_branch] from the comparison of the ends on; [messages] were given before,
      edulint/linting/checkers/duplication/duplicate_if.py:242-251. *)
  Definition identical_after (branches : list (list stmt)) (messages : list message) : res (list message) :=
    do n <- get_stmts_difference branches false;
    if 1 <=? n then
      match branches with
      | reference :: _ =>
          match at_index reference 0 false with
          | Some last_ =>
              if (n =? 1) && is_return src last_ then Ok messages
              else do m <- part_message branches n false; Ok (messages ++ [m])
          | None => Raise IndexError
          end
      | [] => Raise IndexError
      end
    else Ok messages.
  (** [identical_before_after_branch]: the messages; the result is whether there are any,
      edulint/linting/checkers/duplication/duplicate_if.py:195-251. *)
  Definition identical_before_after_branch (branches : list (list stmt)) : res (list message) :=
    do n <- get_stmts_difference branches true;
    if 1 <=? n then
      if forallb (fun b => n =? length b) branches then Ok [IdenticalBranches]
      else
        do m <- part_message branches n true;
        if existsb (fun b => n =? length b) branches then Ok [m]
        else identical_after branches [m]
    else identical_after branches [].

  (** The parent of a member of [seq_ifs] ([None] is the block they all are in), and whether it is an ancestor of another member,
      edulint/linting/checkers/duplication/duplicate_if.py:265. *)
  Definition parent_of (p : place) : option place := match snd p with 0 => None | S d => Some (fst p, d) end.
  (** [is_ancestor]: whether a parent is above a member, edulint/linting/checkers/duplication/duplicate_if.py:265. *)
  Definition is_ancestor (a : option place) (p : place) : bool :=
    match a with None => true | Some (k, d) => (k =? fst p) && (d <? snd p) end.

  (** Whether an [if] has the same body as the first one, edulint/linting/checkers/duplication/duplicate_if.py:268-273. *)
  Fixpoint same_texts (a b : list stmt) : bool :=
    match a, b with
    | [], [] => true
    | x :: a, y :: b => String.eqb (as_string src x) (as_string src y) && same_texts a b
    | _, _ => false
    end.
  (** The test for one [if], edulint/linting/checkers/duplication/duplicate_if.py:265-273. *)
  Definition joins (first_ other : item) : res bool :=
    if is_ancestor (parent_of (fst first_)) (fst other) then
      do a <- body_of (snd first_); do b <- body_of (snd other); Ok (same_texts a b)
    else Ok false.

  (** [same_ifs_count]: how many [if]s after the first one are counted, edulint/linting/checkers/duplication/duplicate_if.py:261-274. *)
  Fixpoint more_ifs (first_ : item) (rest : list item) : res nat :=
    match rest with
    | [] => Ok 0
    | other :: rest => do b <- joins first_ other; if b then do n <- more_ifs first_ rest; Ok (S n) else Ok 0
    end.

  (** The loop of [identical_seq_ifs], over the [if]s from the i-th one on, edulint/linting/checkers/duplication/duplicate_if.py:288-306. *)
  Fixpoint seq_messages (elifs_ : bool) (fuel : nat) (ifs : list item) : res (list message) :=
    match fuel with
    | 0 => Raise RecursionError
    | S fuel =>
        match ifs with
        | [] | [_] => Ok []
        | first_ :: rest =>
            do more <- more_ifs first_ rest;
            do ms <- seq_messages elifs_ fuel (skipn more rest);
            Ok (if more =? 0 then ms else SeqIfs elifs_ (fst first_) (fst (last (firstn more rest) first_)) (S more) :: ms)
        end
    end.

  (** [identical_seq_ifs], edulint/linting/checkers/duplication/duplicate_if.py:257-308. *)
  Definition identical_seq_ifs (ends_with_else : bool) (ifs : list stmt) (seq_ifs : option (list item)) : res (list message) :=
    if ends_with_else then seq_messages true (S (length ifs)) (items 0 ifs)
    else match seq_ifs with None => Ok [] | Some l => seq_messages false (S (length l)) l end.

  (** The first two attempts of [duplicate_in_if] for a statement that is not an [elif]; the second one is made if the first one gave no
      message, edulint/linting/checkers/duplication/duplicate_if.py:983-1007, 1119-1130. *)
  Definition identical_in_if (prev : option stmt) (node : stmt) (rest : list stmt) : res (list message) :=
    let '(ends_with_else, ifs) := extract_from_elif node in
    do branches <- get_bodies ifs;
    do ms <- (if ends_with_else then identical_before_after_branch branches else Ok []);
    match ms with
    | [] => identical_seq_ifs ends_with_else ifs (seq_ifs prev node rest)
    | _ => Ok ms
    end.

  (** [are_identical], edulint/linting/analyses/utils.py:696-708. *)
  Definition are_identical (a b : list stmt) : bool := same_texts a b.

  (** [get_fixed_by_restructuring_twisted], for the branches of the examined [if] instead of their core: the core is one [if] when both branches
      are, and its variants are the branches (C61). The result is the [if] that is suggested, whose condition is in the message; the
      numbers of tokens are left out. edulint/linting/checkers/duplication/duplicate_if.py:366-418 *)
  Definition untwist (tests : list cond) (branches : list (list stmt)) : option stmt :=
    match tests, branches with
    | [outer], [[If pos_inner pos_pos pos_neg]; [If neg_inner neg_pos neg_neg]] =>
        match pos_neg, neg_neg with
        | [], _ | _, [] => None
        | _, _ =>
            let fixed neg := If (Or (And outer pos_inner) (And (Not outer) neg)) pos_pos pos_neg in
            if are_identical pos_pos neg_neg && are_identical pos_neg neg_pos then Some (fixed (Not neg_inner))
            else if are_identical pos_pos neg_pos && are_identical pos_neg neg_neg then Some (fixed neg_inner)
            else None
        end
    | _, _ => None
    end.
End Identical.

(** ** If expressions *)

(** Values that differ between the branches: a node (known by a number) or a plain value; and what an expression made of them is, where
    a plain value is made a name or a constant, edulint/linting/checkers/duplication/utils.py:92-98. *)
Inductive sub := SubNode (id : nat) | SubPlain (text : string) | SubList (l : list sub).
(** The expressions, edulint/linting/checkers/duplication/duplicate_if.py:489-494. *)
Inductive expr := ENode (id : nat) | EName (name : string) | EConst (value : string) | EIfExp (test : cond) (body orelse : expr).

(** [to_node]; [parent] is the class of the node that the variable is an attribute of, edulint/linting/checkers/duplication/utils.py:92-98. *)
Definition to_node (parent : string) (v : sub) : res expr :=
  match v with
  | SubList _ => Raise AssertionError
  | SubNode id => Ok (ENode id)
  | SubPlain s => Ok (if String.eqb parent "Name" then EName s else EConst s)
  end.

(** The loop that makes an expression of the values of a variable, edulint/linting/checkers/duplication/duplicate_if.py:489-494. *)
Fixpoint wrap (parent : string) (pairs : list (cond * sub)) (expr_ : expr) : res expr :=
  match pairs with
  | [] => Ok expr_
  | (test, v) :: pairs => do inner <- wrap parent pairs expr_; do body <- to_node parent v; Ok (EIfExp test body inner)
  end.
(** The expression for one variable, edulint/linting/checkers/duplication/duplicate_if.py:486-494. *)
Definition ternary (tests : list cond) (parent : string) (subs : list sub) : res expr :=
  if length subs =? length tests + 1 then
    match rev subs with
    | [] => Raise IndexError
    | last_ :: _ => do e <- to_node parent last_; wrap parent (combine tests subs) e
    end
  else Raise AssertionError.

(** ** Lists and dictionaries *)

(** Operands of comparisons: names, constants and others; and conditions as far as they are looked into,
    edulint/linting/checkers/duplication/duplicate_if.py:633-677. *)
Inductive const := CInt (z : Z) | CBool (b : bool) | COther (text : string).
(** An operand, edulint/linting/checkers/duplication/duplicate_if.py:633-637. *)
Inductive operand := ONameOf (name : string) | OConst (c : const) | OOther (id : nat).
(** A condition, edulint/linting/checkers/duplication/duplicate_if.py:639-677. *)
Inductive test := TCompare (left : operand) (ops : list (string * operand)) | TBool (op : string) (values : list test) | TOther (id : nat).

(** A pair of a variable and the constant it is compared with, edulint/linting/checkers/duplication/duplicate_if.py:641. *)
Notation literal := (string * const)%type.

(** [sorted(..., key=lambda literal: literal[0].name)], a stable sort, edulint/linting/checkers/duplication/duplicate_if.py:669-672. *)
Fixpoint insert_literal (x : literal) (l : list literal) : list literal :=
  match l with
  | [] => [x]
  | y :: r => if String.leb (fst x) (fst y) then x :: l else y :: insert_literal x r
  end.
(** The sort itself, edulint/linting/checkers/duplication/duplicate_if.py:669-672. *)
Definition sort_literals (l : list literal) : list literal := fold_right insert_literal [] l.

(** [itertools.product], edulint/linting/checkers/duplication/duplicate_if.py:673. *)
Fixpoint product {A} (ls : list (list A)) : list (list A) :=
  match ls with [] => [[]] | l :: ls => flat_map (fun x => map (cons x) (product ls)) l end.

(** [vals_from_simple_test], edulint/linting/checkers/duplication/duplicate_if.py:639-677. The last line gives [None], as [toplevel] is
    always true; a condition is never a plain operand. *)
Fixpoint vals_from_simple_test (t : test) : option (list (list literal)) :=
  match t with
  | TCompare left_ ops =>
      match left_, ops with
      | ONameOf n, [(op, OConst c)] | OConst c, [(op, ONameOf n)] => if String.eqb op "==" then Some [[(n, c)]] else None
      | _, _ => None
      end
  | TBool op values =>
      if str_in op ["and"; "or"] then
        match (fix all (values : list test) : option (list (list (list literal))) :=
                 match values with
                 | [] => Some []
                 | v :: values => match vals_from_simple_test v with
                                  | None => None
                                  | Some d => match all values with None => None | Some ds => Some (d :: ds) end
                                  end
                 end) values with
        | None => None
        | Some disjunctions =>
            if String.eqb op "or" then Some (concat disjunctions)
            else Some (map (fun disjunction => sort_literals (concat disjunction)) (product disjunctions))
        end
      else None
  | TOther _ => None
  end.

(** The part of the [if]s whose conditions are simple, edulint/linting/checkers/duplication/duplicate_if.py:764-786. *)
Fixpoint leading {A} (keep : A -> bool) (l : list A) : nat := match l with [] => 0 | x :: l => if keep x then S (leading keep l) else 0 end.
(** [test_disjunctions[i] is None], edulint/linting/checkers/duplication/duplicate_if.py:771, 777. *)
Definition is_none {A} (o : option A) : bool := match o with None => true | Some _ => false end.
(** The indices of the part, edulint/linting/checkers/duplication/duplicate_if.py:764-786. *)
Definition simple_part (ds : list (option (list (list literal)))) : option (nat * nat) :=
  let start_index := leading is_none ds in
  let simple := leading (fun d => negb (is_none d)) (skipn start_index ds) in
  if simple =? 0 then None
  else
    let end_index := start_index + simple - 1 in
    if (end_index - start_index + 1 <? 3) || (negb (start_index =? 0) && negb (end_index =? length ds - 1)) then None
    else Some (start_index, end_index).

(** All conjunctions have the variables of the first one, edulint/linting/checkers/duplication/duplicate_if.py:788-794. *)
Definition same_variables (ds : list (list (list literal))) : bool :=
  match ds with
  | (first_ :: _) :: _ =>
      forallb (forallb (fun c => (length c =? length first_) && forallb (fun '(x, y) => String.eqb (fst x) (fst y)) (combine c first_))) ds
  | _ => true
  end.

(** Constants that [isinstance(value, int)] holds for, with their value, edulint/linting/checkers/duplication/duplicate_if.py:694-706. *)
Definition int_value (c : const) : option Z := match c with CInt z => Some z | CBool b => Some (if b then 1 else 0)%Z | COther _ => None end.
(** The values of a list of constants, edulint/linting/checkers/duplication/duplicate_if.py:694-706. *)
Fixpoint int_values (l : list const) : option (list Z) :=
  match l with [] => Some [] | c :: l => match int_value c, int_values l with Some z, Some zs => Some (z :: zs) | _, _ => None end end.
(** [sorted], edulint/linting/checkers/duplication/duplicate_if.py:699. *)
Fixpoint insert_int (x : Z) (l : list Z) : list Z := match l with [] => [x] | y :: r => if (x <=? y)%Z then x :: l else y :: insert_int x r end.
(** [sorted], edulint/linting/checkers/duplication/duplicate_if.py:699. *)
Definition sort_ints (l : list Z) : list Z := fold_right insert_int [] l.
(** The comparison with [list(range(...))], edulint/linting/checkers/duplication/duplicate_if.py:704. *)
Fixpoint ints_eq (a b : list Z) : bool := match a, b with [] , [] => true | x :: a, y :: b => Z.eqb x y && ints_eq a b | _, _ => false end.

(** Whether a list is suggested instead of a dictionary, edulint/linting/checkers/duplication/duplicate_if.py:692-707. *)
Definition uses_list (ds : list (list (list literal))) : bool :=
  match ds with
  | ([_] :: _) :: _ =>
      let keys := flat_map (fun c => match c with x :: _ => [snd x] | [] => [] end) (concat ds) in
      match int_values keys with
      | Some zs => ints_eq (sort_ints zs) (map Z.of_nat (seq 0 (length (concat ds))))
      | None => false
      end
  | _ => false
  end.

(** The entries of the dictionary: for each conjunction its constants and the number of the branch, which the values are taken from,
    edulint/linting/checkers/duplication/duplicate_if.py:681-690, 710-729. *)
Definition entries (ds : list (list (list literal))) : list (list const * nat) :=
  flat_map (fun '(i, d) => map (fun c => (map snd c, i)) d) (combine (seq 0 (length ds)) ds).
