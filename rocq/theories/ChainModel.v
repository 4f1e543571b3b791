(** The simplification of if/elif/else chains with the solver. Definitions only.
    edulint/linting/checkers/simplifiable_if.py:181-276, 644-1093; edulint/linting/analyses/z3_analysis.py:406-415.
    Simplified: bodies are not modelled, a branch is known by its position; the list of branches is passed on instead of changed in place;
    the solver is an oracle. *)
From Coq Require Import String List Bool Arith NArith ZArith.
From Verif Require Import Base PyModel PySpec IfModel FoldModel TypeModel LocalModel SolverModel.
Import ListNotations.
Local Open Scope string_scope.
Local Open Scope list_scope.
Local Open Scope nat_scope.

(** ** Branches *)
(** [IfBlock], edulint/linting/checkers/simplifiable_if.py:200-276. *)
Record block := {
  position : nat;
  condition : option zexpr;
  negated : option zexpr;
  operands : list expr;
  terms : list zexpr;
  negated_terms : list zexpr;
  is_or : bool
}.
(** [set_all_to_default], edulint/linting/checkers/simplifiable_if.py:227-235. *)
Definition default_block (p : nat) : block :=
  {| position := p; condition := None; negated := None; operands := []; terms := []; negated_terms := []; is_or := false |}.
(** [get_boolOp_as_condition], edulint/linting/checkers/simplifiable_if.py:181-182. *)
Definition bool_condition (ts : list zexpr) (o : bool) : zexpr := if o then ZOr ts else ZAnd ts.
(** [get_converted_test_and_operands]: the operands, edulint/linting/checkers/simplifiable_if.py:185-197. *)
Fixpoint convert_each (H : host) (d : variables) (vs : list expr) : res (option (list zexpr)) :=
  match vs with
  | [] => Ok (Some [])
  | v :: vs =>
      do r <- convert H d true v;
      match fst r with
      | None => Ok None
      | Some z => do rest <- convert_each H d vs; Ok (match rest with Some l => Some (z :: l) | None => None end)
      end
  end.
(** [IfBlock.__init__] and [_set_test_info] for a branch with a test, edulint/linting/checkers/simplifiable_if.py:201-225, 237-250. *)
Definition make_block (H : host) (d : variables) (test : expr) (p : nat) : res block :=
  match test with
  | BoolOp o vs =>
      let o := match o with Or => true | And => false end in
      do ts <- convert_each H d vs;
      match ts with
      | None => Ok (default_block p)
      | Some ts =>
          let c := bool_condition ts o in
          Ok {| position := p; condition := Some c; negated := Some (ZNot c); operands := vs; terms := ts;
                negated_terms := if o then map ZNot ts else []; is_or := o |}
      end
  | _ =>
      do r <- convert H d true test;
      Ok {| position := p; condition := fst r; negated := option_map ZNot (fst r); operands := [test]; terms := [];
            negated_terms := []; is_or := false |}
  end.
(** [remove_elements_at_indeces], edulint/linting/checkers/simplifiable_if.py:60-61. *)
Definition without {A} (l : list A) (removed : list nat) : list A :=
  map snd (filter (fun p => negb (existsb (Nat.eqb (fst p)) removed)) (combine (seq 0 (length l)) l)).
(** [remove_redundant_operands], edulint/linting/checkers/simplifiable_if.py:252-262. *)
Definition remove_operands (b : block) (removed : list nat) : block :=
  let ts := without (terms b) removed in
  let c := bool_condition ts (is_or b) in
  {| position := position b; condition := Some c; negated := Some (ZNot c); operands := without (operands b) removed; terms := ts;
     negated_terms := without (negated_terms b) removed; is_or := is_or b |}.
(** [get_operands_by_operation], edulint/linting/checkers/simplifiable_if.py:267-268. *)
Definition operation_terms (b : block) : list zexpr := if is_or b then negated_terms b else terms b.
(** [get_test_as_string], edulint/linting/checkers/simplifiable_if.py:270-276. *)
Definition test_text (b : block) : text :=
  sep_by [bool_token (if is_or b then Or else And)] (map (fun e => add_brackets e (Nat.eqb (length (operands b)) 1)) (operands b)).

(** ** Access that may fail *)
(** A condition given to the solver; Z3 raises an exception for None. edulint/linting/checkers/simplifiable_if.py:742, 838. *)
Definition need (z : option zexpr) : res zexpr := match z with Some z => Ok z | None => Raise (OtherError "Z3Exception") end.
(** [if_statement[i]], edulint/linting/checkers/simplifiable_if.py:766, 838, 856. *)
Definition at_index (l : list block) (i : nat) : res block := get l i.
(** [if_statement[-1]], edulint/linting/checkers/simplifiable_if.py:778, 826. *)
Definition last_block (l : list block) : res block := match rev l with b :: _ => Ok b | [] => Raise IndexError end.
(** The list with another block at an index, edulint/linting/checkers/simplifiable_if.py:766, 773, 1082. *)
Fixpoint replace (l : list block) (i : nat) (b : block) : list block :=
  match l, i with [], _ => [] | _ :: l, 0 => b :: l | x :: l, S i => x :: replace l i b end.
(** [[block.negated_condition for block in ...]], edulint/linting/checkers/simplifiable_if.py:677, 839, 845-847. *)
Definition negations (l : list block) : res (list zexpr) := mapM (fun b => need (negated b)) l.
(** [_get_elif_count], edulint/linting/checkers/simplifiable_if.py:777-778. *)
Definition elif_count (l : list block) : res nat :=
  do b <- last_block l; Ok (match condition b with None => length l - 1 | Some _ => length l end).

(** ** Messages *)
(** The messages R6218, R6219, R6221, R6217 and R6220 by position (the else branch comes after the last test), with suggestions.
    edulint/linting/checkers/simplifiable_if.py:964-968, 982-985, 989-998, 1001, 1003, 1013. *)
Inductive chain_message :=
| AlwaysTrue (p : nat) | Part (p : nat) (suggestion : text) | AlwaysFalse (p : nat) | Unreachable (p : nat)
| Reorder (order : list nat) (tests : list (option text)).

(** ** Simplification *)
Section Solver.
  (** [unsatisfiable], edulint/linting/analyses/z3_analysis.py:372-373. *)
  Variable unsat : zexpr -> bool.
  (** [len(text)], edulint/linting/checkers/simplifiable_if.py:804. *)
  Variable text_length : text -> nat.

  (** [all_implied_indeces], edulint/linting/analyses/z3_analysis.py:406-415. *)
  Definition implied_indices (a : zexpr) (zs : list zexpr) : list nat :=
    map fst (filter (fun p => implies unsat a (snd p)) (combine (seq 0 (length zs)) zs)).
  (** [_condition_simplifications_under_assumption], edulint/linting/checkers/simplifiable_if.py:736-756. *)
  Definition under_assumption (b : block) (a : zexpr) : res (option bool * list nat) :=
    do c <- need (condition b);
    if implies unsat a c then Ok (Some true, [])
    else
      do n <- need (negated b);
      if implies unsat a n then Ok (Some false, [])
      else if Nat.ltb 1 (length (operands b)) then
        let r := implied_indices a (operation_terms b) in
        if Nat.eqb (length r) (length (operands b)) then Ok (Some (negb (is_or b)), []) else Ok (None, r)
      else Ok (None, []).
  (** [_simplify_condition_at_index], edulint/linting/checkers/simplifiable_if.py:758-775. *)
  Definition simplify_at (l : list block) (i : nat) (always : option bool) (removed : list nat) : res (list block * bool) :=
    match always with
    | Some true => do b <- at_index l i; Ok (firstn i l ++ [default_block (position b)], false)
    | Some false => Ok (firstn i l ++ skipn (S i) l, true)
    | None =>
        match removed with
        | [] => Ok (l, false)
        | _ => do b <- at_index l i; Ok (replace l i (remove_operands b removed), false)
        end
    end.
  (** Whether anything is simplified, edulint/linting/checkers/simplifiable_if.py:800, 864. *)
  Definition found (r : option bool * list nat) : bool := match r with (None, []) => false | _ => true end.
  (** The condition under which the test is kept, edulint/linting/checkers/simplifiable_if.py:801-805. *)
  Definition kept_test (b : block) (always : option bool) : bool :=
    match always, operands b with Some true, [e] => Nat.ltb (text_length (as_string e)) 14 | _, _ => false end.
  (** The loop of [_immediate_simplifications_for_if]; [n] is [elif_count]. The number of rounds is bounded by [fuel].
      edulint/linting/checkers/simplifiable_if.py:788-820. *)
  Fixpoint immediate_loop (fuel : nat) (l : list block) (i n : nat) (before : zexpr) (made has_else : bool) : res (list block * bool * bool) :=
    match fuel with
    | 0 => Raise (OtherError "out of fuel")
    | S fuel =>
        if Nat.ltb i n then
          do b <- at_index l i;
          do r <- under_assumption b before;
          do s <- (if found r then
                     if kept_test b (fst r) then Ok (firstn (S i) l, false, true)
                     else do s <- simplify_at l i (fst r) (snd r); Ok (s, has_else)
                   else Ok (l, false, has_else));
          let '(l, deleted, has_else) := s in
          let made := made || found r in
          match nth_error l i with
          | None => Ok (l, made, has_else)
          | Some b =>
              match condition b with
              | None => Ok (l, made, has_else)
              | Some _ =>
                  do n <- match fst r with Some _ => elif_count l | None => Ok n end;
                  if (deleted : bool) then immediate_loop fuel l i n before made has_else
                  else do g <- need (negated b); immediate_loop fuel l (S i) n (ZAnd [before; g]) made has_else
              end
          end
        else Ok (l, made, has_else)
    end.
  (** [_immediate_simplifications_for_if], edulint/linting/checkers/simplifiable_if.py:780-827. *)
  Definition immediate (l : list block) : res (list block * bool * bool) :=
    do b <- at_index l 0;
    do g <- need (negated b);
    do n <- elif_count l;
    do r <- immediate_loop (S (length l)) l 1 n g false false;
    let '(l, made, has_else) := r in
    do e <- last_block l;
    Ok (l, made, match condition e with None => true | Some _ => has_else end).

  (** The first comparison that is equivalent to the condition of the else branch, edulint/linting/checkers/simplifiable_if.py:687-692. *)
  Fixpoint equivalent (c : zexpr) (l : list (cmpop * zexpr)) : option (cmpop * zexpr) :=
    match l with
    | [] => None
    | (op, z) :: l => if implies unsat c z && implies unsat z c then Some (op, z) else equivalent c l
    end.
  (** [_convert_else_to_elif_when_simple_enough]; [extract] is [extract_node], which reads a text.
      edulint/linting/checkers/simplifiable_if.py:667-692. *)
  Definition convert_else (extract : text -> res expr) (d : variables) (l : list block) : res (list block) :=
    match d with
    | [(k, i); (k', i')] =>
        let l' := removelast l in
        do ns <- negations l';
        let x := ZVar k i in
        let y := ZVar k' i' in
        match equivalent (ZAnd ns) [(Eq, ZRel Eq x y); (Ne, ZRel Ne x y); (Gt, ZRel Gt x y); (Lt, ZRel Lt x y)] with
        | None => Ok l
        | Some (op, z) =>
            do e <- last_block l;
            do c <- extract (k ++ [TRel op] ++ k');
            Ok (l' ++ [{| position := position e; condition := Some z; negated := Some (ZNot z); operands := [c];
                          terms := terms e; negated_terms := negated_terms e; is_or := is_or e |}])
        end
    | _ => Ok l
    end.

  (** [_is_valid_move_up], edulint/linting/checkers/simplifiable_if.py:829-840. *)
  Definition valid_move_up (l : list block) (i goal : nat) (before : zexpr) : res bool :=
    do b <- at_index l i;
    do c <- need (condition b);
    do ns <- negations (skipn goal (firstn i l));
    Ok (implies unsat (ZAnd [before; c]) (ZAnd ns)).
  (** The loop of [_first_movable_block_for_simplification], edulint/linting/checkers/simplifiable_if.py:849-865. *)
  Fixpoint first_movable_in (l : list block) (current : nat) (before : zexpr) (is_ : list nat) : res (option (nat * option bool * list nat)) :=
    match is_ with
    | [] => Ok None
    | i :: is_ =>
        do v <- valid_move_up l i current before;
        if (v : bool) then
          do c <- at_index l current;
          do b <- at_index l i;
          do g <- need (negated b);
          do r <- under_assumption c (ZAnd [before; g]);
          if found r then Ok (Some (i, fst r, snd r)) else first_movable_in l current before is_
        else first_movable_in l current before is_
    end.
  (** [_first_movable_block_for_simplification], edulint/linting/checkers/simplifiable_if.py:842-867. *)
  Definition first_movable (l : list block) (current n : nat) : res (option (nat * option bool * list nat)) :=
    do ns <- negations (firstn current l);
    first_movable_in l current (ZAnd ns) (seq (S current) (n - S current)).
  (** [_move_block] to an earlier index, edulint/linting/checkers/simplifiable_if.py:869-870. *)
  Definition move_block (l : list block) (goal i : nat) : res (list block) :=
    do b <- at_index l i; Ok (firstn goal l ++ b :: skipn goal (firstn i l) ++ skipn (S i) l).
  (** [_would_simplify_less_than_leaving_be], edulint/linting/checkers/simplifiable_if.py:872-880. *)
  Definition simplifies_less (l : list block) (has_else : bool) (current : nat) : res bool :=
    if has_else && Nat.eqb (current + 2) (length l) then
      do c <- at_index l current; do e <- at_index l (S current); Ok (Nat.leb (length (operands c)) (length (operands e)))
    else Ok false.
  (** [_simplify_if_by_moving_conditions_up]; [todo] is [current_block + 1 - start_index], so that the loop ends at 0.
      The nesting of rounds is bounded by [fuel]. edulint/linting/checkers/simplifiable_if.py:882-951. *)
  Fixpoint move_up (fuel : nat) (l : list block) (n start todo : nat) (has_else made : bool) : res (list block * bool) :=
    match fuel with
    | 0 => Raise (OtherError "out of fuel")
    | S fuel =>
        match todo with
        | 0 => Ok (l, made)
        | S todo =>
            let current := start + todo in
            do less <- simplifies_less l has_else current;
            if (less : bool) then move_up fuel l n start todo has_else made
            else
              do m <- first_movable l current n;
              match m with
              | None => move_up fuel l n start todo has_else made
              | Some m =>
                  do r <- move_rounds fuel l n current m has_else;
                  let '(l, n) := r in
                  move_up fuel l n start todo has_else true
              end
        end
    end
  (** The inner loop, edulint/linting/checkers/simplifiable_if.py:908-947. *)
  with move_rounds (fuel : nat) (l : list block) (n current : nat) (m : nat * option bool * list nat) (has_else : bool) : res (list block * nat) :=
    match fuel with
    | 0 => Raise (OtherError "out of fuel")
    | S fuel =>
        let '(i, always, removed) := m in
        do l <- move_block l current i;
        let current := S current in
        do s <- simplify_at l current always removed;
        let '(l, deleted) := s in
        do n <- match always with Some _ => elif_count l | None => Ok n end;
        if Nat.eqb (length l) (S current) then Ok (l, n)
        else if (deleted : bool) then
          do r <- move_up fuel l n current (i - current) has_else false;
          Ok (fst r, n)
        else
          do r <- move_up fuel l n (S current) (i - current) has_else false;
          let l := fst r in
          do m <- first_movable l current n;
          match m with None => Ok (l, n) | Some m => move_rounds fuel l n current m has_else end
    end.

  (** ** Chains *)
  (** [_decompose_if]: the branches, none if a test cannot be translated. edulint/linting/checkers/simplifiable_if.py:694-734. *)
  Fixpoint decompose_tests (H : host) (d : variables) (tests : list expr) (p : nat) : res (list block) :=
    match tests with
    | [] => Ok []
    | t :: tests =>
        do b <- make_block H d t p;
        match condition b with
        | None => Ok []
        | Some _ =>
            match tests with
            | [] => Ok [b]
            | _ => do l <- decompose_tests H d tests (S p); Ok (match l with [] => [] | _ => b :: l end)
            end
        end
    end.
  (** [_decompose_if] with the else branch, edulint/linting/checkers/simplifiable_if.py:728-734. *)
  Definition decompose (H : host) (d : variables) (tests : list expr) (has_else : bool) : res (list block) :=
    do l <- decompose_tests H d tests 1;
    Ok (match l with [] => [] | _ => if has_else then l ++ [default_block (S (length tests))] else l end).
  (** [_give_suggestion_for_changed_order_in_if], edulint/linting/checkers/simplifiable_if.py:953-968. *)
  Definition changed_order (l : list block) : chain_message :=
    Reorder (map position l) (map (fun b => match condition b with Some _ => Some (test_text b) | None => None end) l).
  (** The loop of [_give_suggestion_for_same_order_in_if]; [l] is the rest of the branches, [open_end] says that the last one has a condition.
      edulint/linting/checkers/simplifiable_if.py:978-1015. *)
  Fixpoint same_order (tests : list expr) (p : nat) (l : list block) (open_end has_else : bool) : list chain_message :=
    match tests with
    | [] => match l with [] => if has_else then [Unreachable p] else [] | _ => [] end
    | t :: tests =>
        match l with
        | b :: l' =>
            if Nat.eqb p (position b) then
              (match condition b, t with
               | None, _ => [AlwaysTrue p]
               | Some _, BoolOp _ vs => if Nat.ltb (length (operands b)) (length vs) then [Part p (test_text b)] else []
               | Some _, _ => []
               end) ++ same_order tests (S p) l' open_end has_else
            else AlwaysFalse p :: same_order tests (S p) l open_end has_else
        | [] => (if open_end then AlwaysFalse p else Unreachable p) :: same_order tests (S p) l open_end has_else
        end
    end.
  (** The unreachable branches after an elif that can be else, edulint/linting/checkers/simplifiable_if.py:1031-1036. *)
  Definition unreachable_rest (p : nat) (rest : list expr) (has_else : bool) : list chain_message :=
    map Unreachable (seq p (length rest)) ++ (if has_else then [Unreachable (p + length rest)] else []).
  (** [_check_elif_instead_of_else]; [None] if it finds nothing. edulint/linting/checkers/simplifiable_if.py:1017-1039. *)
  Fixpoint elif_instead_of_else (I : purity) (H : host) (p : nat) (tests : list expr) (has_else : bool) : res (option (list chain_message)) :=
    match tests with
    | t :: (u :: rest) as tests' =>
        do n <- (if is_pure_expression I t && is_pure_expression I u then is_negation H t u false else Ok false);
        if (n : bool) then Ok (Some (AlwaysTrue (S p) :: unreachable_rest (S (S p)) rest has_else))
        else elif_instead_of_else I H (S p) tests' has_else
    | _ => Ok None
    end.
  (** [_test_pureness_and_initialize_variables_for_if]: [Some d] if all tests are fine; otherwise the number of tests up to the one with
      the problem. edulint/linting/checkers/simplifiable_if.py:644-665. *)
  Fixpoint initialize_tests (I : purity) (H : host) (G : inspection) (tests : list expr) (d : variables) : res (variables + nat) :=
    match tests with
    | [] => Ok (inl d)
    | t :: tests =>
        if is_pure_expression I t then
          do r <- initialize H G true false true t d;
          if fst r then do r <- initialize_tests I H G tests (snd r); Ok (match r with inl d => inl d | inr k => inr (S k) end)
          else Ok (inr 1)
        else Ok (inr 1)
    end.
  (** The rest of [_check_for_redundant_condition_part_in_if] once the variables are known; [fuel] bounds the rounds that move branches.
      edulint/linting/checkers/simplifiable_if.py:1063-1093. *)
  Definition simplify_chain (fuel : nat) (extract : text -> res expr) (H : host) (d : variables) (skip : bool) (tests : list expr) (has_else : bool) : res (list chain_message) :=
    do l <- decompose H d tests has_else;
    match l with
    | [] => Ok []
    | _ =>
        do r <- immediate l;
        let '(l, made, else_now) := r in
        do r <- (if skip then Ok (l, false)
                 else
                   do e <- last_block l;
                   do l <- match condition e with None => convert_else extract d l | Some _ => Ok l end;
                   do n <- elif_count l;
                   move_up fuel l n 0 (n - 1) else_now false);
        let '(l, changed) := r in
        if negb (made || changed) then Ok []
        else
          do e <- last_block l;
          let l := if else_now then removelast l ++ [{| position := position e; condition := None; negated := negated e; operands := operands e;
                                                        terms := terms e; negated_terms := negated_terms e; is_or := is_or e |}] else l in
          if changed then Ok [changed_order l]
          else do e <- last_block l; Ok (same_order tests 1 l (match condition e with Some _ => true | None => false end) has_else)
    end.
  (** [_check_for_redundant_condition_part_in_if] for a node that is not an elif; [p] is the number of tests before a chain that is only
      checked without changing the order. edulint/linting/checkers/simplifiable_if.py:1042-1063. *)
  Fixpoint check_rest (depth fuel : nat) (extract : text -> res expr) (I : purity) (H : host) (G : inspection) (skip : bool) (p : nat) (tests : list expr) (has_else : bool) : res (nat * list chain_message) :=
    match depth with
    | 0 => Raise (OtherError "out of fuel")
    | S depth =>
        if Nat.ltb (length tests) 2 then Ok (p, [])
        else
          do r <- initialize_tests I H G tests [];
          match r with
          | inr k =>
              match skipn k tests with
              | [] => Ok (p, [])
              | rest => check_rest depth fuel extract I H G true (p + k) rest has_else
              end
          | inl d => do ms <- simplify_chain fuel extract H d skip tests has_else; Ok (p, ms)
          end
    end.
  (** [_check_for_redundant_condition_part_in_if]: the tests before the chain that the messages count from, and the messages.
      edulint/linting/checkers/simplifiable_if.py:1042-1093. *)
  Definition check_chain (fuel : nat) (extract : text -> res expr) (I : purity) (H : host) (G : inspection) (tests : list expr) (has_else : bool) : res (nat * list chain_message) :=
    if Nat.ltb (length tests) 2 then Ok (0, [])
    else
      do e <- elif_instead_of_else I H 1 tests has_else;
      match e with
      | Some ms => Ok (0, ms)
      | None => check_rest (length tests) fuel extract I H G false 0 tests has_else
      end.
End Solver.
