(** The merging of consecutive if statements into one. Definitions only.
    edulint/linting/checkers/simplifiable_if.py:1095-1342.
    Simplified: bodies are opaque; whether a condition may be modified in some if statements is an oracle, and so is what the analysis of
    assignments (z3_block_analysis.py) finds. *)
From Coq Require Import String List Bool Arith NArith ZArith.
From Verif Require Import Base PyModel PySpec IfModel FoldModel TypeModel LocalModel SolverModel ChainModel.
Import ListNotations.
Local Open Scope string_scope.
Local Open Scope list_scope.
Local Open Scope nat_scope.

(** An if statement with its elifs and the body of else; [with_end] says that it contains return, raise, break or continue.
    edulint/linting/checkers/simplifiable_if.py:1160-1162. *)
Record if_statement (B : Type) := { branches : list (expr * B); otherwise : option B; with_end : bool }.
Arguments branches {B}. Arguments otherwise {B}. Arguments with_end {B}.
(** [if_elif_has_else_block], edulint/linting/analyses/utils.py:488-492. *)
Definition with_else {B} (s : if_statement B) : bool := match otherwise s with Some _ => true | None => false end.
(** [_get_list_of_test_conditions], edulint/linting/checkers/simplifiable_if.py:1285-1296. *)
Definition conditions {B} (s : if_statement B) : list expr := map fst (branches s).

(** R6223 (use-if-elif-else) and R6224 (use-if-elif-else-modifying): the index of the first if statement, how many follow it, and which
    of the messages it is. edulint/linting/checkers/simplifiable_if.py:1251-1275. *)
Record merge_message := { first_if : nat; merged_with : nat; modifying : bool }.

Section Solver.
  (** [unsatisfiable], edulint/linting/analyses/z3_analysis.py:372-373. *)
  Variable unsat : zexpr -> bool.
  (** The loop of [can_merge_ifs_together], edulint/linting/checkers/simplifiable_if.py:1311-1322. *)
  Fixpoint excludes (relations : zexpr) (not_true : list zexpr) (if1 : list zexpr) (negated2 : zexpr) : bool :=
    match if1 with
    | [] => true
    | c :: if1 =>
        if implies unsat relations (ZOr (ZNot c :: not_true ++ [negated2])) then excludes relations (not_true ++ [c]) if1 negated2 else false
    end.
  (** [can_merge_ifs_together], edulint/linting/checkers/simplifiable_if.py:1298-1322. *)
  Definition can_merge (if1 if2 : list zexpr) (relations : zexpr) : bool :=
    excludes relations [] if1 (match if2 with [c] => ZNot c | _ => ZAnd (map ZNot if2) end).
  (** The loop of [_count_of_mergeable_consecutive_ifs]: how many more if statements can be merged, and the merged conditions.
      edulint/linting/checkers/simplifiable_if.py:1112-1117. *)
  Fixpoint count_more (relations : zexpr) (merged : list zexpr) (rest : list (list zexpr)) : nat * list zexpr :=
    match rest with
    | [] => (0, merged)
    | c :: rest =>
        if can_merge merged c relations then let r := count_more relations (merged ++ c) rest in (S (fst r), snd r) else (0, merged)
    end.
  (** [_count_of_mergeable_consecutive_ifs]; the list at [start] is extended in place, so the lists are returned too.
      edulint/linting/checkers/simplifiable_if.py:1103-1119. *)
  Definition count_mergeable (relations : zexpr) (converted : list (list zexpr)) (start : nat) : res (nat * list (list zexpr)) :=
    match converted with
    | [] => Ok (1, [])
    | _ =>
        do c <- get converted start;
        let r := count_more relations c (skipn (S start) converted) in
        Ok (S (fst r), firstn start converted ++ snd r :: skipn (S start) converted)
    end.

  Section Ifs.
    Context {B : Type}.
    (** [vars_from_node_may_be_modified_in], edulint/linting/analyses/mutability.py:99-103. *)
    Variable may_modify : expr -> list (if_statement B) -> bool.
    Variables (I : purity) (H : host) (G : inspection).
    (** The loop of [is_valid_and_initialize]; [later] is [consecutive_ifs[i:-1]].
        edulint/linting/checkers/simplifiable_if.py:1165-1173. *)
    Fixpoint valid_conditions (later : list (if_statement B)) (cs : list expr) (d : variables) : res (bool * variables) :=
      match cs with
      | [] => Ok (true, d)
      | c :: cs =>
          if may_modify c later || negb (is_pure_expression I c) then Ok (false, d)
          else do r <- initialize H G true false true c d; if fst r then valid_conditions later cs (snd r) else Ok r
      end.
    (** How many of the if statements are valid, and the variables, edulint/linting/checkers/simplifiable_if.py:1157-1181. *)
    Fixpoint valid_ifs (rest : list (if_statement B)) (d : variables) : res (nat * variables) :=
      match rest with
      | [] => Ok (0, d)
      | s :: rest' =>
          if with_else s || with_end s then Ok (0, d)
          else
            do r <- valid_conditions (removelast rest) (conditions s) d;
            if fst r then do q <- valid_ifs rest' (snd r); Ok (S (fst q), snd q) else Ok (0, snd r)
      end.
    (** The conditions of the if statements for the solver, edulint/linting/checkers/simplifiable_if.py:1186-1198. *)
    Fixpoint convert_ifs (d : variables) (ifs : list (if_statement B)) : res (option (list (list zexpr))) :=
      match ifs with
      | [] => Ok (Some [])
      | s :: ifs =>
          do r <- convert_each H d (conditions s);
          match r with
          | None => Ok None
          | Some zs => do rest <- convert_ifs d ifs; Ok (match rest with Some l => Some (zs :: l) | None => None end)
          end
      end.
    (** [_get_most_consecutive_ifs_without_var_modification], edulint/linting/checkers/simplifiable_if.py:1154-1198. *)
    Definition unmodified_from (ifs : list (if_statement B)) (start : nat) : res (option (list (list zexpr))) :=
      do r <- valid_ifs (skipn start ifs) [];
      if Nat.leb (fst r) 1 then Ok (Some []) else convert_ifs (snd r) (firstn (fst r) (skipn start ifs)).
    (** [_test_conditions_might_be_modified], edulint/linting/checkers/simplifiable_if.py:1324-1330. *)
    Definition might_be_modified (ifs : list (if_statement B)) : bool :=
      existsb (fun s => existsb (fun t => may_modify t ifs) (conditions s)) ifs.

    (** [_get_most_consecutive_ifs_suitable_for_z3_block_analysis] for the if statements from an index on: the relations between variables
        and the conditions. edulint/linting/checkers/simplifiable_if.py:1121-1152. *)
    Variable blocks : nat -> res (zexpr * list (list zexpr)).
    (** The loop of [_report_all_mergeable_consecutive_ifs]; [fuel] bounds the number of rounds.
        edulint/linting/checkers/simplifiable_if.py:1209-1283. *)
    Fixpoint report (fuel : nat) (ifs : list (if_statement B)) (i : nat) (relations : zexpr) (zl : list (list zexpr)) (zi : nat)
      (ul : list (list zexpr)) (ui : nat) : res (list merge_message) :=
      match fuel with
      | 0 => Raise (OtherError "out of fuel")
      | S fuel =>
          if Nat.ltb i (length ifs) then
            do z <- (if Nat.leb (length zl) zi then do r <- blocks i; Ok (fst r, snd r, 0) else Ok (relations, zl, zi));
            let '(relations, zl, zi) := z in
            do c <- count_mergeable relations zl zi;
            let '(k, zl) := c in
            do u <- (if Nat.leb (length ul) ui then do r <- unmodified_from ifs i; Ok (r, 0) else Ok (Some ul, ui));
            let '(ul, ui) := u in
            match ul with
            | None => Ok []
            | Some ul =>
                do c <- count_mergeable (ZBool true) ul ui;
                let '(ku, ul) := c in
                if Nat.ltb ku k then
                  let m := {| first_if := i; merged_with := k - 1; modifying := might_be_modified (firstn (k - 1) (skipn i ifs)) |} in
                  do ms <- report fuel ifs (i + k) relations zl (zi + k) ul (ui + k); Ok (m :: ms)
                else
                  do ms <- report fuel ifs (i + ku) relations zl (zi + ku) ul (ui + ku);
                  Ok ((if Nat.ltb 1 ku then [{| first_if := i; merged_with := ku - 1; modifying := false |}] else []) ++ ms)
            end
          else Ok []
      end.
    (** [_check_for_use_if_elif_else] for the first of consecutive if statements, edulint/linting/checkers/simplifiable_if.py:1332-1342. *)
    Definition check_sequence (ifs : list (if_statement B)) : res (list merge_message) :=
      if Nat.ltb (length ifs) 2 then Ok [] else report (S (length ifs)) ifs 0 (ZBool true) [] 0 [] 0.
  End Ifs.
End Solver.
