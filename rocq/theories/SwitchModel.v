(** Which messages are reported when some are switched off: the methods of the checkers that pylint calls, and the main loop of the
    duplication checker. What the checks find in a piece of code is given. *)
From Coq Require Import String List Bool Arith.
From Verif Require Import Base.
Import ListNotations.
Local Open Scope string_scope.
Local Open Scope list_scope.
Local Open Scope nat_scope.

(** A message handed to [add_message]: its symbol and all the rest, edulint/linting/checkers/local_defects.py:490-500. *)
Notation message := (string * nat)%type.

(** One of the checks a method calls: the messages of which one has to be enabled for it to be called, if there is such a condition, and
    the messages it may report, edulint/linting/checkers/simplifiable_if.py:1360-1389. *)
Record check := mk_check { guard : option (list string); emits : list string }.
(** A method that pylint calls for nodes: the messages in its decorator, if it has one, and its checks,
    edulint/linting/checkers/local_defects.py:707-760. *)
Record method := mk_method { method_name : string; required : option (list string); checks : list check }.
(** A checker: the messages it defines and its methods, edulint/linting/checkers/local_defects.py:20-127. *)
Record checker := mk_checker { checker_name : string; defines : list string; methods : list method }.

(** A check without a condition, edulint/linting/checkers/local_defects.py:709. *)
Definition plainly (l : list string) : check := mk_check None l.

(** edulint/linting/checkers/local_defects.py:707-760. *)
Definition local_call : method := mk_method "visit_call" (Some ["use-append"; "use-isdecimal"; "use-integral-division"])
  [plainly ["use-append"]; plainly ["use-isdecimal"]; plainly ["use-integral-division"]].
(** edulint/linting/checkers/local_defects.py:713-716. *)
Definition local_augassign : method := mk_method "visit_augassign" (Some ["use-append"; "redundant-arithmetic"])
  [plainly ["use-append"]; plainly ["redundant-arithmetic"]].
(** edulint/linting/checkers/local_defects.py:718-720. *)
Definition local_while : method := mk_method "visit_while" (Some ["no-loop-else"]) [plainly ["no-loop-else"]].
(** edulint/linting/checkers/local_defects.py:722-725. *)
Definition local_for : method := mk_method "visit_for" (Some ["no-loop-else"; "at-most-one-iteration-for-loop"])
  [plainly ["no-loop-else"]; plainly ["at-most-one-iteration-for-loop"]].
(** edulint/linting/checkers/local_defects.py:727-731, 326-343. *)
Definition local_if : method := mk_method "visit_if" (Some ["use-elif"; "redundant-elif"; "use-early-return"])
  [plainly ["use-elif"]; plainly ["redundant-elif"; "unreachable-else"]; plainly ["use-early-return"]].
(** edulint/linting/checkers/local_defects.py:733-740. *)
Definition local_binop : method := mk_method "visit_binop"
  (Some ["no-repeated-op"; "redundant-arithmetic"; "do-not-multiply-mutable"; "use-ord-letter"])
  [plainly ["no-repeated-op"]; plainly ["redundant-arithmetic"]; plainly ["do-not-multiply-mutable"]; plainly ["use-ord-letter"]].
(** edulint/linting/checkers/local_defects.py:742-744. *)
Definition local_assign : method := mk_method "visit_assign" (Some ["use-augmented-assign"]) [plainly ["use-augmented-assign"]].
(** edulint/linting/checkers/local_defects.py:746-748. *)
Definition local_annassign : method := mk_method "visit_annassign" (Some ["use-augmented-assign"]) [plainly ["use-augmented-assign"]].
(** The decorator has a message that does not exist and lacks use-literal-letter, edulint/linting/checkers/local_defects.py:750-760, 413-415. *)
Definition local_compare : method := mk_method "visit_compare"
  (Some ["no-is-bool"; "magical-constant-in-ord-compare"; "in-range-instead-of-compare-small"; "in-range-instead-of-compare-step";
         "in-range-instead-of-compare"])
  [plainly ["no-is-bool"]; plainly ["use-literal-letter"];
   plainly ["in-range-instead-of-compare-small"; "in-range-instead-of-compare"; "in-range-instead-of-compare-step"]].
(** edulint/linting/checkers/local_defects.py:20-127. *)
Definition local : checker := mk_checker "Local"
  ["noop"; "use-append"; "use-integral-division"; "use-isdecimal"; "no-loop-else"; "use-elif"; "at-most-one-iteration-for-loop";
   "no-repeated-op"; "redundant-arithmetic"; "use-augmented-assign"; "do-not-multiply-mutable"; "redundant-elif"; "unreachable-else";
   "no-is-bool"; "use-ord-letter"; "use-literal-letter"; "use-early-return"; "in-range-instead-of-compare-small";
   "in-range-instead-of-compare"; "in-range-instead-of-compare-step"]
  [local_call; local_augassign; local_while; local_for; local_if; local_binop; local_assign; local_annassign; local_compare].

(** The messages asked for before [_basic_checks], edulint/linting/checkers/simplifiable_if.py:1344-1351, 1363-1372. *)
Definition basic_messages : list string :=
  ["simplifiable-if-return"; "simplifiable-if-return-conj"; "simplifiable-if-assignment"; "simplifiable-if-assignment-conj";
   "simplifiable-if-pass"; "no-value-in-one-branch-return"; "simplifiable-if-nested"; "simplifiable-if-seq"].
(** The messages about chains that are asked for, edulint/linting/checkers/simplifiable_if.py:1352-1356, 1377-1383. *)
Definition chain_messages : list string :=
  ["redundant-condition-part-in-elif-reorder"; "redundant-condition-part-in-elif"; "condition-always-true-in-elif";
   "condition-always-false-in-elif"; "unreachable-elif-else"].
(** The messages about consecutive ifs that are asked for, edulint/linting/checkers/simplifiable_if.py:1357-1358, 1387. *)
Definition consecutive_messages : list string := ["use-if-elif-else"; "use-if-elif-else-modifying"].
(** The messages reported by [_basic_checks], edulint/linting/checkers/simplifiable_if.py:431-441, 527, 588, 612-629. *)
Definition basic_emits : list string :=
  ["simplifiable-if-return"; "simplifiable-if-return-conj"; "simplifiable-if-assignment"; "simplifiable-if-assignment-conj";
   "simplifiable-if-nested"; "simplifiable-if-seq"; "simplifiable-if-pass"; "no-value-in-one-branch-return"].
(** The messages reported about chains, edulint/linting/checkers/simplifiable_if.py:964-1033. *)
Definition chain_emits : list string :=
  ["redundant-condition-part-in-elif-reorder"; "condition-always-true-in-elif"; "redundant-condition-part-in-elif";
   "condition-always-false-in-elif"; "unreachable-elif-else"].
(** The messages reported about consecutive ifs, edulint/linting/checkers/simplifiable_if.py:1257-1280. *)
Definition consecutive_emits : list string := ["use-if-elif-else-modifying"; "use-if-elif-else"].
(** edulint/linting/checkers/simplifiable_if.py:1342-1389. *)
Definition simplifiable_if : method := mk_method "visit_if"
  (Some (basic_messages ++ chain_messages ++ consecutive_messages))
  [mk_check (Some basic_messages) basic_emits; mk_check (Some chain_messages) chain_emits;
   mk_check (Some consecutive_messages) consecutive_emits].
(** edulint/linting/checkers/simplifiable_if.py:1391-1404. *)
Definition simplifiable_ifexp : method := mk_method "visit_ifexp" (Some ["simplifiable-if-expr"; "simplifiable-if-expr-conj"])
  [plainly ["simplifiable-if-expr"; "simplifiable-if-expr-conj"]].
(** edulint/linting/checkers/simplifiable_if.py:2220-2290. *)
Definition simplifiable_boolop : method := mk_method "visit_boolop"
  (Some ["simplifiable-with-abs"; "redundant-compare-in-condition"; "redundant-compare-avoidable-with-max-min";
         "using-compare-instead-of-equal"; "simplifiable-test-by-equals"; "redundant-condition-part"; "condition-always-true-or-false"])
  [plainly ["redundant-compare-in-condition"; "using-compare-instead-of-equal"; "simplifiable-with-abs"];
   plainly ["simplifiable-test-by-equals"]; plainly ["redundant-compare-avoidable-with-max-min"];
   mk_check (Some ["redundant-condition-part"; "condition-always-true-or-false"]) ["redundant-condition-part"; "condition-always-true-or-false"]].
(** edulint/linting/checkers/simplifiable_if.py:2292-2311. *)
Definition simplifiable_compare : method := mk_method "visit_compare" (Some ["condition-always-true-or-false"])
  [plainly ["condition-always-true-or-false"]].
(** edulint/linting/checkers/simplifiable_if.py:279-423. *)
Definition simplifiable : checker := mk_checker "SimplifiableIf"
  (basic_emits ++ chain_emits ++ consecutive_emits ++
   ["simplifiable-if-expr"; "simplifiable-if-expr-conj"; "simplifiable-with-abs"; "redundant-compare-in-condition";
    "redundant-compare-avoidable-with-max-min"; "using-compare-instead-of-equal"; "simplifiable-test-by-equals";
    "redundant-condition-part"; "condition-always-true-or-false"])
  [simplifiable_if; simplifiable_ifexp; simplifiable_boolop; simplifiable_compare].

(** edulint/linting/checkers/unsuited_loop.py:251-261. *)
Definition unsuited_while : method := mk_method "visit_while"
  (Some ["no-while-true"; "use-for-loop"; "explicit-infinite-loop"; "implicit-infinite-loop"])
  [plainly ["no-while-true"]; plainly ["use-for-loop"];
   mk_check (Some ["implicit-infinite-loop"; "explicit-infinite-loop"]) ["explicit-infinite-loop"; "implicit-infinite-loop"]].
(** edulint/linting/checkers/unsuited_loop.py:515-527. *)
Definition unsuited_for : method := mk_method "visit_for"
  (Some ["use-tighter-boundaries"; "modifying-iterated-structure"; "changing-control-variable"; "loop-shadows-control-variable";
         "use-enumerate"; "use-foreach"])
  [plainly ["use-tighter-boundaries"]; plainly ["modifying-iterated-structure"];
   plainly ["loop-shadows-control-variable"; "changing-control-variable"]; plainly ["use-enumerate"; "use-foreach"]].
(** edulint/linting/checkers/unsuited_loop.py:37-99. *)
Definition unsuited : checker := mk_checker "UnsuitedLoop"
  ["no-while-true"; "use-tighter-boundaries"; "modifying-iterated-structure"; "changing-control-variable"; "use-for-loop";
   "loop-shadows-control-variable"; "use-foreach"; "use-enumerate"; "explicit-infinite-loop"; "implicit-infinite-loop"]
  [unsuited_while; unsuited_for].

(** edulint/linting/checkers/basic_checker.py:15-56. *)
Definition no_global_vars : checker := mk_checker "NoGlobalVars" ["no-global-vars"] [mk_method "visit_module" None [plainly ["no-global-vars"]]].
(** edulint/linting/checkers/basic_checker.py:59-89. *)
Definition long_code : checker := mk_checker "LongCodeChecker" ["long-script"; "long-function"]
  [mk_method "visit_module" (Some ["long-script"]) [plainly ["long-script"]];
   mk_method "visit_functiondef" (Some ["long-function"]) [plainly ["long-function"]]].
(** edulint/linting/checkers/python_ta_checkers.py:23-50. *)
Definition invalid_for_target : checker := mk_checker "InvalidForTargetChecker" ["invalid-for-target"]
  [mk_method "visit_for" (Some ["invalid-for-target"]) [plainly ["invalid-for-target"]];
   mk_method "visit_comprehension" (Some ["invalid-for-target"]) [plainly ["invalid-for-target"]]].
(** edulint/linting/checkers/python_ta_checkers.py:53-78. *)
Definition one_iteration : checker := mk_checker "OneIterationChecker" ["one-iteration"]
  [mk_method "visit_for" (Some ["one-iteration"]) [plainly ["one-iteration"]];
   mk_method "visit_while" (Some ["one-iteration"]) [plainly ["one-iteration"]]].
(** edulint/linting/checkers/python_ta_checkers.py:108-135. *)
Definition shadowing_in_comprehension : checker := mk_checker "ShadowingInComprehensionChecker" ["shadowing-in-comprehension"]
  [mk_method "visit_comprehension" (Some ["shadowing-in-comprehension"]) [plainly ["shadowing-in-comprehension"]]].
(** edulint/linting/checkers/python_ta_checkers.py:138-161. *)
Definition top_level_code : checker := mk_checker "TopLevelCodeChecker" ["forbidden-top-level-code"]
  [mk_method "visit_module" (Some ["forbidden-top-level-code"]) [plainly ["forbidden-top-level-code"]]].

(** The loaded checkers but the one for duplication, edulint/config/files/empty.toml:4-11, edulint/linting/checkers/basic_checker.py:92-97. *)
Definition checkers : list checker :=
  [local; simplifiable; unsuited; no_global_vars; long_code; invalid_for_target; one_iteration; shadowing_in_comprehension; top_level_code].

(** The messages of [NoDuplicateCode], edulint/linting/checkers/duplication/checker.py:271-371. *)
Definition duplication_messages : list string :=
  ["identical-if-branches"; "identical-if-branches-part"; "identical-seq-ifs"; "identical-seq-elifs"; "similar-block-to-function";
   "similar-block-to-loop-range"; "similar-block-to-loop-collection"; "similar-block-to-loop-merge"; "similar-block-to-call";
   "similar-if-to-use"; "similar-if-into-block"; "similar-if-to-untwisted"; "similar-if-to-expr"; "similar-if-to-extracted";
   "similar-if-to-list"; "similar-if-to-dict"].

(** The messages pylint knows from these checkers, edulint/linting/checkers/local_defects.py:22-24. *)
Definition registered : list string := flat_map defines checkers ++ duplication_messages.

(** One attempt of [duplicate_in_if]: its messages, whether it is made only if one of them is enabled, whether the first statement of the
    body is still to be looked at, edulint/linting/checkers/duplication/duplicate_if.py:941-952. *)
Record attempt := mk_attempt { symbols : list string; check_message_enabled : bool; check_first_body : bool }.
(** The attempts in their order, edulint/linting/checkers/duplication/duplicate_if.py:989-1117. *)
Definition attempts : list attempt :=
  [mk_attempt ["identical-if-branches-part"] false true;
   mk_attempt ["identical-seq-ifs"; "identical-seq-elifs"] false true;
   mk_attempt ["identical-if-branches"] false false;
   mk_attempt ["similar-if-to-untwisted"] true false;
   mk_attempt ["similar-if-to-use"] true false;
   mk_attempt ["similar-if-into-block"] true false;
   mk_attempt ["similar-if-to-list"; "similar-if-to-dict"] true false;
   mk_attempt ["similar-if-to-expr"] true false;
   mk_attempt ["similar-if-to-extracted"] true false].

Section Pylint.
  (** The messages that are switched on, edulint/linting/checkers/simplifiable_if.py:1362. *)
  Variable on : string -> bool.

  (** [is_message_enabled] (external code): a message that does not exist counts as enabled,
      edulint/linting/checkers/simplifiable_if.py:1362. *)
  Definition is_message_enabled (s : string) : bool := if existsb (String.eqb s) registered then on s else true.

  (** [add_message] (external code) reports only enabled messages, edulint/linting/checkers/local_defects.py:500. *)
  Definition report (ms : list message) : list message := filter (fun m => is_message_enabled (fst m)) ms.

  (** A check that finds these messages, edulint/linting/checkers/simplifiable_if.py:1361-1389. *)
  Definition run_check (c : check) (found : list message) : list message :=
    match guard c with
    | None => report found
    | Some g => if existsb is_message_enabled g then report found else []
    end.

  (** The checks of a method one after another, edulint/linting/checkers/local_defects.py:728-731. *)
  Fixpoint run_checks (cs : list check) (found : list (list message)) : list message :=
    match cs, found with
    | c :: cs, f :: fs => run_check c f ++ run_checks cs fs
    | _, _ => []
    end.

  (** pylint calls a method if its checker has an enabled message and its decorator, if any, names an enabled message,
      edulint/linting/checkers/local_defects.py:727. *)
  Definition run_method (c : checker) (m : method) (found : list (list message)) : list message :=
    if existsb is_message_enabled (defines c) &&
       match required m with None => true | Some r => existsb is_message_enabled r end
    then run_checks (checks m) found
    else [].

  (** The loop of [duplicate_in_if], given whether each attempt succeeds and its messages: the messages, whether there is a
      duplication, and whether the first statement of the body is still to be looked at,
      edulint/linting/checkers/duplication/duplicate_if.py:989-1130. *)
  Fixpoint try_attempts (l : list attempt) (found : list (bool * list message)) : list message * (bool * bool) :=
    match l, found with
    | a :: l, (succeeds, ms) :: found =>
        if (negb (check_message_enabled a) || existsb is_message_enabled (symbols a)) && succeeds then (report ms, (true, check_first_body a))
        else try_attempts l found
    | _, _ => ([], (false, false))
    end.
End Pylint.

(** Whether a statement is in a set of them, edulint/linting/checkers/duplication/checker.py:385. *)
Definition mem (x : nat) (l : list nat) : bool := existsb (Nat.eqb x) l.

Section Duplication.
  (** Statements are numbers. A statement and those after it in its block; the one before it; the statements that are skipped or end
      a sequence of siblings, edulint/linting/checkers/duplication/checker.py:43-112. *)
  Variable block_from : nat -> list nat.
  Variable previous_sibling : nat -> option nat.
  Variable skip_stmt break_on_stmt : nat -> bool.

  (** The loop of [get_siblings], edulint/linting/checkers/duplication/checker.py:46-51. *)
  Fixpoint collect_siblings (l : list nat) : list nat :=
    match l with
    | [] => []
    | s :: l => if break_on_stmt s then [] else if skip_stmt s then collect_siblings l else s :: collect_siblings l
    end.
  (** [get_siblings], edulint/linting/checkers/duplication/checker.py:43-54. *)
  Definition get_siblings (s : nat) : res (list nat) :=
    match collect_siblings (block_from s) with [] => Raise AssertionError | l => Ok l end.
  (** A lookup in the dictionary of siblings, edulint/linting/checkers/duplication/checker.py:60, 64. *)
  Definition lookup (memo : list (nat * list nat)) (s : nat) : option (list nat) :=
    match find (fun p => Nat.eqb (fst p) s) memo with Some p => Some (snd p) | None => None end.
  (** [get_memoized_siblings], edulint/linting/checkers/duplication/checker.py:57-72. *)
  Definition get_memoized_siblings (memo : list (nat * list nat)) (s : nat) : res (list (nat * list nat) * list nat) :=
    match lookup memo s with
    | Some l => Ok (memo, l)
    | None =>
        match match previous_sibling s with Some p => lookup memo p | None => None end with
        | Some l => Ok ((s, tl l) :: memo, tl l)
        | None => do l <- get_siblings s; Ok ((s, l) :: memo, l)
        end
    end.

  (** What is found: whether repetitions among siblings can be a loop, with the messages; what the attempts do for an if statement that is
      not an elif; the nodes in statements and in the first statement of an if,
      edulint/linting/checkers/duplication/checker.py:132-155. *)
  Variable loop_found : list nat -> bool * list message.
  Variable if_found : nat -> option (list (bool * list message)).
  Variable nodes_of : list nat -> list nat.
  Variable first_body : nat -> list nat.

  (** [is_similar_to_loop], which needs three statements, edulint/linting/checkers/duplication/checker.py:139-148. *)
  Definition is_similar_to_loop (siblings : list nat) : bool * list message :=
    if Nat.ltb (List.length siblings) 3 then (false, []) else loop_found siblings.

  (** [is_duplicate_in_if], edulint/linting/checkers/duplication/checker.py:151-154, duplicate_if.py:984-985. *)
  Definition is_duplicate_in_if (on : string -> bool) (s : nat) : list message * (bool * bool) :=
    match if_found s with Some found => try_attempts on attempts found | None => ([], (false, false)) end.

  (** The main loop of [visit_module] without the candidates for similar blocks: the messages reported for each statement,
      edulint/linting/checkers/duplication/checker.py:374-409. *)
  Fixpoint main_loop (on : string -> bool) (l : list nat) (duplicate : list nat) (memo : list (nat * list nat)) : res (list (nat * message)) :=
    match l with
    | [] => Ok []
    | s :: l =>
        if mem s duplicate then main_loop on l duplicate memo
        else
          do x <- get_memoized_siblings memo s;
          let (memo, siblings) := (x : list (nat * list nat) * list nat) in
          let (similar, ms) := is_similar_to_loop siblings in
          if similar then
            do rest <- main_loop on l (nodes_of siblings ++ duplicate) memo;
            Ok (map (pair s) (report on ms) ++ rest)
          else
            let '(ms, (any_duplication, inspect_first_if)) := is_duplicate_in_if on s in
            if any_duplication then
              do rest <- main_loop on l
                (filter (fun x => negb (mem x (if inspect_first_if then first_body s else []))) (nodes_of [s]) ++ duplicate) memo;
              Ok (map (pair s) ms ++ rest)
            else main_loop on l duplicate memo
    end.
End Duplication.
