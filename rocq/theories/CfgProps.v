(** The properties of control flow graphs. *)
From Coq Require Import String List Bool Arith Lia Permutation.
From Verif Require Import Base CfgModel CfgSpec CfgBlockProofs CfgWfProofs CfgOpProofs CfgVisitProofs CfgTryProofs CfgLoopModel CfgLoopSpec CfgTidyProofs CfgLoopProofs CfgExamples.
Import ListNotations.
Local Open Scope string_scope.
Local Open Scope list_scope.
Local Open Scope nat_scope.

(** C57: in any finite graph, enumerating the blocks from any of them ends and yields exactly the blocks that can be reached, each once. *)
Theorem C57_exact : forall next n, (forall b c, b < n -> List.In c (next b) -> c < n) -> forall first fuel, first < n ->
  S (list_sum (map (fun b => S (List.length (next b))) (seq 0 n))) <= fuel ->
  exists l, get_blocks next fuel first = Ok l /\ NoDup l /\ forall b, List.In b l <-> path next first b.
Proof. exact get_blocks_exact. Qed.
Example ex_knot : (forall b c, b < 5 -> List.In c (knot b) -> c < 5) /\ get_blocks knot 100 0 = Ok [0; 1; 2; 3] /\ get_blocks_postorder knot 100 0 = Ok [2; 3; 1; 0] /\
  get_edges knot 100 0 = Ok [(0, 1); (1, 2); (2, 0); (1, 3); (3, 1); (0, 1); (0, 0)].
Proof. refine (conj knot_closed (conj eq_refl (conj eq_refl eq_refl))). Qed.
(** The same for the enumeration in which the first block comes last, if the recursion is not limited. *)
Theorem C57_postorder : forall next n, (forall b c, b < n -> List.In c (next b) -> c < n) -> forall first depth, first < n -> n < depth ->
  exists l, get_blocks_postorder next depth first = Ok (l ++ [first]) /\ NoDup (l ++ [first]) /\ forall b, List.In b (l ++ [first]) <-> path next first b.
Proof. exact get_blocks_postorder_exact. Qed.
(** Enumerating the edges yields each edge out of a block that can be reached as often as it is there. *)
Theorem C57_edges : forall next n, (forall b c, b < n -> List.In c (next b) -> c < n) -> forall first depth, first < n -> n < depth ->
  exists es l, get_edges next depth first = Ok es /\ NoDup l /\ (forall b, List.In b l <-> path next first b) /\
    Permutation es (flat_map (fun b => map (fun c => (b, c)) (next b)) l).
Proof. exact get_edges_exact. Qed.
(** Whatever the limit on the recursion is, there is a graph for which it is not enough. *)
Theorem C57_depth_refuted : forall depth, exists n next, (forall b c, b < n -> List.In c (next b) -> c < n) /\ 0 < n /\
  get_blocks_postorder next depth 0 = Raise RecursionError.
Proof. exact line_refuted. Qed.

(** C63: programs without try, classes, match, asynchronous loops and context managers that swallow exceptions: every execution, whatever
    conditions, iterators and exceptions do, is a walk through the graph of the module, and all it executes lies in reachable blocks. *)
Theorem C63_module_partial : forall swallows body, forallb grammatical body = true -> NoDup (flat_map numbers body) ->
  exists t, visit_module body = Ok t /\ (forallb (plain swallows) body = true -> forall tr o, runs swallows body tr o ->
    (exists q, walk t 0 None tr q) /\ forall x, List.In x tr -> exists b i, nth_error (locs t b) i = Some x /\ reachable t b = true).
Proof. exact module_walks. Qed.
Example ex_plain : forallb grammatical plain_program = true /\ NoDup (flat_map numbers plain_program) /\ forallb (plain (fun _ => false)) plain_program = true /\
  runs (fun _ => false) may_break two_rounds Fell.
Proof. refine (conj eq_refl (conj _ (conj eq_refl (two_rounds_run _)))). cbn. distinct. Qed.
(** The same for functions anywhere in any program, if their bodies are like that. *)
Theorem C63_functions_partial : forall swallows body, forallb grammatical body = true -> NoDup (flat_map numbers body) ->
  exists t, visit_module body = Ok t /\ forall n b, List.In (n, b) (flat_map functions body) -> forallb (plain swallows) b = true ->
    exists g, g < graphs t /\ owner (graph t g) = Whole n /\ forall tr o, runs swallows b tr o ->
      (exists q, walk t g None (Part n Args :: tr) q) /\ forall x, List.In x tr -> exists b i, nth_error (locs t b) i = Some x /\ reachable t b = true.
Proof. exact function_walks. Qed.
Example ex_full : forallb grammatical full_program = true /\ NoDup (flat_map numbers full_program) /\
  List.In (8, [With 9 [true] [Jump 10 Return]; Simple 11]) (flat_map functions full_program) /\
  forallb (plain (fun _ => false)) [With 9 [true] [Jump 10 Return]; Simple 11] = true.
Proof. refine (conj eq_refl (conj _ (conj _ eq_refl))); [cbn; distinct | cbn; auto]. Qed.
(** try: f() finally: g() *)
Theorem C63_finally_refuted : forall swallows, missing swallows with_finally (Whole 3).
Proof. exact finally_missing. Qed.
(** try: raise ValueError except Exception: g() *)
Theorem C63_raise_refuted : forall swallows, missing swallows raise_handled (Whole 3).
Proof. exact raise_missing. Qed.
(** try: f() except: while a: g() *)
Theorem C63_loop_in_handler_refuted : forall swallows, missing swallows loop_handler (Part 3 Test).
Proof. exact loop_missing. Qed.
(** class C: x = 1 *)
Theorem C63_class_refuted : forall swallows, missing swallows a_class (Whole 2).
Proof. exact class_missing. Qed.
(** match x: case 1: f() *)
Theorem C63_match_refuted : forall swallows, missing swallows a_match (Whole 2).
Proof. exact match_missing. Qed.
(** with suppress(ValueError): raise ValueError, then f() *)
Theorem C63_suppress_refuted : missing (fun _ => true) suppressed (Whole 3).
Proof. exact suppressed_missing. Qed.
(** def f(): try: return g() except: h() *)
Theorem C63_return_refuted : forall swallows, forallb grammatical return_handled = true /\ NoDup (flat_map numbers return_handled) /\
  List.In (1, [Try 2 [Jump 3 Return] [([], false, [Simple 4])] [] []]) (flat_map functions return_handled) /\
  executed swallows [Try 2 [Jump 3 Return] [([], false, [Simple 4])] [] []] (Whole 4) /\
  exists t, visit_module return_handled = Ok t /\ ~ exists b i, nth_error (locs t b) i = Some (Whole 4) /\ reachable t b = true.
Proof. exact return_missing. Qed.

(** C90: building the control flow graphs of a program never fails, with any nesting of any statements. *)
Theorem C90_never_fails : forall body, forallb grammatical body = true -> NoDup (flat_map numbers body) -> exists t, visit_module body = Ok t.
Proof. exact module_built. Qed.
Example ex_built : forallb grammatical full_program = true /\ NoDup (flat_map numbers full_program).
Proof. split; [reflexivity|]. cbn. distinct. Qed.

(** C91: a loop that can do a second iteration is not reported as one that always ends in the first one, in programs as in C63. *)
Theorem C91_module_partial : forall swallows body t l tr o, forallb grammatical body = true -> NoDup (0 :: flat_map numbers body) -> visit_module body = Ok t ->
  List.In l (flat_map loops body) -> forallb (plain swallows) body = true -> runs swallows body tr o -> another_iteration l tr -> check_one_iteration t l <> Ok true.
Proof. exact module_again. Qed.
Example ex_again : forallb grammatical may_break = true /\ NoDup (0 :: flat_map numbers may_break) /\ List.In the_loop (flat_map loops may_break) /\
  forallb (plain (fun _ => false)) may_break = true /\ runs (fun _ => false) may_break two_rounds Fell /\ another_iteration the_loop two_rounds /\
  check_one_iteration (built may_break) the_loop = Ok false /\ check_one_iteration (built always_breaks) (mk_loop false 1 [Simple 2; Jump 3 Break] []) = Ok true.
Proof. refine (conj eq_refl (conj _ (conj (or_introl eq_refl) (conj eq_refl (conj (two_rounds_run _) (conj two_rounds_another (conj _ _))))))); [cbn; distinct | vm_compute; reflexivity | vm_compute; reflexivity]. Qed.
(** The same for functions anywhere in any program. *)
Theorem C91_functions_partial : forall swallows body t n b l tr o, forallb grammatical body = true -> NoDup (0 :: flat_map numbers body) -> visit_module body = Ok t ->
  List.In l (flat_map loops body) -> List.In (n, b) (flat_map functions body) -> forallb (plain swallows) b = true -> runs swallows b tr o ->
  another_iteration l tr -> check_one_iteration t l <> Ok true.
Proof. exact function_again. Qed.
(** An iteration that was completed and followed by another test is what the two theorems above are about. *)
Theorem C91_second_iteration : forall swallows l pre first o c, forallb grammatical (loop_body l) = true -> loop_body l <> [] -> runs swallows (loop_body l) first o ->
  o = Fell \/ o = Continued -> another_iteration l (pre ++ loop_head l :: first ++ loop_head l :: c).
Proof. exact second_is_another. Qed.
Example ex_second : runs (fun _ => false) (loop_body the_loop) [Part 2 Test; Whole 4] Fell.
Proof. apply (ru_two (fun _ => false) (If 2 [Jump 3 Break] []) [Simple 4] [Part 2 Test] [Whole 4]); [|apply ru_one, ev]. left. exists [Part 2 Test], []. refine (conj eq_refl (conj (ev _) _)). right. exact (ru_nil (fun _ => false)). Qed.
(** The check ends without an exception for every loop in every program. *)
Theorem C91_never_raises : forall body, forallb grammatical body = true -> NoDup (0 :: flat_map numbers body) ->
  exists t, visit_module body = Ok t /\ forall l, exists b, check_one_iteration t l = Ok b.
Proof. exact check_never_raises. Qed.
(** while True: try: x = int(input()); break except ValueError: print() *)
Theorem C91_handler_refuted : forall swallows, forallb grammatical asks_again = true /\ NoDup (0 :: flat_map numbers asks_again) /\ List.In asking (flat_map loops asks_again) /\
  runs swallows asks_again asked_twice Fell /\ another_iteration asking asked_twice /\ exists t, visit_module asks_again = Ok t /\ check_one_iteration t asking = Ok true.
Proof. exact asks_refuted. Qed.

Print Assumptions C57_exact.
Print Assumptions C57_postorder.
Print Assumptions C57_edges.
Print Assumptions C57_depth_refuted.
Print Assumptions C63_module_partial.
Print Assumptions C63_functions_partial.
Print Assumptions C63_finally_refuted.
Print Assumptions C63_raise_refuted.
Print Assumptions C63_loop_in_handler_refuted.
Print Assumptions C63_class_refuted.
Print Assumptions C63_match_refuted.
Print Assumptions C63_suppress_refuted.
Print Assumptions C63_return_refuted.
Print Assumptions C90_never_fails.
Print Assumptions C91_module_partial.
Print Assumptions C91_functions_partial.
Print Assumptions C91_second_iteration.
Print Assumptions C91_never_raises.
Print Assumptions C91_handler_refuted.
