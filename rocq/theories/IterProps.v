(** Theorems about suggestions to write repeated code as a loop. *)
From Coq Require Import String Ascii List Bool Arith NArith ZArith Lia Sorted.
From Verif Require Import Base PyModel PySpec IfModel FoldModel FoldSpec FoldExamples TypeModel LocalModel LocalSpec IterModel IterSpec IterMixedProofs IterMergeProofs IterRepeatProofs IterExamples.
Import ListNotations.
Local Open Scope string_scope.
Local Open Scope list_scope.
Local Open Scope nat_scope.

(** ** C102: the suggested loop has as many iterations as there are repetitions *)

(** One more or two more only if several places vary and the numbers at one of them descend by 2 or by 1. *)
Theorem C102_constants_partial : forall H n m avars loop saves it, 2 <= n -> Forall (fun a => length (subs a) = n /\ constant_place H a /\ varies H a) avars ->
  similar_to_loop H n m (Some avars) loop saves = Ok (LoopMessage it) ->
  exists extra, iterations it (n + extra) /\
    (extra = 0 \/ 2 <= length avars /\ exists a start d, List.In a avars /\ (numbers H a (arith start d n) \/ letters H a (arith start d n)) /\ (d = (-1)%Z /\ extra = 2 \/ d = (-2)%Z /\ extra = 1)).
Proof. exact constants_iterations. Qed.
Example ex_constants : Forall (fun a => length (subs a) = 3 /\ constant_place ints a /\ varies ints a) [ints_at [1; 3; 5]%Z] /\
  similar_to_loop ints 3 1 (Some [ints_at [1; 3; 5]%Z]) None true = Ok (LoopMessage (RangeCall (Call (Name "range") [num 1; num 6; num 2]))).
Proof. exact odd_found. Qed.
Theorem C102_expressions_partial : forall H n m a loop saves it, 2 <= n -> length (subs a) = n -> (forall s, List.In s (subs a) -> exists e, s = Node e /\ sums_products e = true) -> ~ constant_place H a ->
  similar_to_loop H n m (Some [a]) loop saves = Ok (LoopMessage it) -> iterations it n.
Proof. exact expressions_iterations. Qed.
Example ex_expressions : (forall s, List.In s (subs (nodes_at [x; Binary Add x (num 1); Binary Add x (num 2)])) -> exists e, s = Node e /\ sums_products e = true) /\
  ~ constant_place ints (nodes_at [x; Binary Add x (num 1); Binary Add x (num 2)]) /\
  similar_to_loop ints 3 1 (Some [nodes_at [x; Binary Add x (num 1); Binary Add x (num 2)]]) None true = Ok (LoopMessage (RangeCall (Call (Name "range") [num 3]))).
Proof. exact sums_found. Qed.
(** f(1, 3); f(2, 2); f(3, 1) *)
Theorem C102_descending_refuted : exists it, similar_to_loop ints 3 1 (Some [ints_at [1; 2; 3]%Z; ints_at [3; 2; 1]%Z]) None true = Ok (LoopMessage it) /\
  it = RangeCall (Call (Name "range") [num 5]) /\ ~ iterations it 3.
Proof. exact descending_refuted. Qed.
(** f(x); f(x ** 2); f(x ** 3) *)
Theorem C102_powers_refuted : exists it, similar_to_loop ints 3 1 (Some [nodes_at [x; Binary Pow x (num 2); Binary Pow x (num 3)]]) None true = Ok (LoopMessage it) /\
  it = RangeCall (Call (Name "range") [num 2; num 4]) /\ ~ iterations it 3.
Proof. exact power_refuted. Qed.
(** f(2); f(1 + 1); f(4 - 2): a range with step 0. *)
Theorem C102_equal_refuted : exists it, similar_to_loop ints 3 1 (Some [two]) None true = Ok (LoopMessage it) /\
  it = RangeCall (Call (Name "range") [num 2; num 1; num 0]) /\ forall n, ~ iterations it n.
Proof. exact zero_refuted. Qed.

(** ** C103: the suggested iterable gives the values that vary *)

(** One place with constants. Characters may be replaced by their distances from some character. *)
Theorem C103_one_place_partial : forall H n m a vs loop saves it, values H a vs -> length vs = n -> plain_values vs -> parent a <> InName -> varies H a ->
  similar_to_loop H n m (Some [a]) loop saves = Ok (LoopMessage it) ->
  (exists us, (forall W (P : python W) w, iterates P w it us) /\ Forall2 equal_values vs us) \/
  (exists zs base, (forall W (P : python W) w, iterates P w it (map VInt zs)) /\ letters H a (map (fun z => (base + z)%Z) zs)).
Proof. exact one_place. Qed.
Example ex_one_place : similar_to_loop ints 3 1 (Some [chars_at ["a"; "c"; "b"]]) None true = Ok (LoopMessage (ListDisplay [Const (CStr "a"); Const (CStr "c"); Const (CStr "b")])).
Proof. exact chars_found. Qed.
(** A range is only suggested if the numbers at each place are equally far apart. *)
Theorem C103_ranges_partial : forall H n m avars loop saves e, Forall (fun a => length (subs a) = n /\ constant_place H a) avars ->
  similar_to_loop H n m (Some avars) loop saves = Ok (LoopMessage (RangeCall e)) ->
  Forall (fun a => exists start d, numbers H a (arith start d n) \/ letters H a (arith start d n)) avars.
Proof. exact ranges. Qed.
(** A list gives the values at all places. *)
Theorem C103_lists_partial : forall H n m avars loop saves elts,
  Forall (fun a => parent a <> InName /\ (forall vs, values H a vs -> plain_values vs) /\ constant_place H a /\ forall zs, ~ letters H a zs) avars ->
  similar_to_loop H n m (Some avars) loop saves = Ok (LoopMessage (ListDisplay elts)) ->
  forall a vs, List.In a avars -> values H a vs -> forall W (P : python W) w, iterates P w (ListDisplay elts) vs.
Proof. exact lists. Qed.
Example ex_lists : similar_to_loop ints 3 1 (Some [ints_at [1; 5; 2]%Z; ints_at [1; 5; 2]%Z]) None true = Ok (LoopMessage (ListDisplay [num 1; num 5; num 2])).
Proof. reflexivity. Qed.
(** Variables are listed by name; the loop does the same if the code changes none of them. *)
Theorem C103_names_partial : forall H n m xs loop saves it, similar_to_loop H n m (Some [mk_avar InName (map (fun x => Raw (VStr x)) xs)]) loop saves = Ok (LoopMessage it) ->
  it = ListDisplay (map Name xs) /\
  forall W (P : python W) body w, (forall v u x, List.In x xs -> lookup P x (fst (body v u)) = lookup P x u) -> (forall x, List.In x xs -> exists v, lookup P x w = Ok v) ->
    loop_over P body (map Name xs) w = one_by_one P body (map Name xs) w.
Proof. exact names. Qed.
Example ex_names : similar_to_loop ints 3 1 (Some [mk_avar InName (map (fun x => Raw (VStr x)) ["a"; "b"; "x"])]) None true = Ok (LoopMessage (ListDisplay [Name "a"; Name "b"; Name "x"])) /\
  forall v u x, List.In x ["a"; "b"; "x"] -> lookup assigned_x x (fst (reads_x v u)) = lookup assigned_x x u.
Proof. exact names_found. Qed.
(** x = g(a); x = g(b); x = g(x) *)
Theorem C103_names_refuted : similar_to_loop ints 3 1 (Some [mk_avar InName (map (fun x => Raw (VStr x)) ["a"; "b"; "x"])]) None true = Ok (LoopMessage (ListDisplay [Name "a"; Name "b"; Name "x"])) /\
  loop_over assigned_x sets_x [Name "a"; Name "b"; Name "x"] 0%Z <> one_by_one assigned_x sets_x [Name "a"; Name "b"; Name "x"] 0%Z.
Proof. exact names_refuted. Qed.
(** f("a", "b"); f("c", "d"); f("b", "c") *)
Theorem C103_characters_refuted : exists elts vs, similar_to_loop ints 3 1 (Some [chars_at ["a"; "c"; "b"]; chars_at ["b"; "d"; "c"]]) None true = Ok (LoopMessage (ListDisplay elts)) /\
  values ints (chars_at ["b"; "d"; "c"]) vs /\ ~ iterates (vars []) tt (ListDisplay elts) vs.
Proof. exact chars_refuted. Qed.
(** f(-x); f(+x); f(~x) *)
Theorem C103_operators_refuted : similar_to_loop ints 3 1 (Some [mk_avar InOther [Raw (VStr "-"); Raw (VStr "+"); Raw (VStr "~")]]) None true =
  Ok (LoopMessage (ListDisplay [Const (CStr "-"); Const (CStr "+"); Const (CStr "~")])).
Proof. exact operators_refuted. Qed.
(** f(x); f(x % 2); f(x % 3): the range starts with 1, but x % 1 is 0. *)
Theorem C103_remainders_refuted : similar_to_loop ints 3 1 (Some [nodes_at [x; Binary Mod x (num 2); Binary Mod x (num 3)]]) None true = Ok (LoopMessage (RangeCall (Call (Name "range") [num 1; num 4]))) /\
  forall W (P : python W) w z, gives P w x (VInt z) -> gives P w (Binary Mod x (num 1)) (VInt 0).
Proof. exact mixed_refuted. Qed.

(** ** C104: looking for loops raises no exception *)

Theorem C104_total_partial : forall H n m antiunified loop saves, 2 <= n -> (forall avars, antiunified = Some avars -> Forall (place_ok H n) avars) ->
  (forall l, loop = Some l -> loop_ok H l) -> exists v, similar_to_loop H n m antiunified loop saves = Ok v.
Proof. exact no_crash. Qed.
Example ex_total : place_ok ints 3 (ints_at [1; 3; 5]%Z) /\ place_ok ints 3 (nodes_at [x; Binary Add x (num 1); Binary Add x (num 2)]).
Proof. exact no_crash_found. Qed.
(** f(1, 2); f(2, 1 + 1); f(3, 4 - 2) *)
Theorem C104_equal_refuted : proper two /\ computes ints two /\ similar_to_loop ints 3 1 (Some [ints_at [1; 2; 3]%Z; two]) None true = Raise ZeroDivisionError.
Proof. exact crash_refuted. Qed.
(** for _ in range(None): f(); f(); f() *)
Theorem C104_none_refuted : similar_to_loop ints 3 1 (Some []) (Some (mk_around (Call (Name "range") [Const CNone]) true true false)) true = Raise TypeError.
Proof. exact none_refuted. Qed.

(** ** C105: repeating the outer loop more often does the same *)

Theorem C105_loop_partial : forall (W : Type) (near : W -> W -> Prop), (forall w, near w w) -> (forall w w', near w w' -> near w' w) -> (forall u v w, near u v -> near v w -> near u w) ->
  forall assign, (forall i w, near (assign i w) w) -> forall b, ignores near b -> (forall w, snd (b w) <> Continue) ->
  forall k n i j u w, near u w -> alike near (for_range assign (copies k b) i n u) (for_range assign b j (n * k) w).
Proof. exact (@merged_loop). Qed.
Example ex_loop : (forall w, near w w) /\ (forall i w, near (target i w) w) /\ ignores near counting /\ (forall w, snd (counting w) <> Continue) /\
  for_range target (copies 3 counting) 0 4 (0, 0) = ((12, 3), Done).
Proof. exact counting_ok. Qed.
(** The message is only given for a loop over range(b) whose body consists of equal parts that do not use the target, and it names b times the number of parts,
    if b is a number or needs no parentheses in a product. *)
Theorem C105_text_partial : forall H n m antiunified loop saves t, similar_to_loop H n m antiunified loop saves = Ok (MergeMessage t) ->
  exists l start stop step, loop = Some l /\ antiunified = Some [] /\ whole_body l = true /\ target_is_name l = true /\ uses_target l = false /\ get_range_params (loop_iter l) = Some (start, stop, step) /\
    (exists a, get_const_value H start = Ok a /\ as_int a = Some 0%Z) /\ (exists s, get_const_value H step = Ok s /\ as_int s = Some 1%Z) /\
    (forall k, stop = Const (CInt k) -> t = [TConst (CInt (k * N.of_nat n))]) /\
    (well_formed stop = true -> no_nested_compare stop = true -> (forall c, stop <> Const c) -> 11 <= prec stop -> exists e, reads t e /\ same e (Binary Mul stop (Const (CInt (N.of_nat n))))).
Proof. exact merged_text. Qed.
Example ex_text : similar_to_loop ints 3 1 (Some []) (Some (loop_of (Name "n"))) true = Ok (MergeMessage [TName "n"; TBin Mul; TConst (CInt 3)]) /\
  similar_to_loop ints 3 1 (Some []) (Some (loop_of (num 4))) true = Ok (MergeMessage [TConst (CInt 12)]).
Proof. exact merge_found. Qed.
(** for _ in range(n + 1): "n + 1 * 3 times" *)
Theorem C105_parentheses_refuted : exists t e, similar_to_loop ints 3 1 (Some []) (Some (loop_of (Binary Add (Name "n") (num 1)))) true = Ok (MergeMessage t) /\ reads t e /\
  ~ same e (Binary Mul (Binary Add (Name "n") (num 1)) (num 3)).
Proof. exact parentheses_refuted. Qed.
(** [continue] in one part skips the parts after it. *)
Theorem C105_continue_refuted : ignores near skipping /\ fst (fst (for_range target (copies 3 skipping) 0 4 (0, 0))) = 4 /\ fst (fst (for_range target skipping 0 (4 * 3) (0, 0))) = 12.
Proof. exact continue_refuted. Qed.
(** The target has another value after the loop. *)
Theorem C105_target_refuted : ignores near counting /\ snd (fst (for_range target (copies 3 counting) 0 4 (0, 0))) = 3 /\ snd (fst (for_range target counting 0 (4 * 3) (0, 0))) = 11.
Proof. exact target_refuted. Qed.

(** ** C106: all ways to see the beginning of a block as repetitions are tried, the longest first *)

Theorem C106_all : forall (A : Type) (block : list A) stop parts, List.In (stop, parts) (get_loop_repetitions block) <-> repetition block stop parts.
Proof. exact (@repetitions_all). Qed.
Theorem C106_order : forall (A : Type) (block : list A), StronglySorted before (get_loop_repetitions block).
Proof. exact (@repetitions_sorted). Qed.
Example ex_repetitions : get_loop_repetitions [1; 2; 1; 2] = [(4, [[1]; [2]; [1]; [2]]); (4, [[1; 2]; [1; 2]]); (3, [[1]; [2]; [1]]); (2, [[1]; [2]])].
Proof. exact six_found. Qed.

Print Assumptions C102_constants_partial.
Print Assumptions C102_expressions_partial.
Print Assumptions C102_descending_refuted.
Print Assumptions C102_powers_refuted.
Print Assumptions C102_equal_refuted.
Print Assumptions C103_one_place_partial.
Print Assumptions C103_ranges_partial.
Print Assumptions C103_lists_partial.
Print Assumptions C103_names_partial.
Print Assumptions C103_names_refuted.
Print Assumptions C103_characters_refuted.
Print Assumptions C103_operators_refuted.
Print Assumptions C103_remainders_refuted.
Print Assumptions C104_total_partial.
Print Assumptions C104_equal_refuted.
Print Assumptions C104_none_refuted.
Print Assumptions C105_loop_partial.
Print Assumptions C105_text_partial.
Print Assumptions C105_parentheses_refuted.
Print Assumptions C105_continue_refuted.
Print Assumptions C105_target_refuted.
Print Assumptions C106_all.
Print Assumptions C106_order.
