(** Theorems about suggestions to write loops differently. *)
From Coq Require Import String List Bool Arith NArith ZArith Lia.
From Verif Require Import Base PyModel PySpec IfModel IfSpec FoldModel FoldSpec FoldExamples TypeModel LocalSpec IterSpec LoopModel LoopSpec LoopProofs LoopRangeProofs LoopCountProofs LoopRunProofs LoopExamples.
Import ListNotations.
Local Open Scope string_scope.
Local Open Scope list_scope.

(** ** C107: the negated condition can be the condition of the loop *)

(** Whenever there is a message, the text in it reads as a condition t' such that the loop "while not t'", followed by the
    statements before the break, does the same. *)
Theorem C107_same_partial : forall s m, no_while_true s = Some m -> exists c t pre e rest orelse, s = SWhile c (SIf t (pre ++ [SBreak]) e :: rest) orelse /\
  (fine t = true -> orelse = [] ->
   pre = [] \/ (existsb breaks pre = false /\ existsb continues pre = false /\ existsb breaks (e ++ rest) = false) ->
   exists t', reads m t' /\ forall W (P : program W), same_runs (exec P s) (block P (SWhile (Unary Not t') (e ++ rest) [] :: pre))).
Proof. exact while_true_same. Qed.
Example ex_while_true : no_while_true search = Some [TName "i"; TRel Eq; TConst (CInt 3)] /\ get_block machine 9 [search] (start [("i", 0%Z)]) = Some (start [("i", 3%Z); ("n", 3%Z)], Normal).
Proof. exact search_found. Qed.
Theorem C107_breaks_refuted : exists t pre rest, two_breaks = SWhile (Const (CBool true)) (SIf t (pre ++ [SBreak]) [] :: rest) [] /\ no_while_true two_breaks = Some (as_string t) /\
  existsb breaks pre = false /\ existsb continues pre = false /\ exists W (P : program W), ~ same_runs (exec P two_breaks) (block P (SWhile (Unary Not t) rest [] :: pre)).
Proof. exact two_breaks_refuted. Qed.
Theorem C107_else_refuted : exists t rest orelse, with_else = SWhile (Const (CBool true)) (SIf t [SBreak] [] :: rest) orelse /\ no_while_true with_else = Some (as_string t) /\ existsb breaks rest = false /\
  exists W (P : program W), ~ same_runs (exec P with_else) (exec P (SWhile (Unary Not t) rest orelse)).
Proof. exact else_refuted. Qed.

(** ** C108: the reported iteration does nothing *)

(** First: the loop without its test over range(a + s, b, s), once the target is set. *)
Theorem C108_first_partial : forall H W (P : program W) x, names_stored P x -> forall it c j e rest orelse, fine c = true ->
  forall start stop step, get_range_params it = Some (start, stop, step) -> fine start = true ->
  forall a b s l w w' o, use_tighter_bounds H (SFor (Name x) it (SIf c [j] e :: rest) orelse) = Ok (Some First) -> j = SContinue ->
  fixed P start a -> is_range a b s (a :: l) -> iterates_over P w it (a :: l) ->
  is_range (a + s) b s l /\
  (exec P (SFor (Name x) it (SIf c [j] e :: rest) orelse) w w' o <->
   exists w1, store P (Name x) (VInt a) w = (w1, Ok tt) /\ for_runs (store P (Name x)) (block P (e ++ rest)) (block P orelse) (map VInt l) w1 w' o).
Proof. exact first_skipped. Qed.
Example ex_first : use_tighter_bounds ints skip_first = Ok (Some First) /\ is_range 1 4 1 [1; 2; 3]%Z /\ iterates_over machine (start [("n", 0%Z)]) (range2 (lit 1) (lit 4)) [1; 2; 3]%Z.
Proof. exact skip_first_found. Qed.
(** Last: the loop without its test over range(a, b - s, s), which then sets the target, and skips its else after a break. *)
Theorem C108_last_partial : forall H W (P : program W), closed_host H -> agrees (py P) H -> forall x, names_stored P x -> forall it c j e rest orelse, fine c = true ->
  forall start stop step, get_range_params it = Some (start, stop, step) -> fine stop = true -> fine step = true ->
  forall a b s l w w' o, use_tighter_bounds H (SFor (Name x) it (SIf c [j] e :: rest) orelse) = Ok (Some Last) ->
  fixed P stop b -> fixed P step s -> is_range a b s l -> List.In (b - s)%Z l -> iterates_over P w it l ->
  exists l', l = l' ++ [(b - s)%Z] /\ is_range a (b - s) s l' /\
  (exec P (SFor (Name x) it (SIf c [j] e :: rest) orelse) w w' o <->
   for_runs (store P (Name x)) (block P (e ++ rest))
     (after (store P (Name x) (VInt (b - s))) (fun _ => match j with SContinue => block P orelse | _ => ends Normal end)) (map VInt l') w w' o).
Proof. exact last_skipped. Qed.
Example ex_last : use_tighter_bounds ints skip_last = Ok (Some Last) /\ is_range 1 4 1 [1; 2; 3]%Z /\ List.In (4 - 1)%Z [1; 2; 3]%Z /\ iterates_over machine (start [("n", 0%Z)]) (range2 (lit 1) (lit 4)) [1; 2; 3]%Z.
Proof. exact skip_last_found. Qed.
(** If the difference of stop and step is no element, the test is never true. *)
Theorem C108_none_partial : forall H W (P : program W), closed_host H -> agrees (py P) H -> forall x, names_stored P x -> forall it c j e rest orelse, fine c = true ->
  forall start stop step, get_range_params it = Some (start, stop, step) -> fine stop = true -> fine step = true ->
  forall a b s l w w' o, use_tighter_bounds H (SFor (Name x) it (SIf c [j] e :: rest) orelse) = Ok (Some Last) ->
  fixed P stop b -> fixed P step s -> is_range a b s l -> ~ List.In (b - s)%Z l -> iterates_over P w it l ->
  exec P (SFor (Name x) it (SIf c [j] e :: rest) orelse) w w' o <-> exec P (SFor (Name x) it (e ++ rest) orelse) w w' o.
Proof. exact none_skipped. Qed.
Theorem C108_break_refuted : use_tighter_bounds ints break_first = Ok (Some First) /\ sets_apart break_first (SFor (Name "i") (range2 (lit 2) (lit 4)) [total] []) "n" (start [("n", 0%Z)]).
Proof. exact break_first_refuted. Qed.
Theorem C108_step_refuted : use_tighter_bounds ints not_reached = Ok (Some Last) /\ sets_apart not_reached (SFor (Name "i") (range3 (lit 0) (lit 7) (lit 3)) [total] []) "n" (start [("n", 0%Z)]).
Proof. exact not_reached_refuted. Qed.
Theorem C108_moving_refuted : use_tighter_bounds ints moving = Ok (Some First) /\
  sets_apart moving (SFor (Name "i") (range2 (Binary Add (Name "m") (lit 1)) (lit 4)) [total; SAug "m" Add (lit 2)] []) "n" (start [("n", 0%Z); ("m", 1%Z)]).
Proof. exact moving_refuted. Qed.
Theorem C108_else_refuted : use_tighter_bounds ints else_last = Ok (Some Last) /\ sets_apart else_last (SFor (Name "i") (range2 (lit 1) (lit 3)) [total] [SAssign "n" (lit 0)]) "n" (start [("n", 0%Z)]).
Proof. exact else_last_refuted. Qed.
Theorem C108_target_refuted : use_tighter_bounds ints skip_last = Ok (Some Last) /\ sets_apart skip_last (SFor (Name "i") (range2 (lit 1) (lit 3)) [total] []) "i" (start [("n", 0%Z)]).
Proof. exact target_refuted. Qed.

(** ** C109: a reported while loop counts *)

(** The statements found to change the variable add the number that was found. *)
Theorem C109_change_partial : forall H W (P : program W), closed_host H -> agrees (py P) H -> forall s x c d w i, assigns s = Some x -> names_stored P x -> fine_stmt s = true -> subtracts_itself s = false ->
  get_change_value H s = Ok (Some c) -> as_int c = Some d -> counts P w x i ->
  exists w1, counts P w1 x (i + d) /\ forall w' o, exec P s w w' o <-> w' = w1 /\ o = Normal.
Proof. exact change_ok. Qed.
(** If every iteration adds the number, the loop runs its body for the elements of a range, in order, until it leaves. *)
Theorem C109_range_partial : forall H test x l placed, use_for_loop H test [(x, l)] placed = Ok true ->
  exists up o limit, (test = Compare (Name x) [(o, limit)] \/ test = Compare limit [(flipped o, Name x)]) /\
  (forall s, List.In s l -> exists c, get_change_value H s = Ok (Some c) /\ same_number c (VInt (direction up)) = true) /\
  forall W (P : program W) body orelse z, stored_again P x -> fixed P limit z ->
    (forall w w' q i, counts P w x i -> block P body w w' q -> goes_on q -> counts P w' x (i + direction up)) ->
    forall w i, counts P w x i -> exists elts, is_range i (match o with Lt | Gt => z | _ => z + direction up end)%Z (direction up) elts /\
      forall w' q, exec P (SWhile test body orelse) w w' q <-> for_runs (store P (Name x)) (block P body) (block P orelse) (map VInt elts) w w' q.
Proof. exact reported_counts. Qed.
(** In particular if the change is the last statement of the body and the others neither continue nor change the variable. *)
Theorem C109_last_partial : forall H x s pre test orelse placed, use_for_loop H test [(x, [s])] placed = Ok true -> assigns s = Some x ->
  fine_stmt s = true -> subtracts_itself s = false -> (forall r, get_change_value H s <> Ok (Some (VFloat r))) -> existsb continues pre = false ->
  exists (d : Z) o limit, (d = 1 \/ d = -1)%Z /\ (test = Compare (Name x) [(o, limit)] \/ test = Compare limit [(flipped o, Name x)]) /\
  forall W (P : program W) z, closed_host H -> agrees (py P) H -> names_stored P x -> stored_again P x -> fixed P limit z ->
    (forall w w' i, counts P w x i -> block P pre w w' Normal -> counts P w' x i) ->
    forall w i, counts P w x i -> exists elts, is_range i (match o with Lt | Gt => z | _ => z + d end)%Z d elts /\
      forall w' q, exec P (SWhile test (pre ++ [s]) orelse) w w' q <-> for_runs (store P (Name x)) (block P (pre ++ [s])) (block P orelse) (map VInt elts) w w' q.
Proof. exact last_change_for. Qed.
Example ex_count : use_for_loop ints (lst (Name "i") (lit 4)) [("i", [count_up])] true = Ok true /\ fine_stmt count_up = true /\ subtracts_itself count_up = false /\
  get_change_value ints count_up = Ok (Some (VInt 1)) /\ existsb continues [total] = false.
Proof. exact count_up_found. Qed.
Example ex_count_keeps : forall w w' i, counts machine w "i" i -> block machine [total] w w' Normal -> counts machine w' "i" i.
Proof. exact total_keeps. Qed.
Theorem C109_subtraction_refuted : use_for_loop ints positive [("x", [reflect])] true = Ok true /\ get_change_value ints reflect = Ok (Some (VInt (-1))) /\
  sets_apart (SWhile positive [SAug "n" Add (lit 1); reflect] []) (SFor (Name "x") (range3 (Name "x") (lit 0) (Unary Neg (lit 1))) [SAug "n" Add (lit 1); reflect] []) "n" (start [("x", 2%Z); ("n", 0%Z)]).
Proof. exact reflect_refuted. Qed.
Theorem C109_float_refuted : exists s, s = SAug "x" Add (Const (CFloat "1.0")) /\ use_for_loop ints (lst (Name "x") (lit 3)) [("x", [s])] true = Ok true /\
  exists W (P : program W) w w', names_stored P "x" /\ counts P w "x" 0 /\ exec P s w w' Normal /\ forall i, ~ counts P w' "x" i.
Proof. exact float_refuted. Qed.
Theorem C109_after_refuted : use_for_loop ints (lst (Name "x") (lit 3)) [("x", [SAug "x" Add (lit 1)])] true = Ok true /\
  sets_apart (SWhile (lst (Name "x") (lit 3)) [SAug "n" Add (Name "x"); SAug "x" Add (lit 1)] []) (SFor (Name "x") (range2 (Name "x") (lit 3)) [SAug "n" Add (Name "x")] []) "x" (start [("x", 0%Z); ("n", 0%Z)]).
Proof. exact after_refuted. Qed.

Print Assumptions C107_same_partial.
Print Assumptions C107_breaks_refuted.
Print Assumptions C107_else_refuted.
Print Assumptions C108_first_partial.
Print Assumptions C108_last_partial.
Print Assumptions C108_none_partial.
Print Assumptions C108_break_refuted.
Print Assumptions C108_step_refuted.
Print Assumptions C108_moving_refuted.
Print Assumptions C108_else_refuted.
Print Assumptions C108_target_refuted.
Print Assumptions C109_change_partial.
Print Assumptions C109_range_partial.
Print Assumptions C109_last_partial.
Print Assumptions C109_subtraction_refuted.
Print Assumptions C109_float_refuted.
Print Assumptions C109_after_refuted.
