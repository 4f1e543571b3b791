(** Theorems about duplicate code in if statements. *)
From Coq Require Import String List Bool Arith ZArith Lia Permutation.
From Verif Require Import Base DupModel DupSpec DupProofs DupMoveProofs DupJoinProofs DupTableProofs DupExamples.
Import ListNotations.
Local Open Scope string_scope.
Local Open Scope list_scope.
Local Open Scope nat_scope.

(** ** C96: moving identical code out of branches keeps what the program does *)

Theorem C96_after_partial : forall (State : Type) (P : python State) src, text_decides P src ->
  forall prev node rest ms lines, is_if node = true -> identical_in_if src prev node rest = Ok ms -> List.In (BranchesPart lines false) ms ->
  exists arms e n t body others, [node] = as_ifs arms e /\ e <> [] /\ arms = (t, body) :: others /\
    1 <= n /\ Forall (fun b => n <= length b) (branches_of arms e) /\ lines_of src (last_part n body) lines /\
    same_run P [node] (as_ifs (map (fun '(t, b) => (t, without_last n b)) arms) (without_last n e) ++ last_part n body).
Proof. exact (@moved_after). Qed.
Example ex_after : text_decides a_python texts /\ identical_in_if texts None same_end [] = Ok [BranchesPart 2 false].
Proof. exact (conj texts_decide same_end_found). Qed.

Theorem C96_before_partial : forall (State : Type) (P : python State) src, text_decides P src ->
  forall prev node rest ms lines, is_if node = true -> identical_in_if src prev node rest = Ok ms -> List.In (BranchesPart lines true) ms ->
  exists arms e n t body others, [node] = as_ifs arms e /\ e <> [] /\ arms = (t, body) :: others /\
    1 <= n /\ Forall (fun b => n <= length b) (branches_of arms e) /\ lines_of src (firstn n body) lines /\
    (Forall (undisturbed P (firstn n body)) (map fst arms) ->
     same_run P [node] (firstn n body ++ as_ifs (map (fun '(t, b) => (t, skipn n b)) arms) (skipn n e))).
Proof. exact (@moved_before). Qed.
Example ex_before : identical_in_if texts None same_beginning [] = Ok [BranchesPart 1 true] /\ Forall (undisturbed a_python [on 2 1]) [Basic 0].
Proof. exact same_beginning_found. Qed.

Theorem C96_removed_partial : forall (State : Type) (P : python State) src, text_decides P src ->
  forall prev node rest ms, is_if node = true -> identical_in_if src prev node rest = Ok ms -> List.In IdenticalBranches ms ->
  exists arms e t body others, [node] = as_ifs arms e /\ e <> [] /\ arms = (t, body) :: others /\
    Forall (same_code src body) (branches_of arms e) /\ (Forall (undisturbed P []) (map fst arms) -> same_run P [node] body).
Proof. exact (@same_branches_removed). Qed.
Example ex_removed : identical_in_if texts None same_all [] = Ok [IdenticalBranches] /\ Forall (undisturbed a_python []) [Basic 0].
Proof. exact same_all_found. Qed.

(** Code that changes a variable of the condition is reported as well. *)
Theorem C96_before_refuted : identical_in_if texts None resetting [] = Ok [BranchesPart 1 true] /\
  ~ same_run a_python [resetting] [on 2 0; If (Basic 0) [on 3 1] [on 6 2]].
Proof. exact before_refuted. Qed.
(** A condition with an effect. *)
Theorem C96_removed_refuted : identical_in_if texts None (If (Basic 50) [on 2 1] [on 4 1]) [] = Ok [IdenticalBranches] /\
  ~ same_run a_python [If (Basic 50) [on 2 1] [on 4 1]] [on 2 1].
Proof. exact removed_refuted. Qed.
(** Both parts of a branch of three statements are said to have two lines. *)
Theorem C96_both_refuted : identical_in_if texts None (If (Basic 0) [on 2 1; on 3 2; on 4 1] [on 6 1; on 7 2; on 8 3; on 9 2; on 10 1]) [] =
  Ok [BranchesPart 2 true; BranchesPart 2 false].
Proof. exact both_refuted. Qed.

(** ** C97: joining identical branches with [or] keeps what the program does *)

Theorem C97_chain_partial : forall (State : Type) (P : python State) src, text_decides P src ->
  forall prev node rest ms el k d k' d' c, is_if node = true -> identical_in_if src prev node rest = Ok ms -> List.In (SeqIfs el (k, d) (k', d') c) ms ->
  (el = true -> k = 0 /\ k' = 0) /\
  (k = k' -> exists s pre t b more post e, nth_error (node :: rest) k = Some s /\ [s] = as_ifs (pre ++ (t, b) :: more ++ post) e /\
    length pre = d /\ S (length more) = c /\ Forall (fun a => same_code src b (snd a)) more /\
    same_run P [s] (as_ifs (pre ++ (any_of t (map fst more), b) :: post) e)).
Proof. exact (@joined). Qed.
Example ex_chain : identical_in_if texts None elif_chain [] = Ok [SeqIfs true (0, 1) (0, 3) 3] /\
  identical_in_if texts None (If (Basic 5) [on 2 1] []) [later_chain] = Ok [SeqIfs false (1, 0) (1, 1) 2].
Proof. exact (conj elif_chain_found later_chain_found). Qed.

Theorem C97_siblings_partial : forall (State : Type) (P : python State) src prev node rest arms others ms el k k' d' c, text_decides P src ->
  node :: rest = map plain arms ++ others -> arms <> [] -> identical_in_if src prev node rest = Ok ms -> List.In (SeqIfs el (k, 0) (k', d') c) ms -> k' < length arms ->
  el = false /\ d' = 0 /\ exists pre t b more post, arms = pre ++ (t, b) :: more ++ post /\ length pre = k /\ k' = k + length more /\ S (length more) = c /\
    Forall (fun a => same_code src b (snd a)) more /\
    ((forall st st' u, run_block P b st = (st', true) -> List.In u (map fst more) -> truth P u st' = (st', Some false)) ->
     same_run P (map plain ((t, b) :: more)) [If (any_of t (map fst more)) b []]).
Proof. exact joined_plain. Qed.
Example ex_siblings : identical_in_if texts None (plain (Basic 2, [on 2 0])) [plain (Basic 1, [on 4 0])] = Ok [SeqIfs false (0, 0) (1, 0) 2] /\
  forall st st' u, run_block a_python [on 2 0] st = (st', true) -> List.In u (map fst [(Basic 1, [on 4 0])]) -> truth a_python u st' = (st', Some false).
Proof. split; [vm_compute; reflexivity|exact quiet_example]. Qed.

(** The body runs twice. *)
Theorem C97_twice_refuted : identical_in_if texts None count_once [count_twice] = Ok [SeqIfs false (0, 0) (1, 0) 2] /\
  ~ same_run a_python [count_once; count_twice] [If (Or (Basic 0) (Basic 1)) [on 2 5] []].
Proof. exact twice_refuted. Qed.
(** The second one has an [else]. *)
Theorem C97_else_refuted : identical_in_if texts None leaving [leaving_else] = Ok [SeqIfs false (0, 0) (1, 0) 2] /\
  ~ same_run a_python [leaving; leaving_else] [If (Or (Basic 1) (Basic 2)) [on 2 1] [on 6 3]] /\
  ~ same_run a_python [leaving; leaving_else] [If (Or (Basic 1) (Basic 2)) [on 2 1] []].
Proof. exact else_refuted. Qed.

(** ** C98: the reported parts are the longest ones, and none is missed *)

Theorem C98_longest : forall src prev node rest ms lines fw, is_if node = true -> identical_in_if src prev node rest = Ok ms -> List.In (BranchesPart lines fw) ms ->
  exists arms e n t body others, [node] = as_ifs arms e /\ arms = (t, body) :: others /\ lines_of src (if fw then firstn n body else last_part n body) lines /\
    (forall j, j < n -> agree src fw (branches_of arms e) j) /\ ~ agree src fw (branches_of arms e) n.
Proof. exact part_longest. Qed.

Theorem C98_silent : forall src prev node rest ms t body others e, [node] = as_ifs ((t, body) :: others) e -> e <> [] -> single_if e = false -> single_if body = false ->
  identical_in_if src prev node rest = Ok ms -> (forall m, List.In m ms -> exists a b c d, m = SeqIfs a b c d) ->
  ~ agree src true (branches_of ((t, body) :: others) e) 0 /\
  (agree src false (branches_of ((t, body) :: others) e) 0 -> ~ agree src false (branches_of ((t, body) :: others) e) 1 /\
    exists b s, List.In b (branches_of ((t, body) :: others) e) /\ nth_error (rev b) 0 = Some s /\ is_return src s = true).
Proof. exact silent_whole. Qed.
Example ex_silent : identical_in_if texts None (If (Basic 0) [on 2 1; on 3 9] [on 5 2; on 6 9]) [] = Ok [].
Proof. vm_compute. reflexivity. Qed.

Theorem C98_total : forall src prev node rest, is_if node = true -> proper node ->
  (forall arms e, [node] = as_ifs arms e -> Forall (in_order src) (branches_of arms e)) -> exists ms, identical_in_if src prev node rest = Ok ms.
Proof. exact identical_total. Qed.

(** ** C99: the untwisted condition *)

Theorem C99_same_partial : forall (State : Type) (P : python State) src outer pos neg fixed, text_decides P src ->
  untwist src [outer] [[pos]; [neg]] = Some fixed -> (forall st, fst (truth P outer st) = st) ->
  (forall t b o st, pos = If t b o -> snd (truth P outer (fst (truth P t st))) = snd (truth P outer st)) ->
  same_run P [If outer [pos] [neg]] [fixed].
Proof. exact untwisted_run. Qed.
Example ex_untwist : untwist texts [Basic 1] [[twisted_pos]; [twisted_neg]] =
  Some (If (Or (And (Basic 1) (Basic 2)) (And (Not (Basic 1)) (Not (Basic 0)))) [on 3 1] [on 5 2]) /\
  (forall st, fst (truth a_python (Basic 1) st) = st) /\
  (forall t b o st, twisted_pos = If t b o -> snd (truth a_python (Basic 1) (fst (truth a_python t st))) = snd (truth a_python (Basic 1) st)).
Proof. exact twisted_found. Qed.
Theorem C99_shape_partial : forall src tests branches fixed, untwist src tests branches = Some fixed ->
  exists outer pos neg inner other b e, tests = [outer] /\ branches = [[pos]; [neg]] /\ (exists b' e', pos = If inner b' e') /\
    fixed = If (Or (And outer inner) (And (Not outer) other)) b e.
Proof. exact untwisted_shape. Qed.
Theorem C99_effect_refuted : untwist texts [Basic 50] [[twisted_pos]; [twisted_neg]] =
  Some (If (Or (And (Basic 50) (Basic 2)) (And (Not (Basic 50)) (Not (Basic 0)))) [on 3 1] [on 5 2]) /\
  ~ same_run a_python [If (Basic 50) [twisted_pos] [twisted_neg]] [If (Or (And (Basic 50) (Basic 2)) (And (Not (Basic 50)) (Not (Basic 0)))) [on 3 1] [on 5 2]].
Proof. exact untwist_refuted. Qed.

(** ** C100: the suggested if expression has the value of the branch that runs *)

Theorem C100_value_partial : forall (State Value : Type) (P : python State) (node_value : nat -> State -> State * option Value)
  (name_value const_value : string -> State -> State * option Value) tests parent subs e,
  Forall (has_value parent) subs -> ternary tests parent subs = Ok e -> forall st,
  value P node_value name_value const_value e st = selected P (worth_of node_value name_value const_value parent) tests subs st.
Proof. exact (@ternary_value). Qed.
Example ex_ternary : ternary [Basic 1; Basic 0] "Const" [SubPlain "1"; SubPlain "2"; SubPlain "3"] =
  Ok (EIfExp (Basic 1) (EConst "1") (EIfExp (Basic 0) (EConst "2") (EConst "3"))).
Proof. exact ternary_found. Qed.
Theorem C100_made_partial : forall tests parent subs, length subs = S (length tests) -> (forall l, ~ List.In (SubList l) subs) ->
  exists e, ternary tests parent subs = Ok e.
Proof. exact ternary_made. Qed.
(** Names of keyword arguments become strings. *)
Theorem C100_keyword_refuted : ternary [Basic 1] "Keyword" [SubPlain "a"; SubPlain "b"] = Ok (EIfExp (Basic 1) (EConst "a") (EConst "b")).
Proof. exact ternary_refuted. Qed.

(** ** C101: the suggested list or dictionary gives what the branches give *)

Theorem C101_condition_partial : forall equal other_test t d, vals_from_simple_test t = Some d ->
  holds_test equal other_test t = existsb (fun c => forallb (fun '(n, k) => equal n k) c) d.
Proof. exact simple_test_holds. Qed.
Theorem C101_dictionary_partial : forall equal other_test tests ds c0 d0 r0,
  map vals_from_simple_test tests = map Some ds -> ds = (c0 :: d0) :: r0 -> same_variables ds = true ->
  (forall i j t u, nth_error tests i = Some t -> nth_error tests j = Some u -> holds_test equal other_test t = true -> holds_test equal other_test u = true -> i = j) ->
  looked_up equal (map fst c0) (entries ds) = first_branch equal other_test 0 tests.
Proof. exact dictionary. Qed.
Example ex_dictionary : map vals_from_simple_test pair_tests = map Some pairs /\ same_variables pairs = true /\ uses_list pairs = false /\
  forall i j t u, nth_error pair_tests i = Some t -> nth_error pair_tests j = Some u ->
    holds_test (equal_pair 1 3) (fun _ => false) t = true -> holds_test (equal_pair 1 3) (fun _ => false) u = true -> i = j.
Proof. exact pairs_found. Qed.
Theorem C101_default_partial : forall equal other_test tests ds c0 d0 r0,
  map vals_from_simple_test tests = map Some ds -> ds = (c0 :: d0) :: r0 -> same_variables ds = true ->
  (looked_up equal (map fst c0) (entries ds) = None <-> first_branch equal other_test 0 tests = None).
Proof. exact dictionary_default. Qed.
Theorem C101_list_partial : forall equal other_test (v : option Z), (forall n c z, int_value c = Some z -> equal n c = true -> v = Some z) ->
  forall tests ds c0 d0 r0, map vals_from_simple_test tests = map Some ds -> ds = (c0 :: d0) :: r0 -> same_variables ds = true -> uses_list ds = true ->
  looked_up equal (map fst c0) (entries ds) = first_branch equal other_test 0 tests.
Proof. exact list_lookup. Qed.
Example ex_list : map vals_from_simple_test table_tests = map Some table /\ same_variables table = true /\ uses_list table = true.
Proof. exact table_found. Qed.
Theorem C101_keys_partial : forall ds, uses_list ds = true ->
  exists zs, int_values (flat_map (fun c => match c with x :: _ => [snd x] | [] => [] end) (concat ds)) = Some zs /\ Permutation zs (map Z.of_nat (seq 0 (length (concat ds)))).
Proof. exact list_keys. Qed.
Theorem C101_part_partial : forall ds a b, simple_part ds = Some (a, b) ->
  a + 2 <= b /\ b < length ds /\ (a = 0 \/ b = length ds - 1) /\
  (forall i, i < a -> nth_error ds i = Some None) /\ (forall i, a <= i <= b -> exists d, nth_error ds i = Some (Some d)) /\
  (b + 1 < length ds -> nth_error ds (b + 1) = Some None).
Proof. exact simple_part_spec. Qed.
(** A key of two branches. *)
Theorem C101_overlap_refuted : map vals_from_simple_test overlap_tests = map Some overlap /\ simple_part (map Some overlap) = Some (0, 2) /\ same_variables overlap = true /\
  looked_up (equal_to 1) ["x"] (entries overlap) = Some 1 /\ first_branch (equal_to 1) (fun _ => false) 0 overlap_tests = Some 0.
Proof. exact overlap_refuted. Qed.

Print Assumptions C96_after_partial.
Print Assumptions C96_before_partial.
Print Assumptions C96_removed_partial.
Print Assumptions C96_before_refuted.
Print Assumptions C96_removed_refuted.
Print Assumptions C96_both_refuted.
Print Assumptions C97_chain_partial.
Print Assumptions C97_siblings_partial.
Print Assumptions C97_twice_refuted.
Print Assumptions C97_else_refuted.
Print Assumptions C98_longest.
Print Assumptions C98_silent.
Print Assumptions C98_total.
Print Assumptions C99_same_partial.
Print Assumptions C99_shape_partial.
Print Assumptions C99_effect_refuted.
Print Assumptions C100_value_partial.
Print Assumptions C100_made_partial.
Print Assumptions C100_keyword_refuted.
Print Assumptions C101_condition_partial.
Print Assumptions C101_dictionary_partial.
Print Assumptions C101_default_partial.
Print Assumptions C101_list_partial.
Print Assumptions C101_keys_partial.
Print Assumptions C101_part_partial.
Print Assumptions C101_overlap_refuted.
