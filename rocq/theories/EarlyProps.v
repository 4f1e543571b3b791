(** The claims about the checks that count statements. *)
From Coq Require Import String List Bool Arith Lia.
From Verif Require Import Base PyModel PySpec EarlyModel EarlySpec EarlyProofs EarlyExamples.
Import ListNotations.
Local Open Scope string_scope.
Local Open Scope list_scope.
Local Open Scope nat_scope.

(** C122: returning early where it is advised does the same. *)
Theorem C122_same : forall W (P : python W) returned other elif prev c body orelse before after,
  check_use_early_return elif prev body orelse (hd_error after) = Ok true ->
  forall w w' o, runs P returned other (before ++ If c body orelse :: after) w w' o <-> runs P returned other (before ++ early c body orelse after) w w' o.
Proof. exact @early_same. Qed.
Example ex_else : check_use_early_return false (Some (Simple 0)) four short (hd_error [Simple 7]) = Ok true /\
  early (Name "x") four short [Simple 7] = [If (Unary Not (Name "x")) [Simple 5; Return 6] []; Simple 1; Loop 2 [Simple 3] []; Return 4; Simple 7].
Proof. split; reflexivity. Qed.
Example ex_next : check_use_early_return false None four [] (hd_error [Return 8; Simple 9]) = Ok true /\
  early (Name "x") four [] [Return 8; Simple 9] = [If (Unary Not (Name "x")) [Return 8] []; Simple 1; Loop 2 [Simple 3] []; Return 4; Simple 9].
Proof. split; reflexivity. Qed.
Example ex_silent : check_use_early_return false None four [Simple 5] None = Ok false /\
  check_use_early_return false None [Simple 1; Simple 2; Return 4] short None = Ok false /\
  check_use_early_return false None four (short ++ short) None = Ok false /\
  check_use_early_return false (Some (If (Name "y") four [])) four short None = Ok false /\
  check_use_early_return true None four short None = Ok false /\
  check_use_early_return false None [Simple 1; Loop 2 [Simple 3] []; Simple 4] [] (Some (Return 8)) = Ok false.
Proof. repeat split. Qed.

(** C122: the check raises no exception. *)
Theorem C122_total : forall elif prev c body orelse after, grammatical (If c body orelse) = true ->
  match prev with Some p => grammatical p = true | None => True end -> forallb grammatical after = true ->
  exists b, check_use_early_return elif prev body orelse (hd_error after) = Ok b.
Proof. exact early_ok. Qed.
Example ex_total : grammatical (If (Name "x") four short) = true /\ grammatical (Simple 0) = true /\ forallb grammatical [Simple 7] = true.
Proof. repeat split. Qed.

(** C123: the number of statements is the number of statements, of lines 'else:' and of try statements, if there is no match statement. *)
Theorem C123_number_partial : forall body xs i j, listed false false body xs -> ~ (exists s, List.In s xs /\ is_match s) ->
  how_many writes_else xs i -> how_many is_try xs j ->
  forall n, (long_function body = Some n <-> n = List.length xs + i + j /\ n > 20) /\ (long_script body = Some n <-> n = List.length xs + i + j /\ n > 20).
Proof. exact long_function_is. Qed.
Example ex_number : exists xs, listed false false long_body xs /\ ~ (exists s, List.In s xs /\ is_match s) /\
  how_many writes_else xs 1 /\ how_many is_try xs 1 /\ List.length xs = 23 /\ long_function long_body = Some 25.
Proof.
  exists (flat_map (list_them false false) long_body). split; [apply them_listed|]. split; [exact no_match_long|].
  split; [vm_compute; count_them|]. split; [vm_compute; count_them|]. split; reflexivity.
Qed.
(** C123: a function or script with more than twenty statements is reported, and what is reported has more than ten. *)
Theorem C123_reported_partial : forall body, exists xs, listed false false body xs /\ (~ (exists s, List.In s xs /\ is_match s) ->
  (List.length xs > 20 -> exists n, long_function body = Some n /\ long_script body = Some n /\ List.length xs <= n) /\
  (forall n, long_function body = Some n \/ long_script body = Some n -> List.length xs > 10)).
Proof.
  intro body. destruct (listed_exists false false body) as [xs L]. exists xs. split; [exact L|]. intro N.
  split; [exact (long_reported body xs L N)|exact (fun n => reported_long body xs n L N)].
Qed.
Example ex_reported : exists n, long_function long_body = Some n /\ long_script long_body = Some n.
Proof. exists 25. split; reflexivity. Qed.
(** C123: what is in a match statement is not counted. *)
Theorem C123_match_refuted : exists body xs, forallb grammatical body = true /\ listed false false body xs /\ List.length xs > 20 /\
  long_function body = None /\ long_script body = None.
Proof. exact match_refuted. Qed.
(** C123: functions with twenty statements or fewer are reported, too. *)
Theorem C123_else_refuted : exists body xs n, forallb grammatical body = true /\ listed false false body xs /\ List.length xs <= 20 /\
  ~ (exists s, List.In s xs /\ is_match s) /\ long_function body = Some n /\ long_script body = Some n.
Proof. exact else_refuted. Qed.

(** C124: the variables of a comprehension reported for shadowing are bound by it and known outside, and a single one is found. *)
Theorem C124_sound_partial : forall locals t x, List.In x (shadowing locals t) -> binds t x /\ List.In x locals /\ x <> "_".
Proof. exact shadowing_sound. Qed.
Theorem C124_single_partial : forall locals x, List.In x locals -> x <> "_" -> List.In x (shadowing locals (AssignName x)).
Proof. exact shadowing_name. Qed.
Example ex_shadowing : shadowing ["y"; "x"] (AssignName "x") = ["x"] /\ shadowing ["y"] (AssignName "x") = [] /\ shadowing ["_"] (AssignName "_") = [].
Proof. repeat split. Qed.
(** C124: one of several variables is never found. *)
Theorem C124_tuple_refuted : exists locals t x, binds t x /\ List.In x locals /\ x <> "_" /\ shadowing locals t = [].
Proof. exact tuple_refuted. Qed.

Print Assumptions C122_same.
Print Assumptions C122_total.
Print Assumptions C123_number_partial.
Print Assumptions C123_reported_partial.
Print Assumptions C123_match_refuted.
Print Assumptions C123_else_refuted.
Print Assumptions C124_sound_partial.
Print Assumptions C124_single_partial.
Print Assumptions C124_tuple_refuted.
