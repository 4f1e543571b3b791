(** The claims about switching messages on and off. *)
From Coq Require Import String List Bool Arith.
From Verif Require Import Base SwitchModel SwitchSpec SwitchProofs SwitchExamples.
Import ListNotations.
Local Open Scope string_scope.
Local Open Scope list_scope.
Local Open Scope nat_scope.

(** C125: what is found and switched on is reported, in the order found, whatever else is on or off. *)
Theorem C125_reported_partial : forall on c m found, In c checkers -> In m (methods c) -> fits m found ->
  (m = local_if -> on "unreachable-else" = true -> on "use-elif" = true \/ on "redundant-elif" = true \/ on "use-early-return" = true) ->
  run_method on c m found = wanted on (concat found).
Proof. exact run_method_wanted. Qed.
Example ex_reported : In local checkers /\ In local_compare (methods local) /\
  fits local_compare [[("no-is-bool", 1)]; [("use-literal-letter", 2)]; []] /\ local_compare <> local_if /\
  run_method (only ["use-literal-letter"]) local local_compare [[("no-is-bool", 1)]; [("use-literal-letter", 2)]; []] = [("use-literal-letter", 2)].
Proof.
  split; [left; reflexivity|]. split; [cbn; tauto|]. split; [fitting_found|].
  split; [discriminate|vm_compute; reflexivity].
Qed.
Example ex_guarded : run_method (only ["use-if-elif-else"; "simplifiable-if-pass"]) simplifiable simplifiable_if
  [[("simplifiable-if-pass", 1); ("simplifiable-if-seq", 2)]; [("unreachable-elif-else", 3)]; [("use-if-elif-else", 4)]] =
  [("simplifiable-if-pass", 1); ("use-if-elif-else", 4)].
Proof. vm_compute. reflexivity. Qed.
(** C125: only one message is never reported on its own. *)
Theorem C125_unreachable_refuted : exists on c m found x, In c checkers /\ In m (methods c) /\ fits m found /\ In x (concat found) /\ on (fst x) = true /\
  run_method on c m found = [].
Proof. exact unreachable_refuted. Qed.

(** C126: of the messages about loops and ifs that are reported when all is on, those that are on are still reported if others are off. *)
Theorem C126_still_reported : forall block_from previous skipped ends loop_found if_found nodes_of first_body siblings,
  block_like block_from previous -> (forall s, follows skipped ends (block_from s) (siblings s)) -> nested siblings nodes_of first_body ->
  (forall l x, In x (snd (loop_found l)) -> In (fst x) about_loops) -> (forall s found, if_found s = Some found -> attempts_fit found) ->
  forall on l, NoDup l -> (forall s, In s l -> skipped s = false /\ ends s = false) ->
  let loop := main_loop block_from previous skipped ends loop_found if_found nodes_of first_body in
  exists all some, loop (fun _ => true) l [] [] = Ok all /\ loop on l [] [] = Ok some /\
    (forall s m, In (s, m) all -> on (fst m) = true -> In (s, m) some) /\ (forall s m, In (s, m) some -> on (fst m) = true).
Proof. exact loop_monotone. Qed.
Example ex_still : block_like blocks previous /\ (forall s, follows none none (blocks s) (blocks s)) /\ nested blocks nodes first /\
  (forall s found, two_attempts s = Some found -> attempts_fit found) /\ NoDup statements /\
  main_loop blocks previous none none no_loop two_attempts nodes first (fun _ => true) statements [] [] = Ok [(0, ("similar-if-to-untwisted", 1))] /\
  main_loop blocks previous none none no_loop two_attempts nodes first (only ["similar-if-to-untwisted"]) statements [] [] = Ok [(0, ("similar-if-to-untwisted", 1))] /\
  main_loop blocks previous none none no_loop two_attempts nodes first (only ["similar-if-to-expr"]) statements [] [] = Ok [(0, ("similar-if-to-expr", 2))].
Proof.
  split; [exact blocks_like|]. split; [exact blocks_follow|]. split; [exact nodes_nested|]. split; [exact two_fit|]. split; [exact no_dup_statements|].
  split; [vm_compute; reflexivity|]. split; vm_compute; reflexivity.
Qed.

(** C127: where an attempt finds a message that is on, something is reported about the statement or about code it belongs to, if the
    messages about identical code and loops are on and the two about containers are on or off together. *)
Theorem C127_something_partial : forall block_from previous skipped ends loop_found if_found nodes_of first_body siblings,
  block_like block_from previous -> (forall s, follows skipped ends (block_from s) (siblings s)) -> nested siblings nodes_of first_body ->
  (forall l x, In x (snd (loop_found l)) -> In (fst x) about_loops) -> (forall s found, if_found s = Some found -> attempts_fit found) ->
  (forall l, fst (loop_found l) = true -> snd (loop_found l) <> []) ->
  forall on l, not_silent on -> (forall s, In s l -> skipped s = false /\ ends s = false) ->
  exists reported, main_loop block_from previous skipped ends loop_found if_found nodes_of first_body on l [] [] = Ok reported /\
    forall s found, In s l -> if_found s = Some found -> finds on found ->
      exists t m, In (t, m) reported /\ (t = s \/ In s (nodes_of (siblings t))).
Proof. exact loop_covers. Qed.
Example ex_something : not_silent (fun _ => true) /\ not_silent (fun x => negb (only ["similar-if-to-untwisted"] x)) /\
  main_loop blocks previous none none one_loop two_attempts nodes first (fun x => negb (only ["similar-if-to-untwisted"] x)) statements [] [] =
    Ok [(0, ("similar-block-to-loop-range", 3))] /\
  main_loop blocks previous none none no_loop two_attempts nodes first (fun x => negb (only ["similar-if-to-untwisted"] x)) statements [] [] =
    Ok [(0, ("similar-if-to-expr", 2))].
Proof.
  split; [split; reflexivity|]. split; [split; [intros x X; cbn in X; repeat match type of X with _ \/ _ => destruct X as [<-|X] end; try destruct X; reflexivity|reflexivity]|].
  split; vm_compute; reflexivity.
Qed.
(** C127: a switched-off message about common statements hides others. *)
Theorem C127_branches_refuted : exists block_from previous skipped ends loop_found if_found nodes_of first_body siblings on l s found,
  block_like block_from previous /\ (forall x, follows skipped ends (block_from x) (siblings x)) /\ nested siblings nodes_of first_body /\
  (forall y, fst (loop_found y) = true -> snd (loop_found y) <> []) /\ (forall x f, if_found x = Some f -> attempts_fit f) /\
  NoDup l /\ (forall x, In x l -> skipped x = false /\ ends x = false) /\ (forall y, fst (loop_found y) = false) /\
  In s l /\ if_found s = Some found /\ finds on found /\
  main_loop block_from previous skipped ends loop_found if_found nodes_of first_body on l [] [] = Ok [].
Proof. exact branches_refuted. Qed.
(** C127: switched-off messages about loops hide others. *)
Theorem C127_loops_refuted : exists block_from previous skipped ends loop_found if_found nodes_of first_body siblings on l s found,
  block_like block_from previous /\ (forall x, follows skipped ends (block_from x) (siblings x)) /\ nested siblings nodes_of first_body /\
  (forall y x, In x (snd (loop_found y)) -> In (fst x) about_loops) /\ (forall y, fst (loop_found y) = true -> snd (loop_found y) <> []) /\
  (forall x f, if_found x = Some f -> attempts_fit f) /\
  NoDup l /\ (forall x, In x l -> skipped x = false /\ ends x = false) /\ (forall x, ~ In x about_loops -> In x duplication_messages -> on x = true) /\
  In s l /\ if_found s = Some found /\ finds on found /\
  main_loop block_from previous skipped ends loop_found if_found nodes_of first_body on l [] [] = Ok [].
Proof. exact loops_refuted. Qed.

Print Assumptions C125_reported_partial.
Print Assumptions C125_unreachable_refuted.
Print Assumptions C126_still_reported.
Print Assumptions C127_something_partial.
Print Assumptions C127_branches_refuted.
Print Assumptions C127_loops_refuted.
