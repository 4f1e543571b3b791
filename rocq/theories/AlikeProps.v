(** The claims about similar blocks. *)
From Coq Require Import List Bool Arith Sorted.
From Verif Require Import AlikeModel AlikeSpec AlikeProofs AlikeExamples.
Import ListNotations.
Local Open Scope list_scope.
Local Open Scope nat_scope.

(** C128: what is reported to be similar are at least two runs of statements, as long as each other, in the order of the program, each but
    the first alike to an earlier one. *)
Theorem C128_alike : forall stmt_nodes fromlineno tolineno is_type_of no_one_line siblings, own_siblings stmt_nodes siblings ->
  forall next_sibling all_children similar nodes_of duplicate positions g,
  StronglySorted lt positions -> (forall i, In i positions -> i < List.length stmt_nodes) ->
  In g (is_any_similar_to_block stmt_nodes fromlineno tolineno is_type_of no_one_line siblings next_sibling all_children similar nodes_of duplicate positions) ->
  exists h t, g = h :: t /\ t <> [] /\ similar (map snd g) = true /\ StronglySorted starts_before g /\
    (forall k, In k g -> List.length (snd k) = List.length (snd h)) /\
    (forall k, In k t -> exists p, In p g /\ starts_before p k /\ alike stmt_nodes fromlineno tolineno is_type_of siblings (snd p) (snd k)).
Proof. exact reported_alike. Qed.
Example ex_alike : own_siblings five two_three /\ StronglySorted lt five /\ (forall i, In i five -> i < List.length five) /\
  is_any_similar_to_block five line' line' same_class call two_three next' no_parent any itself [] five =
    [[((0, Some 2), [0; 1]); ((2, Some 4), [2; 3]); ((3, Some 5), [3; 4])]] /\
  is_any_similar_to_block five line line same_class call three_two next no_parent any itself [] five = [[((1, Some 3), [1; 2]); ((3, Some 5), [3; 4])]].
Proof. split; [exact own_two_three|]. split; [exact five_sorted|]. split; [exact five_positions|]. split; vm_compute; reflexivity. Qed.
Example ex_inside : own_siblings six loop_siblings /\
  is_any_similar_to_block six (fun x => x) loop_ends (loop_class true) (fun x => negb (Nat.eqb (x mod 3) 0)) loop_siblings (fun _ => None) no_parent any itself [] six =
    [[((0, Some 3), [0; 2]); ((3, Some 6), [3; 5])]] /\
  is_any_similar_to_block six (fun x => x) loop_ends (loop_class false) (fun x => negb (Nat.eqb (x mod 3) 0)) loop_siblings (fun _ => None) no_parent any itself [] six =
    [[((0, Some 1), [0]); ((3, Some 4), [3])]].
Proof. split; [exact own_six|]. split; vm_compute; reflexivity. Qed.

(** C129: the second of two candidates is compared with something alike before it. *)
Theorem C129_second_partial : forall stmt_nodes fromlineno tolineno is_type_of no_one_line siblings, own_siblings stmt_nodes siblings ->
  forall positions i p k, StronglySorted lt positions -> (forall i, In i positions -> i < List.length stmt_nodes) -> In i positions ->
  In (p, k) (get_similar_to_block_candidates stmt_nodes fromlineno tolineno is_type_of no_one_line siblings i) ->
  exists g q, In g (get_ordered_candidates (candidates stmt_nodes fromlineno tolineno is_type_of no_one_line siblings positions)) /\
    In k g /\ In q g /\ starts_before q k /\ alike stmt_nodes fromlineno tolineno is_type_of siblings (snd q) (snd k).
Proof. exact second_in_group. Qed.
Example ex_second : In 0 five /\
  In (((0, Some 2), [0; 1]), ((3, Some 5), [3; 4])) (get_similar_to_block_candidates five line line same_class call three_two 0) /\
  get_ordered_candidates (candidates five line line same_class call three_two five) = [[((0, Some 2), [0; 1])]; [((1, Some 3), [1; 2]); ((3, Some 5), [3; 4])]].
Proof. split; [cbn; tauto|]. split; [vm_compute; tauto|vm_compute; reflexivity]. Qed.
(** C129: similar runs are not reported if the second looks like another run, too. *)
Theorem C129_lost_refuted : exists stmt_nodes fromlineno tolineno is_type_of no_one_line siblings next_sibling all_children similar nodes_of i p k,
  own_siblings stmt_nodes siblings /\ In i (seq 0 (List.length stmt_nodes)) /\
  In (p, k) (get_similar_to_block_candidates stmt_nodes fromlineno tolineno is_type_of no_one_line siblings i) /\
  similar [snd p; snd k] = true /\ (forall l, all_children l = false) /\
  is_any_similar_to_block stmt_nodes fromlineno tolineno is_type_of no_one_line siblings next_sibling all_children similar nodes_of [] (seq 0 (List.length stmt_nodes)) = [].
Proof. exact lost_refuted. Qed.

(** C130: two runs reported to be similar do not overlap. *)
Theorem C130_two_partial : forall stmt_nodes fromlineno tolineno is_type_of no_one_line siblings, own_siblings stmt_nodes siblings ->
  forall next_sibling all_children similar nodes_of duplicate positions p q,
  StronglySorted lt positions -> (forall i, In i positions -> i < List.length stmt_nodes) ->
  In [p; q] (is_any_similar_to_block stmt_nodes fromlineno tolineno is_type_of no_one_line siblings next_sibling all_children similar nodes_of duplicate positions) ->
  lies_before fromlineno tolineno (snd p) (snd q).
Proof. exact reported_two. Qed.
Example ex_two : is_any_similar_to_block five line line same_class call three_two next no_parent any itself [] [0; 1; 3] = [[((1, Some 3), [1; 2]); ((3, Some 5), [3; 4])]].
Proof. vm_compute. reflexivity. Qed.
(** C130: a message does not start in code of an earlier message. *)
Theorem C130_apart_partial : forall stmt_nodes fromlineno tolineno is_type_of no_one_line siblings next_sibling all_children similar nodes_of duplicate positions l1 g1 l2 g2 l3,
  is_any_similar_to_block stmt_nodes fromlineno tolineno is_type_of no_one_line siblings next_sibling all_children similar nodes_of duplicate positions =
    l1 ++ g1 :: l2 ++ g2 :: l3 ->
  ~ In (hd 0 (hd [] (map snd g2))) (flat_map nodes_of (map snd g1)).
Proof. exact reported_apart. Qed.
Example ex_apart : is_any_similar_to_block [0; 1; 2; 3] (fun x => x * 2) (fun x => x * 2) (fun x y => Nat.eqb (x mod 2) (y mod 2)) (fun _ => false)
  (fun x => [x]) (fun _ => None) no_parent any itself [] [0; 1; 2; 3] = [[((0, Some 1), [0]); ((2, Some 3), [2])]] ++ [((1, Some 2), [1]); ((3, Some 4), [3])] :: [].
Proof. vm_compute. reflexivity. Qed.
(** C130: more than two may overlap. *)
Theorem C130_overlap_refuted : exists stmt_nodes fromlineno tolineno is_type_of no_one_line siblings next_sibling all_children similar nodes_of g p q x,
  own_siblings stmt_nodes siblings /\
  In g (is_any_similar_to_block stmt_nodes fromlineno tolineno is_type_of no_one_line siblings next_sibling all_children similar nodes_of [] (seq 0 (List.length stmt_nodes))) /\
  In p g /\ In q g /\ p <> q /\ In x (snd p) /\ In x (snd q).
Proof. exact overlap_refuted. Qed.

Print Assumptions C128_alike.
Print Assumptions C129_second_partial.
Print Assumptions C129_lost_refuted.
Print Assumptions C130_two_partial.
Print Assumptions C130_apart_partial.
Print Assumptions C130_overlap_refuted.
