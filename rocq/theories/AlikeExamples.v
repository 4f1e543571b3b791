(** Programs for the claims about similar blocks. *)
From Coq Require Import List Bool Arith Sorted Lia.
From Verif Require Import AlikeModel AlikeSpec AlikeProofs.
Import ListNotations.
Local Open Scope list_scope.
Local Open Scope nat_scope.

(** Two functions, of three calls (0, 1, 2) and of two (3, 4): [def f(): log(); save(); close()] and [def g(): log(); save()]. *)
Definition five : list nat := [0; 1; 2; 3; 4].
Definition line (x : nat) : nat := match x with 0 => 2 | 1 => 3 | 2 => 4 | 3 => 6 | _ => 7 end.
Definition same_class (x y : nat) : bool := true.
Definition call (x : nat) : bool := true.
Definition three_two (x : nat) : list nat := match x with 0 => [0; 1; 2] | 1 => [1; 2] | 2 => [2] | 3 => [3; 4] | _ => [x] end.
Definition next (x : nat) : option nat := match x with 0 => Some 1 | 1 => Some 2 | 3 => Some 4 | _ => None end.
Definition no_parent (l : list (list nat)) : bool := false.
Definition itself (l : list nat) : list nat := l.
Fixpoint lists_eqb (l m : list (list nat)) : bool :=
  match l, m with [], [] => true | x :: l, y :: m => nats_eqb x y && lists_eqb l m | _, _ => false end.
(** Only the first two statements of both are similar. *)
Definition first_two (l : list (list nat)) : bool := lists_eqb l [[0; 1]; [3; 4]].

Lemma own_three_two : own_siblings five three_two.
Proof. split; [repeat constructor; cbn; lia|]. intros x I. cbn in I. destruct I as [<-|[<-|[<-|[<-|[<-|[]]]]]]; eexists; reflexivity. Qed.
Lemma five_sorted : StronglySorted lt five.
Proof. repeat constructor; lia. Qed.
Lemma five_positions : forall i, In i five -> i < List.length five.
Proof. intros i I. cbn in *. lia. Qed.

Lemma lost_refuted : exists stmt_nodes fromlineno tolineno is_type_of no_one_line siblings next_sibling all_children similar nodes_of i p k,
  own_siblings stmt_nodes siblings /\ In i (seq 0 (List.length stmt_nodes)) /\
  In (p, k) (get_similar_to_block_candidates stmt_nodes fromlineno tolineno is_type_of no_one_line siblings i) /\
  similar [snd p; snd k] = true /\ (forall l, all_children l = false) /\
  is_any_similar_to_block stmt_nodes fromlineno tolineno is_type_of no_one_line siblings next_sibling all_children similar nodes_of [] (seq 0 (List.length stmt_nodes)) = [].
Proof.
  exists five, line, line, same_class, call, three_two, next, no_parent, first_two, itself, 0, ((0, Some 2), [0; 1]), ((3, Some 5), [3; 4]).
  split; [exact own_three_two|]. split; [cbn; tauto|]. split; [vm_compute; tauto|]. split; [reflexivity|]. split; [reflexivity|vm_compute; reflexivity].
Qed.

(** Two functions, of two calls (0, 1) and of three (2, 3, 4). *)
Definition line' (x : nat) : nat := match x with 0 => 2 | 1 => 3 | 2 => 5 | 3 => 6 | _ => 7 end.
Definition two_three (x : nat) : list nat := match x with 0 => [0; 1] | 1 => [1] | 2 => [2; 3; 4] | 3 => [3; 4] | _ => [x] end.
Definition next' (x : nat) : option nat := match x with 0 => Some 1 | 2 => Some 3 | 3 => Some 4 | _ => None end.
Definition any (l : list (list nat)) : bool := true.
Lemma own_two_three : own_siblings five two_three.
Proof. split; [repeat constructor; cbn; lia|]. intros x I. cbn in I. destruct I as [<-|[<-|[<-|[<-|[<-|[]]]]]]; eexists; reflexivity. Qed.

Lemma overlap_refuted : exists stmt_nodes fromlineno tolineno is_type_of no_one_line siblings next_sibling all_children similar nodes_of g p q x,
  own_siblings stmt_nodes siblings /\
  In g (is_any_similar_to_block stmt_nodes fromlineno tolineno is_type_of no_one_line siblings next_sibling all_children similar nodes_of [] (seq 0 (List.length stmt_nodes))) /\
  In p g /\ In q g /\ p <> q /\ In x (snd p) /\ In x (snd q).
Proof.
  exists five, line', line', same_class, call, two_three, next', no_parent, any, itself,
    [((0, Some 2), [0; 1]); ((2, Some 4), [2; 3]); ((3, Some 5), [3; 4])], ((2, Some 4), [2; 3]), ((3, Some 5), [3; 4]), 3.
  split; [exact own_two_three|]. split; [vm_compute; tauto|]. split; [cbn; tauto|]. split; [cbn; tauto|]. split; [discriminate|]. split; cbn; tauto.
Qed.

(** Two loops with a statement inside (1 in 0, 4 in 3), each followed by a call (2, 5). *)
Definition six : list nat := [0; 1; 2; 3; 4; 5].
Definition loop_ends (x : nat) : nat := match x with 0 => 1 | 3 => 4 | _ => x end.
Definition loop_siblings (x : nat) : list nat := match x with 0 => [0; 2] | 3 => [3; 5] | _ => [x] end.
(** The statements inside are of the same class, or not. *)
Definition loop_class (inside : bool) (x y : nat) : bool := Nat.eqb (x mod 3) (y mod 3) && (inside || negb (Nat.eqb (x mod 3) 1) || Nat.eqb x y).
Lemma own_six : own_siblings six loop_siblings.
Proof. split; [repeat constructor; cbn; lia|]. intros x I. cbn in I. destruct I as [<-|[<-|[<-|[<-|[<-|[<-|[]]]]]]]; eexists; reflexivity. Qed.
