(** Programs for the claims about switched messages. *)
From Coq Require Import String List Bool Arith Lia.
From Verif Require Import Base SwitchModel SwitchSpec SwitchProofs.
Import ListNotations.
Local Open Scope string_scope.
Local Open Scope list_scope.
Local Open Scope nat_scope.

Definition only (l : list string) (x : string) : bool := existsb (String.eqb x) l.

Ltac fitting_found :=
  unfold fits; repeat (apply Forall2_cons; [intros x X; cbn [In] in X; repeat match type of X with _ \/ _ => destruct X as [<-|X] end; try destruct X; cbn; tauto|]);
  apply Forall2_nil.
Lemma unreachable_refuted : exists on c m found x, In c checkers /\ In m (methods c) /\ fits m found /\ In x (concat found) /\ on (fst x) = true /\
  run_method on c m found = [].
Proof.
  exists (only ["unreachable-else"; "noop"]), local, local_if, [[]; [("unreachable-else", 1)]; []], ("unreachable-else", 1).
  split; [left; reflexivity|]. split; [cbn; tauto|]. split.
  - fitting_found.
  - split; [cbn; tauto|]. split; [reflexivity|vm_compute; reflexivity].
Qed.

(** [if c: a(); b()] [else: d()] followed by [e()] and [f()], numbered from 0 on in order. *)
Definition blocks (s : nat) : list nat := match s with 0 => [0; 4; 5] | 1 => [1; 2] | 4 => [4; 5] | _ => [s] end.
Definition previous (s : nat) : option nat := match s with 2 => Some 1 | 4 => Some 0 | 5 => Some 4 | _ => None end.
Definition none (s : nat) : bool := false.
Definition inside (s : nat) : list nat := match s with 0 => [0; 1; 2; 3] | _ => [s] end.
Definition nodes (l : list nat) : list nat := flat_map inside l.
Definition first (s : nat) : list nat := match s with 0 => [1] | _ => [] end.
Definition statements : list nat := [0; 1; 2; 3; 4; 5].

Lemma blocks_like : block_like blocks previous.
Proof.
  split.
  - intro s. destruct s as [|[|[|[|[|s]]]]]; eexists; reflexivity.
  - intros s p E. destruct s as [|[|[|[|[|[|s]]]]]]; try discriminate E; injection E as <-; reflexivity.
Qed.
Lemma blocks_follow : forall s, follows none none (blocks s) (blocks s).
Proof. intro s. apply collect_follows. destruct s as [|[|[|[|[|s]]]]]; reflexivity. Qed.
Lemma nodes_nested : nested blocks nodes first.
Proof.
  constructor.
  - intros s x N I y Y. destruct s as [|s]; cbn in I.
    + destruct I as [<-|[<-|[<-|[<-|[]]]]]; [contradiction| | |]; cbn in Y; cbn; intuition.
    + destruct I as [<-|[]]. contradiction.
  - intros s x I y Y. destruct s as [|[|[|[|[|s]]]]]; cbn in I;
      repeat match type of I with _ \/ _ => destruct I as [<-|I] end; try destruct I; cbn in Y; cbn; intuition.
  - intros s x I. destruct s as [|[|[|[|[|s]]]]]; cbn in *; intuition.
  - intros s x y N I F Y. destruct s as [|s]; cbn in I.
    + destruct I as [<-|[<-|[<-|[<-|[]]]]]; cbn in *; [contradiction| | |]; intuition lia.
    + destruct I as [<-|[]]. contradiction.
Qed.
Lemma all_included : forall s, In s statements -> none s = false /\ none s = false.
Proof. intros s _. split; reflexivity. Qed.
Lemma no_dup_statements : NoDup statements.
Proof. repeat constructor; cbn; intuition discriminate. Qed.

Definition no_loop (l : list nat) : bool * list message := (false, []).
(** Two attempts succeed. *)
Definition two_attempts (s : nat) : option (list (bool * list message)) :=
  match s with
  | 0 => Some [(false, []); (false, []); (false, []); (true, [("similar-if-to-untwisted", 1)]); (false, []); (false, []); (false, []);
               (true, [("similar-if-to-expr", 2)]); (false, [])]
  | _ => None
  end.
Lemma two_fit : forall s found, two_attempts s = Some found -> attempts_fit found.
Proof.
  intros [|s] found E; [|discriminate E]. injection E as <-.
  repeat (apply Forall2_cons; [split; [intros x X; cbn in X; try destruct X as [<-|[]]; try destruct X; cbn; tauto|try discriminate; intros _; discriminate]|]).
  apply Forall2_nil.
Qed.
(** Common statements and an expression. *)
Definition part_and_expr (s : nat) : option (list (bool * list message)) :=
  match s with
  | 0 => Some [(true, [("identical-if-branches-part", 1)]); (false, []); (false, []); (false, []); (false, []); (false, []); (false, []);
               (true, [("similar-if-to-expr", 2)]); (false, [])]
  | _ => None
  end.
Lemma part_fit : forall s found, part_and_expr s = Some found -> attempts_fit found.
Proof.
  intros [|s] found E; [|discriminate E]. injection E as <-.
  repeat (apply Forall2_cons; [split; [intros x X; cbn in X; try destruct X as [<-|[]]; try destruct X; cbn; tauto|try discriminate; intros _; discriminate]|]).
  apply Forall2_nil.
Qed.
(** The three statements repeat. *)
Definition one_loop (l : list nat) : bool * list message := match l with 0 :: _ => (true, [("similar-block-to-loop-range", 3)]) | _ => (false, []) end.
Lemma one_loop_fits : forall l x, In x (snd (one_loop l)) -> In (fst x) about_loops.
Proof. intros [|[|n] l] x X; cbn in X; try destruct X as [<-|[]]; try destruct X. cbn. tauto. Qed.
Lemma one_loop_speaks : forall l, fst (one_loop l) = true -> snd (one_loop l) <> [].
Proof. intros [|[|n] l] X; cbn in X; try discriminate X. discriminate. Qed.

Lemma branches_refuted : exists block_from previous skipped ends loop_found if_found nodes_of first_body siblings on l s found,
  block_like block_from previous /\ (forall x, follows skipped ends (block_from x) (siblings x)) /\ nested siblings nodes_of first_body /\
  (forall y, fst (loop_found y) = true -> snd (loop_found y) <> []) /\ (forall x f, if_found x = Some f -> attempts_fit f) /\
  NoDup l /\ (forall x, In x l -> skipped x = false /\ ends x = false) /\ (forall y, fst (loop_found y) = false) /\
  In s l /\ if_found s = Some found /\ finds on found /\
  main_loop block_from previous skipped ends loop_found if_found nodes_of first_body on l [] [] = Ok [].
Proof.
  exists blocks, previous, none, none, no_loop, part_and_expr, nodes, first, blocks, (only ["similar-if-to-expr"]), statements, 0,
    [(true, [("identical-if-branches-part", 1)]); (false, []); (false, []); (false, []); (false, []); (false, []); (false, []);
     (true, [("similar-if-to-expr", 2)]); (false, [])].
  split; [exact blocks_like|]. split; [exact blocks_follow|]. split; [exact nodes_nested|]. split; [discriminate|]. split; [exact part_fit|].
  split; [exact no_dup_statements|]. split; [exact all_included|]. split; [reflexivity|]. split; [left; reflexivity|]. split; [reflexivity|].
  split; [|vm_compute; reflexivity]. exists (true, [("similar-if-to-expr", 2)]), ("similar-if-to-expr", 2). cbn. tauto.
Qed.
Lemma loops_refuted : exists block_from previous skipped ends loop_found if_found nodes_of first_body siblings on l s found,
  block_like block_from previous /\ (forall x, follows skipped ends (block_from x) (siblings x)) /\ nested siblings nodes_of first_body /\
  (forall y x, In x (snd (loop_found y)) -> In (fst x) about_loops) /\ (forall y, fst (loop_found y) = true -> snd (loop_found y) <> []) /\
  (forall x f, if_found x = Some f -> attempts_fit f) /\
  NoDup l /\ (forall x, In x l -> skipped x = false /\ ends x = false) /\ (forall x, ~ In x about_loops -> In x duplication_messages -> on x = true) /\
  In s l /\ if_found s = Some found /\ finds on found /\
  main_loop block_from previous skipped ends loop_found if_found nodes_of first_body on l [] [] = Ok [].
Proof.
  exists blocks, previous, none, none, one_loop, two_attempts, nodes, first, blocks, (fun x => negb (only about_loops x)), statements, 0,
    [(false, []); (false, []); (false, []); (true, [("similar-if-to-untwisted", 1)]); (false, []); (false, []); (false, []);
     (true, [("similar-if-to-expr", 2)]); (false, [])].
  split; [exact blocks_like|]. split; [exact blocks_follow|]. split; [exact nodes_nested|]. split; [exact one_loop_fits|]. split; [exact one_loop_speaks|].
  split; [exact two_fit|]. split; [exact no_dup_statements|]. split; [exact all_included|].
  split.
  { intros x N _. unfold only. destruct (existsb (String.eqb x) about_loops) eqn:E; [|reflexivity]. apply existsb_string in E. contradiction. }
  split; [left; reflexivity|]. split; [reflexivity|].
  split; [|vm_compute; reflexivity]. exists (true, [("similar-if-to-expr", 2)]), ("similar-if-to-expr", 2). cbn. tauto.
Qed.
