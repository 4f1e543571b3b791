(** Graphs and programs for the properties of reaching definitions. *)
From Coq Require Import String List Bool Arith NArith Lia.
From Verif Require Import Base ReachModel ReachSpec ReachProofs ReachEventProofs ReachAllProofs ReachCallProofs.
From Verif Require CfgModel.
Import ListNotations.
Local Open Scope string_scope.
Local Open Scope list_scope.
Local Open Scope nat_scope.

(** ** Checking that a list of blocks is as it should be *)
Definition among (b : nat) (l : list nat) : bool := existsb (Nat.eqb b) l.
Lemma among_in b l : among b l = true <-> List.In b l.
Proof.
  unfold among. rewrite existsb_exists. split; [intros (c & H & E); apply Nat.eqb_eq in E; subst; exact H | intro H; exists b; split; [exact H | apply Nat.eqb_refl]].
Qed.
Definition found_blocksb (after_block before_block : nat -> list nat) (empty reachable : nat -> bool) (order : list nat) : bool :=
  (if list_eq_dec Nat.eq_dec (nodup Nat.eq_dec order) order then true else false) &&
  forallb (fun b => negb (empty b) &&
    forallb (fun t => empty t || among t order) (after_block b) &&
    forallb (fun p => negb (reachable p) || (among p order && among b (after_block p))) (before_block b) &&
    forallb (fun t => negb (among t order) || (among b (before_block t) && reachable b)) (after_block b)) order.
Lemma found_blocksb_right after_block before_block empty reachable order :
  found_blocksb after_block before_block empty reachable order = true -> found_blocks after_block before_block empty reachable order.
Proof.
  unfold found_blocksb. intro H. apply andb_true_iff in H. destruct H as [H1 H2]. rewrite forallb_forall in H2.
  assert (Q : forall b, List.In b order -> empty b = false /\
     (forall t, List.In t (after_block b) -> empty t = true \/ List.In t order) /\
     (forall p, List.In p (before_block b) -> reachable p = false \/ (List.In p order /\ List.In b (after_block p))) /\
     (forall t, List.In t (after_block b) -> List.In t order -> List.In b (before_block t) /\ reachable b = true)).
  { intros b B. specialize (H2 b B). apply andb_true_iff in H2. destruct H2 as [H2 K4]. apply andb_true_iff in H2. destruct H2 as [H2 K3].
    apply andb_true_iff in H2. destruct H2 as [K1 K2]. rewrite forallb_forall in K2, K3, K4. apply negb_true_iff in K1.
    split; [exact K1|]. split; [|split].
    - intros t T. specialize (K2 t T). apply orb_true_iff in K2. rewrite among_in in K2. exact K2.
    - intros p P. specialize (K3 p P). apply orb_true_iff in K3. rewrite negb_true_iff, andb_true_iff, !among_in in K3. exact K3.
    - intros t T O. specialize (K4 t T). apply orb_true_iff in K4. rewrite negb_true_iff, andb_true_iff, among_in in K4.
      destruct K4 as [K4|K4]; [|exact K4]. apply among_in in O. congruence. }
  constructor.
  - destruct (list_eq_dec Nat.eq_dec (nodup Nat.eq_dec order) order) as [E|E]; [|discriminate H1]. rewrite <- E. apply NoDup_nodup.
  - intros b B. exact (proj1 (Q b B)).
  - intros b t B T E. destruct (proj1 (proj2 (Q b B)) t T) as [K|K]; [congruence | exact K].
  - intros b p B P R. destruct (proj1 (proj2 (proj2 (Q b B))) p P) as [K|K]; [congruence | exact K].
  - intros b t B O T. exact (proj2 (proj2 (proj2 (Q b B))) t T O).
Qed.

(** ** A graph with a branch and a loop; the last block is empty *)
Definition next (b : nat) : list nat := match b with 0 => [1; 2] | 1 => [3] | 2 => [3] | 3 => [1; 4] | _ => [] end.
Definition previous (b : nat) : list nat := match b with 1 => [0; 3] | 2 => [0] | 3 => [1; 2; 7] | 4 => [3] | _ => [] end.
Definition no_statements (b : nat) : bool := Nat.eqb b 4.
Definition can_be_reached (b : nat) : bool := Nat.ltb b 5.
Definition places_of_x (i : nat) : list nat := match i with 0 => [7; 8] | 2 => [7] | _ => [] end.
Lemma loop_found : found_blocks next previous no_statements can_be_reached [0; 1; 2; 3].
Proof. apply found_blocksb_right. reflexivity. Qed.

(** ** The graph of a program, as the control flow graphs are modelled: x = ...; while ...: if ...: break; x = ... *)
Definition program : list CfgModel.stmt := [CfgModel.Simple 1; CfgModel.While 2 [CfgModel.If 3 [CfgModel.Jump 4 CfgModel.Break] []; CfgModel.Simple 5] []; CfgModel.Simple 6].
Definition built : CfgModel.state := match CfgModel.visit_module program with Ok t => t | Raise _ => CfgModel.nothing end.
Definition built_after (b : nat) : list nat := map (CfgModel.target built) (CfgModel.succs built b).
Definition built_before (b : nat) : list nat := map (CfgModel.source built) (CfgModel.preds built b).
Definition built_empty (b : nat) : bool := match CfgModel.locs built b with [] => true | _ => false end.
Definition built_order : list nat :=
  match CfgModel.get_blocks built_after 100 (CfgModel.start (CfgModel.graph built 0)) with Ok l => filter (fun b => negb (built_empty b)) l | Raise _ => [] end.
Lemma built_found : found_blocks built_after built_before built_empty (CfgModel.reachable built) built_order.
Proof. apply found_blocksb_right. vm_compute. reflexivity. Qed.

(** ** Events *)
Definition x_is_1 : var_event := mk_event 0 Assign 1.
Definition x_is_2 : var_event := mk_event 0 Assign 2.
Definition x_plus : var_event := mk_event 0 Modify 3.
Definition x_read : var_event := mk_event 0 Read 4.
Definition x_in_f : var_event := mk_event 0 Reassign 5.
(** x = 1; if ...: x = 2; while ...: x += ...; print(x) *)
Definition some_events (b : nat) : list var_event := match b with 0 => [x_is_1] | 2 => [x_is_2] | 3 => [x_plus; x_read] | _ => [] end.
Lemma some_names : forall b b' e e', List.In e (some_events b) -> List.In e' (some_events b') -> name e = name e' -> e = e'.
Proof.
  intros b b' e e' H H'. assert (K : forall b e, List.In e (some_events b) -> List.In e [x_is_1; x_is_2; x_plus; x_read]).
  { clear. intros b e. do 4 (destruct b as [|b]; [cbn; tauto|]). cbn. tauto. }
  apply K in H, H'. cbn in H, H'. intuition subst; try reflexivity; cbn in *; discriminate.
Qed.

(** ** Calls *)

(** x = 1; if ...: pass; f(); print(x) -- where f may assign x. *)
Definition branch (b : nat) : list nat := match b with 0 => [1; 2] | 1 => [2] | 2 => [3] | _ => [] end.
Definition branch_back (b : nat) : list nat := match b with 1 => [0] | 2 => [0; 1] | 3 => [2] | _ => [] end.
Definition branch_empty (b : nat) : bool := Nat.eqb b 3.
Lemma branch_found : found_blocks branch branch_back branch_empty can_be_reached [0; 1; 2].
Proof. apply found_blocksb_right. reflexivity. Qed.
Definition call_items (b : nat) : list item := match b with 0 => [Own x_is_1] | 2 => [InCall x_in_f; Own x_read] | _ => [] end.
(** The same without the if statement. *)
Definition line_items (b : nat) : list item := match b with 2 => [Own x_is_1; InCall x_in_f; Own x_read] | _ => [] end.
(** x = 1; if ...: pass; x = 2; f() -- where f may assign x. *)
Definition again_items (b : nat) : list item := match b with 0 => [Own x_is_1] | 2 => [Own x_is_2; InCall x_in_f] | _ => [] end.

Definition analysis (items : nat -> list item) : res links := collect_reaching_definitions branch branch_back branch_empty can_be_reached items 100 [[0; 1; 2]].

Lemma call_missed : exists l, analysis call_items = Ok l /\ analysis line_items = Ok (mk_links [(x_read, x_is_1); (x_read, x_in_f)] [(x_in_f, x_is_1)]) /\
  nth_error (call_items 2) 1 = Some (Own x_read) /\
  may_arrive item (edge_among branch [[0; 1; 2]]) call_items gives surely 0 (Own x_is_1) 2 1 /\ ~ List.In (x_read, x_is_1) (definitions l).
Proof.
  eexists. split; [vm_compute; reflexivity|]. split; [vm_compute; reflexivity|]. split; [reflexivity|]. split.
  - exists [], []. split; [split; reflexivity|]. split; [intros e []|]. right. exists 0. split.
    + apply calm_next. exists [0; 1; 2]. split; [left; reflexivity|]. split; [cbn; tauto|]. cbn. tauto.
    + split; [reflexivity|]. intros e [<-|[]]. cbn. tauto.
  - cbn. intros [K|K]; [discriminate K | exact K].
Qed.

Lemma again_linked : exists l, analysis again_items = Ok l /\ List.In (x_in_f, x_is_1) (redefines l) /\
  forall b p i j, nth_error (again_items b) p = Some i -> ev i = x_in_f -> ev j = x_is_1 ->
    ~ may_arrive item (edge_among branch [[0; 1; 2]]) again_items gives surely 0 j b p.
Proof.
  eexists. split; [vm_compute; reflexivity|]. split; [cbn; tauto|].
  intros b p i j H E J (x1 & x2 & G & C & A).
  assert (b = 2 /\ p = 1) as [-> ->].
  { destruct b as [|[|[|b]]]; cbn in H.
    - destruct p as [|p]; [|destruct p; discriminate H]. cbn in H. injection H as <-. discriminate E.
    - destruct p; discriminate H.
    - destruct p as [|[|p]]; [|auto|destruct p; discriminate H]. cbn in H. injection H as <-. discriminate E.
    - destruct p; discriminate H. }
  destruct A as [A|(a & W & A1 & A2)].
  - cbn in A. destruct x1 as [|y x1]; [|destruct x1; discriminate A]. cbn in A. injection A as <- _. discriminate J.
  - apply (A2 (Own x_is_2)); [left; reflexivity | split; reflexivity].
Qed.
