(** Programs for the check of changes between two places. *)
From Coq Require Import String List Bool Arith Lia.
From Verif Require Import Base CfgModel.
From Verif Require CfgSpec CfgExamples ReachModel.
From Verif Require Import WalkModel WalkSpec WalkExamples BetweenModel BetweenSpec BetweenProofs.
Import ListNotations.
Local Open Scope list_scope.
Local Open Scope nat_scope.

(** f() -- if x: x = g(); h() else: i() *)
Definition choosing : list stmt := [Simple 1; If 2 [Simple 3; Simple 4] [Simple 5]].
(** while x: x = g() *)
Definition repeating : list stmt := [While 2 [Simple 3] []].
(** The variable 0 is read by the test and changed by the statement 3. *)
Definition events_in (body : list stmt) (var : nat) (p : nat * nat) : list ReachModel.event_kind :=
  if Nat.eqb var 0 then
    (if same_place p (place (Part 2 Test) body) then [ReachModel.Read] else []) ++ (if same_place p (place (Whole 3) body) then [ReachModel.Read; ReachModel.Reassign] else [])
  else [].
Definition changed (body : list stmt) (before : node) (afters : list node) : res bool :=
  is_changed_between (sizes (graphs_of body)) (around (graphs_of body) false) (events_in body) 100 0 (place before body) (map (fun x => place x body) afters).
Definition in_tests (body : list stmt) (first : node) (differing : list (list node)) : res bool :=
  test_variables_change (sizes (graphs_of body)) (around (graphs_of body) false) (events_in body) 100 [1; 0] (place first body) (map (map (fun x => place x body)) differing).

Lemma choosing_runs : CfgSpec.runs (fun _ => false) choosing ([Whole 1] ++ Part 2 Test :: [] ++ Whole 3 :: [] ++ Whole 4 :: []) CfgSpec.Fell.
Proof.
  apply (CfgExamples.ru_two _ (Simple 1) _ [Whole 1] [Part 2 Test; Whole 3; Whole 4]); [apply CfgExamples.ev|]. apply CfgExamples.ru_one.
  left. exists [Part 2 Test], [Whole 3; Whole 4]. refine (conj eq_refl (conj (CfgExamples.ev _) _)). left.
  change (CfgSpec.runs (fun _ => false) [Simple 3; Simple 4] [Whole 3; Whole 4] CfgSpec.Fell).
  apply (CfgExamples.ru_two _ (Simple 3) _ [Whole 3] [Whole 4]); [apply CfgExamples.ev|apply CfgExamples.ru_one, CfgExamples.ev].
Qed.
Lemma choosing_far : ~ In (Part 2 Test) (Whole 3 :: [] ++ [Whole 4]).
Proof. intros [H|[H|[]]]; discriminate H. Qed.
Lemma choosing_changed : changed_at (events_in choosing) 0 (place (Whole 3) choosing).
Proof. exists ReachModel.Reassign. split; [vm_compute; auto|discriminate]. Qed.

(** def f(): if x: x = g(); h() *)
Definition defining : list stmt := [Function 6 choosing].

(** The test of a loop comes before itself. *)
Lemma again_refuted : exists swallows body t events b x p, forallb CfgSpec.grammatical body = true /\ NoDup (0 :: flat_map CfgSpec.numbers body) /\ visit_module body = Ok t /\
  forallb (CfgSpec.plain swallows) body = true /\ CfgSpec.runs swallows body [b; x; b] CfgSpec.Fell /\ place_of x t = Ok p /\ changed_at events 0 p /\
  exists before, place_of b t = Ok before /\ forall fuel, is_changed_between (sizes t) (around t false) events (20 + fuel) 0 before [before] = Ok false.
Proof.
  exists (fun _ => false), repeating, (graphs_of repeating), (events_in repeating), (Part 2 Test), (Whole 3), (place (Whole 3) repeating).
  split; [reflexivity|]. split; [cbn; CfgExamples.distinct|]. split; [vm_compute; reflexivity|]. split; [reflexivity|]. split; [|split; [vm_compute; reflexivity|split]].
  - apply CfgExamples.ru_one. apply (CfgSpec.loop_again _ _ _ [Part 2 Test] [Whole 3] CfgSpec.Fell [Part 2 Test] CfgSpec.Fell); [apply CfgExamples.ev| |left; reflexivity|].
    + change (CfgSpec.runs (fun _ => false) [Simple 3] [Whole 3] CfgSpec.Fell). apply CfgExamples.ru_one, CfgExamples.ev.
    + change [Part 2 Test] with ([Part 2 Test] ++ []). apply CfgSpec.loop_exit; [apply CfgExamples.ev|exact (CfgExamples.ru_nil (fun _ => false))].
  - exists ReachModel.Reassign. split; [vm_compute; auto|discriminate].
  - exists (place (Part 2 Test) repeating). split; [vm_compute; reflexivity|]. intro fuel. vm_compute. reflexivity.
Qed.
(** The statement that differs is the only one that changes the variable. *)
Lemma itself_refuted : exists body t events before after, forallb CfgSpec.grammatical body = true /\ NoDup (0 :: flat_map CfgSpec.numbers body) /\ visit_module body = Ok t /\
  before <> after /\ (forall p, changed_at events 0 p -> p = after) /\ forall fuel, is_changed_between (sizes t) (around t false) events (20 + fuel) 0 before [after] = Ok true.
Proof.
  exists choosing, (graphs_of choosing), (events_in choosing), (place (Part 2 Test) choosing), (place (Whole 3) choosing).
  split; [reflexivity|]. split; [cbn; CfgExamples.distinct|]. split; [vm_compute; reflexivity|]. split; [vm_compute; discriminate|]. split.
  - intros p (k & I & D). unfold events_in in I. cbn [Nat.eqb] in I. apply in_app_iff in I as [I|I].
    + destruct (same_place p (place (Part 2 Test) choosing)); [destruct I as [<-|[]]; destruct (D eq_refl)|destruct I].
    + destruct (same_place p (place (Whole 3) choosing)) eqn:E; [apply same_place_iff; exact E|destruct I].
  - intro fuel. vm_compute. reflexivity.
Qed.
