(** Programs and graphs for the properties of walks. *)
From Coq Require Import String List Bool Arith Lia.
From Verif Require Import Base CfgModel.
From Verif Require CfgSpec CfgExamples.
From Verif Require Import WalkModel WalkSpec.
Import ListNotations.
Local Open Scope list_scope.
Local Open Scope nat_scope.

(** f() -- while a: g(); if b: h() -- i() *)
Definition looping : list stmt := [Simple 1; While 2 [Simple 3; Simple 4; If 5 [Simple 6] []] []; Simple 7].
(** f() -- if a: g(); h() -- i() *)
Definition branching : list stmt := [Simple 1; If 2 [Simple 3; Simple 4] []; Simple 5].
Definition graphs_of (body : list stmt) : state := match visit_module body with Ok t => t | Raise _ => nothing end.
Definition place (x : node) (body : list stmt) : nat * nat := match place_of x (graphs_of body) with Ok p => p | Raise _ => (0, 0) end.
Definition nodes (body : list stmt) (l : list (nat * nat)) : list (option node) := map (fun p => nth_error (locs (graphs_of body) (fst p)) (snd p)) l.
Definition is_whole (n : nat) (x : node) : bool := node_eqb x (Whole n).
Definition walked (body : list stmt) (forward : bool) (stop : option nat) (include_start include_end : bool) (starts : list nat) : res (list (option node)) :=
  let t := graphs_of body in
  do l <- locs_from_locs (sizes t) (around t forward) forward
            (match stop with None => None | Some n => Some (stop_at t (is_whole n)) end) None include_start include_end 100
            (map (fun n => place (Whole n) body) starts);
  Ok (nodes body l).

(** The program is wrong for several starts: the place of h() is never yielded, although the walk starts at it. *)
Lemma skipped_start : exists body t starts stop q,
  forallb CfgSpec.grammatical body = true /\ NoDup (0 :: flat_map CfgSpec.numbers body) /\ visit_module body = Ok t /\
  (forall b i, In (b, i) starts -> i < sizes t b) /\ NoDup (map fst starts) /\ In q starts /\ stop_at t stop (fst q) (snd q) = false /\
  forall include_end fuel l,
    locs_from_locs (sizes t) (around t true) true (Some (stop_at t stop)) None true include_end (20 + fuel) starts = Ok l -> ~ In q l.
Proof.
  exists branching, (graphs_of branching), [place (Whole 1) branching; place (Whole 4) branching], (is_whole 3), (place (Whole 4) branching).
  split; [reflexivity|]. split; [cbn; CfgExamples.distinct|]. split; [vm_compute; reflexivity|].
  split; [intros b i K; vm_compute in K; destruct K as [K|[K|[]]]; injection K as <- <-; vm_compute; lia|].
  split; [vm_compute; CfgExamples.distinct|]. split; [right; left; reflexivity|]. split; [vm_compute; reflexivity|].
  intros ie fuel l H K. destruct ie; vm_compute in H; injection H as <-; vm_compute in K; intuition discriminate.
Qed.

(** A block without places between two others. *)
Lemma behind_empty : exists size next starts q,
  closed 3 next /\ in_graph 3 size starts /\ reached size next true (fun _ => false) true starts q /\
  forall fuel, locs_from_locs size next true None None true true (5 + fuel) starts = Ok starts /\ ~ In q starts.
Proof.
  exists (fun b => if Nat.eqb b 1 then 0 else 1), (fun b => match b with 0 => [1] | 1 => [2] | _ => [] end), [(0, 0)], (2, 0).
  split; [|split; [|split]].
  - intros b c L K. destruct b as [|[|b]]; [| |destruct K]; destruct K as [<-|[]]; lia.
  - intros b i [K|[]]. injection K as <- <-. cbn. lia.
  - apply (reached_step _ _ _ _ _ _ (0, 0)); [apply reached_start; auto; left; auto|reflexivity|].
    apply step_out; auto. apply (onto_empty _ _ 0 1 2); [left; auto|reflexivity|]. apply onto_next; [left; auto|discriminate].
  - intros fuel. split; [reflexivity|]. intros [K|[]]. discriminate.
Qed.
