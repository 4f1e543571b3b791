(** What it means that a variable is changed between two places. *)
From Coq Require Import List Bool Arith.
From Verif Require Import Base.
From Verif Require CfgModel ReachModel.
From Verif Require Import WalkSpec.
Import ListNotations.
Local Open Scope list_scope.
Local Open Scope nat_scope.

(** A path from one place to another that does not come through a third. *)
Inductive way (t : CfgModel.state) (avoided : nat * nat) : nat * nat -> nat * nat -> Prop :=
| way_none p : p <> avoided -> way t avoided p p
| way_first p q r : p <> avoided -> step (sizes t) (around t false) false q p -> way t avoided q r -> way t avoided p r.
(** The variable is changed at a place: something other than reading happens to it. *)
Definition changed_at (events : nat -> nat * nat -> list ReachModel.event_kind) (var : nat) (p : nat * nat) : Prop :=
  exists k, In k (events var p) /\ k <> ReachModel.Read.
(** There is such a path on which the variable is changed. *)
Definition changed_on_way (t : CfgModel.state) (events : nat -> nat * nat -> list ReachModel.event_kind) (var : nat) (avoided after : nat * nat) : Prop :=
  exists p, way t avoided p after /\ changed_at events var p.
