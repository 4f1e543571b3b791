(** Which places of a control flow graph a walk should come to. *)
From Coq Require Import List Bool Arith.
From Verif Require Import Base WalkModel.
From Verif Require CfgModel.
Import ListNotations.
Local Open Scope nat_scope.

Section Spec.
(** The number of places in a block and the blocks directly after it (before it, for walks backwards). *)
Variable size : nat -> nat.
Variable next : nat -> list nat.
Variable forward : bool.
Variable stop : nat * nat -> bool.
Variables include_start : bool.
Variable starts : list (nat * nat).

(** The control goes from the end of one block to the start of another, perhaps through blocks without places. *)
Inductive onto : nat -> nat -> Prop :=
| onto_next b c : In c (next b) -> size c <> 0 -> onto b c
| onto_empty b e c : In e (next b) -> size e = 0 -> onto e c -> onto b c.

(** The control goes directly from one place to another (or the other way round, backwards). *)
Inductive step : nat * nat -> nat * nat -> Prop :=
| step_in b i : forward = true -> S i < size b -> step (b, i) (b, S i)
| step_out b i c : forward = true -> S i = size b -> onto b c -> step (b, i) (c, 0)
| back_in b i : forward = false -> S i < size b -> step (b, S i) (b, i)
| back_out b c j : forward = false -> 0 < size b -> onto b c -> S j = size c -> step (b, 0) (c, j).

(** The places on paths from the starts on which only the last place may be one to stop at.
    The start itself is on them if it is included, and if not, it is not asked whether to stop there. *)
Inductive reached : nat * nat -> Prop :=
| reached_start s : In s starts -> include_start = true -> reached s
| reached_next s q : In s starts -> include_start = false -> step s q -> reached q
| reached_step q r : reached q -> stop q = false -> step q r -> reached r.
End Spec.

(** No function to stop is the same as never stopping. *)
Definition stops (o : option (nat -> nat -> bool)) (q : nat * nat) : bool :=
  match o with None => false | Some p => p (fst q) (snd q) end.
(** The blocks of the graph are 0, ..., n - 1. *)
Definition closed (n : nat) (next : nat -> list nat) : Prop := forall b c, b < n -> In c (next b) -> c < n.
(** Nothing comes after the blocks without places that control comes to. *)
Definition empty_last (size : nat -> nat) (next : nat -> list nat) : Prop := forall b e, In e (next b) -> size e = 0 -> next e = [].
(** The starts are places of the graph. *)
Definition in_graph (n : nat) (size : nat -> nat) (starts : list (nat * nat)) : Prop :=
  forall b i, In (b, i) starts -> b < n /\ i < size b.

(** In the graphs of a program: the number of places of a block, and stopping at some of the nodes. *)
Definition sizes (t : CfgModel.state) (b : nat) : nat := length (CfgModel.locs t b).
Definition stop_at (t : CfgModel.state) (stop : CfgModel.node -> bool) (b i : nat) : bool :=
  match nth_error (CfgModel.locs t b) i with None => false | Some n => stop n end.
(** The blocks directly after a block, by the edges that it lists as going out; and before it, by those that it lists as coming in. *)
Definition around (t : CfgModel.state) (forward : bool) (b : nat) : list nat :=
  if forward then map (CfgModel.target t) (CfgModel.succs t b) else map (CfgModel.source t) (CfgModel.preds t b).
(** The walk from the first place, which is not included, yields the second place (among others). *)
Definition yields (t : CfgModel.state) (forward : bool) (stop : CfgModel.node -> bool) (include_end : bool) (p q : nat * nat) : Prop :=
  exists m, forall fuel, m <= fuel -> exists l,
    locs_from_locs (sizes t) (around t forward) forward (Some (stop_at t stop)) None false include_end fuel [p] = Ok l /\ In q l.
