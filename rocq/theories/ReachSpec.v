(** What it means that a definition reaches a place; nothing here refers to the model of the analysis. *)
From Coq Require Import List.

Section Reaching.
  Variable edge : nat -> nat -> Prop.
  Variable defines : nat -> nat -> Prop.

  (** The variable defined in the block [a] can still have that value when the block [b] starts: there is a walk of at least one edge from
      [a] to [b], and none of the blocks strictly between its ends defines the variable. *)
  Inductive reaches (v : nat) : nat -> nat -> Prop :=
  | reaches_next a b : defines a v -> edge a b -> reaches v a b
  | reaches_further a m b : reaches v a m -> ~ defines m v -> edge m b -> reaches v a b.
End Reaching.

Section Events.
  Variable event : Type.
  Variable edge : nat -> nat -> Prop.
  (** What happens in a block, in order. *)
  Variable events : nat -> list event.
  (** The event gives the variable a new value. *)
  Variable kills : event -> nat -> Prop.

  Definition untouched (v : nat) (l : list event) : Prop := forall e, List.In e l -> ~ kills e v.

  (** The variable can still have the value given by [d] just before the event number [p] of the block [b]. *)
  Definition arrives (v : nat) (d : event) (b p : nat) : Prop :=
    exists earlier later, kills d v /\ untouched v later /\
      (firstn p (events b) = (earlier ++ d :: later)%list \/
       exists a, reaches edge (fun b v => exists e, List.In e (events b) /\ kills e v) v a b /\
         events a = (earlier ++ d :: later)%list /\ untouched v (firstn p (events b))).
End Events.

(** What a list of blocks has to satisfy to be the blocks found from a start: no block twice, none without statements; where an edge leads
    to a block with statements, that block is in the list; reachable sources of edges are in the list; edges out and edges in agree. *)
Record found_blocks (after_block before_block : nat -> list nat) (empty reachable : nat -> bool) (order : list nat) : Prop := {
  once : NoDup order;
  full : forall b, List.In b order -> empty b = false;
  closed_out : forall b t, List.In b order -> List.In t (after_block b) -> empty t = false -> List.In t order;
  closed_in : forall b p, List.In b order -> List.In p (before_block b) -> reachable p = true -> List.In p order /\ List.In b (after_block p);
  agree : forall b t, List.In b order -> List.In t order -> List.In t (after_block b) -> List.In b (before_block t) /\ reachable b = true }.
(** The edges between the blocks of a list. *)
Definition edge_in (after_block : nat -> list nat) (order : list nat) (a b : nat) : Prop :=
  List.In a order /\ List.In b order /\ List.In b (after_block a).

Section Possible.
  Variable event : Type.
  Variable edge : nat -> nat -> Prop.
  Variable events : nat -> list event.
  (** The event may give the variable a new value; the event surely does so. *)
  Variables gives surely : event -> nat -> Prop.

  Definition calm (v : nat) (l : list event) : Prop := forall e, List.In e l -> ~ surely e v.
  (** A walk of at least one edge; no block strictly between the ends surely gives the variable a new value. *)
  Inductive calm_walk (v : nat) : nat -> nat -> Prop :=
  | calm_next a b : edge a b -> calm_walk v a b
  | calm_further a m b : calm_walk v a m -> calm v (events m) -> edge m b -> calm_walk v a b.

  (** The variable may have the value given by [d] just before the event number [p] of the block [b]. *)
  Definition may_arrive (v : nat) (d : event) (b p : nat) : Prop :=
    exists earlier later, gives d v /\ calm v later /\
      (firstn p (events b) = (earlier ++ d :: later)%list \/
       exists a, calm_walk v a b /\ events a = (earlier ++ d :: later)%list /\ calm v (firstn p (events b))).
End Possible.
