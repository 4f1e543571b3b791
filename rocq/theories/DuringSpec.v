(** What happens when a loop modifies what it iterates over. *)
From Coq Require Import List Bool Arith.
From Verif Require Import DuringModel.
Import ListNotations.
Local Open Scope list_scope.
Local Open Scope nat_scope.

(** How a block ends. *)
Inductive outcome := Normal | Jumped (j : jump).
(** Python executes a block: whether the variable is bound to what is iterated over, before and after; the modifications of what is
    iterated over; how the block ends. Which branch of an if is taken is left open. *)
Inductive exec : list stmt -> bool -> bool -> list nat -> outcome -> Prop :=
| exec_nil bound : exec [] bound bound [] Normal
| exec_modify n l bound bound' log o : exec l bound bound' log o -> exec (Modify n :: l) bound bound' (if bound then n :: log else log) o
| exec_del n l bound bound' log o : exec l bound bound' log o -> exec (Del n :: l) bound bound' (if bound then n :: log else log) o
| exec_extend n l bound bound' log o : exec l bound bound' log o -> exec (Extend n :: l) bound bound' (if bound then n :: log else log) o
| exec_rebind l bound bound' log o : exec l false bound' log o -> exec (Rebind :: l) bound bound' log o
| exec_other l bound bound' log o : exec l bound bound' log o -> exec (Other :: l) bound bound' log o
| exec_if a b c l bound bound1 bound2 log1 log2 o : c = a \/ c = b -> exec c bound bound1 log1 Normal -> exec l bound1 bound2 log2 o ->
    exec (If a b :: l) bound bound2 (log1 ++ log2) o
| exec_if_jump a b c l bound bound' log j : c = a \/ c = b -> exec c bound bound' log (Jumped j) -> exec (If a b :: l) bound bound' log (Jumped j)
| exec_jump j l bound : exec (Jump j :: l) bound bound [] (Jumped j).
(** The next element is asked for. *)
Definition goes_on (o : outcome) : Prop := o = Normal \/ o = Jumped Continue.
(** Whether the variable may be bound to what is iterated over when an iteration starts. *)
Inductive starts_with (body : list stmt) : bool -> Prop :=
| starts_first : starts_with body true
| starts_again bound bound' log o : starts_with body bound -> exec body bound bound' log o -> goes_on o -> starts_with body bound'.
(** Some iteration makes the modification, and then the next element is asked for. *)
Definition modified_during (body : list stmt) (n : nat) : Prop :=
  exists bound bound' log o, starts_with body bound /\ exec body bound bound' log o /\ In n log /\ goes_on o.

(** A statement is somewhere in a block. *)
Inductive somewhere (s : stmt) : list stmt -> Prop :=
| somewhere_here l : In s l -> somewhere s l
| somewhere_body a b l : In (If a b) l -> somewhere s a -> somewhere s l
| somewhere_orelse a b l : In (If a b) l -> somewhere s b -> somewhere s l.
(** Nothing is modified in a block by a method. *)
Definition no_modify (l : list stmt) : Prop := forall n, ~ somewhere (Modify n) l.
(** In an if, the variable is not bound to something else. *)
Definition no_inner_rebind (body : list stmt) : Prop := forall a b, In (If a b) body -> ~ somewhere Rebind a /\ ~ somewhere Rebind b.
(** What modifies is in blocks that can be left by their ends, there may be a continue at the end; or in blocks that end with a break or a
    return. *)
Inductive tidy : list stmt -> Prop :=
| tidy_through l e : e = [] \/ e = [Jump Continue] -> (exists bound bound' log, exec l bound bound' log Normal) ->
    (forall a b, In (If a b) l -> tidy a) -> (forall a b, In (If a b) l -> tidy b) -> tidy (l ++ e)
| tidy_leaving l : last l Other = Jump Break \/ last l Other = Jump Return -> (forall a b, In (If a b) l -> no_modify a /\ no_modify b) -> tidy l
| tidy_without l : no_modify l -> tidy l.
(** A block is the whole one or one in it. *)
Inductive block_in (c : list stmt) : list stmt -> Prop :=
| block_itself : block_in c c
| block_body a b l : In (If a b) l -> block_in c a -> block_in c l
| block_orelse a b l : In (If a b) l -> block_in c b -> block_in c l.
(** There is no continue in a block that ends with a break or a return. *)
Definition leaves_for_good (body : list stmt) : Prop :=
  forall c, block_in c body -> last c Other = Jump Break \/ last c Other = Jump Return -> ~ somewhere (Jump Continue) c.
