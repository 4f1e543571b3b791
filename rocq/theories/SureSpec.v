(** What may be changed when a block is executed. *)
From Coq Require Import List Bool Arith.
From Verif Require Import SureModel.
Import ListNotations.
Local Open Scope list_scope.
Local Open Scope nat_scope.

Section Spec.
Variable body_of : nat -> list item.
(** Executing a block may change the variables: directly, by a function that it calls, or by something unknown. *)
Inductive may_change : list item -> Prop :=
| change_here l : In Change l -> may_change l
| change_unknown l x ds : In (Call x ds) l -> In Unknown ds -> may_change l
| change_called l x ds f : In (Call x ds) l -> In (Fun f) ds -> may_change (body_of f) -> may_change l
| change_method l fs f : In (Method fs) l -> In f fs -> may_change (body_of f) -> may_change l.
(** The block or a body of a function. *)
Definition code (start l : list item) : Prop := l = start \/ exists f, l = body_of f.
(** A name means the same everywhere. *)
Definition one_meaning (start : list item) : Prop :=
  forall l l' x ds ds' d d', code start l -> code start l' -> In (Call x ds) l -> In (Call x ds') l' -> In d ds -> In d' ds' -> d = d'.
(** No methods are called. *)
Definition no_methods (start : list item) : Prop := forall l fs, code start l -> ~ In (Method fs) l.
(** The names that are called are among these. *)
Definition names_among (start : list item) (names : list nat) : Prop := forall l x ds, code start l -> In (Call x ds) l -> In x names.
End Spec.
