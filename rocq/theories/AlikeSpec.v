(** What comparing pieces of code should be about, independently of how candidates are kept. *)
From Coq Require Import List Bool Arith Sorted.
From Verif Require Import AlikeModel.
Import ListNotations.
Local Open Scope list_scope.
Local Open Scope nat_scope.

Section Spec.
  Variable stmt_nodes : list nat.
  Variable fromlineno tolineno : nat -> nat.
  Variable is_type_of : nat -> nat -> bool.
  Variable no_one_line : nat -> bool.
  Variable siblings : nat -> list nat.

  (** A run of statements: a statement and some of those after it in its block. *)
  Definition run_of (l : list nat) : Prop := exists x n, In x stmt_nodes /\ l = firstn n (siblings x) /\ hd_error l = Some x.
  (** A run lies before another: it ends on a line before that on which the other starts. *)
  Definition lies_before (l m : list nat) : Prop := l <> [] /\ m <> [] /\ tolineno (last l 0) < fromlineno (hd 0 m).
  (** The statements of the program from the first statement of a run to its last, those inside of them included, are of the same classes
      as those of another run, as far as both go. *)
  Definition inside_alike (l m : list nat) : Prop := forall i e j f n x y,
    nth_error stmt_nodes i = Some (hd 0 l) -> nth_error stmt_nodes e = Some (last l 0) ->
    nth_error stmt_nodes j = Some (hd 0 m) -> nth_error stmt_nodes f = Some (last m 0) ->
    i + n <= e -> j + n <= f -> nth_error stmt_nodes (i + n) = Some x -> nth_error stmt_nodes (j + n) = Some y -> is_type_of y x = true.
  (** Two runs are alike: as many statements, of the same classes, also inside of them, one run before the other. *)
  Definition alike (l m : list nat) : Prop :=
    run_of l /\ run_of m /\ Forall2 (fun x y => is_type_of x y = true) l m /\ inside_alike l m /\ lies_before l m.
  (** The statements are distinct, and each is the first of its siblings. *)
  Definition own_siblings : Prop := NoDup stmt_nodes /\ forall x, In x stmt_nodes -> exists l, siblings x = x :: l.
End Spec.

(** A piece starts before another. *)
Definition starts_before (p q : piece) : Prop := fst (fst p) < fst (fst q).
