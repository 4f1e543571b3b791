(** What the messages about if/elif/else chains promise. *)
From Coq Require Import String List Bool Arith NArith ZArith.
From Verif Require Import Base PyModel PySpec FoldSpec ChainModel.
Import ListNotations.
Local Open Scope string_scope.
Local Open Scope list_scope.
Local Open Scope nat_scope.

(** Python takes the first branch whose test is true; the branch without a test is else. *)
Fixpoint choose {W} (P : python W) (l : list (nat * option expr)) (w : W) : W * res (option nat) :=
  match l with
  | [] => (w, Ok None)
  | (p, None) :: _ => (w, Ok (Some p))
  | (p, Some t) :: l =>
      match test P t w with
      | (w, Ok true) => (w, Ok (Some p))
      | (w, Ok false) => choose P l w
      | (w, Raise x) => (w, Raise x)
      end
  end.
(** The branches of a chain are numbered from 1. *)
Fixpoint numbered (p : nat) (tests : list expr) (has_else : bool) : list (nat * option expr) :=
  match tests with
  | [] => if has_else then [(p, None)] else []
  | t :: tests => (p, Some t) :: numbered (S p) tests has_else
  end.
(** In state [w] all tests before the branch are false. *)
Definition reached {W} (P : python W) (w : W) (tests : list expr) (p : nat) : Prop :=
  Forall (fun t => test P t w = (w, Ok false)) (firstn (p - 1) tests).
(** The text of a suggested test. *)
Definition reading (t : option text) (e : option expr) : Prop :=
  match t, e with Some t, Some e => reads t e | None, None => True | _, _ => False end.

(** A branch with a test that is always true or false has that test value whenever it is reached, an unreachable branch is not reached, the
    test of a branch and its suggestion are both true or both false whenever it is reached, and the suggested order and tests lead to the
    same branch. *)
Definition right_chain {W} (P : python W) (w : W) (tests : list expr) (has_else : bool) (m : chain_message) : Prop :=
  match m with
  | AlwaysTrue p => 1 <= p /\ exists t, nth_error tests (p - 1) = Some t /\ (reached P w tests p -> test P t w = (w, Ok true))
  | AlwaysFalse p => 1 <= p /\ exists t, nth_error tests (p - 1) = Some t /\ (reached P w tests p -> test P t w = (w, Ok false))
  | Unreachable p => 1 <= p /\ p <= length (numbered 1 tests has_else) /\ ~ reached P w tests p
  | Part p s => 1 <= p /\ exists t e, nth_error tests (p - 1) = Some t /\ reads s e /\ (reached P w tests p -> test P t w = test P e w)
  | Reorder order ts =>
      NoDup order /\ incl order (map fst (numbered 1 tests has_else)) /\ length ts = length order /\
      exists es, Forall2 reading ts es /\ choose P (combine order es) w = choose P (numbered 1 tests has_else) w
  end.
(** The branches from position [p] on after following some of the messages: branches that are never taken are left out, a branch whose test
    is always true becomes else, and tests are replaced by their suggestions. *)
Inductive followed (ms : list chain_message) : nat -> list expr -> bool -> list (nat * option expr) -> Prop :=
| as_it_is p t tests he l : followed ms (S p) tests he l -> followed ms p (t :: tests) he ((p, Some t) :: l)
| left_out p t tests he l : List.In (AlwaysFalse p) ms \/ List.In (Unreachable p) ms -> followed ms (S p) tests he l -> followed ms p (t :: tests) he l
| becomes_else p t tests he l : List.In (AlwaysTrue p) ms -> followed ms (S p) tests he l -> followed ms p (t :: tests) he ((p, None) :: l)
| simplified p t s e tests he l : List.In (Part p s) ms -> reads s e -> followed ms (S p) tests he l -> followed ms p (t :: tests) he ((p, Some e) :: l)
| no_else p : followed ms p [] false []
| else_kept p : followed ms p [] true [(p, None)]
| else_left_out p : List.In (Unreachable p) ms -> followed ms p [] true [].
(** Neighbouring tests that exclude each other are compared as in [paired]. *)
Fixpoint neighbours {A} (R : A -> A -> Prop) (l : list A) : Prop :=
  match l with x :: ((y :: _) as l') => R x y /\ neighbours R l' | _ => True end.
(** What is read from a text is that text, with at least one operator in and/or and comparisons, and comparisons are not chained over
    parentheses. *)
Definition reader (extract : text -> res expr) : Prop :=
  forall t e, extract t = Ok e -> reads t e /\ well_formed e = true /\ no_nested_compare e = true.
