(** Properties of conditions after blocks of code and of the messages about infinite loops. *)
From Coq Require Import String List Bool Arith NArith ZArith.
From Verif Require Import Base PyModel PySpec IfModel IfSpec FoldModel FoldSpec LocalModel LocalSpec SolverModel SolverSpec BlockModel BlockSpec BlockImpliesProofs BlockLoopProofs BlockExamples.
Import ListNotations.
Local Open Scope string_scope.
Local Open Scope list_scope.

(** C118: if the analysis says that a condition implies another after a block, then whenever the first holds and the block comes to
    its end, the second holds. Missing: blocks with fractions, and conditions or values that are not integers. *)
Theorem C118_implied_partial : forall H G I modified mutable unsat hidden, closed_host H -> modifications hidden modified -> sound unsat ->
  forall W (P : python W) (M : machine W), agrees P H -> regular P M I hidden ->
  forall inside c1 block c2 w w1 w2,
  condition_implies H G I modified mutable unsat inside c1 block c2 = Ok true ->
  (inside = true -> exists b l o rest, block = SIf ((c1, b) :: l) o :: rest) ->
  forallb tidy block = true -> fine c1 = true -> fine c2 = true ->
  integral P (c1, w) -> test P c1 w = (w1, Ok true) ->
  run P M block w1 = (w2, Done) -> Forall (integral P) (evaluated_in P M block w1) ->
  integral P (c2, w2) -> test P c2 w2 = (w2, Ok true).
Proof. exact (fun H G I modified mutable unsat hidden CH MO SU W => @implied H G I modified mutable unsat hidden CH MO SU W). Qed.
Example ex_implied : closed_host halves /\ modifications nowhere anything /\ sound solver /\ agrees program halves /\ regular program rest builtin nowhere /\
  condition_implies halves integers builtin anything immutable solver false positive staying positive = Ok true /\
  forallb tidy staying = true /\ fine positive = true /\
  (forall z, integral program (positive, start z) /\ Forall (integral program) (evaluated_in program rest staying (start z)) /\
     exists w2, run program rest staying (start z) = (w2, Done) /\ integral program (positive, w2)) /\
  test program positive (start 7) = (start 7, Ok true) /\ test program positive (start (-7)) = (start (-7), Ok false).
Proof.
  refine (conj halves_closed (conj anything_known (conj solver_sound (conj program_agrees (conj (program_regular builtin) (conj staying_implied (conj eq_refl (conj eq_refl (conj _ (conj eq_refl eq_refl)))))))))).
  intro z. destruct (calm_run (start z) (start_calm z)) as (w2 & R & C2 & F). split; [exact (calm_rel (start z) Gt 0 (start_calm z))|]. split; [exact F|]. exists w2. split; [exact R|exact (calm_rel w2 Gt 0 C2)].
Qed.
Example ex_leaving : condition_implies halves integers builtin anything immutable solver false (rel (var "x") Gt (num 5)) leaving (rel (var "x") Le (num 9)) = Ok true /\
  forallb tidy leaving = true /\ run program rest leaving (start 8) = (start 8, Done) /\ run program rest leaving (start 11) = (start 11, Left).
Proof. exact (conj leaving_implied (conj eq_refl (conj eq_refl eq_refl))). Qed.
(** False with fractions: after x += 0.5; x = 1 the condition x % 2 == 0 does not hold, though it is said to be implied by itself. *)
Theorem C118_fraction_refuted : exists H G I modified mutable unsat hidden (P : python state) (M : machine state) c block w w2,
  closed_host H /\ modifications hidden modified /\ sound unsat /\ agrees P H /\ regular P M I hidden /\
  condition_implies H G I modified mutable unsat false c block c = Ok true /\
  fine c = true /\ integral P (c, w) /\ test P c w = (w, Ok true) /\
  run P M block w = (w2, Done) /\ integral P (c, w2) /\ test P c w2 = (w2, Ok false).
Proof.
  destruct half_refuted as (F & I1 & T1 & w2 & R & I2 & T2).
  exact (ex_intro _ halves (ex_intro _ integers (ex_intro _ builtin (ex_intro _ anything (ex_intro _ immutable (ex_intro _ solver (ex_intro _ nowhere (ex_intro _ program (ex_intro _ rest
    (ex_intro _ even (ex_intro _ half (ex_intro _ (start 4) (ex_intro _ w2 (conj halves_closed (conj anything_known (conj solver_sound (conj program_agrees (conj (program_regular builtin) (conj half_implied
    (conj F (conj I1 (conj T1 (conj R (conj I2 T2)))))))))))))))))))))))).
Qed.

(** C119: a loop reported as explicitly infinite never ends because its condition does not hold. *)
Theorem C119_explicit : forall H G I modified mutable unsat sat, closed_host H ->
  forall W (P : python W) (M : machine W), agrees P H ->
  forall in_try leaves may_modify t body w,
  check_infinite_loop H G I modified mutable unsat sat in_try leaves may_modify t body = Ok (Some Explicit) -> ~ ends_normally P M t body w.
Proof. exact (fun H G I modified mutable unsat sat CH W => @explicit_forever H G I modified mutable unsat sat CH W). Qed.
Example ex_explicit : closed_host halves /\ agrees program halves /\ checked anything always unrelated = Ok (Some Explicit) /\
  exists w1, reaches program rest always unrelated (start 0) 2 w1.
Proof.
  refine (conj halves_closed (conj program_agrees (conj always_checked _))). eexists.
  eapply reaches_next; [eapply reaches_next; [apply reaches_first|reflexivity|reflexivity]|reflexivity|reflexivity].
Qed.

(** C120: a loop reported as implicitly infinite never ends because its condition does not hold, once it is entered. Missing: bodies
    with fractions, and conditions or values that are not integers. *)
Theorem C120_implicit_partial : forall H G I modified mutable unsat sat hidden, closed_host H -> modifications hidden modified -> sound unsat ->
  forall W (P : python W) (M : machine W), agrees P H -> regular P M I hidden ->
  forall in_try leaves may_modify t body w, leaves_alone P M hidden may_modify ->
  check_infinite_loop H G I modified mutable unsat sat in_try leaves may_modify t body = Ok (Some Implicit) ->
  fine t = true -> forallb tidy body = true -> integral_loop P M t body w -> snd (test P t w) = Ok true -> ~ ends_normally P M t body w.
Proof. exact (fun H G I modified mutable unsat sat hidden CH MO SU W => @implicit_forever H G I modified mutable unsat sat hidden CH MO SU W). Qed.
Example ex_implicit : closed_host halves /\ modifications nowhere anything /\ sound solver /\ agrees program halves /\ regular program rest builtin nowhere /\
  leaves_alone program rest nowhere anything /\ checked anything positive staying = Ok (Some Implicit) /\
  fine positive = true /\ forallb tidy staying = true /\ integral_loop program rest positive staying (start 4) /\ snd (test program positive (start 4)) = Ok true.
Proof.
  exact (conj halves_closed (conj anything_known (conj solver_sound (conj program_agrees (conj (program_regular builtin) (conj anything_left_alone (conj staying_checked (conj eq_refl (conj eq_refl
    (conj (staying_integral (start 4) (start_calm 4)) eq_refl)))))))))).
Qed.
Example ex_unmodified : leaves_alone program rest nowhere only_y /\ checked only_y positive unrelated = Ok (Some Implicit) /\
  fine positive = true /\ forallb tidy unrelated = true /\ integral_loop program rest positive unrelated (start 4) /\ snd (test program positive (start 4)) = Ok true.
Proof. exact (conj only_y_left_alone (conj unrelated_checked (conj eq_refl (conj eq_refl (conj (unrelated_integral (start 4) (start_calm 4)) eq_refl))))). Qed.
(** False with fractions: while x % 2 == 0: x += 0.5; x = 1 ends after one pass. *)
Theorem C120_fraction_refuted : exists H G I modified mutable unsat sat hidden (P : python state) (M : machine state) may_modify t body w,
  closed_host H /\ modifications hidden modified /\ sound unsat /\ agrees P H /\ regular P M I hidden /\ leaves_alone P M hidden may_modify /\
  check_infinite_loop H G I modified mutable unsat sat false false may_modify t body = Ok (Some Implicit) /\
  fine t = true /\ snd (test P t w) = Ok true /\ ends_normally P M t body w.
Proof.
  exact (ex_intro _ halves (ex_intro _ integers (ex_intro _ builtin (ex_intro _ anything (ex_intro _ immutable (ex_intro _ solver (ex_intro _ possible (ex_intro _ nowhere (ex_intro _ program (ex_intro _ rest
    (ex_intro _ anything (ex_intro _ even (ex_intro _ half (ex_intro _ (start 4) (conj halves_closed (conj anything_known (conj solver_sound (conj program_agrees (conj (program_regular builtin) (conj anything_left_alone
    (conj half_checked (conj eq_refl (conj eq_refl half_loop_ends))))))))))))))))))))))).
Qed.

(** C121: the check for infinite loops raises no exception. False: it fails with IndexError on the loop
    while z > 0: x = 5; if x > 0: z += 1; x, y = "ab". *)
Theorem C121_raises_refuted : exists H G I modified mutable unsat sat may_modify t body, closed_host H /\ sound unsat /\
  check_infinite_loop H G I modified mutable unsat sat false false may_modify t body = Raise IndexError.
Proof.
  exact (ex_intro _ halves (ex_intro _ integers (ex_intro _ builtin (ex_intro _ anything (ex_intro _ immutable (ex_intro _ solver (ex_intro _ possible (ex_intro _ anything (ex_intro _ growing (ex_intro _ crashing
    (conj halves_closed (conj solver_sound crashing_raises)))))))))))).
Qed.

Print Assumptions C118_implied_partial.
Print Assumptions C118_fraction_refuted.
Print Assumptions C119_explicit.
Print Assumptions C120_implicit_partial.
Print Assumptions C120_fraction_refuted.
Print Assumptions C121_raises_refuted.
