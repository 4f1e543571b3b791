(** Properties C135 and C136. *)
From Coq Require Import String List Bool Arith.
From Verif Require Import Base CfgModel.
From Verif Require CfgSpec CfgExamples ReachModel.
From Verif Require Import WalkModel WalkSpec WalkExamples BetweenModel BetweenSpec BetweenProofs BetweenExamples.
Import ListNotations.
Local Open Scope list_scope.
Local Open Scope nat_scope.

(** C135: over the graphs of every program: the check ends, and it says that a variable is changed exactly if it is changed on a path to one
    of the places that does not come through the first place. *)
Theorem C135_between : forall body t, forallb CfgSpec.grammatical body = true -> NoDup (0 :: flat_map CfgSpec.numbers body) -> visit_module body = Ok t ->
  forall events var before afters, (forall p, In p afters -> snd p < sizes t (fst p)) ->
  exists m, forall fuel, m <= fuel -> exists r, is_changed_between (sizes t) (around t false) events fuel var before afters = Ok r /\
    (r = true <-> exists after, In after afters /\ changed_on_way t events var before after).
Proof. exact between_right. Qed.
Example ex_between : forallb CfgSpec.grammatical choosing = true /\ NoDup (0 :: flat_map CfgSpec.numbers choosing) /\ visit_module choosing = Ok (graphs_of choosing) /\
  changed choosing (Part 2 Test) [Whole 5; Whole 4] = Ok true /\ changed choosing (Part 2 Test) [Whole 5] = Ok false /\ changed choosing (Whole 3) [Whole 4] = Ok false.
Proof. refine (conj eq_refl (conj _ (conj _ (conj _ (conj _ _))))); [cbn; CfgExamples.distinct|..]; vm_compute; reflexivity. Qed.
(** C135: the same for the variables of tests. *)
Theorem C135_tests : forall body t, forallb CfgSpec.grammatical body = true -> NoDup (0 :: flat_map CfgSpec.numbers body) -> visit_module body = Ok t ->
  forall events vars first differing, (forall afters p, In afters differing -> In p afters -> snd p < sizes t (fst p)) ->
  exists m, forall fuel, m <= fuel -> exists r, test_variables_change (sizes t) (around t false) events fuel vars first differing = Ok r /\
    (r = true <-> exists var afters after, In var vars /\ In afters differing /\ In after afters /\ changed_on_way t events var first after).
Proof. exact tests_right. Qed.
Example ex_tests : in_tests choosing (Part 2 Test) [[Whole 5]; [Whole 4]] = Ok true /\ in_tests choosing (Part 2 Test) [[Whole 5]] = Ok false.
Proof. split; vm_compute; reflexivity. Qed.

(** C136: if Python executes b, then x, which changes the variable, and then y, without coming to b again, then that is noticed. *)
Theorem C136_module_partial : forall swallows body t, forallb CfgSpec.grammatical body = true -> NoDup (0 :: flat_map CfgSpec.numbers body) -> visit_module body = Ok t ->
  forallb (CfgSpec.plain swallows) body = true -> forall pre b mid1 x mid y post o, CfgSpec.runs swallows body (pre ++ b :: mid1 ++ x :: mid ++ y :: post) o ->
  ~ In b (x :: mid ++ [y]) -> exists before p q, place_of b t = Ok before /\ place_of x t = Ok p /\ place_of y t = Ok q /\
  forall events var afters, changed_at events var p -> In q afters -> (forall r, In r afters -> snd r < sizes t (fst r)) ->
  exists m, forall fuel, m <= fuel -> is_changed_between (sizes t) (around t false) events fuel var before afters = Ok true.
Proof. exact module_noticed. Qed.
Example ex_module : forallb (CfgSpec.plain (fun _ => false)) choosing = true /\
  CfgSpec.runs (fun _ => false) choosing ([Whole 1] ++ Part 2 Test :: [] ++ Whole 3 :: [] ++ Whole 4 :: []) CfgSpec.Fell /\
  ~ In (Part 2 Test) (Whole 3 :: [] ++ [Whole 4]) /\ changed_at (events_in choosing) 0 (place (Whole 3) choosing).
Proof. refine (conj _ (conj choosing_runs (conj choosing_far choosing_changed))). vm_compute. reflexivity. Qed.
(** C136: the same in functions. *)
Theorem C136_functions_partial : forall swallows body t, forallb CfgSpec.grammatical body = true -> NoDup (0 :: flat_map CfgSpec.numbers body) -> visit_module body = Ok t ->
  forall n f, In (n, f) (flat_map CfgSpec.functions body) -> forallb (CfgSpec.plain swallows) f = true ->
  forall pre b mid1 x mid y post o, CfgSpec.runs swallows f (pre ++ b :: mid1 ++ x :: mid ++ y :: post) o ->
  ~ In b (x :: mid ++ [y]) -> exists before p q, place_of b t = Ok before /\ place_of x t = Ok p /\ place_of y t = Ok q /\
  forall events var afters, changed_at events var p -> In q afters -> (forall r, In r afters -> snd r < sizes t (fst r)) ->
  exists m, forall fuel, m <= fuel -> is_changed_between (sizes t) (around t false) events fuel var before afters = Ok true.
Proof. exact function_noticed. Qed.
Example ex_functions : forallb CfgSpec.grammatical defining = true /\ NoDup (0 :: flat_map CfgSpec.numbers defining) /\ visit_module defining = Ok (graphs_of defining) /\
  In (6, choosing) (flat_map CfgSpec.functions defining).
Proof. refine (conj eq_refl (conj _ (conj _ _))); [cbn; CfgExamples.distinct|vm_compute; reflexivity|left; reflexivity]. Qed.
(** C136: not if b comes again: a test of a loop before itself. *)
Theorem C136_again_refuted : exists swallows body t events b x p, forallb CfgSpec.grammatical body = true /\ NoDup (0 :: flat_map CfgSpec.numbers body) /\ visit_module body = Ok t /\
  forallb (CfgSpec.plain swallows) body = true /\ CfgSpec.runs swallows body [b; x; b] CfgSpec.Fell /\ place_of x t = Ok p /\ changed_at events 0 p /\
  exists before, place_of b t = Ok before /\ forall fuel, is_changed_between (sizes t) (around t false) events (20 + fuel) 0 before [before] = Ok false.
Proof. exact again_refuted. Qed.
(** C136: it is also said if nothing but the last place changes the variable. *)
Theorem C136_itself_refuted : exists body t events before after, forallb CfgSpec.grammatical body = true /\ NoDup (0 :: flat_map CfgSpec.numbers body) /\ visit_module body = Ok t /\
  before <> after /\ (forall p, changed_at events 0 p -> p = after) /\ forall fuel, is_changed_between (sizes t) (around t false) events (20 + fuel) 0 before [after] = Ok true.
Proof. exact itself_refuted. Qed.

Print Assumptions C135_between.
Print Assumptions C135_tests.
Print Assumptions C136_module_partial.
Print Assumptions C136_functions_partial.
Print Assumptions C136_again_refuted.
Print Assumptions C136_itself_refuted.
