(** Properties of walks over control flow graphs. *)
From Coq Require Import String List Bool Arith.
From Verif Require Import Base CfgModel.
From Verif Require CfgSpec CfgExamples.
From Verif Require Import WalkModel WalkSpec WalkBackProofs WalkCfgProofs WalkExamples.
Import ListNotations.
Local Open Scope list_scope.
Local Open Scope nat_scope.

(** C115: over the graphs of every program, in both directions: the walk ends without an assertion failing, yields every place at most
    once, and yields exactly the places on paths from the start on which only the last place may be one to stop at. *)
Theorem C115_program : forall body t, forallb CfgSpec.grammatical body = true -> NoDup (0 :: flat_map CfgSpec.numbers body) -> visit_module body = Ok t ->
  forall forward b i o include_start include_end, i < sizes t b ->
  exists m, forall fuel, m <= fuel -> exists l,
    locs_from_locs (sizes t) (around t forward) forward o None include_start include_end fuel [(b, i)] = Ok l /\ NoDup l /\
    forall q, In q l <-> reached (sizes t) (around t forward) forward (stops o) include_start [(b, i)] q /\ (include_end = true \/ stops o q = false).
Proof. exact program_walk. Qed.
Example ex_program : forallb CfgSpec.grammatical looping = true /\ NoDup (0 :: flat_map CfgSpec.numbers looping) /\
  visit_module looping = Ok (graphs_of looping) /\ snd (place (Whole 4) looping) < sizes (graphs_of looping) (fst (place (Whole 4) looping)) /\
  walked looping true (Some 3) false true [4] =
    Ok [Some (Part 5 Test); Some (Whole 6); Some (Part 2 Test); Some (Whole 3); Some (Whole 7)] /\
  walked looping true (Some 3) false false [4] =
    Ok [Some (Part 5 Test); Some (Whole 6); Some (Part 2 Test); Some (Whole 7)] /\
  walked looping false (Some 3) true false [4] = Ok [Some (Whole 4)].
Proof.
  refine (conj eq_refl (conj _ (conj _ (conj _ (conj _ (conj _ _)))))); [cbn; CfgExamples.distinct|vm_compute; reflexivity|vm_compute; repeat constructor|..]; vm_compute; reflexivity.
Qed.
(** The same for graphs in general, if nothing comes after blocks without places. *)
Theorem C115_graph_partial : forall size next forward o include_start include_end n starts,
  empty_last size next -> closed n next -> in_graph n size starts ->
  exists m, forall fuel, m <= fuel -> exists l,
    locs_from_locs size next forward o None include_start include_end fuel starts = Ok l /\ NoDup l /\
    (forall q, In q l -> reached size next forward (stops o) include_start starts q /\ (include_end = true \/ stops o q = false)) /\
    (length starts <= 1 \/ (forall q, stops o q = false) ->
     forall q, reached size next forward (stops o) include_start starts q -> include_end = true \/ stops o q = false -> In q l).
Proof. exact walk. Qed.
Example ex_graph : let size := fun b => match b with 0 => 3 | 1 => 1 | _ => 0 end in
  let next := fun b => match b with 0 => [1; 2] | 1 => [0] | _ => [] end in
  empty_last size next /\ closed 3 next /\ in_graph 3 size [(0, 1)] /\
  locs_from_locs size next true None None false true 20 [(0, 1)] = Ok [(0, 2); (1, 0); (0, 0); (0, 1)].
Proof.
  cbv zeta. split; [|split; [|split]].
  - intros b e K. destruct b as [|[|b]]; cbn in K; intuition (subst; cbn in *; congruence).
  - intros b c L K. destruct b as [|[|b]]; cbn in K; intuition (subst; repeat constructor).
  - intros b i [K|[]]. injection K as <- <-. cbn. split; repeat constructor.
  - vm_compute. reflexivity.
Qed.
(** Places behind a block without places are missed; no program has such a graph. *)
Theorem C115_empty_refuted : exists size next starts q,
  closed 3 next /\ in_graph 3 size starts /\ reached size next true (fun _ => false) true starts q /\
  forall fuel, locs_from_locs size next true None None true true (5 + fuel) starts = Ok starts /\ ~ In q starts.
Proof. exact behind_empty. Qed.

(** C116: several starts: no assertion fails, no place is yielded twice, only places are yielded that are on such paths from one of the
    starts; all of them if the walk stops nowhere. *)
Theorem C116_starts_partial : forall body t, forallb CfgSpec.grammatical body = true -> NoDup (0 :: flat_map CfgSpec.numbers body) -> visit_module body = Ok t ->
  forall forward starts o include_start include_end, (forall b i, In (b, i) starts -> i < sizes t b) ->
  exists m, forall fuel, m <= fuel -> exists l,
    locs_from_locs (sizes t) (around t forward) forward o None include_start include_end fuel starts = Ok l /\ NoDup l /\
    (forall q, In q l -> reached (sizes t) (around t forward) forward (stops o) include_start starts q /\ (include_end = true \/ stops o q = false)) /\
    ((forall q, stops o q = false) -> forall q, reached (sizes t) (around t forward) forward (stops o) include_start starts q -> In q l).
Proof. exact program_walks. Qed.
Example ex_starts : forallb CfgSpec.grammatical branching = true /\ NoDup (0 :: flat_map CfgSpec.numbers branching) /\
  visit_module branching = Ok (graphs_of branching) /\
  walked branching true None true true [4; 1] = Ok [Some (Whole 4); Some (Whole 5); Some (Whole 1); Some (Part 2 Test); Some (Whole 3)].
Proof. refine (conj eq_refl (conj _ (conj _ _))); [cbn; CfgExamples.distinct|..]; vm_compute; reflexivity. Qed.
(** With a place to stop at, a start may be missed, though it is included and not one to stop at, and no two starts are in one block:
    f() -- if a: g(); h() -- starting at f() and h() and stopping at g(). *)
Theorem C116_starts_refuted : exists body t starts stop q,
  forallb CfgSpec.grammatical body = true /\ NoDup (0 :: flat_map CfgSpec.numbers body) /\ visit_module body = Ok t /\
  (forall b i, In (b, i) starts -> i < sizes t b) /\ NoDup (map fst starts) /\ In q starts /\ stop_at t stop (fst q) (snd q) = false /\
  forall include_end fuel l,
    locs_from_locs (sizes t) (around t true) true (Some (stop_at t stop)) None true include_end (20 + fuel) starts = Ok l -> ~ In q l.
Proof. exact skipped_start. Qed.

(** C117: if Python executes y after x, and nothing in between is a place to stop at, then the walk from x yields y and the walk back
    from y yields x. *)
Theorem C117_module_partial : forall swallows body t,
  forallb CfgSpec.grammatical body = true -> NoDup (0 :: flat_map CfgSpec.numbers body) -> visit_module body = Ok t ->
  forallb (CfgSpec.plain swallows) body = true -> forall pre x mid y post o, CfgSpec.runs swallows body (pre ++ x :: mid ++ y :: post) o ->
  exists p q, place_of x t = Ok p /\ place_of y t = Ok q /\
    forall stop include_end, (forall z, In z mid -> stop z = false) ->
      (include_end = true \/ stop y = false -> yields t true stop include_end p q) /\
      (include_end = true \/ stop x = false -> yields t false stop include_end q p).
Proof. exact module_found. Qed.
Example ex_found : forallb CfgSpec.grammatical branching = true /\ NoDup (0 :: flat_map CfgSpec.numbers branching) /\
  visit_module branching = Ok (graphs_of branching) /\ forallb (CfgSpec.plain (fun _ => false)) branching = true /\
  CfgSpec.runs (fun _ => false) branching ([] ++ Whole 1 :: [Part 2 Test; Whole 3; Whole 4] ++ Whole 5 :: []) CfgSpec.Fell.
Proof.
  refine (conj eq_refl (conj _ (conj _ (conj eq_refl _)))); [cbn; CfgExamples.distinct|vm_compute; reflexivity|].
  apply (CfgExamples.ru_two _ (Simple 1) _ [Whole 1] [Part 2 Test; Whole 3; Whole 4; Whole 5]); [apply CfgExamples.ev|].
  apply (CfgExamples.ru_two _ _ _ [Part 2 Test; Whole 3; Whole 4] [Whole 5]); [|apply CfgExamples.ru_one, CfgExamples.ev].
  left. exists [Part 2 Test], [Whole 3; Whole 4]. refine (conj eq_refl (conj (CfgExamples.ev _) _)). left.
  change (CfgSpec.runs (fun _ => false) [Simple 3; Simple 4] [Whole 3; Whole 4] CfgSpec.Fell).
  apply (CfgExamples.ru_two _ (Simple 3) _ [Whole 3] [Whole 4]); [apply CfgExamples.ev|apply CfgExamples.ru_one, CfgExamples.ev].
Qed.
(** The same in the bodies of functions. *)
Theorem C117_functions_partial : forall swallows body t,
  forallb CfgSpec.grammatical body = true -> NoDup (0 :: flat_map CfgSpec.numbers body) -> visit_module body = Ok t ->
  forall n b, In (n, b) (flat_map CfgSpec.functions body) -> forallb (CfgSpec.plain swallows) b = true ->
  forall pre x mid y post o, CfgSpec.runs swallows b (pre ++ x :: mid ++ y :: post) o ->
  exists p q, place_of x t = Ok p /\ place_of y t = Ok q /\
    forall stop include_end, (forall z, In z mid -> stop z = false) ->
      (include_end = true \/ stop y = false -> yields t true stop include_end p q) /\
      (include_end = true \/ stop x = false -> yields t false stop include_end q p).
Proof. exact function_found. Qed.
Example ex_found_function : forallb CfgSpec.grammatical CfgExamples.full_program = true /\ NoDup (0 :: flat_map CfgSpec.numbers CfgExamples.full_program) /\
  In (8, [With 9 [true] [Jump 10 Return]; Simple 11]) (flat_map CfgSpec.functions CfgExamples.full_program) /\
  forallb (CfgSpec.plain (fun _ => false)) [With 9 [true] [Jump 10 Return]; Simple 11] = true /\
  CfgSpec.runs (fun _ => false) [With 9 [true] [Jump 10 Return]; Simple 11] ([] ++ Part 9 (Context 0) :: [Part 9 (ContextName 0)] ++ Whole 10 :: []) CfgSpec.Returned.
Proof.
  refine (conj eq_refl (conj _ (conj _ (conj eq_refl _)))); [cbn; CfgExamples.distinct | cbn; auto|].
  right. split; [|discriminate]. left. left. exists [Part 9 (Context 0); Part 9 (ContextName 0)], [Whole 10]. refine (conj eq_refl (conj _ _)).
  - left. exists [Part 9 (Context 0)], [Part 9 (ContextName 0)]. refine (conj eq_refl (conj (CfgExamples.ev _) _)).
    left. exists [Part 9 (ContextName 0)], []. refine (conj eq_refl (conj (CfgExamples.ev _) (conj eq_refl eq_refl))).
  - right. split; [|discriminate]. right. split; [reflexivity|left; reflexivity].
Qed.

Print Assumptions C115_program.
Print Assumptions C115_graph_partial.
Print Assumptions C115_empty_refuted.
Print Assumptions C116_starts_partial.
Print Assumptions C116_starts_refuted.
Print Assumptions C117_module_partial.
Print Assumptions C117_functions_partial.
