(** The properties of the merging of consecutive if statements. *)
From Coq Require Import String Ascii List Bool Arith NArith ZArith QArith Lia.
From Verif Require Import Base PyModel PySpec PyProofs IfModel IfSpec IfProofs FoldModel FoldSpec FoldProofs FoldExamples TypeModel LocalModel LocalSpec LocalProofs LocalExamples MergeSpec SolverModel SolverSpec SolverProofs RedundantProofs SortProofs SolverExamples ChainModel ChainSpec ChainProofs ChainRightProofs ChainEndProofs ChainExamples SequenceModel SequenceSpec SequenceProofs SequenceEndProofs SequenceExamples.
Import ListNotations.
Local Open Scope string_scope.
Local Open Scope list_scope.
Local Open Scope nat_scope.

(** C40: for every solver that is right when it says that a condition cannot hold, and if the numbers of the conditions are integers in
    all states the program gets to, the if statements named by a message do the same as the merged one. It is assumed that conditions
    which are said not to be modified are not modified, and that the analysis of assignments is right. *)
Theorem C40_ints_partial : forall unsat, sound unsat -> forall I H G, closed_host H -> forall W B (P : python W), agrees P H ->
  forall (run : B -> W -> W * res unit) may_modify (Inv : W -> Prop), (forall w, Inv w -> has_abs P w) -> modifications_known P run Inv may_modify ->
  forall ifs, kept_by P run Inv ifs ->
  Forall (fun s => Forall (fun c => forall w, Inv w -> fine c = true /\ whole P w c /\ int_divisions P w c) (conditions s)) ifs ->
  forall blocks, blocks_right P run Inv ifs blocks -> forall w, Inv w ->
  forall ms, check_sequence unsat may_modify I H G blocks ifs = Ok ms -> Forall (right_merge P run ifs w) ms.
Proof. exact (@sequence_right). Qed.
Example ex_several : sound trying /\ closed_host floats /\ agrees stored floats /\ (forall w, True -> has_abs stored w) /\
  modifications_known stored set_run (fun _ => True) modifies /\ kept_by stored set_run (fun _ => True) several /\
  Forall (fun s => Forall (fun c => forall w, True -> fine c = true /\ whole stored w c /\ int_divisions stored w c) (conditions s)) several /\
  blocks_right stored set_run (fun _ => True) several no_blocks /\
  check_sequence trying modifies all_pure floats (typed "int") no_blocks several = Ok [{| first_if := 0; merged_with := 2; modifying := false |}].
Proof.
  refine (conj trying_sound (conj floats_closed (conj stored_agrees (conj (fun w _ => stored_abs w) (conj modifies_known (conj _ (conj several_clear (conj (no_blocks_right _) several_checked)))))))).
  intros s w w' _ _ _. exact Logic.I.
Qed.
(** if x == 0: t = 1; if 10 // x > 2 and x != 0: t = 2, which divides by 0 unless it is merged. *)
Theorem C40_guard_refuted : sound trying /\ modifications_known stored set_run (fun _ => True) modifies /\ Forall (fun s => Forall (fun c => fine c = true) (conditions s)) guard_ifs /\
  checked guard_ifs = Ok [{| first_if := 0; merged_with := 1; modifying := false |}] /\
  (exists w, run_all stored set_run guard_ifs zero_store = (w, Raise ZeroDivisionError)) /\
  (exists w, run_branches stored set_run (concat (map branches guard_ifs)) None zero_store = (w, Ok tt)).
Proof. exact guard_ifs_refuted. Qed.

(** C89: the check of consecutive if statements ends without an exception, whatever the solver answers, whatever the types are guessed to
    be and whatever is said about modifications, if the analysis of assignments does. *)
Theorem C89_ends_partial : forall H G unsat, tame_host H -> numeric_host H -> forall B (may_modify : expr -> list (if_statement B) -> bool) I blocks ifs,
  (forall i, exists r, blocks i = Ok r) -> Forall (fun s => Forall (fun t => well_formed t = true /\ no_power t = true /\ plain_abs t = true) (conditions s)) ifs ->
  exists ms, check_sequence unsat may_modify I H G blocks ifs = Ok ms.
Proof. exact (@sequence_ends). Qed.
Example ex_sequence_ends : tame_host floats /\ numeric_host floats /\ (forall i, exists r, no_blocks i = Ok r) /\
  Forall (fun s => Forall (fun t => well_formed t = true /\ no_power t = true /\ plain_abs t = true) (conditions s)) several.
Proof.
  refine (conj floats_tame (conj floats_numeric (conj _ _))); [intro i; eexists; reflexivity|]. repeat (constructor; [cbn [conditions plain_if branches map fst]; repeat (constructor; [vm_compute; auto|]); constructor|]). constructor.
Qed.

Print Assumptions C40_ints_partial.
Print Assumptions C40_guard_refuted.
Print Assumptions C89_ends_partial.
