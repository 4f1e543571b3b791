(** The properties of the simplification of if/elif/else chains. *)
From Coq Require Import String Ascii List Bool Arith NArith ZArith QArith Lia.
From Verif Require Import Base PyModel PySpec PyProofs IfModel IfSpec IfProofs FoldModel FoldSpec FoldProofs FoldExamples TypeModel LocalModel LocalSpec LocalProofs LocalExamples MergeSpec SolverModel SolverSpec SolverProofs RedundantProofs SortProofs SolverExamples ChainModel ChainSpec ChainProofs ChainRightProofs ChainEndProofs ChainExamples.
Import ListNotations.
Local Open Scope string_scope.
Local Open Scope list_scope.
Local Open Scope nat_scope.

(** C39: for every solver that is right when it says that a condition cannot hold, and every state in which all numbers of the tests are
    integers, each message about the part of the chain it names is right: tests are always true or false when they are reached, branches
    are unreachable, simplified tests have the truth value of the test they replace, and the suggested order leads to the same branch.
    Neighbouring tests that are taken for opposites have to be opposites (C52). *)
Theorem C39_ints_partial : forall unsat text_length, sound unsat -> forall H G, closed_host H -> forall W (P : python W) w, agrees P H -> has_abs P w ->
  forall fuel extract I tests has_else p ms, reader extract -> check_chain unsat text_length fuel extract I H G tests has_else = Ok (p, ms) ->
  neighbours (fun a b => is_negation H a b false = Ok true -> calm P w a /\ calm P w b /\ paired P w a b) tests ->
  Forall (fun t => fine t = true /\ whole P w t /\ int_divisions P w t) (skipn p tests) ->
  Forall (right_chain P w (skipn p tests) has_else) ms.
Proof. intros unsat tl SU H G CH W P w AG AB. exact (check_right unsat tl SU H G CH P w AG AB). Qed.
Definition here : python unit := with_abs [("x", VInt 3); ("y", VInt 1)].
Ltac ints := refine (conj eq_refl (conj _ _)); [unfold whole; cbn [rel xr yr numbers flat_map app snd num var]; repeat (constructor; [eexists; eexists; split; [reflexivity|reflexivity]|]); constructor|cbn; tauto].
(** if x > 5: 1 elif x <= 5 and y > 0: 2 elif x <= 5 or y == 0: 3 else: 4 *)
Lemma parts_clear : Forall (fun t => fine t = true /\ whole here tt t /\ int_divisions here tt t) parts_case.
Proof. repeat (constructor; [ints|]). constructor. Qed.
Lemma parts_checked : chain_of parts_case true = Ok (0, [Part 2 [TName "y"; TRel Gt; TConst (CInt 0)]; AlwaysTrue 3; Unreachable 4]).
Proof. vm_compute. reflexivity. Qed.
Lemma parts_neighbours : neighbours (fun a b => is_negation floats a b false = Ok true -> calm here tt a /\ calm here tt b /\ paired here tt a b) parts_case.
Proof. cbn [parts_case neighbours]. refine (conj _ (conj _ Logic.I)); intro X; exfalso; vm_compute in X; discriminate. Qed.
Example ex_parts : sound trying /\ closed_host floats /\ agrees here floats /\ has_abs here tt /\ reader read_text /\
  chain_of parts_case true = Ok (0, [Part 2 [TName "y"; TRel Gt; TConst (CInt 0)]; AlwaysTrue 3; Unreachable 4]) /\
  neighbours (fun a b => is_negation floats a b false = Ok true -> calm here tt a /\ calm here tt b /\ paired here tt a b) parts_case /\
  Forall (fun t => fine t = true /\ whole here tt t /\ int_divisions here tt t) parts_case /\
  choose here (numbered 1 parts_case true) tt = (tt, Ok (Some 2)).
Proof.
  exact (conj trying_sound (conj floats_closed (conj (floats_agree _) (conj (with_abs_ok [("x", VInt 3); ("y", VInt 1)] eq_refl) (conj read_text_reader (conj parts_checked (conj parts_neighbours (conj parts_clear eq_refl)))))))).
Qed.
(** if x == 0 and y > 0: 1 elif y <= 0: 2 *)
Example ex_moved : chain_of moved_case false = Ok (0, [Reorder [2; 1] [Some [TName "y"; TRel Le; TConst (CInt 0)]; Some [TName "x"; TRel Eq; TConst (CInt 0)]]]) /\
  neighbours (fun a b => is_negation floats a b false = Ok true -> calm at_zero tt a /\ calm at_zero tt b /\ paired at_zero tt a b) moved_case /\
  Forall (fun t => fine t = true /\ whole at_zero tt t /\ int_divisions at_zero tt t) moved_case /\
  choose at_zero (numbered 1 moved_case false) tt = (tt, Ok (Some 1)).
Proof.
  refine (conj _ (conj _ (conj _ eq_refl))).
  - vm_compute. reflexivity.
  - cbn [moved_case neighbours]. refine (conj _ Logic.I). intro X. exfalso. vm_compute in X. discriminate.
  - repeat (constructor; [ints|]). constructor.
Qed.
(** if x > 5: 1 elif x <= 5: 2 *)
Example ex_opposite : chain_of [xr Gt 5; xr Le 5] false = Ok (0, [AlwaysTrue 2]) /\
  neighbours (fun a b => is_negation floats a b false = Ok true -> calm here tt a /\ calm here tt b /\ paired here tt a b) [xr Gt 5; xr Le 5] /\
  is_negation floats (xr Gt 5) (xr Le 5) false = Ok true /\
  Forall (fun t => fine t = true /\ whole here tt t /\ int_divisions here tt t) [xr Gt 5; xr Le 5].
Proof.
  refine (conj _ (conj _ (conj _ _))).
  - vm_compute. reflexivity.
  - cbn [neighbours]. refine (conj _ Logic.I). intros _.
    assert (C : operand (var "x") = true /\ operand (num 5) = true /\ exists v u, gives here tt (var "x") v /\ gives here tt (num 5) u /\ exists i j, v = VInt i /\ u = VInt j).
    { refine (conj eq_refl (conj eq_refl _)). exists (VInt 3), (VInt 5). repeat split; eauto. }
    refine (conj C (conj C _)). intros c a b v c' a' b' v' [].
  - vm_compute. reflexivity.
  - repeat (constructor; [ints|]). constructor.
Qed.
(** Following any of the messages about single branches at once leads to the same branch, provided that the tests have no effects and
    raise no exceptions. *)
Theorem C39_followed_partial : forall unsat text_length, sound unsat -> forall H G, closed_host H -> forall W (P : python W) w, agrees P H -> has_abs P w ->
  forall fuel extract I tests has_else p ms, reader extract -> check_chain unsat text_length fuel extract I H G tests has_else = Ok (p, ms) ->
  neighbours (fun a b => is_negation H a b false = Ok true -> calm P w a /\ calm P w b /\ paired P w a b) tests ->
  Forall (fun t => fine t = true /\ whole P w t /\ int_divisions P w t) (skipn p tests) ->
  Forall (fun t => exists b, test P t w = (w, Ok b)) (skipn p tests) ->
  forall l, followed ms 1 (skipn p tests) has_else l -> choose P l w = choose P (numbered 1 (skipn p tests) has_else) w.
Proof. intros unsat tl SU H G CH W P w AG AB. exact (check_followed unsat tl SU H G CH P w AG AB). Qed.
(** if x > 5: 1 elif y > 0: 2 else: 3 *)
Example ex_followed : Forall (fun t => exists b, test here t tt = (tt, Ok b)) parts_case /\
  followed [Part 2 [TName "y"; TRel Gt; TConst (CInt 0)]; AlwaysTrue 3; Unreachable 4] 1 parts_case true [(1, Some (xr Gt 5)); (2, Some (yr Gt 0)); (3, None)] /\
  choose here [(1, Some (xr Gt 5)); (2, Some (yr Gt 0)); (3, None)] tt = (tt, Ok (Some 2)).
Proof.
  refine (conj _ (conj _ eq_refl)).
  - repeat (constructor; [eexists; reflexivity|]). constructor.
  - apply as_it_is. eapply simplified; [left; reflexivity|exists 100; vm_compute; reflexivity|]. apply becomes_else; [right; left; reflexivity|]. apply else_left_out. right. right. left. reflexivity.
Qed.
(** if x == 0 and y > 0: 1 elif y <= 0 or 10 // x > 2 and x != 0: 2 never divides by 0; the suggested order starts with the
    division. *)
Theorem C39_guard_refuted : sound trying /\ Forall (fun t => fine t = true) guarded_case /\ neighbours (fun a b => is_negation floats a b false = Ok false) guarded_case /\ exists ts es,
  chain_of guarded_case false = Ok (0, [Reorder [2; 1] ts]) /\ Forall2 reading ts es /\
  choose at_zero (numbered 1 guarded_case false) tt = (tt, Ok (Some 1)) /\ choose at_zero (combine [2; 1] es) tt = (tt, Raise ZeroDivisionError).
Proof. exact guard_refuted. Qed.
(** if x % 2 == 0: 1 elif x % 2 == 5: 2, where the second test is said to be always true but no branch is taken for x = 1. *)
Theorem C39_negated_refuted : chain_of odd_case false = Ok (0, [AlwaysTrue 2]) /\ Forall (fun t => fine t = true /\ whole at_one tt t /\ int_divisions at_one tt t) odd_case /\
  choose at_one (numbered 1 odd_case false) tt = (tt, Ok None).
Proof. exact negated_refuted. Qed.

(** C88: the check of a chain ends, for all chains of tests without powers in which abs is called with plain arithmetic, whatever the solver
    answers and whatever the types are guessed to be. *)
Theorem C88_ends_partial : forall H G unsat text_length, tame_host H -> numeric_host H -> forall extract I tests has_else,
  (forall t, extract t <> Raise (OtherError "out of fuel")) -> Forall (fun t => well_formed t = true /\ no_power t = true /\ plain_abs t = true) tests ->
  exists N, forall fuel, N <= fuel -> check_chain unsat text_length fuel extract I H G tests has_else <> Raise (OtherError "out of fuel").
Proof. intros H G unsat tl TH NH. exact (check_ends H G unsat tl TH NH). Qed.
Lemma read_text_runs t : read_text t <> Raise (OtherError "out of fuel").
Proof. unfold read_text. destruct (parse 100 1 t) as [[e [|? ?]]|]; [destruct (well_formed e && no_nested_compare e)%bool|..]; discriminate. Qed.
Example ex_ends : tame_host floats /\ numeric_host floats /\ (forall t, read_text t <> Raise (OtherError "out of fuel")) /\
  Forall (fun t => well_formed t = true /\ no_power t = true /\ plain_abs t = true) parts_case /\ Forall (fun t => well_formed t = true /\ no_power t = true /\ plain_abs t = true) crash_case.
Proof.
  refine (conj floats_tame (conj floats_numeric (conj read_text_runs (conj _ _)))); repeat (constructor; [vm_compute; auto|]); constructor.
Qed.
(** Chains of up to three branches do not crash it. *)
Theorem C88_three_partial : forall H G unsat text_length, tame_host H -> numeric_host H -> forall extract I tests (has_else : bool),
  (forall t, extract t <> Raise (OtherError "out of fuel")) ->
  (forall a b op, fine a = true -> fine b = true -> exists e, extract (as_string a ++ [TRel op] ++ as_string b) = Ok e) ->
  Forall (fun t => well_formed t = true /\ no_power t = true /\ plain_abs t = true) tests -> Forall (fun t => fine t = true) tests ->
  length tests + (if has_else then 1 else 0) <= 3 ->
  exists N, forall fuel, N <= fuel -> exists r, check_chain unsat text_length fuel extract I H G tests has_else = Ok r.
Proof. intros H G unsat tl TH NH. exact (check_three H G unsat tl TH NH). Qed.
Example ex_three : (forall t : text, (fun _ : text => Ok (Name "e")) t <> @Raise expr (OtherError "out of fuel")) /\
  (forall a b op, fine a = true -> fine b = true -> exists e, (fun _ : text => Ok (Name "e")) (as_string a ++ [TRel op] ++ as_string b) = Ok e) /\
  Forall (fun t => well_formed t = true /\ no_power t = true /\ plain_abs t = true) moved_case /\ Forall (fun t => fine t = true) moved_case /\ length moved_case + 1 <= 3.
Proof.
  refine (conj _ (conj _ (conj _ (conj _ _)))).
  - discriminate.
  - intros a b op _ _. eexists. reflexivity.
  - repeat (constructor; [vm_compute; auto|]). constructor.
  - repeat (constructor; [reflexivity|]). constructor.
  - vm_compute. auto.
Qed.
(** With four branches it may: if y > 0 and x % 4 != 0: ... elif x % 4 == 1 or x % 4 == 2: ... elif x % 4 == 3: ... elif x % 4 == 0: ... *)
Theorem C88_crash_refuted : sound trying /\ Forall (fun t => well_formed t = true /\ no_power t = true /\ plain_abs t = true) crash_case /\ Forall (fun t => fine t = true) crash_case /\
  chain_of crash_case false = Raise (OtherError "Z3Exception").
Proof. exact crash_refuted. Qed.
Print Assumptions C39_ints_partial.
Print Assumptions C39_followed_partial.
Print Assumptions C39_guard_refuted.
Print Assumptions C39_negated_refuted.
Print Assumptions C88_ends_partial.
Print Assumptions C88_three_partial.
Print Assumptions C88_crash_refuted.
