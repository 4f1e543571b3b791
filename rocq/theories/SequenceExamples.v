(** Witnesses and examples for the merging of consecutive if statements. *)
From Coq Require Import String Ascii List Bool Arith NArith ZArith QArith Lia.
From Verif Require Import Base PyModel PySpec PyProofs IfModel IfSpec IfProofs FoldModel FoldSpec FoldProofs FoldExamples TypeModel LocalModel LocalSpec LocalProofs LocalExamples MergeSpec SolverModel SolverSpec SolverProofs RedundantProofs SortProofs SolverExamples ChainModel ChainSpec ChainProofs ChainRightProofs ChainEndProofs ChainExamples SequenceModel SequenceSpec SequenceProofs SequenceEndProofs.
Import ListNotations.
Local Open Scope string_scope.
Local Open Scope list_scope.
Local Open Scope nat_scope.

(** ** Integer variables and bodies that assign constants *)
Definition store : Type := string -> Z.
Definition stored : python store := {|
  lookup := fun x w => Ok (if String.eqb x "abs" then VObj 0 else VInt (w x));
  opaque := fun _ w => (w, Raise TypeError);
  call := fun f args w => (w, match f, args with VObj 0, [v] => match as_int v with Some z => Ok (VInt (Z.abs z)) | None => Raise TypeError end | _, _ => Raise TypeError end);
  attribute := fun _ _ w => (w, Raise TypeError);
  item := fun _ _ w => (w, Raise TypeError);
  unary_op := fun o v w => (w, host_unary floats o v);
  binary_op := fun o v u w => (w, host_binary floats o v u);
  compare_op := fun c v u w => (w, host_compare floats c v u);
  obj_truth := fun _ _ => Ok true
|}.
Lemma stored_agrees : agrees stored floats.
Proof. split; reflexivity. Qed.
Lemma stored_abs w : has_abs stored w.
Proof. exists (VObj 0). split; [reflexivity|]. intros v z A. cbn [stored call]. rewrite A. reflexivity. Qed.
(** A body: x = 1; y = 2 *)
Definition constants : Type := list (string * Z).
Fixpoint set_all (b : constants) (w : store) : store := match b with [] => w | (x, z) :: b => set_all b (fun y => if String.eqb y x then z else w y) end.
Definition set_run (b : constants) (w : store) : store * res unit := (set_all b w, Ok tt).
Lemma set_other b y : existsb (fun p => String.eqb y (fst p)) b = false -> forall w, set_all b w y = w y.
Proof.
  induction b as [|[x z] b IH]; intros N w; [reflexivity|]. cbn [existsb fst] in N. apply orb_false_iff in N. destruct N as [N1 N2]. cbn [set_all]. rewrite (IH N2). rewrite N1. reflexivity.
Qed.
(** Conditions about variables that are not assigned to are not modified. *)
Fixpoint steady (later : list (if_statement constants)) (e : expr) : bool :=
  match e with
  | Name y => negb (existsb (fun s => existsb (fun b => existsb (fun p => String.eqb y (fst p)) b) (bodies s)) later)
  | Const (CInt _) => true
  | Binary _ a b => steady later a && steady later b
  | _ => false
  end.
Definition modifies (c : expr) (later : list (if_statement constants)) : bool := negb (forallb (steady later) (numbers c)).
Lemma steady_same later s b w e : List.In s later -> List.In b (bodies s) -> steady later e = true -> exists r, eval stored e w = (w, r) /\ eval stored e (set_all b w) = (set_all b w, r).
Proof.
  intros IS IB. induction e as [y|k| |o x IHx y IHy| | | | | | |]; cbn [steady]; intro M; try discriminate M.
  - apply negb_true_iff in M. cbn. destruct (String.eqb y "abs"); [eexists; split; reflexivity|]. rewrite set_other; [eexists; split; reflexivity|].
    destruct (existsb (fun p => String.eqb y (fst p)) b) eqn:X; [|reflexivity]. exfalso.
    assert (K : existsb (fun s => existsb (fun b => existsb (fun p => String.eqb y (fst p)) b) (bodies s)) later = true); [|congruence].
    apply existsb_exists. exists s. split; [exact IS|]. apply existsb_exists. exists b. split; [exact IB|exact X].
  - eexists. split; reflexivity.
  - apply andb_true_iff in M. destruct M as [M1 M2]. destruct (IHx M1) as (r1 & A1 & A2), (IHy M2) as (r2 & B1 & B2). cbn [eval]. unfold andthen. rewrite A1, A2. destruct r1 as [v|]; [|eexists; split; reflexivity]. rewrite B1, B2. destruct r2 as [u|]; [|eexists; split; reflexivity].
    unfold binary. cbn [stored binary_op]. destruct (as_int v), (as_int u); try (eexists; split; reflexivity). destruct (int_op o z z0) as [[]|]; eexists; split; reflexivity.
Qed.
Lemma modifies_known : modifications_known stored set_run (fun _ => True) modifies.
Proof.
  intros c later s b w w' M IS IB _ R e z IE (v & V & A). unfold modifies in M. apply negb_false_iff in M. rewrite forallb_forall in M. specialize (M e IE). unfold set_run in R. assert (w' = set_all b w) by congruence. subst w'. clear R.
  destruct (steady_same later s b w e IS IB M) as (r & R1 & R2). exists v. split; [|exact A]. unfold gives in *. rewrite R2. congruence.
Qed.
Definition plain_if (t : expr) (b : constants) : if_statement constants := {| branches := [(t, b)]; otherwise := None; with_end := false |}.
(** if x > 5: t = 1
    if x == 0 and y > 0: t = 2 elif x < 0: t = 3
    if y == 0 and x == 5: t = 4
    if x == 5: t = 5 *)
Definition several : list (if_statement constants) :=
  [plain_if (xr Gt 5) [("t", 1%Z)]; {| branches := [(BoolOp And [xr Eq 0; yr Gt 0], [("t", 2%Z)]); (xr Lt 0, [("t", 3%Z)])]; otherwise := None; with_end := false |};
   plain_if (BoolOp And [yr Eq 0; xr Eq 5]) [("t", 4%Z)]; plain_if (xr Eq 5) [("t", 5%Z)]].
(** if x == 0: t = 1
    if 10 // x > 2 and x != 0: t = 2 *)
Definition guard_ifs : list (if_statement constants) :=
  [plain_if (xr Eq 0) [("t", 1%Z)]; plain_if (BoolOp And [rel (Binary FloorDiv (num 10) (var "x")) Gt (num 2); xr Ne 0]) [("t", 2%Z)]].
(** Nothing is found by the analysis of assignments. *)
Definition no_blocks (i : nat) : res (zexpr * list (list zexpr)) := Ok (ZBool true, []).
Definition checked (ifs : list (if_statement constants)) : res (list merge_message) := check_sequence trying modifies all_pure floats (typed "int") no_blocks ifs.
Lemma several_checked : checked several = Ok [{| first_if := 0; merged_with := 2; modifying := false |}].
Proof. vm_compute. reflexivity. Qed.
Lemma several_clear : Forall (fun s => Forall (fun c => forall w, True -> fine c = true /\ whole stored w c /\ int_divisions stored w c) (conditions s)) several.
Proof.
  assert (N : forall w x, String.eqb x "abs" = false -> an_int stored w (var x)) by (intros w x X; exists (w x), (VInt (w x)); split; [unfold gives; cbn; rewrite X; reflexivity|reflexivity]).
  assert (C : forall w n, an_int stored w (num n)) by (intros w n; exists (Z.of_N n), (VInt (Z.of_N n)); split; reflexivity).
  repeat (constructor; [cbn [conditions plain_if branches map fst]; repeat (constructor; [intros w _; refine (conj eq_refl (conj _ _)); [unfold whole; cbn [rel xr yr numbers flat_map app snd num var]; repeat (constructor; [first [exact (N w "x" eq_refl)|exact (N w "y" eq_refl)|exact (C w _)]|]); constructor|cbn; tauto]|]); constructor|]). constructor.
Qed.
Lemma no_blocks_right ifs : blocks_right stored set_run (fun _ => True) ifs no_blocks.
Proof.
  intros i rel zs X. assert (rel = ZBool true /\ zs = []) as [-> ->] by (unfold no_blocks in X; split; congruence). refine (conj (Nat.le_0_l _) (conj (Forall_nil _) _)). intros w _. exists (some_values 0 0 0 0). split; [reflexivity|exact Logic.I].
Qed.
Definition zero_store : store := fun _ => 0%Z.
Lemma guard_ifs_refuted : sound trying /\ modifications_known stored set_run (fun _ => True) modifies /\ Forall (fun s => Forall (fun c => fine c = true) (conditions s)) guard_ifs /\
  checked guard_ifs = Ok [{| first_if := 0; merged_with := 1; modifying := false |}] /\
  (exists w, run_all stored set_run guard_ifs zero_store = (w, Raise ZeroDivisionError)) /\
  (exists w, run_branches stored set_run (concat (map branches guard_ifs)) None zero_store = (w, Ok tt)).
Proof.
  refine (conj trying_sound (conj modifies_known (conj _ (conj _ (conj _ _))))).
  - repeat (constructor; [cbn; repeat constructor|]). constructor.
  - vm_compute. reflexivity.
  - eexists. cbn. reflexivity.
  - eexists. cbn. reflexivity.
Qed.
