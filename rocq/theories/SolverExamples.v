(** Witnesses and examples for the translation of conditions and the redundant operands. *)
From Coq Require Import String Ascii List Bool Arith NArith ZArith QArith Qabs Qround Lia.
From Verif Require Import Base PyModel PySpec PyProofs IfModel IfSpec IfProofs FoldModel FoldSpec FoldProofs FoldExamples TypeModel LocalModel LocalSpec LocalProofs LocalExamples MergeSpec SolverModel SolverSpec SolverProofs RedundantProofs SortProofs.
Import ListNotations.
Local Open Scope string_scope.
Local Open Scope list_scope.
Local Open Scope nat_scope.

(** ** A small solver *)
(** x > a and not x > b, or x > a and not x != b, where b <= a. *)
Definition above (z : zexpr) : bool :=
  match z with
  | ZAnd [ZRel Gt (ZVar k i) (ZInt a); ZNot (ZRel c (ZVar k' i') (ZInt b))] =>
      text_eqb k k' && Bool.eqb i i' && Z.leb b a && match c with Gt | Ne => true | _ => false end
  | _ => false
  end.
(** not (x < y or x >= y) *)
Definition one_of (z : zexpr) : bool :=
  match z with
  | ZNot (ZOr [ZRel Lt (ZVar k i) (ZVar l j); ZRel Ge (ZVar k' i') (ZVar l' j')]) =>
      text_eqb k k' && Bool.eqb i i' && text_eqb l l' && Bool.eqb j j'
  | _ => false
  end.
(** Without variables, divisions by zero and lists. *)
Fixpoint ground (z : zexpr) : bool :=
  match z with
  | ZBool _ | ZInt _ | ZReal _ => true
  | ZAbs a | ZNeg a | ZNot a | ZMod a _ => ground a
  | ZAdd a b | ZSub a b | ZMul a b | ZRel _ a b => ground a && ground b
  | ZQuot a n => negb (Z.eqb n 0) && ground a
  | _ => false
  end.
Definition nothing : environment := {| int_var := fun _ => 0%Z; real_var := fun _ => 0%Q; quot0 := fun _ => 0%Z; over0 := fun _ => 0%Q |}.
Definition tiny (z : zexpr) : bool := above z || one_of z || (ground z && match zeval nothing z with Some (ZB false) => true | _ => false end).
Lemma ground_eval E z : ground z = true -> zeval E z = zeval nothing z.
Proof.
  induction z; cbn [ground zeval]; intro G; try discriminate; try reflexivity; try (rewrite IHz by exact G; reflexivity).
  1-3, 5: apply andb_true_iff in G; rewrite IHz1, IHz2 by tauto; reflexivity.
  apply andb_true_iff in G. destruct G as [N G]. rewrite IHz by exact G. destruct (Z.eqb n 0); [discriminate|reflexivity].
Qed.
Lemma lt_spec a b : negb (Qle_bool b a) = true <-> (a < b)%Q.
Proof.
  split; intro X.
  - apply Qnot_le_lt. intro L. apply Qle_bool_iff in L. rewrite L in X. discriminate.
  - destruct (Qle_bool b a) eqn:L; [|reflexivity]. apply Qle_bool_iff in L. exfalso. exact (Qlt_not_le _ _ X L).
Qed.
Lemma gt_value p q b : zcompare Gt p q = Some b -> b = true <-> (q < p)%Q.
Proof.
  unfold zcompare. cbn [decide]. intros [= <-]. rewrite negb_true_iff, orb_false_iff. split.
  - intros [A B]. rewrite negb_false_iff in A. apply Qle_bool_iff in A. apply Qeq_bool_neq in B. apply Qle_lt_or_eq in A. destruct A as [A|A]; [exact A|]. exfalso. apply B. symmetry. exact A.
  - intro L. split.
    + destruct (Qle_bool q p) eqn:X; [reflexivity|]. exfalso. assert (Y : negb (Qle_bool q p) = true) by (rewrite X; reflexivity). apply lt_spec in Y. exact (Qlt_not_le _ _ L (Qlt_le_weak _ _ Y)).
    + destruct (Qeq_bool p q) eqn:X; [|reflexivity]. apply Qeq_bool_eq in X. exfalso. rewrite X in L. exact (Qlt_irrefl _ L).
Qed.
Lemma ne_value p q b : zcompare Ne p q = Some b -> b = true <-> ~ (p == q)%Q.
Proof.
  unfold zcompare. cbn [decide]. intros [= <-]. rewrite negb_true_iff. split; [apply Qeq_bool_neq|]. intro N. destruct (Qeq_bool p q) eqn:X; [|reflexivity]. exfalso. apply N, Qeq_bool_eq, X.
Qed.
Lemma above_right z E : above z = true -> zeval E z <> Some (ZB true).
Proof.
  intro A. destruct z as [| | | | | | | | | | | | | |l|]; try discriminate.
  destruct l as [|x [|y [|]]]; try discriminate; destruct x as [| | | | | | | | | | | | |c x1 x2| |]; try discriminate; destruct c; try discriminate; destruct x1; try discriminate; destruct x2; try discriminate;
    try (exfalso; cbn in A; repeat (match type of A with context [match ?x with _ => _ end] => destruct x; try discriminate A end); fail).
  destruct y as [| | | | | |y| | | | | | | | |]; try discriminate. destruct y as [| | | | | | | | | | | | |c y1 y2| |]; try discriminate. destruct y1 as [k' i'| | | | | | | | | | | | | | |]; try discriminate. destruct y2 as [| |b| | | | | | | | | | | | |]; try discriminate.
  cbn [above] in A. rewrite !andb_true_iff in A. destruct A as [[[A B] C] D]. apply text_eqb_eq in A. apply eqb_prop in B. subst k' i'. apply Z.leb_le in C.
  cbn [zeval map znumbers]. generalize (if int then inject_Z (int_var E k) else real_var E k) as q. intros q.
  assert (X : (inject_Z b <= inject_Z z)%Q) by (rewrite <- Zle_Qle; exact C).
  destruct (zcompare Gt q (inject_Z z)) as [g|] eqn:GT; [|discriminate]. pose proof (gt_value _ _ _ GT) as G1.
  destruct c; try discriminate.
  - destruct (zcompare Gt q (inject_Z b)) as [n|] eqn:GB; [|unfold ztruths; cbn; discriminate]. pose proof (gt_value _ _ _ GB) as N1.
    unfold ztruths. cbn. destruct g, n; try discriminate. exfalso. destruct G1 as [G1 _]. specialize (G1 eq_refl). destruct N1 as [_ N1]. assert (false = true) by (apply N1; exact (Qle_lt_trans _ _ _ X G1)). discriminate.
  - destruct (zcompare Ne q (inject_Z b)) as [n|] eqn:NE; [|unfold ztruths; cbn; discriminate]. pose proof (ne_value _ _ _ NE) as N1.
    unfold ztruths. cbn. destruct g, n; try discriminate. exfalso. destruct G1 as [G1 _]. specialize (G1 eq_refl). destruct N1 as [_ N1]. assert (false = true) by (apply N1; intro Q; rewrite Q in G1; exact (Qlt_not_le _ _ G1 X)). discriminate.
Qed.
Lemma one_of_right z E : one_of z = true -> zeval E z <> Some (ZB true).
Proof.
  intro A. destruct z as [| | | | | |y| | | | | | | | |]; try discriminate. destruct y as [| | | | | | | | | | | | | | |l]; try discriminate.
  destruct l as [|x [|y [|]]]; try discriminate; destruct x as [| | | | | | | | | | | | |c x1 x2| |]; try discriminate; destruct c; try discriminate; destruct x1; try discriminate; destruct x2; try discriminate;
    try (exfalso; cbn in A; repeat (match type of A with context [match ?x with _ => _ end] => destruct x; try discriminate A end); fail).
  destruct y as [| | | | | | | | | | | | |c y1 y2| |]; try discriminate. destruct c; try discriminate. destruct y1 as [k' i'| | | | | | | | | | | | | | |]; try discriminate. destruct y2 as [l' j'| | | | | | | | | | | | | | |]; try discriminate.
  cbn [one_of] in A. rewrite !andb_true_iff in A. destruct A as [[[A B] C] D]. apply text_eqb_eq in A, C. apply eqb_prop in B, D. subst.
  cbn [zeval map znumbers]. unfold zcompare. cbn [decide]. unfold ztruths. cbn. match goal with |- context [Qle_bool ?x ?y] => destruct (Qle_bool x y) end; discriminate.
Qed.
Lemma tiny_sound : sound tiny.
Proof.
  intros z U E. unfold tiny in U. rewrite !orb_true_iff in U. destruct U as [[U|U]|U]; [apply above_right; exact U|apply one_of_right; exact U|].
  apply andb_true_iff in U. destruct U as [G U]. rewrite (ground_eval E z G). destruct (zeval nothing z) as [[|[]]|]; discriminate.
Qed.

(** ** A program with integers, abs and a few floats *)
(** 0.1 + 0.2 is not 0.3; nan is not comparable. *)
Definition float_compare (c : cmpop) (a b : string) : res value :=
  if String.eqb a "nan" || String.eqb b "nan" then match c with Ne => Ok (VBool true) | Eq | Lt | Le | Gt | Ge => Ok (VBool false) | _ => Raise TypeError end
  else match c with Eq => Ok (VBool (String.eqb a b)) | Ne => Ok (VBool (negb (String.eqb a b))) | _ => Raise TypeError end.
Definition floats : host := {|
  host_unary := fun _ _ => Raise TypeError;
  host_binary := fun o v u => match o, v, u with Add, VFloat "0.1", VFloat "0.2" => Ok (VFloat "0.30000000000000004") | _, _, _ => Raise TypeError end;
  host_compare := fun c v u => match v, u with VFloat a, VFloat b => float_compare c a b | _, _ => Raise TypeError end
|}.
Definition with_abs (env : list (string * value)) : python unit := {|
  lookup := fun x _ => match find (fun p => String.eqb (fst p) x) (env ++ [("abs", VObj 0)]) with Some (_, v) => Ok v | None => Raise (OtherError "NameError") end;
  opaque := fun _ w => (w, Raise TypeError);
  call := fun f args w => (w, match f, args with VObj 0, [v] => match as_int v with Some z => Ok (VInt (Z.abs z)) | None => Raise TypeError end | _, _ => Raise TypeError end);
  attribute := fun _ _ w => (w, Raise TypeError);
  item := fun _ _ w => (w, Raise TypeError);
  unary_op := fun o v w => (w, host_unary floats o v);
  binary_op := fun o v u w => (w, host_binary floats o v u);
  compare_op := fun c v u w => (w, host_compare floats c v u);
  obj_truth := fun _ _ => Ok true
|}.
Lemma floats_binary o v u r : host_binary floats o v u = Ok r -> r = VFloat "0.30000000000000004" /\ u = VFloat "0.2".
Proof.
  cbn [floats host_binary]. destruct o; try discriminate. destruct v as [| | |s| |]; try discriminate. destruct u as [| | |t| |]; intro E;
  repeat (match type of E with context [match ?x with _ => _ end] => destruct x; try discriminate E end). injection E as <-. auto.
Qed.
Lemma float_compare_bool c a b r : float_compare c a b = Ok r -> exists t, r = VBool t.
Proof. unfold float_compare. destruct (String.eqb a "nan" || String.eqb b "nan"), c; try discriminate; intros [= <-]; eauto. Qed.
Lemma floats_closed : closed_host floats.
Proof.
  split; [intros; discriminate| |].
  - intros o v u r E. apply floats_binary in E. destruct E as [-> _]. exact Logic.I.
  - intros c v u r E. cbn [floats host_compare] in E. destruct v; try discriminate. destruct u; try discriminate. apply float_compare_bool in E. destruct E as (t & ->). exact Logic.I.
Qed.
Lemma floats_agree env : agrees (with_abs env) floats.
Proof. split; reflexivity. Qed.
Lemma floats_tame : tame_host floats.
Proof.
  split.
  - intros o v x E. cbn in E. injection E as <-. left. reflexivity.
  - intros o v u x E. cbn [floats host_binary] in E. left. destruct o; try congruence. destruct v as [| | |s| |]; try congruence. destruct u as [| | |t| |]; try congruence;
    repeat (match type of E with context [match ?x with _ => _ end] => destruct x; try congruence end).
  - intros c v u x E. cbn [floats host_compare] in E. left. destruct v; try congruence. destruct u; try congruence. unfold float_compare in E.
    repeat (match type of E with context [match ?x with _ => _ end] => destruct x; try congruence end).
Qed.
Lemma floats_numeric : numeric_host floats.
Proof. intros o v u r E. apply floats_binary in E. destruct E as [-> ->]. reflexivity. Qed.
Lemma with_abs_ok env : existsb (fun p => String.eqb (fst p) "abs") env = false -> has_abs (with_abs env) tt.
Proof.
  intro X. exists (VObj 0). split.
  - cbn [with_abs lookup]. replace (find (fun p => String.eqb (fst p) "abs") (env ++ [("abs", VObj 0)])) with (Some ("abs", VObj 0)); [reflexivity|].
    induction env as [|p env IH]; [reflexivity|]. cbn in *. destruct (String.eqb (fst p) "abs"); [discriminate|exact (IH X)].
  - intros v z A. cbn [with_abs call]. rewrite A. reflexivity.
Qed.
(** Every name is read as a number of the given type. *)
Definition reads_as (f : string) : analysis := {| defs := fun x => [(0, DExpr (Call (Name f) [Call (Name "input") []]))]; is_builtin_name := fun x => existsb (String.eqb x) ["abs"; "int"; "float"; "input"]; imported_from := fun _ => None; opaque_type := fun _ => no_types |}.
Definition typed (f : string) : inspection := {| guess := fun e => match guess_type 10 (reads_as f) None e with Ok t => t | Raise _ => None end; is_collection := fun _ => false |}.

(** ** Conditions *)
Definition neg (n : N) : expr := Unary Neg (num n).
Definition rel (a : expr) (c : cmpop) (b : expr) : expr := Compare a [(c, b)].
Definition real (s : string) : expr := Const (CFloat s).
Lemma int_value env e z : eval (with_abs env) e tt = (tt, Ok (VInt z)) -> an_int (with_abs env) tt e.
Proof. intro V. exists z, (VInt z). split; [exact V|reflexivity]. Qed.
(** x // -2 == -1 *)
Definition floor_case : expr := rel (Binary FloorDiv (var "x") (neg 2)) Eq (neg 1).
Lemma floor_whole z : an_int (with_abs [("x", VInt z)]) tt (Binary FloorDiv (var "x") (neg 2)) -> whole (with_abs [("x", VInt z)]) tt floor_case.
Proof.
  intro A. unfold whole. cbn [floor_case rel numbers flat_map app snd neg num var]. constructor; [exact A|].
  constructor; [apply (int_value _ _ z); reflexivity|]. constructor; [apply (int_value _ _ (-2)%Z); reflexivity|]. constructor; [apply (int_value _ _ 2%Z); reflexivity|].
  constructor; [apply (int_value _ _ (-1)%Z); reflexivity|]. constructor; [apply (int_value _ _ 1%Z); reflexivity|constructor].
Qed.
Lemma translated_floor_refuted : exists d z c E, fine floor_case = true /\ whole (with_abs [("x", VInt 3)]) tt floor_case /\
  initialize floats (typed "int") true false true floor_case [] = Ok (true, d) /\ convert floats d true floor_case = Ok (Some z, c) /\
  assigns E (with_abs [("x", VInt 3)]) tt (numbers floor_case) /\
  zeval E z = Some (ZB true) /\ test (with_abs [("x", VInt 3)]) floor_case tt = (tt, Ok false).
Proof.
  assert (F : fine floor_case = true) by reflexivity. assert (WH : whole (with_abs [("x", VInt 3)]) tt floor_case) by (apply floor_whole; apply (int_value _ _ (-2)%Z); reflexivity).
  destruct (assigned (with_abs [("x", VInt 3)]) tt (numbers floor_case) (fine_numbers _ F) WH) as (E & AE).
  eexists. eexists. eexists. exists E. refine (conj F (conj WH (conj _ (conj _ (conj AE (conj _ _)))))); [vm_compute; reflexivity|vm_compute; reflexivity| |reflexivity].
  assert (X : int_var E (as_string (var "x")) = 3%Z) by (apply (AE (var "x") 3%Z); [cbn; auto|exists (VInt 3); split; reflexivity]).
  cbn [zeval]. change (int_var E [TName "x"]) with (int_var E (as_string (var "x"))). rewrite X. reflexivity.
Qed.
(** 0.1 + 0.2 == 0.3 *)
Definition decimal_case : expr := rel (Binary Add (real "0.1") (real "0.2")) Eq (real "0.3").
Lemma translated_decimal_refuted : exists d z c, fine decimal_case = true /\
  initialize floats (typed "int") true false true decimal_case [] = Ok (true, d) /\ convert floats d true decimal_case = Ok (Some z, c) /\
  (forall E, zeval E z = Some (ZB true)) /\ test (with_abs []) decimal_case tt = (tt, Ok false).
Proof.
  eexists. eexists. eexists. refine (conj eq_refl (conj _ (conj _ (conj _ eq_refl)))); [vm_compute; reflexivity|vm_compute; reflexivity|]. intro E. vm_compute. reflexivity.
Qed.
(** x != 0 and 10 // x > 2 and x > 5 *)
Definition guard_case : expr := BoolOp And [rel (var "x") Ne (num 0); rel (Binary FloorDiv (num 10) (var "x")) Gt (num 2); rel (var "x") Gt (num 5)].
Lemma guarded_refuted : exists t e, fine guard_case = true /\ check_boolop tiny (@length token) all_pure floats (typed "int") false true guard_case = Ok [Redundant guard_case t] /\ reads t e /\
  test (with_abs [("x", VInt 0)]) guard_case tt = (tt, Ok false) /\ test (with_abs [("x", VInt 0)]) e tt = (tt, Raise ZeroDivisionError).
Proof.
  exists [TConst (CInt 10); TBin FloorDiv; TName "x"; TRel Gt; TConst (CInt 2); TAnd; TName "x"; TRel Gt; TConst (CInt 5)].
  exists (BoolOp And [rel (Binary FloorDiv (num 10) (var "x")) Gt (num 2); rel (var "x") Gt (num 5)]).
  refine (conj eq_refl (conj _ (conj _ (conj eq_refl eq_refl)))); [vm_compute; reflexivity|]. exists 100. vm_compute. reflexivity.
Qed.
(** 3 // -2 == -1 *)
Definition constant_case : expr := rel (Binary FloorDiv (num 3) (neg 2)) Eq (neg 1).
Lemma constant_refuted : fine constant_case = true /\ check_compare tiny all_pure floats (typed "int") false constant_case = Ok (Some (Always constant_case true)) /\
  test (with_abs []) constant_case tt = (tt, Ok false).
Proof. refine (conj eq_refl (conj _ eq_refl)). vm_compute. reflexivity. Qed.
Lemma decimals_refuted : fine decimal_case = true /\ check_compare tiny all_pure floats (typed "int") false decimal_case = Ok (Some (Always decimal_case true)) /\
  test (with_abs []) decimal_case tt = (tt, Ok false).
Proof. refine (conj eq_refl (conj _ eq_refl)). vm_compute. reflexivity. Qed.
(** x < y or x >= y *)
Definition nan_case : expr := BoolOp Or [rel (var "x") Lt (var "y"); rel (var "x") Ge (var "y")].
Lemma not_a_number_refuted : fine nan_case = true /\ check_boolop tiny (@length token) all_pure floats (typed "float") false true nan_case = Ok [Always nan_case true] /\
  test (with_abs [("x", VFloat "nan"); ("y", VFloat "1.0")]) nan_case tt = (tt, Ok false).
Proof. refine (conj eq_refl (conj _ eq_refl)). vm_compute. reflexivity. Qed.
(** abs(x % 1) > 0, abs() > 0 *)
Definition abs_case (args : list expr) : expr := rel (Call (Name "abs") args) Gt (num 0).
Lemma abs_crash : forall unsat, check_compare unsat all_pure floats (typed "int") false (abs_case [Binary Mod (var "x") (num 1)]) = Raise TypeError.
Proof. intro unsat. vm_compute. reflexivity. Qed.
Lemma abs_empty : forall unsat, check_compare unsat all_pure floats (typed "int") false (abs_case []) = Raise IndexError.
Proof. intro unsat. vm_compute. reflexivity. Qed.
