(** Witnesses and examples for the conditions after blocks of code and the infinite loops. *)
From Coq Require Import String Ascii List Bool Arith NArith ZArith QArith Qabs Qround Lia Lqa.
From Verif Require Import Base PyModel PySpec PyProofs IfModel IfSpec IfProofs FoldModel FoldSpec FoldProofs TypeModel LocalModel LocalSpec LocalProofs LetterProofs MergeSpec SolverModel SolverSpec SolverProofs BlockModel BlockSpec BlockProofs BlockEnvProofs BlockStepProofs BlockLoopProofs.
From Verif Require FoldExamples SolverExamples ChainExamples.
Import ListNotations.
Local Open Scope string_scope.
Local Open Scope list_scope.
Local Open Scope nat_scope.

(** ** A solver that knows some unsatisfiable conditions *)
Fixpoint zexpr_eqb (a b : zexpr) {struct a} : bool :=
  let all := fix all (l m : list zexpr) {struct l} : bool := match l, m with [], [] => true | x :: l, y :: m => zexpr_eqb x y && all l m | _, _ => false end in
  match a, b with
  | ZVar k i, ZVar k' i' => text_eqb k k' && Bool.eqb i i'
  | ZInt z, ZInt z' => Z.eqb z z'
  | ZReal s, ZReal s' => String.eqb s s'
  | ZNot a, ZNot a' => zexpr_eqb a a'
  | ZAdd a b, ZAdd a' b' => zexpr_eqb a a' && zexpr_eqb b b'
  | ZMod a n, ZMod a' n' => zexpr_eqb a a' && Z.eqb n n'
  | ZRel c a b, ZRel c' a' b' => cmpop_eqb c c' && zexpr_eqb a a' && zexpr_eqb b b'
  | ZAnd l, ZAnd m | ZOr l, ZOr m => all l m
  | _, _ => false
  end.
Lemma zexpr_eq : forall a b, zexpr_eqb a b = true -> a = b.
Proof.
  assert (ALL : forall l, (forall x, List.In x l -> forall b, zexpr_eqb x b = true -> x = b) -> forall m,
    (fix all (l m : list zexpr) {struct l} : bool := match l, m with [], [] => true | x :: l, y :: m => zexpr_eqb x y && all l m | _, _ => false end) l m = true -> l = m).
  { induction l as [|x l IH]; intros K [|y m] E; try discriminate; [reflexivity|]. apply andb_true_iff in E. destruct E as [E1 E2]. rewrite (K x (or_introl eq_refl) y E1), (IH (fun x I => K x (or_intror I)) m E2). reflexivity. }
  fix F 1. intros a b. destruct a, b; cbn [zexpr_eqb]; try discriminate; intro E.
  - apply andb_true_iff in E. destruct E as [A B]. apply text_eqb_eq in A. apply eqb_prop in B. congruence.
  - apply Z.eqb_eq in E. congruence.
  - apply String.eqb_eq in E. congruence.
  - rewrite (F _ _ E). reflexivity.
  - apply andb_true_iff in E. destruct E as [A B]. rewrite (F _ _ A), (F _ _ B). reflexivity.
  - apply andb_true_iff in E. destruct E as [A B]. apply Z.eqb_eq in B. rewrite (F _ _ A), B. reflexivity.
  - rewrite !andb_true_iff in E. destruct E as [[A B] C]. rewrite (F _ _ B), (F _ _ C). f_equal. destruct c, c0; try discriminate; reflexivity.
  - f_equal. revert l0 E. induction l as [|x l IH]; intros [|y m] E; try discriminate; [reflexivity|]. apply andb_true_iff in E. destruct E as [E1 E2]. rewrite (F x y E1), (IH m E2). reflexivity.
  - f_equal. revert l0 E. induction l as [|x l IH]; intros [|y m] E; try discriminate; [reflexivity|]. apply andb_true_iff in E. destruct E as [E1 E2]. rewrite (F x y E1), (IH m E2). reflexivity.
Qed.
Definition knows (known : list zexpr) (z : zexpr) : bool := existsb (zexpr_eqb z) known.
Lemma knows_sound known : Forall (fun z => forall E, zeval E z <> Some (ZB true)) known -> sound (knows known).
Proof. intros F z K E. apply existsb_exists in K. destruct K as (y & I & Q). apply zexpr_eq in Q. subst y. rewrite Forall_forall in F. exact (F z I E). Qed.

(** ** Programs with variables and 4 + 0.5 *)
Definition halves : host := {|
  host_unary := fun _ _ => Raise TypeError;
  host_binary := fun o v u => match o, v, u with Add, VInt 4, VFloat "0.5" => Ok (VFloat "4.5") | _, _, _ => Raise TypeError end;
  host_compare := fun _ _ _ => Raise TypeError
|}.
Definition state := string -> value.
Definition program : python state := {|
  lookup := fun x w => Ok (w x);
  opaque := fun _ w => (w, Raise TypeError);
  call := fun f args w => (w, match f, args with VObj 0, [v] => match as_int v with Some z => Ok (VInt (Z.abs z)) | None => Raise TypeError end | _, _ => Raise TypeError end);
  attribute := fun _ _ w => (w, Raise TypeError);
  PySpec.item := fun _ _ w => (w, Raise TypeError);
  unary_op := fun o v w => (w, host_unary halves o v);
  binary_op := fun o v u w => (w, host_binary halves o v u);
  compare_op := fun c v u w => (w, host_compare halves c v u);
  obj_truth := fun _ _ => Ok true
|}.
Definition setting (x : string) (v : value) (w : state) : state := fun y => if String.eqb y x then v else w y.
Definition rest : machine state := {|
  assign := setting;
  elsewhere := fun _ w => (w, Done);
  pack := fun _ => VObj 1;
  unpack := fun _ _ => Raise TypeError;
  other := fun _ w => (w, Done)
|}.
Definition nowhere (n : nat) : list string := [].
Definition local {A} (V : list string) (c : comp (W := state) A) : Prop := forall w w', (forall y, List.In y V -> w' y = w y) -> fst (c w) = w /\ snd (c w') = snd (c w).
Lemma local_incl {A} V V' (c : comp (W := state) A) : incl V V' -> local V c -> local V' c.
Proof. intros I L w w' S. apply L. auto. Qed.
Lemma local_pure {A} V (a : A) : local V (fun w : state => (w, Ok a)).
Proof. intros w w' _. auto. Qed.
Lemma local_result {A} V (r : res A) : local V (fun w : state => (w, r)).
Proof. intros w w' _. auto. Qed.
Lemma local_then {A B} V (m : comp (W := state) A) (k : A -> comp (W := state) B) : local V m -> (forall a, local V (k a)) -> local V (andthen m k).
Proof.
  intros LM LK w w' S. destruct (LM w w' S) as [F1 E1]. destruct (LM w' w' (fun _ _ => eq_refl)) as [F2 _]. unfold andthen. destruct (m w) as [w1 r] eqn:M1, (m w') as [w2 r2] eqn:M2. cbn [fst snd] in *. subst w1 w2 r2.
  destruct r as [a|x]; [exact (LK a w w' S)|auto].
Qed.
Lemma local_truth V v : local V (truth program v).
Proof. destruct v; apply local_result. Qed.
Lemma local_binary V o v u : local V (binary program o v u).
Proof. unfold binary. destruct (as_int v), (as_int u); try apply local_result. destruct (int_op o z z0) as [[]|]; apply local_result. Qed.
Lemma local_unary V o v : local V (unary program o v).
Proof. unfold unary. destruct o; try (destruct (as_int v); apply local_result). apply local_then; [apply local_truth|]. intro b. apply local_result. Qed.
Lemma local_compare V c v u : local V (compare program c v u).
Proof. unfold compare. destruct (as_int v), (as_int u); [destruct (decide c _ _); apply local_result| | |]; destruct v, u; try apply local_result; destruct (decide c _ _); apply local_result. Qed.
Lemma local_eval e : forall V, incl (vars nowhere e) V -> local V (eval program e).
Proof.
  induction e as [x|k|o a IHa|o a b IHa IHb|o vs IHvs|a ops IHa IHops|g args IHg IHargs|a x IHa|a i IHa IHi|t a b IHt IHa IHb|n] using expr_ind'; intros V IV.
  - intros w w' S. cbn [eval lookup program fst snd]. split; [reflexivity|]. rewrite (S x); [reflexivity|]. apply IV. left. reflexivity.
  - apply local_pure.
  - cbn [eval]. apply local_then; [exact (IHa V IV)|]. apply local_unary.
  - cbn [eval]. apply local_then; [apply IHa; intros y I; apply IV; cbn [vars]; apply in_or_app; auto|]. intro v. apply local_then; [apply IHb; intros y I; apply IV; cbn [vars]; apply in_or_app; auto|]. apply local_binary.
  - rewrite eval_bool. assert (L : Forall (local V) (map (eval program) vs)).
    { apply Forall_map. rewrite Forall_forall in *. intros e I. apply (IHvs e I). intros y IY. apply IV. cbn [vars]. apply in_flat_map. exists e. auto. }
    induction L as [|c l LC LL IH]; [apply local_pure|]. cbn [shortcut]. destruct l as [|c2 l]; [exact LC|].
    apply local_then; [exact LC|]. intro v. apply local_then; [apply local_truth|]. intro b. match goal with |- context [if ?x then _ else _] => destruct x end; [exact IH|apply local_pure].
  - rewrite eval_compare. apply local_then; [apply IHa; intros y I; apply IV; cbn [vars]; apply in_or_app; auto|].
    assert (L : Forall (fun p => local V (snd p)) (map (fun cv => (fst cv, eval program (snd cv))) ops)).
    { apply Forall_map. rewrite Forall_forall in *. intros e I. cbn [snd]. apply (IHops e I). intros y IY. apply IV. cbn [vars]. apply in_or_app. right. apply in_flat_map. exists e. auto. }
    induction L as [|[c m] l LC LL IH]; intro v; [apply local_pure|]. cbn [chain]. apply local_then; [exact LC|]. intro u. destruct l as [|p l]; [apply local_compare|].
    apply local_then; [apply local_compare|]. intro x. apply local_then; [apply local_truth|]. intros []; [exact (IH u)|apply local_pure].
  - rewrite eval_call. apply local_then; [apply IHg; intros y I; apply IV; cbn [vars]; apply in_or_app; auto|]. intro f.
    apply local_then; [|intro l; apply local_result].
    assert (L : Forall (local V) (map (eval program) args)).
    { apply Forall_map. rewrite Forall_forall in *. intros e I. apply (IHargs e I). intros y IY. apply IV. cbn [vars]. apply in_or_app. right. apply in_flat_map. exists e. auto. }
    induction L as [|c l LC LL IH]; [apply local_pure|]. cbn [sequence]. apply local_then; [exact LC|]. intro v. apply local_then; [exact IH|]. intro r. apply local_pure.
  - cbn [eval]. apply local_then; [exact (IHa V IV)|]. intro v. apply local_result.
  - cbn [eval]. apply local_then; [apply IHa; intros y I; apply IV; cbn [vars]; apply in_or_app; auto|]. intro v. apply local_then; [apply IHi; intros y I; apply IV; cbn [vars]; apply in_or_app; auto|]. intro u. apply local_result.
  - cbn [eval]. apply local_then; [apply IHt; intros y I; apply IV; cbn [vars]; apply in_or_app; auto|]. intro v. apply local_then; [apply local_truth|]. intros [].
    + apply IHa; intros y I; apply IV; cbn [vars]; apply in_or_app; right; apply in_or_app; auto.
    + apply IHb; intros y I; apply IV; cbn [vars]; apply in_or_app; right; apply in_or_app; auto.
  - apply local_result.
Qed.
Lemma program_regular I : regular program rest I nowhere.
Proof.
  split.
  - intros x v w. cbn. unfold setting. rewrite String.eqb_refl. reflexivity.
  - intros x y v w N. cbn. unfold setting. apply not_eq_sym in N. apply String.eqb_neq in N. rewrite N. reflexivity.
  - intros e w _. exact (proj1 (local_eval e _ (incl_refl _) w w (fun _ _ => eq_refl))).
  - intros e x v w _ N. apply (local_eval e _ (incl_refl _) w). intros y IY. cbn. unfold setting. destruct (String.eqb y x) eqn:Q; [|reflexivity]. apply String.eqb_eq in Q. subst y. contradiction.
Qed.
Lemma halves_closed : closed_host halves.
Proof.
  split; [intros; discriminate| |intros; discriminate]. intros o v u r E. cbn [halves host_binary] in E. destruct o; try discriminate.
  repeat (match type of E with context [match ?x with _ => _ end] => destruct x; try discriminate E end). injection E as <-. exact Logic.I.
Qed.
Lemma program_agrees : agrees program halves.
Proof. split; reflexivity. Qed.
(** Every name may be modified. *)
Definition anything (e : expr) (b : list statement) : bool := true.
Lemma anything_known : modifications nowhere anything.
Proof. intros e b x E. discriminate. Qed.
Definition immutable (n : item) : bool := false.
Definition builtin : purity := {| pure_function := fun e => match e with Name "abs" => true | _ => false end; pure_opaque := fun _ => false |}.
Definition integers : inspection := SolverExamples.typed "int".
Notation var := FoldExamples.var.
Notation num := FoldExamples.num.
Notation rel := SolverExamples.rel.

(** ** x > 0 stays true *)
(** if x > 5: x = 3
    else: x += 1 *)
Definition positive : expr := rel (var "x") Gt (num 0).
Definition staying : list statement :=
  [SIf [(rel (var "x") Gt (num 5), [SAssign false (Single (Var "x")) (Value (num 3))])] [SAugmented (Var "x") Add (num 1)]].
Definition prefix (n : N) : text := [TNegOpen; TConst (CInt n); TName "x"].
(** x1 = 3, x2 = x + 1, x3 = x1 if x > 5 and x2 otherwise; x > 0 and not x3 > 0 *)
Definition staying_query : zexpr :=
  ZAnd [ZAnd [ZRel Eq (ZVar (prefix 1) false) (ZInt 3);
              ZRel Eq (ZVar (prefix 2) false) (ZAdd (ZVar [TName "x"] false) (ZInt 1));
              ZAnd [ZOr [ZNot (ZRel Gt (ZVar [TName "x"] false) (ZInt 5)); ZRel Eq (ZVar (prefix 3) false) (ZVar (prefix 1) false)];
                    ZOr [ZNot (ZNot (ZRel Gt (ZVar [TName "x"] false) (ZInt 5))); ZRel Eq (ZVar (prefix 3) false) (ZVar (prefix 2) false)]]];
        ZNot (ZOr [ZNot (ZRel Gt (ZVar [TName "x"] false) (ZInt 0)); ZRel Gt (ZVar (prefix 3) false) (ZInt 0)])].
(** x1 = x + 0.5, x2 = 1 for integers; x % 2 == 0 and not x2 % 2 == 0 *)
Definition half_query : zexpr :=
  ZAnd [ZAnd [ZRel Eq (ZVar (prefix 1) true) (ZAdd (ZVar [TName "x"] true) (ZReal "0.5")); ZRel Eq (ZVar (prefix 2) true) (ZInt 1)];
        ZNot (ZOr [ZNot (ZRel Eq (ZMod (ZVar [TName "x"] true) 2) (ZInt 0)); ZRel Eq (ZMod (ZVar (prefix 2) true) 2) (ZInt 0)])].
Lemma staying_never E : zeval E staying_query <> Some (ZB true).
Proof.
  unfold staying_query. cbn [zeval map znumbers]. generalize (real_var E [TName "x"]), (real_var E (prefix 1)), (real_var E (prefix 2)), (real_var E (prefix 3)). intros x x1 x2 x3.
  unfold zcompare, ztruths. cbn. intro K. match type of K with Some (ZB ?b) = _ => assert (B : b = true) by congruence end. clear K.
  rewrite !andb_true_iff in B. destruct B as ((B1 & B2 & (B3 & B4 & _) & _) & B5 & _). apply Qeq_bool_eq in B1, B2. rewrite negb_true_iff in B5. apply orb_false_iff in B5. destruct B5 as [B5 B6]. rewrite orb_false_r in *.
  rewrite negb_involutive in *. destruct (Qle_bool (inject_Z 0) x) eqn:L0; [|discriminate]. apply Qle_bool_iff in L0. destruct (Qeq_bool x (inject_Z 0)) eqn:E0; [discriminate|]. apply Qeq_bool_neq in E0.
  assert (P0 : (0 < x)%Q) by (destruct (Qle_lt_or_eq _ _ L0) as [X|X]; [exact X|exfalso; apply E0; symmetry; exact X]).
  assert (N3 : (x3 <= 0)%Q).
  { destruct (Qle_bool (inject_Z 0) x3) eqn:L3.
    - destruct (Qeq_bool x3 (inject_Z 0)) eqn:E3; [|discriminate]. apply Qeq_bool_eq in E3. change (inject_Z 0) with 0%Q in E3. rewrite E3. apply Qle_refl.
    - apply Qlt_le_weak, SolverExamples.lt_spec. change 0%Q with (inject_Z 0). rewrite L3. reflexivity. }
  change (inject_Z 3) with 3%Q in *. change (inject_Z 1) with 1%Q in *.
  destruct (negb (Qle_bool (inject_Z 5) x) || Qeq_bool x (inject_Z 5)); cbn [orb negb] in *.
  - apply Qeq_bool_eq in B4. lra.
  - apply Qeq_bool_eq in B3. lra.
Qed.
Lemma half_never E : zeval E half_query <> Some (ZB true).
Proof.
  unfold half_query. cbn [zeval map znumbers]. generalize (int_var E [TName "x"]), (int_var E (prefix 1)). intros x x1. unfold zcompare, ztruths. cbn. intro K.
  match type of K with Some (ZB ?b) = _ => assert (B : b = true) by congruence end. clear K. rewrite !andb_true_iff in B. destruct B as ((B & _) & _). apply Qeq_bool_eq in B.
  match type of B with (_ == _ + ?R)%Q => assert (RE : (R == 1 # 2)%Q) by (vm_compute; reflexivity); rewrite RE in B end. unfold Qeq, Qplus, inject_Z in B. cbn in B. lia.
Qed.
(** not x > 3 or not x > 9; x > 5 and not x <= 9 *)
Definition leaving_query : zexpr :=
  ZAnd [ZAnd [ZOr [ZNot (ZRel Gt (ZVar [TName "x"] false) (ZInt 3)); ZNot (ZRel Gt (ZVar [TName "x"] false) (ZInt 9))]];
        ZNot (ZOr [ZNot (ZRel Gt (ZVar [TName "x"] false) (ZInt 5)); ZRel Le (ZVar [TName "x"] false) (ZInt 9)])].
Lemma leaving_never E : zeval E leaving_query <> Some (ZB true).
Proof.
  unfold leaving_query. cbn [zeval map znumbers]. generalize (real_var E [TName "x"]). intros x. unfold zcompare, ztruths. cbn. rewrite !negb_involutive, !orb_false_r, !andb_true_r.
  destruct (Qle_bool (inject_Z 3) x) eqn:L3, (Qle_bool (inject_Z 5) x) eqn:L5, (Qle_bool (inject_Z 9) x) eqn:L9, (Qeq_bool x (inject_Z 3)) eqn:E3, (Qeq_bool x (inject_Z 5)) eqn:E5, (Qeq_bool x (inject_Z 9)) eqn:E9; cbn; try discriminate;
  repeat match goal with
  | K : Qle_bool _ _ = true |- _ => apply Qle_bool_iff in K
  | K : Qeq_bool _ _ = true |- _ => apply Qeq_bool_eq in K
  | K : Qle_bool ?a ?b = false |- _ => assert ((b < a)%Q) by (apply SolverExamples.lt_spec; rewrite K; reflexivity); clear K
  end; change (inject_Z 3) with 3%Q in *; change (inject_Z 5) with 5%Q in *; change (inject_Z 9) with 9%Q in *; exfalso; lra.
Qed.
Definition solver : zexpr -> bool := knows [staying_query; half_query; leaving_query].
Lemma solver_sound : sound solver.
Proof. apply knows_sound. constructor; [exact staying_never|]. constructor; [exact half_never|]. constructor; [exact leaving_never|constructor]. Qed.
Lemma staying_implied : condition_implies halves integers builtin anything immutable solver false positive staying positive = Ok true.
Proof. vm_compute. reflexivity. Qed.
(** if x > 3:
        if x > 9: return *)
Definition leaving : list statement := [SIf [(rel (var "x") Gt (num 3), [SIf [(rel (var "x") Gt (num 9), [SEnd])] []])] []].
Lemma leaving_implied : condition_implies halves integers builtin anything immutable solver false (rel (var "x") Gt (num 5)) leaving (rel (var "x") Le (num 9)) = Ok true.
Proof. vm_compute. reflexivity. Qed.
(** x += 0.5
    x = 1 *)
Definition even : expr := rel (Binary Mod (var "x") (num 2)) Eq (num 0).
Definition half : list statement := [SAugmented (Var "x") Add (Const (CFloat "0.5")); SAssign false (Single (Var "x")) (Value (num 1))].
Lemma half_implied : condition_implies halves integers builtin anything immutable solver false even half even = Ok true.
Proof. vm_compute. reflexivity. Qed.

(** ** States where x is an integer *)
Definition calm (w : state) : Prop := w "abs" = VObj 0 /\ exists z, w "x" = VInt z.
Definition start (z : Z) : state := setting "x" (VInt z) (setting "abs" (VObj 0) (fun _ => VNone)).
Lemma start_calm z : calm (start z).
Proof. split; [reflexivity|]. exists z. reflexivity. Qed.
Lemma calm_set w z : calm w -> calm (setting "x" (VInt z) w).
Proof. intros [A _]. split; [exact A|]. exists z. reflexivity. Qed.
Lemma calm_abs w : calm w -> has_abs program w.
Proof. intros [A _]. exists (VObj 0). split; [cbn; rewrite A; reflexivity|]. intros v z V. cbn. rewrite V. reflexivity. Qed.
Lemma calm_x w : calm w -> an_int program w (var "x").
Proof. intros [_ (z & X)]. exists z, (VInt z). split; [unfold gives; cbn; rewrite X; reflexivity|reflexivity]. Qed.
Lemma num_int w n : an_int program w (num n).
Proof. exists (Z.of_N n), (VInt (Z.of_N n)). split; reflexivity. Qed.
Lemma calm_rel w c n : calm w -> integral program (rel (var "x") c (num n), w).
Proof.
  intro CW. split; [exact (calm_abs w CW)|]. split; [|cbn; auto]. unfold whole. cbn [fst snd numbers flat_map app]. constructor; [exact (calm_x w CW)|constructor; [apply num_int|constructor]].
Qed.
Lemma calm_run w : calm w -> exists w', run program rest staying w = (w', Done) /\ calm w' /\ Forall (integral program) (evaluated_in program rest staying w).
Proof.
  intro CW. pose proof CW as [A (z & X)]. pose proof (calm_rel w Gt 5 CW) as I5.
  assert (T : test program (rel (var "x") Gt (num 5)) w = (w, Ok (negb (Z.ltb z 5 || Z.eqb z 5)))) by (unfold test, andthen; cbn; rewrite X; cbn; reflexivity).
  assert (I3 : integral program (num 3, w)) by (split; [exact (calm_abs w CW)|]; split; [constructor; [apply num_int|constructor]|exact Logic.I]).
  assert (IA : integral program (Binary Add (Name "x") (num 1), w)).
  { split; [exact (calm_abs w CW)|]. split; [|cbn; auto]. unfold whole. cbn [fst snd numbers app]. constructor; [exists (z + 1)%Z, (VInt (z + 1)); split; [unfold gives; cbn; rewrite X; reflexivity|reflexivity]|].
    constructor; [exact (calm_x w CW)|]. constructor; [apply num_int|constructor]. }
  unfold staying. cbn [run exec evaluated_in evaluated]. unfold holds_now. rewrite T. destruct (negb (Z.ltb z 5 || Z.eqb z 5)).
  - eexists. split; [reflexivity|]. split; [apply (calm_set w 3 CW)|]. rewrite app_nil_r. constructor; [exact I5|]. constructor; [exact I3|constructor].
  - eexists. split; [cbn; rewrite X; cbn; reflexivity|]. split; [apply (calm_set w (z + 1) CW)|]. constructor; [exact I5|]. cbn [evaluated app]. constructor; [exact IA|]. cbn. rewrite X. cbn. constructor.
Qed.

(** ** Loops *)
Definition possible (z : zexpr) : option bool := Some true.
Definition checked (may_modify : expr -> list statement -> bool) (t : expr) (b : list statement) : res (option infinite) :=
  check_infinite_loop halves integers builtin anything immutable solver possible false false may_modify t b.
Lemma staying_checked : checked anything positive staying = Ok (Some Implicit).
Proof. vm_compute. reflexivity. Qed.
Lemma anything_left_alone : leaves_alone program rest nowhere anything.
Proof. intros e b x w w' E. discriminate. Qed.
Lemma positive_state w w2 z : w "x" = VInt z -> test program positive w = (w2, Ok true) -> w2 = w.
Proof.
  intros X T. assert (Y : test program positive w = (w, Ok (negb (Z.ltb z 0 || Z.eqb z 0)))) by (unfold test, andthen; cbn; rewrite X; cbn; reflexivity). rewrite Y in T. congruence.
Qed.
Lemma staying_reaches w n w1 : calm w -> reaches program rest positive staying w n w1 -> calm w1.
Proof.
  intros CW R. induction R as [|n w1 w2 w3 R IH T RB]; [exact CW|]. destruct IH as [A (z & X)]. assert (w2 = w1) by exact (positive_state w1 w2 z X T). subst w2.
  destruct (calm_run w1 (conj A (ex_intro _ z X))) as (w' & R' & C' & _). congruence.
Qed.
Lemma staying_integral w : calm w -> integral_loop program rest positive staying w.
Proof.
  intros CW n w1 R. pose proof (staying_reaches w n w1 CW R) as C1. split; [exact (calm_rel w1 Gt 0 C1)|]. intros w2 T. destruct C1 as [A (z & X)].
  assert (w2 = w1) by exact (positive_state w1 w2 z X T). subst w2. destruct (calm_run w1 (conj A (ex_intro _ z X))) as (w' & _ & _ & F). exact F.
Qed.
(** y = 1 *)
Definition unrelated : list statement := [SAssign false (Single (Var "y")) (Value (num 1))].
Definition only_y (e : expr) (b : list statement) : bool :=
  match b with [SAssign false (Single (Var "y")) (Value (Const _))] => existsb (String.eqb "y") (vars nowhere e) | _ => true end.
Lemma only_y_left_alone : leaves_alone program rest nowhere only_y.
Proof.
  intros e b x w w' E IX R. unfold only_y in E.
  repeat (match type of E with context [match ?x with _ => _ end] => destruct x; try discriminate E end).
  cbn in R. assert (w' = setting "y" (const_value c) w) by congruence. subst w'. cbn. unfold setting. destruct (String.eqb x "y") eqn:Q; [|reflexivity]. exfalso.
  apply String.eqb_eq in Q. subst x. assert (T : existsb (String.eqb "y") (vars nowhere e) = true) by (apply existsb_exists; exists "y"; auto). congruence.
Qed.
Lemma unrelated_checked : checked only_y positive unrelated = Ok (Some Implicit).
Proof. vm_compute. reflexivity. Qed.
Lemma unrelated_integral w : calm w -> integral_loop program rest positive unrelated w.
Proof.
  intros CW n w1 R. assert (C1 : calm w1).
  { induction R as [|n w1 w2 w3 R IH T RB]; [exact CW|]. destruct IH as [A (z & X)]. assert (w2 = w1) by exact (positive_state w1 w2 z X T). subst w2.
    cbn in RB. assert (w3 = setting "y" (VInt 1) w1) by congruence. subst w3. split; [exact A|]. exists z. exact X. }
  split; [exact (calm_rel w1 Gt 0 C1)|]. intros w2 T. destruct C1 as [A (z & X)]. assert (w2 = w1) by exact (positive_state w1 w2 z X T). subst w2.
  cbn. constructor; [|constructor]. split; [exact (calm_abs w1 (conj A (ex_intro _ z X)))|]. split; [constructor; [apply num_int|constructor]|exact Logic.I].
Qed.
Lemma half_checked : checked anything even half = Ok (Some Implicit).
Proof. vm_compute. reflexivity. Qed.
(** while 1 < 2: y = 1 *)
Definition always : expr := rel (num 1) Lt (num 2).
Lemma always_checked : checked anything always unrelated = Ok (Some Explicit).
Proof. vm_compute. reflexivity. Qed.

(** ** Refutations *)
Lemma half_refuted : fine even = true /\ integral program (even, start 4) /\ test program even (start 4) = (start 4, Ok true) /\
  exists w2, run program rest half (start 4) = (w2, Done) /\ integral program (even, w2) /\ test program even w2 = (w2, Ok false).
Proof.
  assert (K : forall w z, calm w -> w "x" = VInt z -> integral program (even, w)).
  { intros w z CW X. split; [exact (calm_abs w CW)|]. split; [|cbn; auto]. unfold whole. cbn [fst snd even numbers flat_map app]. constructor; [exists (z mod 2)%Z, (VInt (z mod 2)); split; [unfold gives; cbn; rewrite X; reflexivity|reflexivity]|].
    constructor; [exact (calm_x w CW)|]. constructor; [apply num_int|]. constructor; [apply num_int|constructor]. }
  split; [reflexivity|]. split; [exact (K (start 4) 4%Z (start_calm 4) eq_refl)|]. split; [reflexivity|]. eexists. split; [cbn; reflexivity|]. split; [|reflexivity].
  match goal with |- integral _ (_, ?w) => apply (K w 1%Z); [|reflexivity] end. split; [reflexivity|]. exists 1%Z. reflexivity.
Qed.
Lemma half_loop_ends : ends_normally program rest even half (start 4).
Proof.
  destruct half_refuted as (_ & _ & T & w2 & R & _ & F). exists 1, w2, w2. split; [|exact F]. exact (reaches_next program rest even half (start 4) 0 (start 4) (start 4) w2 (reaches_first program rest even half (start 4)) T R).
Qed.
(** while z > 0:
        x = 5
        if x > 0: z += 1
        x, y = "ab" *)
Definition growing : expr := rel (var "z") Gt (num 0).
Definition crashing : list statement :=
  [SAssign false (Single (Var "x")) (Value (num 5)); SIf [(positive, [SAugmented (Var "z") Add (num 1)])] []; SAssign false (Several [Var "x"; Var "y"]) (Value (Const (CStr "ab")))].
Lemma crashing_raises : checked anything growing crashing = Raise IndexError.
Proof. vm_compute. reflexivity. Qed.
