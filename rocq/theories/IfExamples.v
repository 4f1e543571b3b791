(** Witnesses and examples for the checks of if statements. *)
From Coq Require Import String List Bool Arith NArith ZArith Lia.
From Verif Require Import Base PyModel PySpec PyProofs IfModel IfSpec IfProofs.
Import ListNotations.
Local Open Scope string_scope.
Local Open Scope list_scope.

(** A program whose names have fixed values and that can only store into one variable, the state. *)
Definition names (env : list (string * value)) : python value := {|
  lookup := fun x w => match find (fun p => String.eqb (fst p) x) env with Some (_, v) => Ok v | None => Ok w end;
  opaque := fun _ w => (w, Raise TypeError);
  call := fun _ _ w => (w, Raise TypeError);
  attribute := fun _ _ w => (w, Raise TypeError);
  item := fun _ _ w => (w, Raise TypeError);
  unary_op := fun _ _ w => (w, Raise TypeError);
  binary_op := fun _ _ _ w => (w, Raise TypeError);
  compare_op := fun _ _ _ w => (w, Raise TypeError);
  obj_truth := fun _ _ => Ok true
|}.
Definition run (env : list (string * value)) : program value := {|
  py := names env;
  store_name := fun _ v _ => (v, Ok tt);
  store_attribute := fun _ _ _ w => (w, Raise TypeError);
  store_item := fun _ _ _ w => (w, Raise TypeError);
  store_other := fun _ _ w => (w, Raise TypeError);
  augment := fun _ o v w => match binary (names env) o w v w with (_, Ok u) => (u, Ok tt) | (w', Raise e) => (w', Raise e) end;
  delete := fun _ w => (w, Raise TypeError);
  loop := fun _ _ w => (w, Raise TypeError);
  other := fun n w => (VInt (Z.of_nat n), Ok Next)
|}.
Definition T := VBool true.
Definition F := VBool false.
Definition n (x : string) : expr := Name x.

(** if c: return True
    else: return a if b else d                   ->   return c or a if b else d *)
Definition cond_value := If (n "c") [Return (Some (lit true))] [Return (Some (IfExp (n "b") (n "a") (n "d")))].
Lemma cond_value_refuted : exists c body orelse t new,
  fine_stmt (If c body orelse) = true /\
  basic_checks 5 c body orelse None None [] = Ok (Some (MReturn true t)) /\
  follows (MReturn true t) [If c body orelse] new /\ ~ returns_alike [If c body orelse] new.
Proof.
  exists (n "c"), [Return (Some (lit true))], [Return (Some (IfExp (n "b") (n "a") (n "d")))]. eexists.
  exists [Return (Some (IfExp (n "b") (BoolOp Or [n "c"; n "a"]) (n "d")))].
  split; [reflexivity|]. split; [reflexivity|]. split; [apply f_return; exists 20; reflexivity|].
  intro H. destruct (H value (run [("c", T); ("a", F); ("b", F); ("d", F)])) as (m & k & A & E1 & E2).
  specialize (E1 VNone). specialize (E2 VNone). specialize (A VNone). cbn in E1, E2. unfold andthen in *.
  destruct (m VNone) as [w1 [v1|]]; [|discriminate]. destruct (k VNone) as [w2 [v2|]]; [|discriminate].
  injection E1 as <- <-. injection E2 as <- <-. cbn in A. discriminate.
Qed.

(** if c: x += True
    else: x += False                             ->   x = c *)
Lemma augmented_refuted : exists c body orelse x t new,
  fine_stmt (If c body orelse) = true /\ no_ifexp c body orelse [] = true /\
  basic_checks 5 c body orelse None None [] = Ok (Some (MAssign false [TName x] t)) /\
  follows (MAssign false [TName x] t) [If c body orelse] new /\ ~ assigns_alike (Name x) [If c body orelse] new [].
Proof.
  exists (n "c"), [AugAssign (n "x") Add (lit true)], [AugAssign (n "x") Add (lit false)], "x". eexists.
  exists [Assign [n "x"] (n "c")].
  split; [reflexivity|]. split; [reflexivity|]. split; [reflexivity|]. split; [apply f_assign; exists 20; reflexivity|].
  intro H. destruct (H value (run [("c", T)])) as (m & k & A & E1 & E2).
  specialize (E1 (VInt (-1))). specialize (E2 (VInt (-1))). specialize (A (VInt (-1))). cbn in E1, E2. unfold andthen in *.
  destruct (m (VInt (-1))) as [w1 [v1|]]; [|discriminate]. destruct (k (VInt (-1))) as [w2 [v2|]]; [|discriminate].
  cbn in E1, E2. injection E1 as <-. injection E2 as <-. cbn in A. discriminate.
Qed.

(** if x: return True
    else: return False                           ->   return x *)
Lemma value_refuted : exists c body orelse t new,
  fine_stmt (If c body orelse) = true /\
  basic_checks 5 c body orelse None None [] = Ok (Some (MReturn false t)) /\
  follows (MReturn false t) [If c body orelse] new /\ ~ same_block [If c body orelse] new.
Proof.
  exists (n "x"), [Return (Some (lit true))], [Return (Some (lit false))]. eexists. exists [Return (Some (n "x"))].
  split; [reflexivity|]. split; [reflexivity|]. split; [apply f_return; exists 20; reflexivity|].
  intro H. specialize (H value (run [("x", VInt 5)]) VNone). cbn in H. discriminate.
Qed.

(** if a if b else d:
        if e: ...                                ->   if a if b else d and e: ... *)
Lemma nested_refuted : exists c body t new,
  fine_stmt (If c body []) = true /\
  basic_checks 5 c body [] None None [] = Ok (Some (MNested t)) /\
  follows (MNested t) [If c body []] new /\ ~ same_block [If c body []] new.
Proof.
  exists (IfExp (n "b") (n "a") (n "d")), [If (n "e") [OtherStmt 1] []]. eexists.
  exists [If (IfExp (n "b") (n "a") (BoolOp And [n "d"; n "e"])) [OtherStmt 1] []].
  split; [reflexivity|]. split; [reflexivity|]. split; [apply f_nested; exists 20; reflexivity|].
  intro H. specialize (H value (run [("a", T); ("b", T); ("d", F); ("e", F)]) VNone). cbn in H. discriminate.
Qed.

(** if a if b else d: return v
    if e: return v                               ->   if a if b else d or e: return v *)
Lemma seq_refuted : exists c body next t new,
  fine_stmt (If c body []) = true /\ fine_stmt next = true /\
  basic_checks 5 c body [] None (Some next) [] = Ok (Some (MSeq t)) /\
  follows (MSeq t) [If c body []; next] new /\ ~ same_block [If c body []; next] new.
Proof.
  exists (IfExp (n "b") (n "a") (n "d")), [Return (Some (n "e"))], (If (n "e") [Return (Some (n "e"))] []). eexists.
  exists [If (IfExp (n "b") (n "a") (BoolOp Or [n "d"; n "e"])) [Return (Some (n "e"))] []].
  split; [reflexivity|]. split; [reflexivity|]. split; [reflexivity|]. split; [apply f_seq; exists 20; reflexivity|].
  intro H. specialize (H value (run [("a", F); ("b", T); ("d", F); ("e", T)]) VNone). cbn in H. discriminate.
Qed.

(** if c: x: bool = True
    else: x: bool *)
Lemma hang : exists c body orelse, fine_stmt (If c body orelse) = true /\
  forall fuel, basic_checks fuel c body orelse None None [] = Raise (OtherError "out of fuel").
Proof.
  exists (n "c"), [AnnAssign (n "x") (Some (lit true))], [AnnAssign (n "x") None]. split; [reflexivity|].
  assert (L : forall fuel result, refactored_loop fuel [ANode (n "c"); AWord WOr; ANone] 2 result = Raise (OtherError "out of fuel")).
  { induction fuel as [|f IH]; intro r; [reflexivity|]. cbn [refactored_loop nth_error]. apply IH. }
  intros [|[|f]]; [reflexivity|reflexivity|]. cbn -[refactored_loop].
  unfold get_refactored.
  assert (U : exists r, refactored_loop (S (S f)) [ANode (n "c"); AWord WOr; ANone] 0 [] = refactored_loop f [ANode (n "c"); AWord WOr; ANone] 2 r) by (eexists; reflexivity).
  destruct U as (r & ->). rewrite L. reflexivity.
Qed.
(** if c: del x
    else: del x *)
Lemma crash : exists c body orelse, fine_stmt (If c body orelse) = true /\
  forall fuel, basic_checks fuel c body orelse None None [] = Raise AttributeError.
Proof. exists (n "c"), [Delete [n "x"]], [Delete [n "x"]]. split; reflexivity. Qed.

(** Conditions for the examples. *)
Definition ex_cond := BoolOp And [Compare (n "a") [(Lt, n "b")]; Unary Not (n "c")].
Definition ex_or := BoolOp Or [n "d"; n "e"].
