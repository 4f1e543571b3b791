(** Witnesses and examples for types. *)
From Coq Require Import String List Bool Arith NArith ZArith Lia.
From Verif Require Import Base PyModel PySpec PyProofs FoldExamples TypeModel TypeSpec TypeProofs.
Import ListNotations.
Local Open Scope string_scope.
Local Open Scope list_scope.

(** for x in range(10): ..., y = y + x *)
Definition loop_y : expr := Binary Add (Name "y") (Name "x").
Definition loop_analysis : analysis := {|
  defs := fun x => if String.eqb x "x" then [(0, DLoop (Call (Name "range") [num 10]))]
                   else if String.eqb x "y" then [(1, DExpr loop_y); (2, DExpr (num 0))] else [];
  is_builtin_name := fun x => String.eqb x "abs" || String.eqb x "range";
  imported_from := fun _ => None;
  opaque_type := fun _ => no_types
|}.
Definition no_objects : nat -> option ty := fun _ => None.
Lemma trusted_x z : trusted (vars [("x", z)]) no_objects loop_analysis (Name "x") TInt.
Proof.
  split.
  - intros w w' v H. injection H as <- <-. reflexivity.
  - intros [|fuel] vis g H; [discriminate H|]. change (visit_defs (visit_type fuel loop_analysis) vis [(0, DLoop (Call (Name "range") [num 10]))] no_types = Ok g) in H.
    cbn [visit_defs] in H. destruct (existsb (Nat.eqb 0) vis); injection H as <-; [left; reflexivity|right; reflexivity].
Qed.
(** Floats 1.5 and 3.0, and the function abs. *)
Definition floats : python unit := {|
  lookup := fun x _ => if String.eqb x "z" then Ok (VFloat "1.5") else Ok (VObj 0);
  opaque := fun _ w => (w, Raise TypeError);
  call := fun _ args w => (w, match args with [VFloat r] => Ok (VFloat r) | _ => Raise TypeError end);
  attribute := fun _ _ w => (w, Raise TypeError);
  item := fun _ _ w => (w, Raise TypeError);
  unary_op := fun _ _ w => (w, Raise TypeError);
  binary_op := fun o v u w => (w, match o, v, u with
    | Mul, VInt 2, VFloat "1.5" => Ok (VFloat "3.0")
    | Add, VInt 1, VFloat "1.5" => Ok (VFloat "2.5")
    | _, _, _ => Raise TypeError end);
  compare_op := fun _ _ _ w => (w, Raise TypeError);
  obj_truth := fun _ _ => Ok true
|}.
Lemma unsound_by e v t ts : eval floats e tt = (tt, Ok v) -> type_of no_objects v = Some t -> has ts t = false -> ~ sound floats no_objects e ts.
Proof. intros E T H S. destruct (S _ _ _ E) as (u & U & K). rewrite T in U. injection U as <-. congruence. Qed.
(** 5 or 0 *)
Lemma or_refuted : exists (P : python unit) A a b fuel ts, guess_type fuel A None (BoolOp Or [a; b]) = Ok (Some ts) /\ ~ sound P no_objects (BoolOp Or [a; b]) ts.
Proof. exists floats, loop_analysis, (num 5), (num 0), 4. eexists. split; [reflexivity|]. eapply unsound_by; reflexivity. Qed.
(** 2 * 1.5 *)
Lemma times_refuted : exists (P : python unit) A a b fuel ts, guess_type fuel A None (Binary Mul a b) = Ok (Some ts) /\ ~ sound P no_objects (Binary Mul a b) ts.
Proof. exists floats, loop_analysis, (num 2), (Const (CFloat "1.5")), 4. eexists. split; [reflexivity|]. eapply unsound_by; reflexivity. Qed.
(** abs(1.5) *)
Lemma builtin_refuted : exists (P : python unit) A f a fuel ts, is_builtin_name A f = true /\ guess_type fuel A None (Call (Name f) [a]) = Ok (Some ts) /\ ~ sound P no_objects (Call (Name f) [a]) ts.
Proof. exists floats, loop_analysis, "abs", (Const (CFloat "1.5")), 4. eexists. split; [reflexivity|]. split; [reflexivity|]. eapply unsound_by; reflexivity. Qed.
(** 1 + z, where nothing is known about z *)
Lemma unknown_refuted : exists (P : python unit) A a x fuel ts, defs A x = [] /\ guess_type fuel A None (Binary Add a (Name x)) = Ok (Some ts) /\ ~ sound P no_objects (Binary Add a (Name x)) ts.
Proof. exists floats, loop_analysis, (num 1), "z", 4. eexists. split; [reflexivity|]. split; [reflexivity|]. eapply unsound_by; reflexivity. Qed.
