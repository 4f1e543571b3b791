(** Witnesses and examples for the simplification of if/elif/else chains. *)
From Coq Require Import String Ascii List Bool Arith NArith ZArith QArith Qabs Qround Lia.
From Verif Require Import Base PyModel PySpec PyProofs IfModel IfSpec IfProofs FoldModel FoldSpec FoldProofs FoldExamples TypeModel LocalModel LocalSpec LocalProofs LocalExamples MergeSpec SolverModel SolverSpec SolverProofs RedundantProofs SortProofs SolverExamples ChainModel ChainSpec ChainProofs ChainRightProofs ChainEndProofs.
Import ListNotations.
Local Open Scope string_scope.
Local Open Scope list_scope.
Local Open Scope nat_scope.

(** ** A solver that tries values *)
(** Comparisons of variables and remainders with numbers. *)
Definition zterm_eqb (a b : zexpr) : bool :=
  match a, b with
  | ZVar k i, ZVar k' i' => text_eqb k k' && Bool.eqb i i'
  | ZMod (ZVar k i) n, ZMod (ZVar k' i') n' => text_eqb k k' && Bool.eqb i i' && Z.eqb n n'
  | ZInt x, ZInt y => Z.eqb x y
  | _, _ => false
  end.
Definition zatom_eqb (a b : zexpr) : bool :=
  match a, b with ZRel c x y, ZRel c' x' y' => cmpop_eqb c c' && zterm_eqb x x' && zterm_eqb y y' | _, _ => false end.
Fixpoint made_of (atoms : list zexpr) (z : zexpr) : bool :=
  match z with
  | ZNot a => made_of atoms a
  | ZAnd l | ZOr l => forallb (made_of atoms) l
  | ZBool _ => true
  | _ => existsb (zatom_eqb z) atoms
  end.
(** Conditions made of some comparisons are tried with a list of values. *)
Definition tries (atoms : list zexpr) (Es : list environment) (z : zexpr) : bool :=
  made_of atoms z && forallb (fun E => match zeval E z with Some (ZB true) => false | _ => true end) Es.
Lemma zterm_eq a b : zterm_eqb a b = true -> a = b.
Proof.
  destruct a, b; try discriminate; cbn [zterm_eqb]; try (destruct a; discriminate); intro K.
  - apply andb_true_iff in K. destruct K as [A B]. apply text_eqb_eq in A. apply eqb_prop in B. congruence.
  - apply Z.eqb_eq in K. congruence.
  - destruct a; try discriminate. destruct b; try discriminate. rewrite !andb_true_iff in K. destruct K as [[A B] C]. apply text_eqb_eq in A. apply eqb_prop in B. apply Z.eqb_eq in C. congruence.
Qed.
Lemma zatom_eq a b : zatom_eqb a b = true -> a = b.
Proof.
  destruct a, b; try discriminate. cbn [zatom_eqb]. rewrite !andb_true_iff. intros [[A B] C]. apply zterm_eq in B, C. subst. f_equal. destruct c, c0; try discriminate; reflexivity.
Qed.
Lemma made_of_eval atoms E E' : Forall (fun a => zeval E a = zeval E' a) atoms -> forall z, made_of atoms z = true -> zeval E z = zeval E' z.
Proof.
  intros A. assert (BASE : forall z, existsb (zatom_eqb z) atoms = true -> zeval E z = zeval E' z).
  { intros z X. apply existsb_exists in X. destruct X as (a & I & X). apply zatom_eq in X. subst a. rewrite Forall_forall in A. exact (A z I). }
  fix F 1. intro z. destruct z; cbn [made_of]; try (apply BASE); try (intros _; reflexivity).
  - intro M. cbn [zeval]. rewrite (F z M). reflexivity.
  - intro M. cbn [zeval]. f_equal. induction l as [|x l IH]; [reflexivity|]. cbn [map forallb] in *. apply andb_true_iff in M. destruct M as [M1 M2]. rewrite (F x M1), (IH M2). reflexivity.
  - intro M. cbn [zeval]. f_equal. induction l as [|x l IH]; [reflexivity|]. cbn [map forallb] in *. apply andb_true_iff in M. destruct M as [M1 M2]. rewrite (F x M1), (IH M2). reflexivity.
Qed.
Lemma tries_sound atoms Es : (forall E, exists E', List.In E' Es /\ Forall (fun a => zeval E a = zeval E' a) atoms) -> sound (tries atoms Es).
Proof.
  intros C z U E T. unfold tries in U. apply andb_true_iff in U. destruct U as [M U]. destruct (C E) as (E' & I & A). rewrite forallb_forall in U. specialize (U E' I).
  rewrite <- (made_of_eval atoms E E' A z M), T in U. discriminate.
Qed.

(** x is compared with 0 and 5, y with 0, 10 // x with 2, and the remainder of x (as an integer) by 4 with any number. *)
Definition xs : list Z := [-1; 0; 1; 5; 6]%Z.
Definition ys : list Z := [-1; 0; 1]%Z.
Definition qs : list Z := [1; 2; 3]%Z.
Definition ten : text := [TConst (CInt 10); TBin FloorDiv; TName "x"].
Definition some_values (n x y q : Z) : environment := {|
  int_var := fun k => if text_eqb k [TName "x"] then n else 0%Z;
  real_var := fun k => inject_Z (if text_eqb k [TName "x"] then x else if text_eqb k [TName "y"] then y else if text_eqb k ten then q else 0);
  quot0 := fun _ => 0%Z; over0 := fun _ => 0%Q |}.
Definition all_values : list environment :=
  flat_map (fun n => flat_map (fun x => flat_map (fun y => map (some_values n x y) qs) ys) xs) [0; 1; 2; 3]%Z.
Definition real_x : zexpr := ZVar [TName "x"] false.
Definition real_y : zexpr := ZVar [TName "y"] false.
Definition ops : list cmpop := [Lt; Gt; Le; Ge; Eq; Ne].
Definition known_atoms : list zexpr :=
  flat_map (fun c => [ZRel c real_x (ZInt 0); ZRel c real_x (ZInt 5); ZRel c real_y (ZInt 0); ZRel c (ZVar ten false) (ZInt 2)] ++
                     map (fun k => ZRel c (ZMod (ZVar [TName "x"] true) 4) (ZInt k)) [0; 1; 2; 3]%Z) ops.
Definition trying : zexpr -> bool := tries known_atoms all_values.

Lemma compare_same c p q k : Qle_bool k p = Qle_bool k q -> Qeq_bool p k = Qeq_bool q k -> zcompare c p k = zcompare c q k.
Proof. unfold zcompare. intros -> ->. reflexivity. Qed.
Definition looks_like (p q : Q) (ks : list Z) : Prop := Forall (fun k => Qle_bool (inject_Z k) p = Qle_bool (inject_Z k) q /\ Qeq_bool p (inject_Z k) = Qeq_bool q (inject_Z k)) ks.
Lemma le_bool a b : (a <= b)%Q -> Qle_bool a b = true. Proof. apply Qle_bool_iff. Qed.
Lemma lt_bool a b : (a < b)%Q -> Qle_bool b a = false.
Proof. intro L. destruct (Qle_bool b a) eqn:X; [|reflexivity]. apply Qle_bool_iff in X. exfalso. exact (Qlt_not_le _ _ L X). Qed.
Lemma eq_bool a b : (a == b)%Q -> Qeq_bool a b = true. Proof. apply Qeq_bool_iff. Qed.
Lemma ne_bool a b : ~ (a == b)%Q -> Qeq_bool a b = false.
Proof. intro N. destruct (Qeq_bool a b) eqn:X; [|reflexivity]. exfalso. apply N. apply Qeq_bool_iff. exact X. Qed.
Lemma lt_looks p k : (p < k)%Q -> Qle_bool k p = false /\ Qeq_bool p k = false.
Proof. intro L. split; [apply lt_bool; exact L|]. apply ne_bool. intro X. rewrite X in L. exact (Qlt_irrefl _ L). Qed.
Lemma gt_looks p k : (k < p)%Q -> Qle_bool k p = true /\ Qeq_bool p k = false.
Proof. intro L. split; [apply le_bool, Qlt_le_weak; exact L|]. apply ne_bool. intro X. rewrite X in L. exact (Qlt_irrefl _ L). Qed.
Lemma eq_looks p k : (p == k)%Q -> Qle_bool k p = true /\ Qeq_bool p k = true.
Proof. intro L. split; [apply le_bool; rewrite L; apply Qle_refl|]. apply eq_bool. exact L. Qed.
Lemma one_place p k : exists z, List.In z [k - 1; k; k + 1]%Z /\ looks_like p (inject_Z z) [k].
Proof.
  assert (B1 : (inject_Z (k - 1) < inject_Z k)%Q) by (rewrite <- Zlt_Qlt; lia). assert (B2 : (inject_Z k < inject_Z (k + 1))%Q) by (rewrite <- Zlt_Qlt; lia).
  destruct (Q_dec p (inject_Z k)) as [[L|L]|L].
  - exists (k - 1)%Z. split; [left; reflexivity|]. constructor; [|constructor]. destruct (lt_looks _ _ L) as [-> ->]. destruct (lt_looks _ _ B1) as [-> ->]. auto.
  - exists (k + 1)%Z. split; [right; right; left; reflexivity|]. constructor; [|constructor]. destruct (gt_looks _ _ L) as [-> ->]. destruct (gt_looks _ _ B2) as [-> ->]. auto.
  - exists k. split; [right; left; reflexivity|]. constructor; [|constructor]. destruct (eq_looks _ _ L) as [-> ->]. destruct (eq_looks (inject_Z k) (inject_Z k) (Qeq_refl _)) as [-> ->]. auto.
Qed.
Lemma two_places p : exists z, List.In z xs /\ looks_like p (inject_Z z) [0; 5]%Z.
Proof.
  destruct (Q_dec p (inject_Z 0)) as [[L|L]|L].
  - exists (-1)%Z. split; [left; reflexivity|]. assert (L5 : (p < inject_Z 5)%Q) by (eapply Qlt_trans; [exact L|reflexivity]). constructor; [|constructor; [|constructor]].
    + destruct (lt_looks _ _ L) as [-> ->]. split; reflexivity.
    + destruct (lt_looks _ _ L5) as [-> ->]. split; reflexivity.
  - destruct (Q_dec p (inject_Z 5)) as [[M|M]|M].
    + exists 1%Z. split; [cbn; auto|]. constructor; [|constructor; [|constructor]]; [destruct (gt_looks _ _ L) as [-> ->]|destruct (lt_looks _ _ M) as [-> ->]]; split; reflexivity.
    + exists 6%Z. split; [cbn; auto 10|]. constructor; [|constructor; [|constructor]]; [destruct (gt_looks _ _ L) as [-> ->]|destruct (gt_looks _ _ M) as [-> ->]]; split; reflexivity.
    + exists 5%Z. split; [cbn; auto 10|]. constructor; [|constructor; [|constructor]]; [destruct (gt_looks _ _ L) as [-> ->]|destruct (eq_looks _ _ M) as [-> ->]]; split; reflexivity.
  - exists 0%Z. split; [cbn; auto|]. assert (L5 : (p < inject_Z 5)%Q) by (rewrite L; reflexivity). constructor; [|constructor; [|constructor]]; [destruct (eq_looks _ _ L) as [-> ->]|destruct (lt_looks _ _ L5) as [-> ->]]; split; reflexivity.
Qed.
Lemma rel_same E E' c v k : looks_like (real_var E v) (real_var E' v) [k] -> zeval E (ZRel c (ZVar v false) (ZInt k)) = zeval E' (ZRel c (ZVar v false) (ZInt k)).
Proof. intro L. inversion L as [|? ? [A B] _]; subst. cbn [zeval znumbers]. rewrite (compare_same c _ _ _ A B). reflexivity. Qed.
Lemma mod_same E E' c v n k : (0 < n)%Z -> int_var E' v = (int_var E v mod n)%Z -> zeval E (ZRel c (ZMod (ZVar v true) n) (ZInt k)) = zeval E' (ZRel c (ZMod (ZVar v true) n) (ZInt k)).
Proof. intros N V. cbn [zeval znumber]. rewrite !Qfloor_Z, V, Z.mod_mod by lia. reflexivity. Qed.
Lemma trying_sound : sound trying.
Proof.
  apply tries_sound. intro E. destruct (two_places (real_var E [TName "x"])) as (x & IX & LX). destruct (one_place (real_var E [TName "y"]) 0) as (y & IY & LY). destruct (one_place (real_var E ten) 2) as (q & IQ & LQ).
  exists (some_values (int_var E [TName "x"] mod 4) x y q). split.
  - apply in_flat_map. exists (int_var E [TName "x"] mod 4)%Z. split.
    + pose proof (Z.mod_pos_bound (int_var E [TName "x"]) 4 eq_refl). cbn. lia.
    + apply in_flat_map. exists x. split; [exact IX|]. apply in_flat_map. exists y. split; [exact IY|]. apply in_map. exact IQ.
  - inversion LX as [|? ? L0 LX']; subst. assert (L0' : looks_like (real_var E [TName "x"]) (inject_Z x) [0%Z]) by (constructor; [exact L0|constructor]).
    unfold known_atoms. apply Forall_forall. intros a I. apply in_flat_map in I. destruct I as (c & _ & I). apply in_app_or in I. destruct I as [I|I].
    + destruct I as [<-|[<-|[<-|[<-|[]]]]]; apply rel_same; assumption.
    + apply in_map_iff in I. destruct I as (k & <- & _). apply mod_same; reflexivity.
Qed.

(** ** Chains *)
Definition mod4 (c : cmpop) (k : N) : expr := rel (Binary Mod (var "x") (num 4)) c (num k).
Definition xr (c : cmpop) (k : N) : expr := rel (var "x") c (num k).
Definition yr (c : cmpop) (k : N) : expr := rel (var "y") c (num k).
(** if y > 0 and x % 4 != 0: ... elif x % 4 == 1 or x % 4 == 2: ... elif x % 4 == 3: ... elif x % 4 == 0: ... *)
Definition crash_case : list expr := [BoolOp And [yr Gt 0; mod4 Ne 0]; BoolOp Or [mod4 Eq 1; mod4 Eq 2]; mod4 Eq 3; mod4 Eq 0].
(** if x == 0 and y > 0: ... elif y <= 0 or 10 // x > 2 and x != 0: ... *)
Definition guarded_case : list expr := [BoolOp And [xr Eq 0; yr Gt 0]; BoolOp Or [yr Le 0; BoolOp And [rel (Binary FloorDiv (num 10) (var "x")) Gt (num 2); xr Ne 0]]].
(** if x == 0 and y > 0: ... elif y <= 0: ... *)
Definition moved_case : list expr := [BoolOp And [xr Eq 0; yr Gt 0]; yr Le 0].
(** if x > 5: ... elif x <= 5 and y > 0: ... elif x <= 5 or y == 0: ... else: ... *)
Definition parts_case : list expr := [xr Gt 5; BoolOp And [xr Le 5; yr Gt 0]; BoolOp Or [xr Le 5; yr Eq 0]].
(** Reading a text. *)
Definition read_text (t : text) : res expr :=
  match parse 100 1 t with
  | Some (e, []) => if (well_formed e && no_nested_compare e)%bool then Ok e else Raise (OtherError "AstroidSyntaxError")
  | _ => Raise (OtherError "AstroidSyntaxError")
  end.
Lemma read_text_reader : reader read_text.
Proof.
  intros t e. unfold read_text. destruct (parse 100 1 t) as [[e' [|? ?]]|] eqn:X; try discriminate. destruct (well_formed e' && no_nested_compare e')%bool eqn:Y; [|discriminate].
  intro K. assert (e' = e) by congruence. subst e'. apply andb_true_iff in Y. destruct Y as [A B]. refine (conj _ (conj A B)). exists 100. exact X.
Qed.
Definition chain_of (tests : list expr) (has_else : bool) : res (nat * list chain_message) :=
  check_chain trying (@length token) 50 read_text all_pure floats (typed "int") tests has_else.

Lemma crash_refuted : sound trying /\ Forall fit crash_case /\ Forall (fun t => fine t = true) crash_case /\ chain_of crash_case false = Raise (OtherError "Z3Exception").
Proof.
  refine (conj trying_sound (conj _ (conj _ _))).
  - repeat (constructor; [vm_compute; auto|]). constructor.
  - repeat (constructor; [reflexivity|]). constructor.
  - vm_compute. reflexivity.
Qed.
(** y <= 0 or 10 // x > 2 and x != 0 is now tested first, with x = 0 and y = 1. *)
Definition at_zero : python unit := with_abs [("x", VInt 0); ("y", VInt 1)].
Lemma guard_refuted : sound trying /\ Forall (fun t => fine t = true) guarded_case /\ neighbours (fun a b => is_negation floats a b false = Ok false) guarded_case /\ exists ts es,
  chain_of guarded_case false = Ok (0, [Reorder [2; 1] ts]) /\ Forall2 reading ts es /\
  choose at_zero (numbered 1 guarded_case false) tt = (tt, Ok (Some 1)) /\ choose at_zero (combine [2; 1] es) tt = (tt, Raise ZeroDivisionError).
Proof.
  refine (conj trying_sound (conj _ (conj _ _))).
  - repeat (constructor; [reflexivity|]). constructor.
  - vm_compute. auto.
  - exists [Some [TName "y"; TRel Le; TConst (CInt 0); TOr; TConst (CInt 10); TBin FloorDiv; TName "x"; TRel Gt; TConst (CInt 2); TAnd; TName "x"; TRel Ne; TConst (CInt 0)]; Some [TName "x"; TRel Eq; TConst (CInt 0)]].
    exists [Some (BoolOp Or [yr Le 0; BoolOp And [rel (Binary FloorDiv (num 10) (var "x")) Gt (num 2); xr Ne 0]]); Some (xr Eq 0)].
    refine (conj _ (conj _ (conj eq_refl eq_refl))); [vm_compute; reflexivity|].
    constructor; [exists 100; vm_compute; reflexivity|constructor; [exists 100; vm_compute; reflexivity|constructor]].
Qed.
(** if x % 2 == 0: ... elif x % 2 == 5: ... *)
Definition odd_case : list expr := [rel (Binary Mod (var "x") (num 2)) Eq (num 0); rel (Binary Mod (var "x") (num 2)) Eq (num 5)].
Definition at_one : python unit := with_abs [("x", VInt 1)].
Lemma negated_refuted : chain_of odd_case false = Ok (0, [AlwaysTrue 2]) /\ Forall (fun t => fine t = true /\ whole at_one tt t /\ int_divisions at_one tt t) odd_case /\
  choose at_one (numbered 1 odd_case false) tt = (tt, Ok None).
Proof.
  refine (conj _ (conj _ eq_refl)); [vm_compute; reflexivity|].
  repeat (constructor; [refine (conj eq_refl (conj _ _)); [unfold whole; cbn [rel numbers flat_map app snd num var]; repeat (constructor; [eexists; eexists; split; [reflexivity|reflexivity]|]); constructor|cbn; tauto]|]). constructor.
Qed.
