(** Proofs about the analysis of blocks: terms and their renaming. *)
From Coq Require Import String List Bool Arith NArith ZArith QArith Qabs Qround Lia.
From Verif Require Import Base PyModel PySpec PyProofs IfModel IfSpec IfProofs FoldModel FoldSpec FoldProofs TypeModel LocalModel LocalSpec LocalProofs LetterProofs MergeSpec SolverModel SolverSpec SolverProofs BlockModel BlockSpec.
Import ListNotations.
Local Open Scope string_scope.
Local Open Scope list_scope.
Local Open Scope nat_scope.

(** ** Induction on terms and statements *)
Section TermInd.
  Variable Q : zexpr -> Prop.
  Hypothesis h_var : forall k i, Q (ZVar k i).
  Hypothesis h_bool : forall b, Q (ZBool b).
  Hypothesis h_int : forall n, Q (ZInt n).
  Hypothesis h_real : forall r, Q (ZReal r).
  Hypothesis h_abs : forall a, Q a -> Q (ZAbs a).
  Hypothesis h_neg : forall a, Q a -> Q (ZNeg a).
  Hypothesis h_not : forall a, Q a -> Q (ZNot a).
  Hypothesis h_add : forall a b, Q a -> Q b -> Q (ZAdd a b).
  Hypothesis h_sub : forall a b, Q a -> Q b -> Q (ZSub a b).
  Hypothesis h_mul : forall a b, Q a -> Q b -> Q (ZMul a b).
  Hypothesis h_mod : forall a n, Q a -> Q (ZMod a n).
  Hypothesis h_quot : forall a n, Q a -> Q (ZQuot a n).
  Hypothesis h_over : forall a v, Q a -> Q (ZOver a v).
  Hypothesis h_rel : forall c a b, Q a -> Q b -> Q (ZRel c a b).
  Hypothesis h_and : forall l, Forall Q l -> Q (ZAnd l).
  Hypothesis h_or : forall l, Forall Q l -> Q (ZOr l).
  Fixpoint zexpr_ind' (z : zexpr) : Q z :=
    let all := fix all (l : list zexpr) : Forall Q l := match l with [] => Forall_nil Q | z :: l => Forall_cons z (zexpr_ind' z) (all l) end in
    match z with
    | ZVar k i => h_var k i | ZBool b => h_bool b | ZInt n => h_int n | ZReal r => h_real r
    | ZAbs a => h_abs a (zexpr_ind' a) | ZNeg a => h_neg a (zexpr_ind' a) | ZNot a => h_not a (zexpr_ind' a)
    | ZAdd a b => h_add a b (zexpr_ind' a) (zexpr_ind' b) | ZSub a b => h_sub a b (zexpr_ind' a) (zexpr_ind' b)
    | ZMul a b => h_mul a b (zexpr_ind' a) (zexpr_ind' b)
    | ZMod a n => h_mod a n (zexpr_ind' a) | ZQuot a n => h_quot a n (zexpr_ind' a) | ZOver a v => h_over a v (zexpr_ind' a)
    | ZRel c a b => h_rel c a b (zexpr_ind' a) (zexpr_ind' b)
    | ZAnd l => h_and l (all l) | ZOr l => h_or l (all l)
    end.
End TermInd.
Section StatementInd.
  Variable Q : statement -> Prop.
  Hypothesis simple : forall s, match s with SIf _ _ => False | _ => True end -> Q s.
  Hypothesis branching : forall l o, Forall (fun p => Forall Q (snd p)) l -> Forall Q o -> Q (SIf l o).
  Fixpoint statement_ind' (s : statement) : Q s :=
    let all := fix all (l : list statement) : Forall Q l := match l with [] => Forall_nil Q | s :: l => Forall_cons s (statement_ind' s) (all l) end in
    match s with
    | SIf l o => branching l o
        ((fix each (l : list (expr * list statement)) : Forall (fun p => Forall Q (snd p)) l :=
            match l with [] => Forall_nil _ | p :: l => Forall_cons p (all (snd p)) (each l) end) l) (all o)
    | s => simple s I
    end.
End StatementInd.

(** ** What holds of all variables of a term *)
Definition proper (c : cmpop) : bool := match c with Eq | Ne | Lt | Le | Gt | Ge => true | _ => false end.
Fixpoint over_vars (Q : text -> Prop) (z : zexpr) : Prop :=
  match z with
  | ZVar k _ => Q k
  | ZBool _ | ZInt _ | ZReal _ => True
  | ZAbs a | ZNeg a | ZNot a | ZMod a _ | ZQuot a _ | ZOver a _ => over_vars Q a
  | ZAdd a b | ZSub a b | ZMul a b => over_vars Q a /\ over_vars Q b
  | ZRel c a b => proper c = true /\ over_vars Q a /\ over_vars Q b
  | ZAnd l | ZOr l => fold_right and True (map (over_vars Q) l)
  end.
Lemma fold_and_Forall {A} (Q : A -> Prop) l : fold_right and True (map Q l) <-> Forall Q l.
Proof.
  induction l as [|x l IH]; cbn [map fold_right]; [split; [constructor|exact (fun _ => Logic.I)]|]. rewrite IH. split; [intros [X Y]; constructor; assumption|].
  intro F. inversion F; subst. split; assumption.
Qed.
Lemma over_vars_impl (Q R : text -> Prop) z : (forall k, Q k -> R k) -> over_vars Q z -> over_vars R z.
Proof.
  intro QR. induction z using zexpr_ind'; cbn [over_vars]; try tauto; auto.
  - rewrite !fold_and_Forall. intro F. induction H; [constructor|]. inversion F; subst. constructor; auto.
  - rewrite !fold_and_Forall. intro F. induction H; [constructor|]. inversion F; subst. constructor; auto.
Qed.
Lemma sort_rename cur z : sort_of (rename cur z) = sort_of z.
Proof.
  induction z using zexpr_ind'; cbn [rename sort_of]; try reflexivity; try (rewrite IHz; reflexivity); try (rewrite IHz1, IHz2; reflexivity).
  all: match goal with |- (if ?a then _ else _) = (if ?b then _ else _) => replace a with b; [reflexivity|] end.
  all: induction H as [|x l E F IH]; [reflexivity|]; cbn [map forallb]; rewrite E, IH; reflexivity.
Qed.
Lemma over_rename Q cur z : over_vars (fun k => Q (prefixed k (cur k))) z -> over_vars Q (rename cur z).
Proof.
  induction z using zexpr_ind'; cbn [rename over_vars]; try tauto; auto.
  all: rewrite !fold_and_Forall; intro F; induction H; [constructor|]; inversion F; subst; constructor; auto.
Qed.
Definition view (E : environment) (cur : counts) : environment :=
  {| int_var := fun k => int_var E (prefixed k (cur k)); real_var := fun k => real_var E (prefixed k (cur k)); quot0 := quot0 E; over0 := over0 E |}.
Lemma zeval_rename E cur z : zeval E (rename cur z) = zeval (view E cur) z.
Proof.
  induction z using zexpr_ind'; cbn [rename zeval]; try reflexivity; try (rewrite IHz; reflexivity); try (rewrite IHz1, IHz2; reflexivity).
  all: f_equal; induction H as [|x l X F IH]; [reflexivity|]; cbn [map]; rewrite X, IH; reflexivity.
Qed.
Lemma zeval_ext E E' (Q : text -> Prop) z : (forall k, Q k -> int_var E k = int_var E' k /\ real_var E k = real_var E' k) -> (forall q, quot0 E q = quot0 E' q) -> (forall q, over0 E q = over0 E' q) ->
  over_vars Q z -> zeval E z = zeval E' z.
Proof.
  intros X X1 X2. induction z using zexpr_ind'; cbn [over_vars zeval]; intro O; try reflexivity; try (rewrite (IHz O); reflexivity);
    try (destruct O as [O1 O2]; rewrite (IHz1 O1), (IHz2 O2); reflexivity).
  - destruct (X k O) as [-> ->]. reflexivity.
  - rewrite (IHz O). destruct (zeval E' z) as [[q|]|]; cbn [znumber]; try reflexivity. rewrite X1. reflexivity.
  - rewrite (IHz O). destruct (zeval E' z) as [[q|]|]; cbn [znumber]; try reflexivity. rewrite X2. reflexivity.
  - destruct O as (_ & O1 & O2). rewrite (IHz1 O1), (IHz2 O2). reflexivity.
  - apply fold_and_Forall in O. f_equal. induction H as [|x l Y F IH]; [reflexivity|]. inversion O; subst. cbn [map]. rewrite (Y H1), (IH H2). reflexivity.
  - apply fold_and_Forall in O. f_equal. induction H as [|x l Y F IH]; [reflexivity|]. inversion O; subst. cbn [map]. rewrite (Y H1), (IH H2). reflexivity.
Qed.
(** Well-sorted terms have values. *)
Definition kind (s : sort) (v : zvalue) : Prop := match s, v with SBool, ZB _ | SInt, ZN _ | SReal, ZN _ => True | _, _ => False end.
Lemma common_num a b s : common_sort a b = Some s -> (a = Some SInt \/ a = Some SReal) /\ (b = Some SInt \/ b = Some SReal) /\ s <> SBool.
Proof. destruct a as [[]|], b as [[]|]; cbn; intro X; try discriminate; injection X as <-; repeat split; auto; discriminate. Qed.
Lemma num_value E z s : (forall s, sort_of z = Some s -> exists v, zeval E z = Some v /\ kind s v) -> sort_of z = Some s -> s <> SBool -> exists q, zeval E z = Some (ZN q).
Proof. intros X S1 N. destruct (X s S1) as (v & V & K). destruct s; [congruence| |]; destruct v; try contradiction; exists q; exact V. Qed.
Lemma bools_value E l : Forall (fun z => forall s, sort_of z = Some s -> exists v, zeval E z = Some v /\ kind s v) l ->
  forallb (fun z => match sort_of z with Some SBool => true | _ => false end) l = true ->
  exists bs, Forall2 (fun z b => zeval E z = Some (ZB b)) l bs.
Proof.
  induction 1 as [|z l X F IH]; intro B; [exists []; constructor|]. cbn [forallb] in B. apply andb_true_iff in B. destruct B as [B1 B2].
  destruct (IH B2) as (bs & FB). destruct (sort_of z) as [[]|] eqn:S1; try discriminate. destruct (X SBool eq_refl) as (v & V & K). destruct v as [|b]; [contradiction|].
  exists (b :: bs). constructor; assumption.
Qed.
Lemma zeval_defined E z Q : over_vars Q z -> forall s, sort_of z = Some s -> exists v, zeval E z = Some v /\ kind s v.
Proof.
  assert (NUM : forall z s (X : forall s, sort_of z = Some s -> exists v, zeval E z = Some v /\ kind s v), (match sort_of z with Some SBool => None | s => s end) = Some s ->
    exists q, zeval E z = Some (ZN q) /\ s <> SBool).
  { intros a s X E1. destruct (sort_of a) as [[]|] eqn:S1; try discriminate; injection E1 as <-; destruct (X _ eq_refl) as ([q|] & V & K); try contradiction;
      exists q; (split; [exact V|discriminate]). }
  induction z using zexpr_ind'; cbn [over_vars sort_of zeval]; intros O s E1.
  - injection E1 as <-. eexists. split; [reflexivity|]. destruct i; exact Logic.I.
  - injection E1 as <-. eexists. split; [reflexivity|exact Logic.I].
  - injection E1 as <-. eexists. split; [reflexivity|exact Logic.I].
  - injection E1 as <-. eexists. split; [reflexivity|exact Logic.I].
  - destruct (NUM z s (IHz O) E1) as (q & -> & NB). eexists. split; [reflexivity|]. destruct s; [congruence| |]; exact Logic.I.
  - destruct (NUM z s (IHz O) E1) as (q & -> & NB). eexists. split; [reflexivity|]. destruct s; [congruence| |]; exact Logic.I.
  - destruct (sort_of z) as [[]|]; try discriminate. injection E1 as <-. destruct (IHz O _ eq_refl) as (v & -> & K). destruct v; [contradiction|]. eexists. split; [reflexivity|exact Logic.I].
  - destruct O as [O1 O2]. destruct (common_num _ _ _ E1) as ([A1|A1] & [A2|A2] & NB); rewrite A1 in IHz1; rewrite A2 in IHz2;
      destruct (IHz1 O1 _ eq_refl) as (v & -> & K1), (IHz2 O2 _ eq_refl) as (v' & -> & K2); destruct v, v'; try contradiction; eexists; (split; [reflexivity|]); destruct s; try congruence; exact Logic.I.
  - destruct O as [O1 O2]. destruct (common_num _ _ _ E1) as ([A1|A1] & [A2|A2] & NB); rewrite A1 in IHz1; rewrite A2 in IHz2;
      destruct (IHz1 O1 _ eq_refl) as (v & -> & K1), (IHz2 O2 _ eq_refl) as (v' & -> & K2); destruct v, v'; try contradiction; eexists; (split; [reflexivity|]); destruct s; try congruence; exact Logic.I.
  - destruct O as [O1 O2]. destruct (common_num _ _ _ E1) as ([A1|A1] & [A2|A2] & NB); rewrite A1 in IHz1; rewrite A2 in IHz2;
      destruct (IHz1 O1 _ eq_refl) as (v & -> & K1), (IHz2 O2 _ eq_refl) as (v' & -> & K2); destruct v, v'; try contradiction; eexists; (split; [reflexivity|]); destruct s; try congruence; exact Logic.I.
  - destruct (sort_of z) as [[]|]; try discriminate. injection E1 as <-. destruct (IHz O _ eq_refl) as (v & -> & K). destruct v; [|contradiction]. eexists. split; [reflexivity|exact Logic.I].
  - destruct (sort_of z) as [[]|]; try discriminate. injection E1 as <-. destruct (IHz O _ eq_refl) as (v & -> & K). destruct v; [|contradiction]. eexists. split; [reflexivity|exact Logic.I].
  - destruct (sort_of z) as [[]|]; try discriminate; injection E1 as <-; destruct (IHz O _ eq_refl) as (v' & -> & K); (destruct v'; [|contradiction]); eexists; (split; [reflexivity|exact Logic.I]).
  - destruct O as (PC & O1 & O2). destruct (common_sort (sort_of z1) (sort_of z2)) as [s'|] eqn:C; [|discriminate]. injection E1 as <-.
    destruct (common_num _ _ _ C) as ([A1|A1] & [A2|A2] & NB); rewrite A1 in IHz1; rewrite A2 in IHz2;
      destruct (IHz1 O1 _ eq_refl) as (v & -> & K1), (IHz2 O2 _ eq_refl) as (v' & -> & K2); destruct v, v'; try contradiction; cbn [znumbers];
      destruct c; try discriminate; eexists; (split; [reflexivity|exact Logic.I]).
  - destruct (forallb _ l) eqn:B; [|discriminate]. injection E1 as <-. apply fold_and_Forall in O.
    assert (F : Forall (fun z => forall s, sort_of z = Some s -> exists v, zeval E z = Some v /\ kind s v) l) by (clear B; induction H; constructor; inversion O; subst; auto).
    destruct (bools_value E l F B) as (bs & FB). rewrite (ztruths_eval E l bs _ FB). eexists. split; [reflexivity|exact Logic.I].
  - destruct (forallb _ l) eqn:B; [|discriminate]. injection E1 as <-. apply fold_and_Forall in O.
    assert (F : Forall (fun z => forall s, sort_of z = Some s -> exists v, zeval E z = Some v /\ kind s v) l) by (clear B; induction H; constructor; inversion O; subst; auto).
    destruct (bools_value E l F B) as (bs & FB). rewrite (ztruths_eval E l bs _ FB). eexists. split; [reflexivity|exact Logic.I].
Qed.
