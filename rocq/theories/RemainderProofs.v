(** Proofs about the messages that merge comparisons of remainders. *)
From Coq Require Import String Ascii List Bool Arith NArith ZArith FinFun Lia.
From Verif Require Import Base PyModel PySpec PyProofs IfModel IfSpec IfProofs FoldModel FoldSpec FoldProofs LocalModel LocalSpec TextProofs LocalProofs LetterProofs RangeProofs MergeModel MergeSpec MergeProofs.
Import ListNotations.
Local Open Scope string_scope.
Local Open Scope list_scope.

(** ** Sets *)
Lemma in_below n z : List.In z (below n) <-> (0 <= z < n)%Z.
Proof.
  unfold below. rewrite in_map_iff. split.
  - intros (k & <- & I). apply in_seq in I. lia.
  - intro B. exists (Z.to_nat z). split; [lia|]. apply in_seq. lia.
Qed.
Lemma below_nodup n : NoDup (below n).
Proof. unfold below. apply FinFun.Injective_map_NoDup; [intros a b E; lia|apply seq_NoDup]. Qed.
Lemma below_length n : length (below n) = Z.to_nat n.
Proof. unfold below. rewrite map_length, seq_length. reflexivity. Qed.
Lemma in_add z s x : List.In x (add z s) <-> List.In x s \/ x = z.
Proof.
  unfold add. destruct (existsb (Z.eqb z) s) eqn:E.
  - apply existsb_exists in E. destruct E as (y & I & K). apply Z.eqb_eq in K. subst y. split; [auto|]. intros [J| ->]; assumption.
  - rewrite in_app_iff. cbn. intuition congruence.
Qed.
Lemma add_nodup z s : NoDup s -> NoDup (add z s).
Proof.
  intro N. unfold add. destruct (existsb (Z.eqb z) s) eqn:E; [exact N|].
  assert (NI : ~ List.In z s).
  { intro I. assert (existsb (Z.eqb z) s = true) by (apply existsb_exists; exists z; split; [exact I|apply Z.eqb_refl]). congruence. }
  apply (NoDup_Add (a := z) (l := s)); [|auto]. pose proof (Add_app z s []) as K. rewrite app_nil_r in K. exact K.
Qed.
Lemma in_add_all zs s x : List.In x (add_all zs s) <-> List.In x s \/ List.In x zs.
Proof.
  unfold add_all. revert s. induction zs as [|z zs IH]; intro s; cbn [fold_left]; [cbn; tauto|]. rewrite IH, in_add. cbn. intuition congruence.
Qed.
Lemma add_all_nodup zs s : NoDup s -> NoDup (add_all zs s).
Proof. unfold add_all. revert s. induction zs as [|z zs IH]; intros s N; cbn [fold_left]; [exact N|]. apply IH, add_nodup, N. Qed.

(** A comparison for equality or inequality. *)
Definition holds_for (c : cmpop) (z v : Z) : bool := match c with Eq => Z.eqb z v | _ => negb (Z.eqb z v) end.
Definition equation (c : cmpop) : Prop := c = Eq \/ c = Ne.
Lemma in_possible n c v z : equation c -> (0 <= v < n)%Z -> List.In z (possible n c v) <-> (0 <= z < n)%Z /\ holds_for c z v = true.
Proof.
  intros [-> | ->] B; cbn [possible holds_for].
  - cbn. rewrite Z.eqb_eq. split; [intros [->|[]]; auto|]. intros [_ ->]. auto.
  - rewrite filter_In, in_below. reflexivity.
Qed.
Lemma update_at_length l i zs : length (update_at l i zs) = length l.
Proof. revert i. induction l as [|s l IH]; intro i; [reflexivity|]. destruct i; cbn [update_at length]; [reflexivity|]. rewrite IH. reflexivity. Qed.
Lemma update_at_row l i zs k : i < length l -> nth k (update_at l i zs) [] = if Nat.eqb k i then add_all zs (nth k l []) else nth k l [].
Proof.
  revert i k. induction l as [|s l IH]; intros i k L; [cbn in L; lia|]. destruct i, k; cbn [update_at nth Nat.eqb]; try reflexivity. apply IH. cbn in L. lia.
Qed.
Definition row (l : list (list Z)) (i : Z) : list Z := nth (Z.to_nat i) l [].
Definition covers (n : Z) (l : list (list Z)) (S : Z -> Z -> Prop) : Prop :=
  length l = Z.to_nat n /\ forall i, (0 <= i < n)%Z -> NoDup (row l i) /\ forall j, List.In j (row l i) <-> S i j.
Lemma update_covers n l S c1 v1 c2 v2 : covers n l S -> equation c1 -> (0 <= v1 < n)%Z ->
  covers n (update_sets n l c1 v1 c2 v2) (fun i j => S i j \/ (holds_for c1 i v1 = true /\ List.In j (possible n c2 v2))).
Proof.
  intros C E1 B1. unfold update_sets. set (zs := possible n c2 v2).
  assert (G : forall is l S, covers n l S -> (forall i, List.In i is -> (0 <= i < n)%Z) ->
    covers n (fold_left (fun l i => update_at l (Z.to_nat i) zs) is l) (fun i j => S i j \/ (List.In i is /\ List.In j zs))).
  { clear. induction is as [|i is IH]; intros l S C R; cbn [fold_left].
    - destruct C as [L C]. split; [exact L|]. intros i B. destruct (C i B) as [N I]. split; [exact N|]. intro j. rewrite I. cbn. tauto.
    - assert (C' : covers n (update_at l (Z.to_nat i) zs) (fun k j => S k j \/ (k = i /\ List.In j zs))).
      { destruct C as [L C]. pose proof (R i (or_introl eq_refl)) as RI. split; [rewrite update_at_length; exact L|]. intros k B. destruct (C k B) as [N I]. unfold row in *. rewrite update_at_row by lia.
        destruct (Nat.eqb_spec (Z.to_nat k) (Z.to_nat i)) as [K|K].
        - assert (k = i) by lia. subst k. split; [apply add_all_nodup; exact N|]. intro j. rewrite in_add_all, I. tauto.
        - split; [exact N|]. intro j. rewrite I. split; [auto|]. intros [?|[-> _]]; [assumption|]. congruence. }
      destruct (IH _ _ C' (fun k J => R k (or_intror J))) as [L I]. split; [exact L|]. intros k B. destruct (I k B) as [N J]. split; [exact N|]. intro j. rewrite J. cbn. intuition congruence. }
  destruct (G (possible n c1 v1) l S C) as [L I]; [intros i J; apply in_possible in J; [apply J|exact E1|exact B1]|].
  split; [exact L|]. intros i B. destruct (I i B) as [N J]. split; [exact N|]. intro j. rewrite J. rewrite in_possible by assumption. tauto.
Qed.
Lemma empty_covers n : (0 <= n)%Z -> covers n (map (fun _ => []) (below n)) (fun _ _ => False).
Proof.
  intro B. split; [rewrite map_length, below_length; reflexivity|]. intros i BI. unfold row.
  assert (E : nth (Z.to_nat i) (map (fun _ => []) (below n)) [] = ([] : list Z)).
  { generalize (below n) as l, (Z.to_nat i) as k. induction l as [|x l IH]; intros [|k]; cbn [map nth]; auto. }
  rewrite E. split; [constructor|]. intro j. cbn. tauto.
Qed.
Lemma covers_all n l S : covers n l S -> (forall i j, S i j -> (0 <= j < n)%Z) -> forallb (fun s => Z.eqb (Z.of_nat (length s)) n) l = true ->
  forall i j, (0 <= i < n)%Z -> (0 <= j < n)%Z -> S i j.
Proof.
  intros [L C] R F i j BI BJ. destruct (C i BI) as [N I]. apply I. rewrite forallb_forall in F. assert (IN : List.In (row l i) l) by (apply nth_In; lia).
  apply F in IN. apply Z.eqb_eq in IN. assert (INC : incl (below n) (row l i)).
  { apply NoDup_length_incl; [exact N|rewrite below_length; lia|]. intros k K. apply in_below. eapply R. apply I. exact K. }
  apply INC, in_below, BJ.
Qed.
Lemma covers_others n l S : covers n l S -> (forall i j, S i j -> (0 <= j < n)%Z /\ i <> j) -> forallb (fun s => Z.eqb (Z.of_nat (length s)) (n - 1)) l = true ->
  forall i j, (0 <= i < n)%Z -> (0 <= j < n)%Z -> i <> j -> S i j.
Proof.
  intros [L C] R F i j BI BJ NE. destruct (C i BI) as [N I]. apply I. rewrite forallb_forall in F. assert (IN : List.In (row l i) l) by (apply nth_In; lia).
  apply F in IN. apply Z.eqb_eq in IN. assert (NI : ~ List.In i (row l i)) by (intro K; apply I, R in K; destruct K; congruence).
  assert (INC : incl (below n) (i :: row l i)).
  { apply NoDup_length_incl; [constructor; assumption|rewrite below_length; cbn [length]; lia|]. intros k [<-|K]; apply in_below; [exact BI|]. apply I, R in K. apply K. }
  assert (J : List.In j (i :: row l i)) by (apply INC, in_below, BJ). destruct J as [J|J]; [congruence|exact J].
Qed.

(** ** Pairs *)
Record item := { it_expr : expr; it_c1 : cmpop; it_v1 : Z; it_c2 : cmpop; it_v2 : Z }.
Definition item_kind (it : item) : kind := kind_of (it_c1 it) (it_v1 it) (it_c2 it) (it_v2 it).
Definition item_holds (it : item) (i j : Z) : bool := holds_for (it_c1 it) i (it_v1 it) && holds_for (it_c2 it) j (it_v2 it).
Definition item_fine (n : Z) (it : item) : Prop := equation (it_c1 it) /\ equation (it_c2 it) /\ (0 <= it_v1 it < n)%Z /\ (0 <= it_v2 it < n)%Z.
Definition hit (n : Z) (its : list item) (i j : Z) : Prop := (0 <= j < n)%Z /\ exists it, List.In it its /\ item_holds it i j = true.
Definition of_kind (k : kind) (its : list item) : list item := filter (fun it => kind_eqb (item_kind it) k) its.
Record pair_ok (p : pair) (its : list item) : Prop := {
  po_modulo : (2 <= pr_modulo p)%Z;
  po_texts : pr_texts p = map (fun it => (as_string (it_expr it), item_kind it)) its;
  po_items : Forall (item_fine (pr_modulo p)) its;
  po_true : covers (pr_modulo p) (pr_true p) (hit (pr_modulo p) its);
  po_inequality : covers (pr_modulo p) (pr_inequality p) (hit (pr_modulo p) (of_kind Inequality its));
  po_nodup : NoDup (pr_equality p);
  po_equality : forall z, List.In z (pr_equality p) <-> exists it, List.In it (of_kind Equality its) /\ it_v1 it = z
}.
Lemma covers_ext n l S T : (forall i j, (0 <= i < n)%Z -> S i j <-> T i j) -> covers n l S -> covers n l T.
Proof. intros E [L C]. split; [exact L|]. intros i B. destruct (C i B) as [N I]. split; [exact N|]. intro j. rewrite I. apply E. exact B. Qed.
Lemma hit_more n its it i j : item_fine n it -> hit n its i j \/ (holds_for (it_c1 it) i (it_v1 it) = true /\ List.In j (possible n (it_c2 it) (it_v2 it))) <-> hit n (its ++ [it]) i j.
Proof.
  intros (E1 & E2 & B1 & B2). rewrite in_possible by assumption. unfold hit, item_holds. split.
  - intros [(B & x & I & K)|(K1 & B & K2)]; (split; [exact B|]).
    + exists x. rewrite in_app_iff. auto.
    + exists it. rewrite in_app_iff, K1, K2. cbn. auto.
  - intros (B & x & I & K). rewrite in_app_iff in I. destruct I as [I|[<-|[]]]; [left; split; [exact B|]; exists x; auto|]. right. apply andb_true_iff in K. destruct K. auto.
Qed.
Lemma of_kind_more k its it : of_kind k (its ++ [it]) = of_kind k its ++ (if kind_eqb (item_kind it) k then [it] else []).
Proof. unfold of_kind. rewrite filter_app. reflexivity. Qed.
Lemma update_ok p its it : pair_ok p its -> item_fine (pr_modulo p) it ->
  pair_ok (update_pair p (it_c1 it) (it_v1 it) (it_c2 it) (it_v2 it) (as_string (it_expr it))) (its ++ [it]).
Proof.
  intros [M T F C1 C2 N E] FI. pose proof FI as (E1 & E2 & B1 & B2). unfold update_pair.
  split; cbn [pr_modulo pr_texts pr_true pr_inequality pr_equality].
  - exact M.
  - rewrite T, map_app. reflexivity.
  - apply Forall_app. split; [exact F|]. constructor; [exact FI|constructor].
  - eapply covers_ext; [|apply update_covers; [exact C1|exact E1|exact B1]]. intros i j _. apply hit_more. exact FI.
  - rewrite of_kind_more. unfold item_kind. destruct (kind_of _ _ _ _) eqn:K; cbn [kind_eqb]; rewrite ?app_nil_r; try exact C2.
    eapply covers_ext; [|apply update_covers; [exact C2|exact E1|exact B1]]. intros i j _. apply hit_more. exact FI.
  - destruct (kind_of _ _ _ _); try exact N. apply add_nodup. exact N.
  - intro z. rewrite of_kind_more. unfold item_kind. destruct (kind_of _ _ _ _) eqn:K; cbn [kind_eqb]; rewrite ?app_nil_r; try apply E.
    rewrite in_add, E. split.
    + intros [(x & I & J)| ->]; [exists x|exists it]; rewrite in_app_iff; cbn; auto.
    + intros (x & I & J). rewrite in_app_iff in I. destruct I as [I|[<-|[]]]; [left; exists x; auto|right; auto].
Qed.
Lemma new_ok e1 e2 n it : (2 <= n)%Z -> item_fine n it -> pair_ok (new_pair e1 (it_c1 it) (it_v1 it) e2 (it_c2 it) (it_v2 it) n (as_string (it_expr it))) [it].
Proof.
  intros M FI. unfold new_pair. change [it] with ([] ++ [it]). apply update_ok; [|exact FI].
  split; cbn [pr_modulo pr_texts pr_true pr_inequality pr_equality]; try assumption; try constructor; try reflexivity.
  - apply (empty_covers n). lia.
  - intros i B. destruct (proj2 (empty_covers n ltac:(lia)) i B) as [ND I]. split; [exact ND|]. intro j. rewrite I. unfold hit. split; [tauto|]. intros (_ & x & [] & _).
  - apply (empty_covers n). lia.
  - intros i B. destruct (proj2 (empty_covers n ltac:(lia)) i B) as [ND I]. split; [exact ND|]. intro j. rewrite I. unfold hit. split; [tauto|]. intros (_ & x & [] & _).
  - intros [].
  - intros (x & [] & _).
Qed.

(** What the checks of a pair mean. *)
Lemma equality_kind n it : item_fine n it -> item_kind it = Equality -> forall i j, item_holds it i j = Z.eqb i (it_v1 it) && Z.eqb j (it_v1 it).
Proof.
  intros (E1 & E2 & _ & _) K i j. unfold item_kind, kind_of, item_holds in *. destruct it as [e c1 v1 c2 v2]. cbn [it_c1 it_v1 it_c2 it_v2] in *.
  destruct E1 as [-> | ->], E2 as [-> | ->]; destruct (Z.eqb_spec v1 v2) as [V|V]; cbn in K; try discriminate K. cbn [holds_for]. rewrite V. reflexivity.
Qed.
Lemma inequality_kind n it : item_fine n it -> item_kind it = Inequality -> forall i j, item_holds it i j = true -> i <> j.
Proof.
  intros (E1 & E2 & _ & _) K i j. unfold item_kind, kind_of, item_holds in *. destruct it as [e c1 v1 c2 v2]. cbn [it_c1 it_v1 it_c2 it_v2] in *.
  destruct E1 as [-> | ->], E2 as [-> | ->]; destruct (Z.eqb_spec v1 v2) as [V|V]; cbn in K; try discriminate K; cbn [holds_for]; intro A; apply andb_true_iff in A; destruct A as [A1 A2];
  rewrite ?negb_true_iff, ?Z.eqb_eq, ?Z.eqb_neq in *; lia.
Qed.
Lemma of_kind_in k its it : List.In it (of_kind k its) <-> List.In it its /\ item_kind it = k.
Proof. unfold of_kind. rewrite filter_In. destruct (item_kind it), k; cbn [kind_eqb]; intuition congruence. Qed.
Definition some (its : list item) (i j : Z) : bool := existsb (fun it => item_holds it i j) its.
Section Meaning.
  Variable p : pair.
  Variable its : list item.
  Hypothesis OK : pair_ok p its.
  Let n := pr_modulo p.
  Lemma some_hit its' i j : (0 <= j < n)%Z -> some its' i j = true <-> hit n its' i j.
  Proof. intro B. unfold some, hit. rewrite existsb_exists. split; [intro E; auto|intros (_ & E); exact E]. Qed.
  Lemma always_means : always_true p = true -> forall i j, (0 <= i < n)%Z -> (0 <= j < n)%Z -> some its i j = true.
  Proof.
    intros A i j BI BJ. apply some_hit; [exact BJ|]. eapply covers_all; [exact (po_true p its OK)| |exact A|exact BI|exact BJ]. intros x y (B & _). exact B.
  Qed.
  Lemma equality_means : has_equality p = true -> forall i j, (0 <= i < n)%Z -> (0 <= j < n)%Z -> some (of_kind Equality its) i j = Z.eqb i j.
  Proof.
    intros A i j BI BJ. unfold has_equality in A. apply Z.eqb_eq in A. fold n in A.
    pose proof (po_items p its OK) as FI. rewrite Forall_forall in FI.
    assert (INC : incl (below n) (pr_equality p)).
    { apply NoDup_length_incl; [exact (po_nodup p its OK)|rewrite below_length; lia|]. intros z I. apply (po_equality p its OK) in I. destruct I as (it & I & <-). apply of_kind_in in I.
      apply in_below. apply (FI it). apply I. }
    apply eq_true_iff_eq. unfold some. rewrite existsb_exists, Z.eqb_eq. split.
    - intros (it & I & K). apply of_kind_in in I. destruct I as [I IK]. rewrite (equality_kind n it (FI it I) IK) in K. apply andb_true_iff in K. rewrite !Z.eqb_eq in K. lia.
    - intros <-. assert (I : List.In i (pr_equality p)) by (apply INC, in_below, BI). apply (po_equality p its OK) in I. destruct I as (it & I & <-). exists it. split; [exact I|].
      apply of_kind_in in I. destruct I as [I IK]. rewrite (equality_kind n it (FI it I) IK), !Z.eqb_refl. reflexivity.
  Qed.
  Lemma inequality_means : has_inequality p = true -> forall i j, (0 <= i < n)%Z -> (0 <= j < n)%Z -> some (of_kind Inequality its) i j = negb (Z.eqb i j).
  Proof.
    intros A i j BI BJ. pose proof (po_items p its OK) as FI. rewrite Forall_forall in FI.
    assert (R : forall x y, hit n (of_kind Inequality its) x y -> (0 <= y < n)%Z /\ x <> y).
    { intros x y (B & it & I & K). split; [exact B|]. apply of_kind_in in I. destruct I as [I IK]. exact (inequality_kind n it (FI it I) IK x y K). }
    destruct (Z.eqb_spec i j) as [<-|NE]; cbn [negb].
    - destruct (some (of_kind Inequality its) i i) eqn:E; [|reflexivity]. apply some_hit in E; [|exact BJ]. apply R in E. lia.
    - apply some_hit; [exact BJ|]. eapply covers_others; [exact (po_inequality p its OK)|exact R|exact A|exact BI|exact BJ|exact NE].
  Qed.
  (** One comparison cannot do it. *)
  Lemma miss it : item_fine n it -> exists i, (0 <= i < n)%Z /\ forall j, item_holds it i j = false.
  Proof.
    intros (E1 & _ & B1 & _). pose proof (po_modulo p its OK) as M. fold n in M. unfold item_holds. destruct E1 as [-> | ->]; cbn [holds_for].
    - exists (if Z.eqb (it_v1 it) 0 then 1 else 0)%Z. destruct (Z.eqb_spec (it_v1 it) 0) as [V|V]; (split; [lia|]); intro j.
      + destruct (Z.eqb_spec 1 (it_v1 it)); [lia|reflexivity].
      + destruct (Z.eqb_spec 0 (it_v1 it)); [lia|reflexivity].
    - exists (it_v1 it). split; [lia|]. intro j. rewrite Z.eqb_refl. reflexivity.
  Qed.
  Lemma many its' : incl its' its -> (forall i, (0 <= i < n)%Z -> exists j, some its' i j = true) -> 2 <= length its'.
  Proof.
    intros IN A. pose proof (po_items p its OK) as FI. rewrite Forall_forall in FI. pose proof (po_modulo p its OK) as M. fold n in M. destruct its' as [|it [|it' its']]; [| |cbn; lia].
    - destruct (A 0%Z ltac:(lia)) as (j & K). discriminate K.
    - destruct (miss it (FI it (IN it (or_introl eq_refl)))) as (i & B & Z). destruct (A i B) as (j & K). cbn in K. rewrite Z in K. discriminate.
  Qed.
End Meaning.

(** ** What the check collects *)
Section Remainders.
  Context {W : Type}.
  Variable P : python W.
  Variable w : W.
  Variable H : host.
  Hypothesis CH : closed_host H.
  Hypothesis AG : agrees P H.

  Definition term (t : text) (z : Z) : Prop := exists e, good t e 15 /\ is_int P w e z.
  Lemma term_det t z z' : term t z -> term t z' -> z = z'.
  Proof. intros (e & G & I) (e' & G' & I'). assert (e = e') by (eapply reads_det; eapply reads_good; eassumption). subst. eapply is_int_det; eassumption. Qed.
  Definition not_choice (e : expr) : Prop := match e with IfExp _ _ _ => False | _ => True end.
  Lemma parenthesized_term e z : fine e = true -> not_choice e -> is_int P w e z -> term (parenthesized e) z.
  Proof.
    intros F NC I. destruct (fine_split e F) as [WF NN]. pose proof (round e WF) as G. exists (norm e). split; [|apply norm_int; assumption].
    destruct e; cbn [parenthesized]; try exact G; try (eapply good_paren; exact G). destruct NC.
  Qed.
  Lemma binary_fine o a b : fine (Binary o a b) = true -> fine a = true /\ fine b = true.
  Proof. unfold fine. cbn [well_formed no_nested_compare]. rewrite !andb_true_iff. tauto. Qed.
  Lemma remainder_int y m z n : is_int P w y z -> is_int P w m n -> (0 < n)%Z -> is_int P w (Binary Mod y m) (z mod n).
  Proof.
    intros (v & V & A) (u & U & B) N. exists (VInt (z mod n)). split; [|reflexivity]. unfold gives. rewrite (eval_binary P w Mod y m v u V U).
    unfold binary. rewrite A, B. cbn [int_op]. destruct (Z.eqb_spec n 0); [lia|]. reflexivity.
  Qed.
  Lemma equation_value c a b x y : equation c -> is_int P w a x -> is_int P w b y -> gives P w (Compare a [(c, b)]) (VBool (holds_for c x y)).
  Proof.
    intros E (v & V & A) (u & U & B). unfold gives. rewrite (eval_compare1 P w c a b v u V U). eapply ints_compare; [exact A|exact B|]. destruct E as [-> | ->]; reflexivity.
  Qed.
  Lemma holds_sym c x y : equation c -> holds_for c x y = holds_for c y x.
  Proof. intros [-> | ->]; cbn [holds_for]; rewrite (Z.eqb_sym x y); reflexivity. Qed.
  Lemma parity_flip z v : (0 <= v < 2)%Z -> holds_for Ne (z mod 2) v = holds_for Eq (z mod 2) (1 - v).
  Proof.
    intro B. cbn [holds_for]. pose proof (Z.mod_pos_bound z 2 ltac:(lia)) as M. destruct (Z.eqb_spec (z mod 2) v), (Z.eqb_spec (z mod 2) (1 - v)); cbn; try reflexivity; lia.
  Qed.
  Definition ints_divided (e : expr) : Prop := Forall (an_int P w) (dividend e).
  Definition choice_free (e : expr) : Prop := Forall not_choice (dividend e).
  Lemma comparison_means a c b t n c' v : remainder_comparison H (a, c, b) = Ok (Some (t, n, c', v)) -> equation c -> fine a = true -> fine b = true ->
    ints_divided a -> ints_divided b -> choice_free a -> choice_free b ->
    (2 <= n)%Z /\ (0 <= v < n)%Z /\ equation c' /\ exists z, term t z /\ gives P w (Compare a [(c, b)]) (VBool (holds_for c' (z mod n) v)).
  Proof.
    intros E EC FA FB DA DB NA NB. unfold remainder_comparison in E.
    destruct (is_number H a) as [l|] eqn:LA; [|discriminate]. cbn [bind] in E. destruct (is_number H b) as [r|] eqn:LB; [|discriminate]. cbn [bind] in E.
    destruct ((l && r) || (negb l && negb r)); [discriminate|].
    assert (G : forall x y, (forall p q, is_int P w x p -> is_int P w y q -> gives P w (Compare a [(c, b)]) (VBool (holds_for c p q))) -> fine x = true -> ints_divided x -> choice_free x ->
      match x with
      | Binary Mod y0 m =>
          do q <- is_number H m;
          if negb q then Ok None
          else
            do n <- get_const_value H m;
            do v <- get_const_value H y;
            match n, v with
            | VInt n, VInt v =>
                if Z.ltb n 2 || negb (Z.leb 0 v && Z.ltb v n) then Ok None
                else if Z.eqb n 2 && cmpop_eqb c Ne then Ok (Some (parenthesized y0, n, Eq, (1 - v)%Z))
                else Ok (Some (parenthesized y0, n, c, v))
            | _, _ => Ok None
            end
      | _ => Ok None
      end = Ok (Some (t, n, c', v)) ->
      (2 <= n)%Z /\ (0 <= v < n)%Z /\ equation c' /\ exists z, term t z /\ gives P w (Compare a [(c, b)]) (VBool (holds_for c' (z mod n) v))).
    { clear E. intros x y GV FX DX NX E. destruct x as [| | |o y0 m| | | | | | |]; try discriminate. destruct o; try discriminate.
      destruct (is_number H m) as [q|]; [|discriminate]. cbn [bind] in E. destruct q; [|discriminate]. cbn [negb] in E.
      destruct (get_const_value H m) as [n0|] eqn:GM; [|discriminate]. cbn [bind] in E. destruct (get_const_value H y) as [v0|] eqn:GY; [|discriminate]. cbn [bind] in E.
      destruct n0 as [| |n0| | |]; try discriminate. destruct v0 as [| |v0| | |]; try discriminate.
      destruct (Z.ltb_spec n0 2) as [L|L]; [discriminate|]. cbn [orb] in E. destruct (Z.leb_spec 0 v0) as [L1|L1]; [|discriminate]. destruct (Z.ltb_spec v0 n0) as [L2|L2]; [|discriminate]. cbn [andb negb] in E.
      apply binary_fine in FX. destruct FX as [FY FM]. unfold ints_divided in DX. cbn [dividend] in DX. inversion DX as [|? ? (z & IZ) _]; subst. unfold choice_free in NX. cbn [dividend] in NX. inversion NX as [|? ? NC _]; subst.
      assert (IM : is_int P w m n0) by (eapply known_int; [exact CH|exact GM|reflexivity|exact AG]). assert (IY : is_int P w y v0) by (eapply known_int; [exact CH|exact GY|reflexivity|exact AG]).
      pose proof (GV _ _ (remainder_int y0 m z n0 IZ IM ltac:(lia)) IY) as V. pose proof (parenthesized_term y0 z FY NC IZ) as T.
      remember (1 - v0)%Z as v1 eqn:V1.
      destruct (Z.eqb_spec n0 2) as [->|N2]; cbn [andb] in E; [destruct (cmpop_eqb c Ne) eqn:CN|]; injection E as <- <- <- <-.
      - apply cmpop_eqb_eq in CN. subst c. split; [lia|]. split; [lia|]. split; [left; reflexivity|]. exists z. split; [exact T|]. rewrite V1, <- parity_flip by lia. exact V.
      - split; [lia|]. split; [lia|]. split; [exact EC|]. exists z. split; assumption.
      - split; [lia|]. split; [lia|]. split; [exact EC|]. exists z. split; assumption. }
    destruct l.
    - apply (G b a); try assumption. intros p q I1 I2. rewrite holds_sym by exact EC. apply equation_value; assumption.
    - apply (G a b); try assumption. intros p q I1 I2. apply equation_value; assumption.
  Qed.

  Definition item_means (n : Z) (t1 t2 : text) (it : item) : Prop :=
    exists i j, term t1 i /\ term t2 j /\ gives P w (it_expr it) (VBool (item_holds it (i mod n) (j mod n))).
  Definition item_from (vs : list expr) (it : item) : Prop := List.In (it_expr it) vs /\ fine (it_expr it) = true /\ prec (it_expr it) = 3.
  Definition pair_means (vs : list expr) (p : pair) : Prop :=
    exists its, pair_ok p its /\ Forall (fun it => item_from vs it /\ item_means (pr_modulo p) (pr_first p) (pr_second p) it) its.
  Definition swap (it : item) : item := {| it_expr := it_expr it; it_c1 := it_c2 it; it_v1 := it_v2 it; it_c2 := it_c1 it; it_v2 := it_v1 it |}.
  Lemma swap_means n t1 t2 it : item_means n t1 t2 it -> item_means n t2 t1 (swap it).
  Proof.
    intros (i & j & T1 & T2 & G). exists j, i. split; [exact T2|]. split; [exact T1|]. cbn [swap it_expr]. unfold item_holds in *. cbn [swap it_c1 it_v1 it_c2 it_v2]. rewrite andb_comm. exact G.
  Qed.
  Lemma swap_fine n it : item_fine n it -> item_fine n (swap it).
  Proof. intros (A & B & C & D). unfold item_fine. cbn [swap it_c1 it_v1 it_c2 it_v2]. auto. Qed.
  Lemma insert_means vs ps m it : Forall (pair_means vs) ps -> (2 <= rm_modulo m)%Z -> item_fine (rm_modulo m) it -> item_from vs it -> item_means (rm_modulo m) (rm_first m) (rm_second m) it ->
    it_c1 it = rm_cmp1 m -> it_v1 it = rm_val1 m -> it_c2 it = rm_cmp2 m -> it_v2 it = rm_val2 m ->
    Forall (pair_means vs) (insert ps m (as_string (it_expr it))).
  Proof.
    intros F M FI IF IM C1 V1 C2 V2. induction F as [|p ps (its & OK & FT) F IH]; cbn [insert].
    - constructor; [|constructor]. exists [it]. split; [rewrite <- C1, <- V1, <- C2, <- V2; apply new_ok; assumption|]. constructor; [split; assumption|constructor].
    - destruct (Z.eqb_spec (pr_modulo p) (rm_modulo m)) as [MM|MM]; cbn [negb]; [|constructor; [exists its; auto|exact IH]].
      destruct (text_eqb (pr_first p) (rm_first m) && text_eqb (pr_second p) (rm_second m)) eqn:E1;
        [|destruct (text_eqb (pr_first p) (rm_second m) && text_eqb (pr_second p) (rm_first m)) eqn:E2; [|constructor; [exists its; auto|exact IH]]].
      + apply andb_true_iff in E1. destruct E1 as [E1 E2]. apply text_eqb_eq in E1, E2. constructor; [|exact F]. exists (its ++ [it]). split.
        * rewrite <- C1, <- V1, <- C2, <- V2. apply update_ok; [exact OK|]. rewrite MM. exact FI.
        * apply Forall_app. split; [exact FT|]. constructor; [|constructor]. split; [exact IF|]. cbn [update_pair pr_modulo pr_first pr_second]. rewrite MM, E1, E2. exact IM.
      + apply andb_true_iff in E2. destruct E2 as [E2 E3]. apply text_eqb_eq in E2, E3. constructor; [|exact F]. exists (its ++ [swap it]). split.
        * rewrite <- C1, <- V1, <- C2, <- V2. apply (update_ok p its (swap it)); [exact OK|]. rewrite MM. apply swap_fine. exact FI.
        * apply Forall_app. split; [exact FT|]. constructor; [|constructor]. split; [exact IF|]. cbn [update_pair pr_modulo pr_first pr_second]. rewrite MM, E2, E3. apply swap_means. exact IM.
  Qed.

  Lemma equality_inv e a c b : equality_parts e = Some (a, c, b) -> e = Compare a [(c, b)] /\ equation c.
  Proof.
    destruct e as [| | | | |x ops| | | | |]; try discriminate. destruct ops as [|[d y] [|? ?]]; try discriminate; destruct d; try discriminate; cbn [equality_parts]; intro E; injection E as <- <- <-; (split; [reflexivity|]); [left|right]; reflexivity.
  Qed.
  Lemma pure_dividend I a c b : is_pure_expression I (Compare a [(c, b)]) = true -> choice_free a /\ choice_free b.
  Proof.
    assert (X : forall e, is_pure_expression I e = true -> choice_free e).
    { intros e PE. unfold choice_free. destruct e as [| | |o x y| | | | | | |]; try constructor. destruct o; try constructor; [|constructor]. cbn [is_pure_expression] in PE. apply andb_true_iff in PE. destruct PE as [PX _]. destruct x; cbn; auto. discriminate PX. }
    cbn [is_pure_expression forallb snd]. rewrite !andb_true_iff. intros (PA & PB & _). auto.
  Qed.
  Lemma conjunction_means I e x y m : two_equalities e = Some (x, y) -> remainder_comparisons H x y = Ok (Some m) -> fine e = true -> is_pure_expression I e = true -> Forall (an_int P w) (dividends e) ->
    prec e = 3 /\ (2 <= rm_modulo m)%Z /\ exists it, it_expr it = e /\ it_c1 it = rm_cmp1 m /\ it_v1 it = rm_val1 m /\ it_c2 it = rm_cmp2 m /\ it_v2 it = rm_val2 m /\
      item_fine (rm_modulo m) it /\ item_means (rm_modulo m) (rm_first m) (rm_second m) it.
  Proof.
    intros T R F PE D. destruct e as [| | | |o vs| | | | | |]; try discriminate. destruct o; try discriminate. destruct vs as [|e1 [|e2 [|? ?]]]; try discriminate. cbn [two_equalities] in T.
    destruct (equality_parts e1) as [[[a c] b]|] eqn:E1; [|discriminate]. destruct (equality_parts e2) as [[[a' d] b']|] eqn:E2; [|discriminate]. injection T as <- <-.
    apply equality_inv in E1. destruct E1 as [-> EC]. apply equality_inv in E2. destruct E2 as [-> ED].
    cbn [dividends flat_map] in D. rewrite !Forall_app in D. destruct D as [[DA DB] [[DA' DB'] _]].
    assert (FF : fine (Compare a [(c, b)]) = true /\ fine (Compare a' [(d, b')]) = true).
    { unfold fine in *. cbn [well_formed no_nested_compare forallb length snd] in F. cbn [well_formed no_nested_compare forallb length snd]. rewrite !andb_true_iff in *. tauto. }
    destruct FF as [F1 F2]. apply fine_compare in F1. destruct F1 as [FA FB]. apply fine_compare in F2. destruct F2 as [FA' FB'].
    assert (PP : is_pure_expression I (Compare a [(c, b)]) = true /\ is_pure_expression I (Compare a' [(d, b')]) = true).
    { change (is_pure_expression I (Compare a [(c, b)]) && (is_pure_expression I (Compare a' [(d, b')]) && true) = true) in PE. rewrite !andb_true_iff in PE. tauto. }
    destruct PP as [P1 P2]. destruct (pure_dividend _ _ _ _ P1) as [NA NB]. destruct (pure_dividend _ _ _ _ P2) as [NA' NB'].
    unfold remainder_comparisons in R.
    destruct (remainder_comparison H (a, c, b)) as [l|] eqn:R1; [|discriminate]. cbn [bind] in R. destruct (remainder_comparison H (a', d, b')) as [r|] eqn:R2; [|discriminate]. cbn [bind] in R.
    destruct l as [[[[t1 n1] c1] v1]|]; [|discriminate]. destruct r as [[[[t2 n2] c2] v2]|]; [|discriminate]. destruct (Z.eqb_spec n1 n2) as [<-|]; [|discriminate]. injection R as <-.
    cbn [rm_first rm_cmp1 rm_val1 rm_second rm_cmp2 rm_val2 rm_modulo].
    destruct (comparison_means a c b t1 n1 c1 v1 R1 EC FA FB DA DB NA NB) as (N & B1 & Q1 & i & T1 & G1).
    destruct (comparison_means a' d b' t2 n1 c2 v2 R2 ED FA' FB' DA' DB' NA' NB') as (_ & B2 & Q2 & j & T2 & G2).
    split; [reflexivity|]. split; [exact N|]. exists {| it_expr := BoolOp And [Compare a [(c, b)]; Compare a' [(d, b')]]; it_c1 := c1; it_v1 := v1; it_c2 := c2; it_v2 := v2 |}.
    cbn [it_expr it_c1 it_v1 it_c2 it_v2]. do 5 (split; [reflexivity|]). split; [exact (conj Q1 (conj Q2 (conj B1 B2)))|]. exists i, j. split; [exact T1|]. split; [exact T2|].
    unfold item_holds. cbn [it_expr it_c1 it_v1 it_c2 it_v2]. rewrite <- (andb_true_r (holds_for c2 _ _)).
    apply (bools_value P w And [_; _] [_; _]); [|discriminate]. constructor; [exact G1|]. constructor; [exact G2|constructor].
  Qed.
  Lemma collect_one_means I o s e s' vs : collect_one H o s e = Ok s' -> is_pure_expression I e = true -> List.In e vs -> fine e = true -> Forall (an_int P w) (dividends e) ->
    (o = Or -> Forall (pair_means vs) (co_pairs s)) -> (o = And -> co_pairs s = []) -> (o = Or -> Forall (pair_means vs) (co_pairs s')) /\ (o = And -> co_pairs s' = []).
  Proof.
    intros E PE IE FE DE A A'. unfold collect_one in E. destruct (comparator_const_value H e) as [x|]; [|discriminate]. cbn [bind] in E.
    destruct x as [[[a c] v]|].
    { destruct e as [| | | | |x0 ops| | | | |]; try discriminate. destruct ops as [|[d y] [|? ?]]; try discriminate. injection E as <-. auto. }
    assert (E' : (do y <- between_others H e;
      match y with
      | Some (a, c, b) =>
          do d <- switch c;
          let first := update_comparisons (co_others s) (as_string a) c (as_string b) false in
          Ok {| co_numbers := co_numbers s;
                co_others := update_comparisons first (as_string b) d (as_string a) true; co_pairs := co_pairs s |}
      | None =>
          match o, two_equalities e with
          | Or, Some (x, y) =>
              do m <- remainder_comparisons H x y;
              Ok (match m with
                  | Some m => {| co_numbers := co_numbers s; co_others := co_others s; co_pairs := insert (co_pairs s) m (as_string e) |}
                  | None => s
                  end)
          | _, _ => Ok s
          end
      end) = Ok s') by (destruct e; exact E). clear E. rename E' into E.
    destruct (between_others H e) as [y|]; [|discriminate]. cbn [bind] in E. destruct y as [[[a c] b]|].
    { destruct (switch c); [|discriminate]. cbn [bind] in E. injection E as <-. auto. }
    destruct o; [injection E as <-; auto|]. destruct (two_equalities e) as [[x y]|] eqn:T; [|injection E as <-; auto].
    destruct (remainder_comparisons H x y) as [m|] eqn:R; [|discriminate]. cbn [bind] in E. destruct m as [m|]; injection E as <-; [|auto]. split; [|discriminate]. intros _. cbn [co_pairs].
    destruct (conjunction_means I e x y m T R FE PE DE) as (PR & N & it & <- & C1 & V1 & C2 & V2 & FI & IM). apply insert_means; try assumption; [apply A; reflexivity|]. split; [exact IE|]. split; assumption.
  Qed.
  Lemma collect_means I o s l s' vs : collect I H o s l = Ok (Some s') -> incl l vs -> Forall (fun v => fine v = true) l -> Forall (an_int P w) (flat_map dividends l) ->
    (o = Or -> Forall (pair_means vs) (co_pairs s)) -> (o = And -> co_pairs s = []) -> (o = Or -> Forall (pair_means vs) (co_pairs s')) /\ (o = And -> co_pairs s' = []).
  Proof.
    revert s. induction l as [|e l IH]; intros s E IL F D A A'; cbn [collect] in E; [injection E as <-; auto|].
    destruct (is_pure_expression I e) eqn:PE; [|discriminate]. destruct (collect_one H o s e) as [s1|] eqn:C; [|discriminate]. cbn [bind] in E.
    inversion F as [|? ? F1 F2]; subst. cbn [flat_map] in D. apply Forall_app in D. destruct D as [D1 D2].
    destruct (collect_one_means I o s e s1 vs C PE (IL e (or_introl eq_refl)) F1 D1 A A') as [B B']. eapply IH; [exact E|intros x J; apply IL; right; exact J|exact F2|exact D2|exact B|exact B'].
  Qed.

  (** ** What is suggested *)
  Lemma items_value its n i j : Forall (fun it => gives P w (it_expr it) (VBool (item_holds it (i mod n) (j mod n)))) its -> 2 <= length its ->
    gives P w (BoolOp Or (map it_expr its)) (VBool (some its (i mod n) (j mod n))).
  Proof.
    intros F L. unfold some. rewrite <- (existsb_map (fun it => item_holds it (i mod n) (j mod n)) its).
    apply (bools_value P w Or (map it_expr its) (map (fun it => item_holds it (i mod n) (j mod n)) its)); [|intro K; apply map_eq_nil in K; subst; cbn in L; lia].
    clear L. induction F as [|it its G F IH]; cbn [map]; constructor; assumption.
  Qed.
  Lemma items_quote vs its : Forall (item_from vs) its -> Forall (fun it => exists r, gives P w (it_expr it) (VBool r)) its -> 2 <= length its ->
    exists es, reads (sep_by [TOr] (map (fun it => as_string (it_expr it)) its)) (BoolOp Or es) /\ Forall2 (agree P w) es (map it_expr its).
  Proof.
    intros F G L. apply (quote_reads P w Or); [|rewrite map_length; exact L]. clear L. induction F as [|it its (_ & FE & PR) F IH]; cbn [map]; [constructor|]. inversion G as [|? ? (r & GV) G']; subst. constructor; [|apply IH; exact G'].
    exists (norm (it_expr it)). destruct (fine_split _ FE) as [WF NN]. split.
    - exists 3. split; [rewrite <- PR; apply round; assumption|]. split; [cbn; lia|]. apply norm_not_items. rewrite PR. cbn. lia.
    - exists r. split; [|exact GV]. unfold gives. rewrite (norm_same _ FE W P w). exact GV.
  Qed.
  Lemma kind_texts p its k : pr_texts p = map (fun it => (as_string (it_expr it), item_kind it)) its -> joined p k = sep_by [TOr] (map (fun it => as_string (it_expr it)) (of_kind k its)).
  Proof.
    intro T. unfold joined. rewrite T. clear T. f_equal. induction its as [|it its IH]; [reflexivity|]. cbn [map filter snd]. unfold of_kind in *. cbn [filter]. destruct (kind_eqb (item_kind it) k); cbn [map fst]; rewrite IH; reflexivity.
  Qed.
  Lemma term_side t z n : term t z -> (0 < n)%Z -> side_of P w (t ++ [TBin Mod] ++ int_text n) (z mod n).
  Proof. intros (e & G & I) N. eapply mod_side; [exact G|lia|exact I|exact N]. Qed.
  Lemma pair_replaces vs p q t : pair_means vs p -> by_equals p = Some (q, t) -> replaces P w Or vs q t.
  Proof.
    intros (its & OK & F) E. pose proof (po_modulo p its OK) as N. set (n := pr_modulo p) in *.
    assert (NE : its <> []).
    { intros ->. unfold by_equals in E. pose proof (po_true p [] OK) as CT. pose proof (po_inequality p [] OK) as CI. fold n in CT, CI.
      destruct (always_true p) eqn:A. { pose proof (always_means p [] OK A 0%Z 0%Z) as K. fold n in K. specialize (K ltac:(lia) ltac:(lia)). discriminate. }
      destruct (has_equality p) eqn:Q. { pose proof (equality_means p [] OK Q 0%Z 0%Z) as K. fold n in K. specialize (K ltac:(lia) ltac:(lia)). discriminate. }
      destruct (has_inequality p) eqn:Q'; [|discriminate]. pose proof (inequality_means p [] OK Q' 0%Z 1%Z) as K. fold n in K. specialize (K ltac:(lia) ltac:(lia)). discriminate. }
    assert (X : exists i j, term (pr_first p) i /\ term (pr_second p) j).
    { destruct its as [|it its]; [congruence|]. inversion F as [|? ? (_ & i & j & T1 & T2 & _) _]; subst. eauto. }
    destruct X as (i & j & T1 & T2).
    assert (FG : Forall (fun it => gives P w (it_expr it) (VBool (item_holds it (i mod n) (j mod n)))) its).
    { eapply Forall_impl; [|exact F]. intros it (_ & i' & j' & U1 & U2 & G). rewrite (term_det _ _ _ T1 U1), (term_det _ _ _ T2 U2). exact G. }
    assert (FF : Forall (item_from vs) its) by (eapply Forall_impl; [|exact F]; intros it (K & _); exact K).
    pose proof (Z.mod_pos_bound i n ltac:(lia)) as BI. pose proof (Z.mod_pos_bound j n ltac:(lia)) as BJ.
    assert (G : forall its' r t', incl its' its -> (forall a, (0 <= a < n)%Z -> exists b, some its' a b = true) -> some its' (i mod n) (j mod n) = r -> holds P w t' r ->
      replaces P w Or vs (sep_by [TOr] (map (fun it => as_string (it_expr it)) its')) t').
    { intros its' r t' IN A R (e & RE & GE). rewrite Forall_forall in FG, FF. pose proof (many p its OK its' IN A) as L.
      assert (FG' : Forall (fun it => gives P w (it_expr it) (VBool (item_holds it (i mod n) (j mod n)))) its') by (apply Forall_forall; intros it I; apply FG, IN, I).
      assert (FF' : Forall (item_from vs) its') by (apply Forall_forall; intros it I; apply FF, IN, I).
      destruct (items_quote vs its' FF') as (es & RQ & FA); [eapply Forall_impl; [|exact FG']; cbv beta; eauto|exact L|].
      exists (map it_expr its'), es, e. split; [|split; [|split; [|split; [|split]]]].
      - intros g I. apply in_map_iff in I. destruct I as (it & <- & I). apply (proj1 (Forall_forall _ _) FF' it I).
      - rewrite map_length. exact L.
      - exact RQ.
      - exact FA.
      - exact RE.
      - exists r. split; [exact GE|]. rewrite <- R. apply items_value; assumption. }
    assert (KI : forall k, incl (of_kind k its) its) by (intros k it I; apply of_kind_in in I; apply I).
    unfold by_equals in E. destruct (always_true p) eqn:A; [|destruct (has_equality p) eqn:Q; [|destruct (has_inequality p) eqn:Q'; [|discriminate]]]; injection E as <- <-.
    - rewrite (po_texts p its OK), map_map. cbn [fst]. apply (G its true); [intros x I; exact I| | |].
      + intros a B. exists 0%Z. apply (always_means p its OK A); [exact B|fold n; lia].
      + apply (always_means p its OK A); assumption.
      + exists (Const (CBool true)). split; [eapply reads_good, good_const|reflexivity].
    - rewrite (kind_texts p its Equality (po_texts p its OK)). apply (G _ (Z.eqb (i mod n) (j mod n))); [apply KI| | |].
      + intros a B. exists a. rewrite (equality_means p its OK Q a a B B). apply Z.eqb_refl.
      + apply (equality_means p its OK Q); assumption.
      + unfold compared. apply part_holds. rewrite !app_assoc. rewrite <- !app_assoc. rewrite (app_assoc (pr_first p)), (app_assoc (pr_first p ++ _)). rewrite <- (app_assoc (pr_first p)).
        apply (compare_part P w Eq _ _ (i mod n) (j mod n)); [apply term_side; [exact T1|lia]|apply term_side; [exact T2|lia]|reflexivity].
    - rewrite (kind_texts p its Inequality (po_texts p its OK)). apply (G _ (negb (Z.eqb (i mod n) (j mod n)))); [apply KI| | |].
      + intros a B. exists (if Z.eqb a 0 then 1 else 0)%Z. rewrite (inequality_means p its OK Q' a _ B) by (fold n; destruct (Z.eqb a 0); lia). destruct (Z.eqb_spec a 0) as [->|K]; [reflexivity|]. destruct (Z.eqb_spec a 0); [congruence|reflexivity].
      + apply (inequality_means p its OK Q'); assumption.
      + unfold compared. apply part_holds. rewrite !app_assoc. rewrite <- !app_assoc. rewrite (app_assoc (pr_first p)), (app_assoc (pr_first p ++ _)). rewrite <- (app_assoc (pr_first p)).
        apply (compare_part P w Ne _ _ (i mod n) (j mod n)); [apply term_side; [exact T1|lia]|apply term_side; [exact T2|lia]|reflexivity].
  Qed.
  Theorem remainders_ok I o vs ms m q t : merge_checks I H o vs = Ok (ms, m) -> List.In (q, t) ms -> Forall (fun v => fine v = true) vs -> Forall (an_int P w) (flat_map dividends vs) ->
    o = Or /\ replaces P w Or vs q t.
  Proof.
    intros E IM F D. unfold merge_checks in E. destruct (collect I H o _ vs) as [s|] eqn:C; [|discriminate]. cbn [bind] in E. destruct s as [s|]; [|injection E as <- _; destruct IM].
    destruct (collect_means I o _ vs s vs C (fun x i => i) F D) as [A A']; [intros _; constructor|intros _; reflexivity|].
    destruct (max_min (co_numbers s) (co_others s) o) as [m'|]; [|discriminate]. cbn [bind] in E. injection E as <- _.
    destruct o; [rewrite (A' eq_refl) in IM; destruct IM|]. split; [reflexivity|]. specialize (A eq_refl). rewrite Forall_forall in A.
    apply in_flat_map in IM. destruct IM as (p & IP & IM). destruct (by_equals p) as [x|] eqn:B; [|destruct IM]. destruct IM as [->|[]]. eapply pair_replaces; [apply A; exact IP|exact B].
  Qed.
End Remainders.
