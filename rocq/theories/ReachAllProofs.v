(** The analysis as a whole. *)
From Coq Require Import String List Bool Arith NArith Lia.
From Verif Require Import Base ReachModel ReachSpec ReachProofs ReachEventProofs.
Import ListNotations.
Local Open Scope list_scope.
Local Open Scope nat_scope.

Lemma reaches_mono (e e' : nat -> nat -> Prop) (d d' : nat -> nat -> Prop) v a b :
  (forall a b, e a b -> e' a b) -> (forall b v, d b v <-> d' b v) -> reaches e d v a b -> reaches e' d' v a b.
Proof.
  intros E D H. induction H as [a b D1 E1|a m b H IH D1 E1].
  - apply reaches_next; [apply D; exact D1 | apply E; exact E1].
  - apply reaches_further with (m := m); [exact IH | intro K; apply D1; apply D; exact K | apply E; exact E1].
Qed.

(** ** From places in the list to blocks *)
Section One.
  Variable order : list nat.
  Variables after_block before_block : nat -> list nat.
  Variables empty reachable : nat -> bool.
  Variable killed_vars : nat -> list nat.
  Hypothesis ok : found_blocks after_block before_block empty reachable order.
  Definition defines_at (b v : nat) : Prop := exists i, nth_error order i = Some b /\ List.In v (killed_vars i).

  Lemma way_blocks v k j : reaches (step order after_block) (def order killed_vars) v k j ->
    exists a b, nth_error order k = Some a /\ nth_error order j = Some b /\ reaches (edge_in after_block order) defines_at v a b.
  Proof.
    intro H. induction H as [k j D (a & b & E1 & E2 & E3)|k m j H IH D (a & b & E1 & E2 & E3)].
    - exists a, b. split; [exact E1|]. split; [exact E2|]. apply reaches_next.
      + exists k. split; [exact E1 | exact (proj2 D)].
      + split; [exact (nth_error_In _ _ E1)|]. split; [exact (nth_error_In _ _ E2) | exact E3].
    - destruct IH as (a' & m' & I1 & I2 & I3). assert (m' = a) by congruence. subst m'. exists a', b. split; [exact I1|]. split; [exact E2|].
      apply reaches_further with (m := a); [exact I3| |].
      + intros (i & K1 & K2). apply D. assert (i = m) by exact (nth_inj order (once _ _ _ _ _ ok) i m a K1 E1). subst i.
        split; [exact (nth_lt order m a E1) | exact K2].
      + split; [exact (nth_error_In _ _ E1)|]. split; [exact (nth_error_In _ _ E2) | exact E3].
  Qed.

  Lemma blocks_way v a b : reaches (edge_in after_block order) defines_at v a b ->
    exists k j, nth_error order k = Some a /\ nth_error order j = Some b /\ reaches (step order after_block) (def order killed_vars) v k j.
  Proof.
    intro H. induction H as [a b D (E1 & E2 & E3)|a m b H IH D (E1 & E2 & E3)].
    - destruct D as (k & K1 & K2). destruct (In_nth_error _ _ E2) as (j & J). exists k, j. split; [exact K1|]. split; [exact J|].
      apply reaches_next; [split; [exact (nth_lt order k a K1) | exact K2] | exists a, b; auto].
    - destruct IH as (k & m' & I1 & I2 & I3). destruct (In_nth_error _ _ E2) as (j & J). exists k, j. split; [exact I1|]. split; [exact J|].
      apply reaches_further with (m := m'); [exact I3| |].
      + intros (K1 & K2). apply D. exists m'. auto.
      + exists m, b. auto.
  Qed.

  Theorem reaching_blocks offset :
    exists c p, (forall fuel, List.length order + List.length order * (List.length (vars order killed_vars) * List.length order) < fuel ->
                  reaching order after_block before_block empty reachable killed_vars offset fuel = Ok (c, p)) /\
      List.length c = List.length order /\ List.length p = List.length order /\ (forall j, NoDup (map fst (nth j p []))) /\
      (forall j v b x, nth_error order j = Some b ->
         (N.testbit (dget (nth j p []) v) x = true <->
          exists k a, nth_error order k = Some a /\ x = N.of_nat (offset + k) /\ reaches (edge_in after_block order) defines_at v a b)) /\
      (forall j v b x, nth_error order j = Some b ->
         (N.testbit (dget (nth j c []) v) x = true <->
          exists k a, nth_error order k = Some a /\ x = N.of_nat (offset + k) /\
            ((k = j /\ defines_at b v) \/ (~ defines_at b v /\ reaches (edge_in after_block order) defines_at v a b)))).
  Proof.
    destruct ok as [O1 O2 O3 O4 O5].
    destruct (reaching_right order after_block before_block empty reachable killed_vars offset O1 O2 O3 O4 O5) as (c & p & R & L1 & L2 & N & B & C).
    assert (W : forall j v b x, nth_error order j = Some b ->
         (N.testbit (dget (nth j p []) v) x = true <->
          exists k a, nth_error order k = Some a /\ x = N.of_nat (offset + k) /\ reaches (edge_in after_block order) defines_at v a b)).
    { intros j v b x J. pose proof (B j v x) as Q. unfold bit in Q. rewrite Q. split.
      - intros (k & K1 & K2 & K3). destruct (way_blocks v k j K3) as (a & b' & W1 & W2 & W3). assert (b' = b) by congruence. subst b'.
        exists k, a. auto.
      - intros (k & a & K1 & K2 & K3). destruct (blocks_way v a b K3) as (k' & j' & W1 & W2 & W3).
        assert (k' = k) by exact (nth_inj order O1 k' k a W1 K1). assert (j' = j) by exact (nth_inj order O1 j' j b W2 J). subst.
        exists k. split; [exact (nth_lt order k a K1)|]. auto. }
    exists c, p. split; [exact R|]. split; [exact L1|]. split; [exact L2|]. split; [exact N|]. split; [exact W|].
    intros j v b x J. pose proof (C j v x (nth_lt order j b J)) as Q. unfold bit in Q. rewrite Q.
    destruct (killed killed_vars j v) eqn:K.
    - apply killed_iff in K. split.
      + intros ->. exists j, b. split; [exact J|]. split; [reflexivity|]. left. split; [reflexivity|]. exists j. auto.
      + intros (k & a & K1 & -> & [(-> & _)|(K3 & _)]); [reflexivity|]. exfalso. apply K3. exists j. auto.
    - assert (ND : ~ defines_at b v).
      { intros (i & I1 & I2). assert (i = j) by exact (nth_inj order O1 i j b I1 J). subst i. apply killed_iff in I2. congruence. }
      rewrite (W j v b x J). split.
      + intros (k & a & K1 & K2 & K3). exists k, a. auto.
      + intros (k & a & K1 & K2 & [(_ & K3)|(_ & K3)]); [contradiction|]. exists k, a. auto.
  Qed.
End One.

(** ** All the graphs *)
Definition ev (i : item) : var_event := match i with InCall e | Own e => e end.
Definition found_of (its : list item) : found := fst (items_of_block its nothing_found (mk_links [] [])).

Lemma one_item_found i f l l' : fst (one_item i f l) = fst (one_item i f l').
Proof.
  unfold one_item. destruct i as [e|e]; destruct (generating e), (killing e), (kill f (variable e)); reflexivity.
Qed.
Lemma items_found its : forall f l l', fst (items_of_block its f l) = fst (items_of_block its f l').
Proof.
  induction its as [|i its IH]; intros f l l'; [reflexivity|]. cbn [items_of_block].
  pose proof (one_item_found i f l l') as E. destruct (one_item i f l) as [f1 l1], (one_item i f l') as [f2 l2]. cbn [fst] in E. subst f2. apply IH.
Qed.
Definition link_block (its : list item) (l : links) : links := snd (items_of_block its nothing_found l).
Lemma items_blocks blocks : forall l, items_of_blocks blocks l = (map found_of blocks, fold_left (fun l its => link_block its l) blocks l).
Proof.
  induction blocks as [|its blocks IH]; intro l; [reflexivity|]. cbn [items_of_blocks map fold_left].
  pose proof (items_found its nothing_found l (mk_links [] [])) as E. fold (found_of its) in E.
  unfold link_block at 2. destruct (items_of_block its nothing_found l) as [f l1]. cbn [fst snd] in *. rewrite IH, E. reflexivity.
Qed.

Section Graphs.
  Variables after_block before_block : nat -> list nat.
  Variables empty reachable : nat -> bool.
  Variable items : nat -> list item.

  Definition defines (b v : nat) : Prop := exists i, List.In i (items b) /\ kills (ev i) v.

  Lemma defined_vars_in its v : List.In v (defined_vars its) <-> exists i, List.In i its /\ kills (ev i) v.
  Proof.
    unfold defined_vars. rewrite nodup_In, in_map_iff. unfold kills. split.
    - intros (e & E & K). apply filter_In in K. destruct K as [K1 K2]. apply in_map_iff in K1. destruct K1 as (i & <- & K1). exists i. auto.
    - intros (i & K & K1 & K2). exists (ev i). split; [exact K2|]. apply filter_In. split; [apply in_map; exact K | exact K1].
  Qed.

  Lemma defines_same order b v : List.In b order ->
    (defines_at order (fun i => defined_vars (items (nth i order 0))) b v <-> defines b v).
  Proof.
    intro H. unfold defines_at. split.
    - intros (i & I1 & I2). rewrite (nth_error_nth _ _ 0 I1) in I2. apply defined_vars_in in I2. exact I2.
    - intro D. destruct (In_nth_error _ _ H) as (i & I). exists i. split; [exact I|]. rewrite (nth_error_nth _ _ 0 I). apply defined_vars_in. exact D.
  Qed.

  Lemma defines_reaches order v a b :
    reaches (edge_in after_block order) (defines_at order (fun i => defined_vars (items (nth i order 0)))) v a b <->
    reaches (edge_in after_block order) defines v a b.
  Proof.
    split; intro H; induction H as [a b D E|a m b H IH D E].
    - apply reaches_next; [|exact E]. apply (defines_same order a v (proj1 E)). exact D.
    - apply reaches_further with (m := m); [exact IH| |exact E]. intro K. apply D. apply (defines_same order m v (proj1 E)). exact K.
    - apply reaches_next; [|exact E]. apply (defines_same order a v (proj1 E)). exact D.
    - apply reaches_further with (m := m); [exact IH| |exact E]. intro K. apply D. apply (defines_same order m v (proj1 E)). exact K.
  Qed.

  (** What a list of results says about the blocks. *)
  Record results (orders : list (list nat)) (offset : nat) (ps : list dict) : Prop := {
    r_ps : List.length ps = List.length (concat orders);
    r_keys : forall i, NoDup (map fst (nth i ps []));
    r_bits : forall i b, nth_error (concat orders) i = Some b -> exists o pre post, orders = pre ++ o :: post /\ List.In b o /\
       forall v x, N.testbit (dget (nth i ps []) v) x = true <->
         exists k a, nth_error o k = Some a /\ x = N.of_nat (offset + List.length (concat pre) + k) /\ reaches (edge_in after_block o) defines v a b }.

  Lemma all_graphs_right : forall orders offset l,
    Forall (found_blocks after_block before_block empty reachable) orders ->
    exists bound cs ps, (forall fuel, bound < fuel ->
        all_graphs after_block before_block empty reachable items fuel offset orders l =
          Ok (map (fun b => found_of (items b)) (concat orders), cs, ps, fold_left (fun l b => link_block (items b) l) (concat orders) l)) /\
      results orders offset ps.
  Proof.
    induction orders as [|order orders IH]; intros offset l F.
    - exists 0, [], []. split; [reflexivity|]. constructor.
      + reflexivity.
      + intro i. destruct i; constructor.
      + intros i b H. destruct i; discriminate H.
    - inversion F as [|? ? F1 F2]; subst.
      destruct (reaching_blocks order after_block before_block empty reachable (fun i => defined_vars (items (nth i order 0))) F1 offset)
        as (c & p & R & L1 & L2 & N & B & _).
      destruct (IH (offset + List.length order) (fold_left (fun l b => link_block (items b) l) order l) F2) as (bound & cs2 & ps2 & R2 & [S2 S4 S5]).
      exists (Nat.max bound (List.length order + List.length order * (List.length (vars order (fun i => defined_vars (items (nth i order 0)))) * List.length order))),
        (c ++ cs2), (p ++ ps2). split.
      + intros fuel FU. cbn [all_graphs]. rewrite items_blocks.
        rewrite R by lia. cbn [bind].
        assert (E : fold_left (fun l its => link_block its l) (map items order) l = fold_left (fun l b => link_block (items b) l) order l).
        { clear. revert l. induction order as [|b o IHo]; intro l; [reflexivity|]. cbn [map fold_left]. apply IHo. }
        rewrite E, R2 by lia. cbn [bind fst snd concat]. rewrite map_app, map_map, fold_left_app. reflexivity.
      + constructor.
        * cbn [concat]. rewrite !app_length. lia.
        * intro i. destruct (lt_dec i (List.length p)) as [L|L].
          -- rewrite app_nth1 by exact L. apply N.
          -- rewrite app_nth2 by lia. apply S4.
        * intros i b H. cbn [concat] in H. destruct (lt_dec i (List.length order)) as [L|L].
          -- rewrite nth_error_app1 in H by exact L. exists order, [], orders. split; [reflexivity|]. split; [exact (nth_error_In _ _ H)|].
             intros v x. rewrite app_nth1 by lia. rewrite (B i v b x H). cbn [concat List.length]. rewrite Nat.add_0_r.
             split; intros (k & a & K1 & K2 & K3); exists k, a; (split; [exact K1|]; split; [exact K2|]); apply defines_reaches; exact K3.
          -- rewrite nth_error_app2 in H by lia. rewrite app_nth2 by lia. rewrite L2. destruct (S5 _ _ H) as (o & pre & post & -> & K & Q).
             exists o, (order :: pre), post. split; [reflexivity|]. split; [exact K|]. intros v x. rewrite Q. cbn [concat]. rewrite app_length.
             replace (offset + (List.length order + List.length (concat pre))) with (offset + List.length order + List.length (concat pre)) by lia. tauto.
  Qed.

  Definition edge_among (orders : list (list nat)) (a b : nat) : Prop := exists o, List.In o orders /\ edge_in after_block o a b.

  Lemma same_order orders o o' (b : nat) : NoDup (concat orders) -> List.In o orders -> List.In o' orders -> List.In b o -> List.In b o' -> o = o'.
  Proof.
    intros N. induction orders as [|x orders IH]; intros H H' K K'; [destruct H|].
    cbn [concat] in N.
    assert (D : forall y, List.In y orders -> List.In b y -> List.In b x -> False).
    { intros y Y1 Y2 Y3. assert (Z : List.In b (concat orders)) by (apply in_concat; exists y; auto).
      revert N Z Y3. clear. induction x as [|z x IH]; cbn; intros N Z K; [destruct K|]; destruct K as [-> | K].
      - inversion N as [|? ? N1 N2]; subst. apply N1. apply in_app_iff. right. exact Z.
      - inversion N as [|? ? N1 N2]; subst. exact (IH N2 Z K). }
    destruct H as [<-|H], H' as [<-|H'].
    - reflexivity.
    - exfalso. exact (D o' H' K' K).
    - exfalso. exact (D o H K K').
    - apply IH; try assumption. clear -N. induction x as [|z x IHx]; [exact N|]. cbn in N. inversion N; subst. apply IHx. assumption.
  Qed.

  Lemma among_one orders o v a b : NoDup (concat orders) -> List.In o orders -> List.In b o ->
    (reaches (edge_in after_block o) defines v a b <-> reaches (edge_among orders) defines v a b).
  Proof.
    intros N O. revert a b. intros a b H. split.
    - intro W. apply (reaches_mono (edge_in after_block o) (edge_among orders) defines defines); [|tauto|exact W]. intros x y E. exists o. auto.
    - intro W. revert H. induction W as [a b D (o' & O' & E)|a m b W IH D (o' & O' & E)]; intro H.
      + assert (o' = o) by exact (same_order orders o' o b N O' O (proj1 (proj2 E)) H). subst o'. apply reaches_next; assumption.
      + assert (o' = o) by exact (same_order orders o' o b N O' O (proj1 (proj2 E)) H). subst o'.
        apply reaches_further with (m := m); [apply IH; exact (proj1 E) | exact D | exact E].
  Qed.

  (** The bits, for all the blocks together. *)
  Lemma bits_among orders ps : NoDup (concat orders) -> results orders 0 ps ->
    forall i b v x, nth_error (concat orders) i = Some b -> (N.testbit (dget (nth i ps []) v) x = true <->
                 exists k a, nth_error (concat orders) k = Some a /\ x = N.of_nat k /\ reaches (edge_among orders) defines v a b).
  Proof.
    intros ND [R2 R4 R5] i b v y H. destruct (R5 i b H) as (o & pre & post & E & OB & Q). rewrite Q. cbn [Nat.add].
    assert (OI : List.In o orders) by (rewrite E; apply in_app_iff; right; left; reflexivity).
    assert (P : forall k a, nth_error o k = Some a -> nth_error (concat orders) (List.length (concat pre) + k) = Some a).
    { intros k a K. rewrite E, concat_app. cbn [concat]. rewrite nth_error_app2 by lia. rewrite Nat.add_comm, Nat.add_sub.
      rewrite nth_error_app1; [exact K | apply nth_error_Some; congruence]. }
    split.
    - intros (k & a & K1 & K2 & K3). exists (List.length (concat pre) + k), a. split; [exact (P k a K1)|]. split; [exact K2|].
      apply (among_one orders o v a b ND OI OB). exact K3.
    - intros (k & a & K1 & K2 & K3). apply (among_one orders o v a b ND OI OB) in K3.
      assert (OA : List.In a o) by (destruct K3 as [? ? _ EE|? m ? W _ _]; [exact (proj1 EE)|]; clear -W; induction W as [? ? _ EE|]; [exact (proj1 EE) | assumption]).
      destruct (In_nth_error _ _ OA) as (k' & K'). exists k', a. split; [exact K'|]. split; [|exact K3]. rewrite K2. f_equal.
      assert (LK : k < List.length (concat orders)) by (apply nth_error_Some; congruence).
      apply (proj1 (NoDup_nth_error (concat orders)) ND k _ LK). rewrite K1, (P k' a K'). reflexivity.
  Qed.

  Lemma combine_nth_error {A B} (l : list A) (m : list B) i x y : nth_error l i = Some x -> nth_error m i = Some y -> nth_error (combine l m) i = Some (x, y).
  Proof. revert m i. induction l as [|a l IH]; intros [|b m] [|i] H K; try discriminate; cbn in *; [congruence | apply IH; assumption]. Qed.

  Notation fs orders := (map (fun b => found_of (items b)) (concat orders)).

  (** Links between blocks. *)
  Lemma block_links orders ps sel x : NoDup (concat orders) -> results orders 0 ps ->
    (exists f parent, List.In (f, parent) (combine (fs orders) ps) /\ block_link (fs orders) sel f parent x) <->
    exists a b v u d, x = (u, d) /\ List.In b (concat orders) /\ reaches (edge_among orders) defines v a b /\ sel (found_of (items b)) v u /\
      exists last gs, rev (kill (found_of (items a)) v) = last :: gs /\ List.In d last.
  Proof.
    intros ND RES. pose proof RES as [R2 R4 R5]. pose proof (bits_among orders ps ND RES) as BI. split.
    - intros (f & parent & FP & (v & val & k & u & d & -> & H1 & H2 & (g & gs & last & G1 & G2 & G3) & H4)).
      destruct (In_nth_error _ _ FP) as (i & I0).
      assert (LI : i < List.length (concat orders)).
      { assert (i < List.length (combine (fs orders) ps)) by (apply nth_error_Some; congruence). rewrite combine_length in H. lia. }
      destruct (nth_error (concat orders) i) as [b|] eqn:EB; [|apply nth_error_None in EB; lia].
      assert (LP : nth_error ps i = Some (nth i ps [])) by (apply nth_error_nth'; lia).
      assert (LF : nth_error (fs orders) i = Some (found_of (items b))) by (exact (map_nth_error _ _ _ EB)).
      rewrite (combine_nth_error (fs orders) ps i _ _ LF LP) in I0.
      assert (found_of (items b) = f /\ nth i ps [] = parent) as [<- EP] by (split; congruence).
      assert (T : N.testbit (dget (nth i ps []) v) (N.of_nat k) = true).
      { rewrite (dget_in _ v val (R4 i)); [exact H2 | rewrite EP; exact H1]. }
      apply (BI i b v _ EB) in T. destruct T as (k' & a & T1 & T2 & T3). assert (k' = k) by lia. subst k'.
      assert (LA : nth_error (fs orders) k = Some (found_of (items a))) by (exact (map_nth_error _ _ _ T1)).
      assert (g = found_of (items a)) by congruence. subst g.
      exists a, b, v, u, d. split; [reflexivity|]. split; [exact (nth_error_In _ _ EB)|]. split; [exact T3|]. split; [exact H4|]. exists last, gs. auto.
    - intros (a & b & v & u & d & -> & B & W & S & (last & gs & G1 & G2)).
      destruct (In_nth_error _ _ B) as (i & EB).
      assert (LI : i < List.length (concat orders)) by (apply nth_error_Some; congruence).
      assert (LP : nth_error ps i = Some (nth i ps [])) by (apply nth_error_nth'; lia).
      assert (LF : nth_error (fs orders) i = Some (found_of (items b))) by (exact (map_nth_error _ _ _ EB)).
      exists (found_of (items b)), (nth i ps []). split; [exact (nth_error_In _ _ (combine_nth_error (fs orders) ps i _ _ LF LP))|].
      assert (AIN : List.In a (concat orders)).
      { clear -W. induction W as [a b _ (o & O & EE)|]; [|assumption]. apply in_concat. exists o. split; [exact O | exact (proj1 EE)]. }
      destruct (In_nth_error _ _ AIN) as (k & K).
      assert (T : N.testbit (dget (nth i ps []) v) (N.of_nat k) = true) by (apply (BI i b _ _ EB); exists k, a; auto).
      exists v, (dget (nth i ps []) v), k, u, d. split; [reflexivity|]. split.
      { apply in_dget. destruct (in_dec Nat.eq_dec v (map fst (nth i ps []))) as [Z|Z]; [exact Z|].
        rewrite (dget_missing _ _ Z), N.bits_0 in T. discriminate T. }
      split; [exact T|]. split; [|exact S]. exists (found_of (items a)), gs, last. split; [exact (map_nth_error _ _ _ K)|]. auto.
  Qed.

  Lemma reaches_defines edge def v a b : reaches edge def v a b -> def a v.
  Proof. induction 1; assumption. Qed.

  (** All the links. *)
  Lemma all_links orders :
    Forall (found_blocks after_block before_block empty reachable) orders -> NoDup (concat orders) ->
    (forall b v, defines b v -> kill (found_of (items b)) v <> []) ->
    exists bound l, (forall fuel, bound < fuel ->
        collect_reaching_definitions after_block before_block empty reachable items fuel orders = Ok l) /\
      let l0 := fold_left (fun l b => link_block (items b) l) (concat orders) (mk_links [] []) in
      let far sel x := exists a b v u d, x = (u, d) /\ List.In b (concat orders) /\ reaches (edge_among orders) defines v a b /\ sel (found_of (items b)) v u /\
         exists last gs, rev (kill (found_of (items a)) v) = last :: gs /\ List.In d last in
      (forall x, List.In x (definitions l) <-> List.In x (definitions l0) \/ far (fun f v u => List.In u (gens f v)) x) /\
      (forall x, List.In x (redefines l) <-> List.In x (redefines l0) \/ far first_of x).
  Proof.
    intros F ND K. destruct (all_graphs_right orders 0 (mk_links [] []) F) as (bound & cs & ps & R & RES).
    pose proof RES as [R2 R4 R5].
    set (l0 := fold_left (fun l b => link_block (items b) l) (concat orders) (mk_links [] [])) in *.
    destruct (connect_events_right (fs orders) (combine (fs orders) ps) l0) as (l & C & C1 & C2).
    { intros f parent v val k FP H1 H2. destruct (In_nth_error _ _ FP) as (i & I0).
      assert (LI : i < List.length (concat orders)).
      { assert (i < List.length (combine (fs orders) ps)) by (apply nth_error_Some; congruence). rewrite combine_length in H. lia. }
      destruct (nth_error (concat orders) i) as [b|] eqn:EB; [|apply nth_error_None in EB; lia].
      assert (LP : nth_error ps i = Some (nth i ps [])) by (apply nth_error_nth'; lia).
      assert (LF : nth_error (fs orders) i = Some (found_of (items b))) by (exact (map_nth_error _ _ _ EB)).
      rewrite (combine_nth_error (fs orders) ps i _ _ LF LP) in I0. assert (EP : nth i ps [] = parent) by congruence.
      assert (T : N.testbit (dget (nth i ps []) v) (N.of_nat k) = true).
      { rewrite (dget_in _ v val (R4 i)); [exact H2 | rewrite EP; exact H1]. }
      apply (bits_among orders ps ND RES i b v _ EB) in T. destruct T as (k' & a & T1 & T2 & T3). assert (k' = k) by lia. subst k'.
      exists (found_of (items a)). split; [exact (map_nth_error _ _ _ T1)|]. apply K. exact (reaches_defines _ _ _ _ _ T3). }
    exists bound, l. split; [intros fuel FU; unfold collect_reaching_definitions; rewrite (R fuel FU); exact C|].
    cbv zeta. split; intro x; [rewrite C1 | rewrite C2]; rewrite (block_links orders ps _ x ND RES); reflexivity.
  Qed.
End Graphs.

(** ** Without calls *)
Section Exact.
  Variables after_block before_block : nat -> list nat.
  Variables empty reachable : nat -> bool.
  Variable events : nat -> list var_event.
  Notation items := (fun b => map Own (events b)).
  Hypothesis names : forall b b' e e', List.In e (events b) -> List.In e' (events b') -> name e = name e' -> e = e'.
  Notation edges orders := (edge_among after_block orders).
  Notation spec orders := (arrives var_event (edges orders) events kills).

  Definition world (e : var_event) : Prop := exists b, List.In e (events b).
  Lemma world_names e e' : world e -> world e' -> name e = name e' -> e = e'.
  Proof. intros (b & B) (b' & B'). exact (names b b' e e' B B'). Qed.
  Lemma world_events b : Forall world (events b).
  Proof. apply Forall_forall. intros e E. exists b. exact E. Qed.

  Lemma found_state b : state_of (found_of (items b)) (events b).
  Proof.
    unfold found_of. destruct (items_of_block (items b) nothing_found (mk_links [] [])) as [f l] eqn:E.
    destruct (own_items world world_names (events b) [] nothing_found (mk_links [] []) f l) as (A & _);
      [exact state_nothing | intros u d [] | intros u d [] | apply world_events | constructor | exact E | exact A].
  Qed.

  Lemma own_links bs : forall l, inside world (definitions l) -> inside world (redefines l) ->
    let l' := fold_left (fun l b => link_block (items b) l) bs l in
    (forall x, List.In x (definitions l') <-> List.In x (definitions l) \/ exists b, List.In b bs /\ link_of generating [] (events b) x) /\
    (forall x, List.In x (redefines l') <-> List.In x (redefines l) \/ exists b, List.In b bs /\ link_of killing [] (events b) x).
  Proof.
    induction bs as [|b bs IH]; intros l ID IR l'.
    - cbn in l'. subst l'. split; intro x; (split; [tauto | intros [K|(b & [] & _)]; exact K]).
    - destruct (items_of_block (items b) nothing_found l) as [f l1] eqn:E.
      assert (LB : link_block (items b) l = l1) by (unfold link_block; rewrite E; reflexivity).
      destruct (own_items world world_names (events b) [] nothing_found l f l1 state_nothing ID IR (world_events b) (Forall_nil _) E) as (_ & A2 & A3 & A4 & A5).
      destruct (IH l1 A2 A3) as [I1 I2].
      unfold l'. cbn [fold_left]. rewrite LB. split; intro x; [rewrite I1, A4 | rewrite I2, A5]; split.
      + intros [[K|K]|(y & K1 & K2)]; [left; exact K | right; exists b; split; [left; reflexivity | exact K] | right; exists y; split; [right; exact K1 | exact K2]].
      + intros [K|(y & [<-|K1] & K2)]; [left; left; exact K | left; right; exact K2 | right; exists y; auto].
      + intros [[K|K]|(y & K1 & K2)]; [left; exact K | right; exists b; split; [left; reflexivity | exact K] | right; exists y; split; [right; exact K1 | exact K2]].
      + intros [K|(y & [<-|K1] & K2)]; [left; left; exact K | left; right; exact K2 | right; exists y; auto].
  Qed.

  Lemma defines_events b v : defines items b v <-> exists e, List.In e (events b) /\ kills e v.
  Proof.
    unfold defines. split.
    - intros (i & I & K). apply in_map_iff in I. destruct I as (e & <- & I). exists e. auto.
    - intros (e & I & K). exists (Own e). split; [apply in_map; exact I | exact K].
  Qed.

  Lemma first_of_state f es v u : state_of f es ->
    (first_of f v u <-> exists p, nth_error es p = Some u /\ killing u = true /\ variable u = v /\ kills_of v (firstn p es) = []).
  Proof.
    intro ST. unfold first_of. rewrite (s_kill _ _ ST). clear. split.
    - intros (first & gs & H & K). destruct (kills_of v es) as [|e ks] eqn:E; [discriminate H|]. cbn in H. assert (first = [e]) by congruence. subst first.
      destruct K as [->|[]]. clear H. revert u ks E. induction es as [|e0 es IH]; intros u ks E; [discriminate E|].
      unfold kills_of in E. cbn [filter] in E. destruct (killsb v e0) eqn:KB.
      + assert (e0 = u) by congruence. subst e0. exists 0. apply killsb_iff in KB. destruct KB. cbn. auto.
      + destruct (IH u ks E) as (p & P1 & P2 & P3 & P4). exists (S p). split; [exact P1|]. split; [exact P2|]. split; [exact P3|].
        cbn [firstn]. unfold kills_of. cbn [filter]. rewrite KB. exact P4.
    - intros (p & P1 & P2 & P3 & P4). assert (KB : killsb v u = true) by (apply killsb_iff; split; assumption).
      assert (E : exists ks, kills_of v es = u :: ks).
      { revert p P1 P4. induction es as [|e0 es IH]; intros [|p] P1 P4; try discriminate P1.
        - cbn in P1. assert (e0 = u) by congruence. subst e0. unfold kills_of. cbn [filter]. rewrite KB. eexists. reflexivity.
        - unfold kills_of in P4 |- *. cbn [firstn filter] in P4 |- *. destruct (killsb v e0); [discriminate P4|]. exact (IH p P1 P4). }
      destruct E as (ks & E). rewrite E. cbn [map]. exists [u], (map (fun e => [e]) ks). split; [reflexivity | left; reflexivity].
  Qed.

  Lemma last_group f es v d : state_of f es ->
    ((exists last gs, rev (kill f v) = last :: gs /\ List.In d last) <-> exists l, kills_of v es = l ++ [d]).
  Proof.
    intro ST. rewrite (s_kill _ _ ST). split.
    - intros (last & gs & G2 & G3). destruct (kills_of v es) as [|e ks _] using rev_ind; [discriminate G2|]. rewrite map_app, rev_app_distr in G2. cbn in G2.
      assert (last = [e]) by congruence. subst last. destruct G3 as [->|[]]. exists ks. reflexivity.
    - intros (l & ->). exists [d], (rev (map (fun e => [e]) l)). rewrite map_app, rev_app_distr. split; [reflexivity | left; reflexivity].
  Qed.

  Lemma both_links orders sel (sel_at : found -> nat -> var_event -> Prop) u d :
    (forall f es v u, state_of f es -> (sel_at f v u <-> exists p, nth_error es p = Some u /\ sel u = true /\ variable u = v /\ kills_of v (firstn p es) = [])) ->
    ((exists b, List.In b (concat orders) /\ link_of sel [] (events b) (u, d)) \/
     (exists a b v u' d', (u, d) = (u', d') /\ List.In b (concat orders) /\ reaches (edges orders) (defines items) v a b /\ sel_at (found_of (items b)) v u' /\
         exists last gs, rev (kill (found_of (items a)) v) = last :: gs /\ List.In d' last)) <->
    exists b p, List.In b (concat orders) /\ nth_error (events b) p = Some u /\ sel u = true /\ spec orders (variable u) d b p.
  Proof.
    intro SEL.
    assert (RD : forall v a b, reaches (edges orders) (defines items) v a b <-> reaches (edges orders) (fun b v => exists e, List.In e (events b) /\ kills e v) v a b).
    { intros v a b. split; apply reaches_mono; try tauto; intros b0 v0; rewrite defines_events; tauto. }
    split.
    - intros [(b & B1 & (p & u' & d' & E & H1 & H2 & H3))|(a & b & v & u' & d' & E & B & W & S & L)].
      + assert (u' = u /\ d' = d) as [-> ->] by (split; congruence). exists b, p. split; [exact B1|]. split; [exact H1|]. split; [exact H2|].
        cbn [app] in H3. apply last_kill in H3. destruct H3 as (x1 & x2 & Q & D & U). exists x1, x2. split; [exact D|]. split; [exact U|]. left. exact Q.
      + assert (u' = u /\ d' = d) as [-> ->] by (split; congruence).
        apply (SEL _ _ v u (found_state b)) in S. destruct S as (p & P1 & P2 & P3 & P4). exists b, p. split; [exact B|]. split; [exact P1|]. split; [exact P2|].
        apply (last_group _ _ v d (found_state a)) in L. apply last_kill in L. destruct L as (x1 & x2 & Q & D & U). exists x1, x2. rewrite P3.
        split; [exact D|]. split; [exact U|]. right. exists a. split; [apply RD; exact W|]. split; [exact Q|]. apply kills_of_nil. exact P4.
    - intros (b & p & B & H1 & H2 & (x1 & x2 & D & U & [E|(a & W & E & UP)])).
      + left. exists b. split; [exact B|]. exists p, u, d. split; [reflexivity|]. split; [exact H1|]. split; [exact H2|]. cbn [app].
        apply last_kill. exists x1, x2. auto.
      + right. exists a, b, (variable u), u, d. split; [reflexivity|]. split; [exact B|]. split; [apply RD; exact W|]. split.
        * apply (SEL _ _ (variable u) u (found_state b)). exists p. split; [exact H1|]. split; [exact H2|]. split; [reflexivity|]. apply kills_of_nil. exact UP.
        * apply (last_group _ _ (variable u) d (found_state a)). apply last_kill. exists x1, x2. auto.
  Qed.

  Theorem links_right orders :
    Forall (found_blocks after_block before_block empty reachable) orders -> NoDup (concat orders) ->
    exists bound l, (forall fuel, bound < fuel ->
        collect_reaching_definitions after_block before_block empty reachable items fuel orders = Ok l) /\
      (forall u d, List.In (u, d) (definitions l) <->
         exists b p, List.In b (concat orders) /\ nth_error (events b) p = Some u /\ generating u = true /\ spec orders (variable u) d b p) /\
      (forall u d, List.In (u, d) (redefines l) <->
         exists b p, List.In b (concat orders) /\ nth_error (events b) p = Some u /\ killing u = true /\ spec orders (variable u) d b p).
  Proof.
    intros F ND. destruct (all_links after_block before_block empty reachable items orders F ND) as (bound & l & R & C).
    { intros b v D. rewrite (s_kill _ _ (found_state b)). apply defines_events in D. destruct D as (e & E1 & E2).
      assert (KI : List.In e (kills_of v (events b))) by (apply filter_In; split; [exact E1 | apply killsb_iff; exact E2]).
      destruct (kills_of v (events b)); [destruct KI | discriminate]. }
    cbv zeta in C. destruct C as [C1 C2].
    destruct (own_links (concat orders) (mk_links [] [])) as [D1 D2]; [intros u d [] | intros u d []|].
    exists bound, l. split; [exact R|]. split; intros u d.
    - rewrite C1, D1. rewrite <- (both_links orders generating (fun f v u => List.In u (gens f v)) u d (fun f es v u' ST => s_gens f es ST v u')).
      cbn [definitions List.In]. tauto.
    - rewrite C2, D2. rewrite <- (both_links orders killing first_of u d first_of_state). cbn [redefines List.In]. tauto.
  Qed.
End Exact.

(** The same in terms of the types of events. *)
Lemma arrives_mono edge edge' events (k k' : var_event -> nat -> Prop) v d b p :
  (forall a b, edge a b <-> edge' a b) -> (forall e v, k e v <-> k' e v) -> arrives var_event edge events k v d b p -> arrives var_event edge' events k' v d b p.
Proof.
  intros E K (x1 & x2 & D & U & A). exists x1, x2. split; [apply K; exact D|].
  assert (UU : forall l, untouched var_event k v l -> untouched var_event k' v l) by (intros l H e I Z; apply (H e I); apply K; exact Z).
  split; [exact (UU x2 U)|]. destruct A as [A|(a & A1 & A2 & A3)]; [left; exact A|]. right. exists a. split; [|split; [exact A2 | exact (UU _ A3)]].
  apply (reaches_mono edge edge' (fun b v => exists e, List.In e (events b) /\ k e v) _ v a b); [intros x y; apply E| |exact A1].
  intros b0 v0. split; intros (e & I & Z); exists e; (split; [exact I | apply K; exact Z]).
Qed.
Lemma kills_kind e v : kills e v <-> kind e <> Read /\ variable e = v.
Proof. unfold kills, killing. destruct (kind e); intuition congruence. Qed.
Lemma generating_kind e : generating e = true <-> kind e = Read \/ kind e = Modify.
Proof. unfold generating. destruct (kind e); intuition congruence. Qed.
Lemma killing_kind e : killing e = true <-> kind e <> Read.
Proof. unfold killing. destruct (kind e); intuition congruence. Qed.
Lemma links_by_kind : forall after_block before_block empty reachable events,
  (forall b b' e e', List.In e (events b) -> List.In e' (events b') -> name e = name e' -> e = e') -> forall orders,
  Forall (found_blocks after_block before_block empty reachable) orders -> NoDup (concat orders) ->
  exists bound l, (forall fuel, bound < fuel ->
      collect_reaching_definitions after_block before_block empty reachable (fun b => map Own (events b)) fuel orders = Ok l) /\
    (forall u d, List.In (u, d) (definitions l) <->
       exists b p, List.In b (concat orders) /\ nth_error (events b) p = Some u /\ (kind u = Read \/ kind u = Modify) /\
         arrives var_event (fun a b => exists o, List.In o orders /\ edge_in after_block o a b) events (fun e v => kind e <> Read /\ variable e = v) (variable u) d b p) /\
    (forall u d, List.In (u, d) (redefines l) <->
       exists b p, List.In b (concat orders) /\ nth_error (events b) p = Some u /\ kind u <> Read /\
         arrives var_event (fun a b => exists o, List.In o orders /\ edge_in after_block o a b) events (fun e v => kind e <> Read /\ variable e = v) (variable u) d b p).
Proof.
  intros after_block before_block empty reachable events N orders F ND.
  destruct (links_right after_block before_block empty reachable events N orders F ND) as (bound & l & R & D1 & D2). exists bound, l. split; [exact R|].
  split; intros u d; [rewrite D1 | rewrite D2]; split; intros (b & p & H1 & H2 & H3 & H4); exists b, p; (split; [exact H1|]; split; [exact H2|]).
  - split; [apply generating_kind; exact H3|]. revert H4. apply arrives_mono; [intros; reflexivity | apply kills_kind].
  - split; [apply generating_kind; exact H3|]. revert H4. apply arrives_mono; [intros; reflexivity | intros e v; symmetry; apply kills_kind].
  - split; [apply killing_kind; exact H3|]. revert H4. apply arrives_mono; [intros; reflexivity | apply kills_kind].
  - split; [apply killing_kind; exact H3|]. revert H4. apply arrives_mono; [intros; reflexivity | intros e v; symmetry; apply kills_kind].
Qed.
