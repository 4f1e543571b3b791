(** The analysis of reaching definitions ends and finds exactly the blocks whose definitions reach a block. *)
From Coq Require Import String List Bool Arith NArith Lia.
From Verif Require Import Base ReachModel ReachSpec.
Import ListNotations.
Local Open Scope list_scope.
Local Open Scope nat_scope.

(** ** Dictionaries and lists *)
Lemma dget_dset d v x w : dget (dset d v x) w = if Nat.eqb w v then x else dget d w.
Proof.
  induction d as [|[u y] d IH]; cbn [dset dget].
  - destruct (Nat.eqb w v); reflexivity.
  - destruct (Nat.eqb v u) eqn:E; cbn [dget].
    + apply Nat.eqb_eq in E. subst u. destruct (Nat.eqb w v); reflexivity.
    + rewrite IH. destruct (Nat.eqb w u) eqn:E2; [|reflexivity].
      apply Nat.eqb_eq in E2. subst u. destruct (Nat.eqb w v) eqn:E3; [|reflexivity].
      apply Nat.eqb_eq in E3. subst w. rewrite Nat.eqb_refl in E. discriminate E.
Qed.

Lemma keys_dset d v x : forall w, List.In w (map fst (dset d v x)) <-> w = v \/ List.In w (map fst d).
Proof.
  induction d as [|[u y] d IH]; intro w; cbn [dset map fst].
  - cbn. intuition congruence.
  - destruct (Nat.eqb v u) eqn:E; cbn [map fst].
    + apply Nat.eqb_eq in E. subst u. cbn. intuition congruence.
    + cbn [List.In]. rewrite IH. tauto.
Qed.

Lemma nodup_dset d v x : NoDup (map fst d) -> NoDup (map fst (dset d v x)).
Proof.
  induction d as [|[u y] d IH]; intro H; cbn [dset map fst].
  - constructor; [intros [] | constructor].
  - cbn [map fst] in H. inversion H as [|? ? H1 H2]; subst. destruct (Nat.eqb v u) eqn:E; cbn [map fst].
    + constructor; assumption.
    + constructor; [|exact (IH H2)]. rewrite keys_dset. intros [->|K]; [|exact (H1 K)].
      rewrite Nat.eqb_refl in E. discriminate E.
Qed.

Lemma dget_missing d v : ~ List.In v (map fst d) -> dget d v = 0%N.
Proof.
  induction d as [|[u y] d IH]; cbn; [reflexivity|]. intro H. destruct (Nat.eqb v u) eqn:E.
  - apply Nat.eqb_eq in E. subst. exfalso. apply H. left. reflexivity.
  - apply IH. tauto.
Qed.

Lemma dget_in d v x : NoDup (map fst d) -> List.In (v, x) d -> dget d v = x.
Proof.
  induction d as [|[u y] d IH]; intros H K; [destruct K|].
  cbn [map fst] in H. inversion H as [|? ? H1 H2]; subst. cbn [dget]. destruct K as [K|K].
  - assert (u = v /\ y = x) as [-> ->] by (split; congruence). rewrite Nat.eqb_refl. reflexivity.
  - destruct (Nat.eqb v u) eqn:E; [|exact (IH H2 K)].
    apply Nat.eqb_eq in E. subst. exfalso. apply H1. apply in_map_iff. exists (u, x). split; [reflexivity | exact K].
Qed.

Lemma in_dget d v : List.In v (map fst d) -> List.In (v, dget d v) d.
Proof.
  induction d as [|[u y] d IH]; intros K; [destruct K|]. cbn [dget map fst List.In] in *.
  destruct (Nat.eqb v u) eqn:E.
  - apply Nat.eqb_eq in E. subst. left. reflexivity.
  - destruct K as [K|K]; [subst; rewrite Nat.eqb_refl in E; discriminate E|]. right. exact (IH K).
Qed.

Lemma length_set_nth {A} i (x : A) l : List.length (set_nth i x l) = List.length l.
Proof. revert i. induction l; intros [|i]; cbn; auto. Qed.

Lemma nth_set_nth {A} i j (x d : A) l : i < List.length l -> nth j (set_nth i x l) d = if Nat.eqb j i then x else nth j l d.
Proof.
  revert i j. induction l as [|y l IH]; intros i j H; [cbn in H; lia|].
  destruct i as [|i], j as [|j]; cbn [set_nth nth Nat.eqb]; try reflexivity. apply IH. cbn in H. lia.
Qed.

Lemma get_ok {A} (l : list A) i d : i < List.length l -> get l i = Ok (nth i l d).
Proof. intro H. unfold get. rewrite (nth_error_nth' l d H). reflexivity. Qed.

Lemma filter_le {A} (f g : A -> bool) l : (forall a, f a = true -> g a = true) -> List.length (filter f l) <= List.length (filter g l).
Proof.
  intro H. induction l as [|a l IH]; cbn; [lia|]. destruct (f a) eqn:E.
  - rewrite (H a E). cbn. lia.
  - destruct (g a); cbn; lia.
Qed.

Lemma filter_lt {A} (f g : A -> bool) l a :
  (forall a, f a = true -> g a = true) -> List.In a l -> f a = false -> g a = true -> List.length (filter f l) < List.length (filter g l).
Proof.
  intros H. induction l as [|b l IH]; intros K F G; [destruct K|].
  pose proof (filter_le f g l H) as L. cbn. destruct K as [->|K].
  - rewrite F, G. cbn. lia.
  - specialize (IH K F G). destruct (f b) eqn:E; [rewrite (H b E); cbn; lia | destruct (g b); cbn; lia].
Qed.

Definition has (d : dict) (v : nat) (x : N) : bool := existsb (fun e => Nat.eqb v (fst e) && N.testbit (snd e) x) d.

Lemma or_all_bit d : forall r v x, N.testbit (dget (or_all r d) v) x = N.testbit (dget r v) x || has d v x.
Proof.
  induction d as [|[u y] d IH]; intros r v x; cbn [has existsb fst snd].
  - rewrite orb_false_r. reflexivity.
  - unfold or_all. cbn [fold_left fst snd]. fold (or_all (dset r u (N.lor (dget r u) y)) d). rewrite IH, dget_dset. fold (has d v x).
    destruct (Nat.eqb v u) eqn:E; cbn [andb orb]; [|reflexivity].
    apply Nat.eqb_eq in E. subst u. rewrite N.lor_spec. rewrite orb_assoc. reflexivity.
Qed.

Lemma or_all_nodup d : forall r, NoDup (map fst r) -> NoDup (map fst (or_all r d)).
Proof.
  induction d as [|[u y] d IH]; intros r H; [exact H|].
  unfold or_all. cbn [fold_left fst snd]. fold (or_all (dset r u (N.lor (dget r u) y)) d). apply IH. apply nodup_dset. exact H.
Qed.

Lemma bit_one k x : N.testbit (N.shiftl 1 (N.of_nat k)) x = N.eqb x (N.of_nat k).
Proof.
  rewrite N.shiftl_1_l, N.pow2_bits_eqb. apply N.eqb_sym.
Qed.

Section Proofs.
  Variable order : list nat.
  Variables after_block before_block : nat -> list nat.
  Variables empty reachable : nat -> bool.
  Variable killed_vars : nat -> list nat.
  Variable offset : nat.
  Notation n := (List.length order).

  Hypothesis order_nodup : NoDup order.
  Hypothesis order_full : forall b, List.In b order -> empty b = false.
  Hypothesis closed : forall b t, List.In b order -> List.In t (after_block b) -> empty t = false -> List.In t order.
  Hypothesis into : forall b p, List.In b order -> List.In p (before_block b) -> reachable p = true -> List.In p order /\ List.In b (after_block p).
  Hypothesis outof : forall b t, List.In b order -> List.In t order -> List.In t (after_block b) -> List.In b (before_block t) /\ reachable b = true.

  Notation killed := (killed killed_vars).
  Notation index := (index order).
  Definition step (i j : nat) : Prop := exists a b, nth_error order i = Some a /\ nth_error order j = Some b /\ List.In b (after_block a).
  Definition def (i v : nat) : Prop := i < n /\ List.In v (killed_vars i).
  Notation way := (reaches step def).

  Lemma killed_iff i v : killed i v = true <-> List.In v (killed_vars i).
  Proof.
    unfold ReachModel.killed. rewrite existsb_exists. split.
    - intros (w & K & E). apply Nat.eqb_eq in E. subst. exact K.
    - intro K. exists v. split; [exact K | apply Nat.eqb_refl].
  Qed.

  Lemma index_from_some l b : forall k, List.In b l -> exists i, index_from k l b = Ok (k + i) /\ nth_error l i = Some b.
  Proof.
    induction l as [|c l IH]; intros k H; [destruct H|]. cbn [index_from].
    destruct (Nat.eqb b c) eqn:E.
    - apply Nat.eqb_eq in E. subst c. exists 0. rewrite Nat.add_0_r. split; reflexivity.
    - destruct H as [->|H]; [rewrite Nat.eqb_refl in E; discriminate E|].
      destruct (IH (S k) H) as (i & E1 & E2). exists (S i). rewrite E1. split; [f_equal; lia | exact E2].
  Qed.

  Lemma index_some b : List.In b order -> exists i, index b = Ok i /\ nth_error order i = Some b.
  Proof. intro H. destruct (index_from_some order b 0 H) as (i & E1 & E2). exists i. split; [exact E1 | exact E2]. Qed.

  Lemma nth_lt i (b : nat) : nth_error order i = Some b -> i < n.
  Proof. intro H. apply nth_error_Some. rewrite H. discriminate. Qed.

  Lemma nth_inj i j b : nth_error order i = Some b -> nth_error order j = Some b -> i = j.
  Proof.
    intros H K. apply (proj1 (NoDup_nth_error order) order_nodup i j (nth_lt i b H)). rewrite H, K. reflexivity.
  Qed.

  Definition bit (p : list dict) (j v : nat) (x : N) : bool := N.testbit (dget (nth j p []) v) x.
  Definition vars : list nat := flat_map killed_vars (seq 0 n).
  Definition places : list (nat * (nat * nat)) := list_prod (seq 0 n) (list_prod vars (seq 0 n)).
  Definition measure (p : list dict) : nat :=
    List.length (filter (fun a => negb (bit p (fst a) (fst (snd a)) (N.of_nat (offset + snd (snd a))))) places).

  Lemma def_vars i v : def i v -> List.In v vars.
  Proof. intros (H & K). apply in_flat_map. exists i. split; [apply in_seq; lia | exact K]. Qed.

  Lemma in_places j v k : j < n -> List.In v vars -> k < n -> List.In (j, (v, k)) places.
  Proof. intros. repeat (apply in_prod); try assumption; apply in_seq; lia. Qed.

  Lemma measure_le p p' : (forall j v x, bit p j v x = true -> bit p' j v x = true) -> measure p' <= measure p.
  Proof.
    intro H. apply filter_le. intros (j & v & k). cbn [fst snd]. intro E. apply negb_true_iff in E. apply negb_true_iff.
    destruct (bit p j v (N.of_nat (offset + k))) eqn:F; [|reflexivity]. apply H in F. congruence.
  Qed.

  Lemma measure_lt p p' j v k :
    (forall j v x, bit p j v x = true -> bit p' j v x = true) ->
    j < n -> List.In v vars -> k < n -> bit p j v (N.of_nat (offset + k)) = false -> bit p' j v (N.of_nat (offset + k)) = true ->
    measure p' < measure p.
  Proof.
    intros H J V K E F. apply filter_lt with (a := (j, (v, k))).
    - intros (j' & v' & k'). cbn [fst snd]. intro G. apply negb_true_iff in G. apply negb_true_iff.
      destruct (bit p j' v' (N.of_nat (offset + k'))) eqn:F'; [|reflexivity]. apply H in F'. congruence.
    - exact (in_places j v k J V K).
    - cbn [fst snd]. rewrite F. reflexivity.
    - cbn [fst snd]. rewrite E. reflexivity.
  Qed.

  (** ** The parts of a round *)
  Lemma update_right i d : forall c u,
    NoDup (map fst d) ->
    let r := fold_left (fun (acc : dict * dict) (vx : nat * N) =>
                 if negb (N.eqb (dget (fst acc) (fst vx)) (snd vx)) && negb (killed i (fst vx))
                 then (dset (fst acc) (fst vx) (snd vx), snd acc ++ [vx]) else acc) d (c, u) in
    (forall v, dget (fst r) v = if killed i v then dget c v else if existsb (Nat.eqb v) (map fst d) then dget d v else dget c v) /\
    (forall v x, List.In (v, x) (snd r) <-> List.In (v, x) u \/ (List.In (v, x) d /\ dget c v <> x /\ killed i v = false)).
  Proof.
    induction d as [|[w y] d IH]; intros c u H r.
    - cbn in r. subst r. cbn. split; [intro v; destruct (killed i v); reflexivity|]. intros v x. tauto.
    - cbn [map fst] in H. inversion H as [|? ? H1 H2]; subst.
      cbn [fold_left fst snd] in r.
      destruct (negb (N.eqb (dget c w) y) && negb (killed i w)) eqn:E.
      + apply andb_true_iff in E. destruct E as [E1 E2]. apply negb_true_iff in E1, E2. apply N.eqb_neq in E1.
        destruct (IH (dset c w y) (u ++ [(w, y)]) H2) as [R1 R2]. fold r in R1, R2. split.
        * intro v. rewrite R1, dget_dset. cbn [map fst existsb dget]. destruct (Nat.eqb v w) eqn:F.
          -- apply Nat.eqb_eq in F. subst w. rewrite E2. cbn [orb].
             destruct (existsb (Nat.eqb v) (map fst d)) eqn:G; [|reflexivity].
             exfalso. apply H1. apply existsb_exists in G. destruct G as (z & G1 & G2). apply Nat.eqb_eq in G2. subst. exact G1.
          -- cbn [orb]. reflexivity.
        * intros v x. rewrite R2, in_app_iff, dget_dset. cbn [List.In].
          split.
          -- intros [[K|[K|[]]]|(K1 & K2 & K3)]; [left; exact K| |].
             ++ assert (w = v /\ y = x) as [-> ->] by (split; congruence). right. split; [left; reflexivity|]. split; [exact E1 | exact E2].
             ++ right. split; [right; exact K1|]. split; [|exact K3]. destruct (Nat.eqb v w) eqn:F; [|exact K2].
                apply Nat.eqb_eq in F. subst w. exfalso. apply H1. apply in_map_iff. exists (v, x). split; [reflexivity | exact K1].
          -- intros [K|([K|K1] & K2 & K3)].
             ++ left. left. exact K.
             ++ left. right. left. exact K.
             ++ right. split; [exact K1|]. split; [|exact K3]. destruct (Nat.eqb v w) eqn:F; [|exact K2].
                apply Nat.eqb_eq in F. subst w. exfalso. apply H1. apply in_map_iff. exists (v, x). split; [reflexivity | exact K1].
      + destruct (IH c u H2) as [R1 R2]. fold r in R1, R2. split.
        * intro v. rewrite R1. cbn [map fst existsb dget]. destruct (killed i v) eqn:KV; [reflexivity|]. destruct (Nat.eqb v w) eqn:F.
          -- apply Nat.eqb_eq in F. subst w. cbn [orb]. rewrite KV in E. cbn [negb] in E. rewrite andb_true_r in E.
             apply negb_false_iff in E. apply N.eqb_eq in E.
             destruct (existsb (Nat.eqb v) (map fst d)) eqn:G; [|exact E].
             exfalso. apply H1. apply existsb_exists in G. destruct G as (z & G1 & G2). apply Nat.eqb_eq in G2. subst. exact G1.
          -- cbn [orb]. reflexivity.
        * intros v x. rewrite R2. cbn [List.In]. split; [tauto|].
          intros [K|([K|K1] & K2 & K3)]; [left; exact K | | right; tauto].
          assert (w = v /\ y = x) as [-> ->] by (split; congruence). rewrite K3 in E. cbn [negb] in E. rewrite andb_true_r in E.
          apply negb_false_iff in E. apply N.eqb_eq in E. contradiction.
  Qed.

  (** An entry that may be handed over: a variable of the graph and bits of its blocks. *)
  Definition fine (vx : nat * N) : Prop :=
    List.In (fst vx) vars /\ forall x, N.testbit (snd vx) x = true -> exists k, k < n /\ x = N.of_nat (offset + k).

  Record grown (p p' : list dict) (q q' : list nat) : Prop := {
    g_len : List.length p' = List.length p;
    g_keys : (forall j, NoDup (map fst (nth j p []))) -> forall j, NoDup (map fst (nth j p' []));
    g_more : forall j v x, bit p j v x = true -> bit p' j v x = true;
    g_queue : incl q q';
    g_bound : (forall i, List.In i q -> i < n) -> forall i, List.In i q' -> i < n;
    g_changed : forall j v, dget (nth j p' []) v <> dget (nth j p []) v -> List.In j q';
    g_measure : List.length q' + measure p' <= List.length q + measure p }.

  Lemma grown_refl p q : grown p p q q.
  Proof.
    constructor.
    - reflexivity.
    - intro H. exact H.
    - intros j v x H. exact H.
    - apply incl_refl.
    - intro H. exact H.
    - intros j v K. exfalso. apply K. reflexivity.
    - lia.
  Qed.

  Lemma grown_trans p p' p'' q q' q'' : grown p p' q q' -> grown p' p'' q' q'' -> grown p p'' q q''.
  Proof.
    intros [A1 A2 A3 A4 A5 A6 A7] [B1 B2 B3 B4 B5 B6 B7]. constructor.
    - congruence.
    - auto.
    - auto.
    - exact (incl_tran A4 B4).
    - auto.
    - intros j v K. destruct (N.eq_dec (dget (nth j p' []) v) (dget (nth j p []) v)) as [E|E].
      + apply (B6 j v). congruence.
      + apply B4. exact (A6 j v E).
    - lia.
  Qed.

  Lemma not_all_in x y : N.land x y <> x -> exists k, N.testbit x k = true /\ N.testbit y k = false.
  Proof.
    intro H. destruct (N.eq_dec (N.ldiff x y) 0) as [E|E].
    - exfalso. apply H. apply N.bits_inj. intro k. rewrite N.land_spec.
      assert (F : N.testbit (N.ldiff x y) k = false) by (rewrite E; apply N.bits_0).
      rewrite N.ldiff_spec in F. destruct (N.testbit x k), (N.testbit y k); try reflexivity. discriminate F.
    - exists (N.log2 (N.ldiff x y)). pose proof (N.bit_log2 _ E) as F. rewrite N.ldiff_spec in F.
      apply andb_true_iff in F. destruct F as [F1 F2]. apply negb_true_iff in F2. auto.
  Qed.

  Lemma hand_over_right upd j : forall p q,
    Forall fine upd -> j < n -> List.length p = n ->
    exists p' q', hand_over upd j p q = Ok (p', q') /\ grown p p' q q' /\
      (forall i v x, bit p' i v x = bit p i v x || (Nat.eqb i j && has upd v x)).
  Proof.
    induction upd as [|[v x] upd IH]; intros p q F J L.
    - exists p, q. split; [reflexivity|]. split; [apply grown_refl|]. intros. cbn [has existsb]. rewrite andb_false_r, orb_false_r. reflexivity.
    - inversion F as [|? ? F1 F2]; subst. cbn [hand_over].
      rewrite (get_ok p j []) by lia. cbn [bind].
      set (child := nth j p []).
      destruct (N.eqb (N.land x (dget child v)) x) eqn:E.
      + destruct (IH p q F2 J L) as (p' & q' & R & G & B). exists p', q'. split; [exact R|]. split; [exact G|].
        intros i w y. rewrite B. cbn [has existsb fst snd]. fold (has upd w y).
        apply N.eqb_eq in E. destruct (Nat.eqb i j) eqn:EI; cbn [andb]; [|reflexivity].
        destruct (Nat.eqb w v) eqn:EW; cbn [andb orb]; [|reflexivity].
        apply Nat.eqb_eq in EI, EW. subst i w. destruct (N.testbit x y) eqn:T; [|reflexivity].
        assert (T2 : N.testbit (N.land x (dget child v)) y = true) by (rewrite E; exact T).
        rewrite N.land_spec in T2. apply andb_true_iff in T2. destruct T2 as [_ T2].
        unfold bit. fold child. rewrite T2. reflexivity.
      + apply N.eqb_neq in E.
        set (p1 := set_nth j (dset child v (N.lor (dget child v) x)) p).
        set (q1 := if existsb (Nat.eqb j) q then q else q ++ [j]).
        assert (L1 : List.length p1 = n) by (unfold p1; rewrite length_set_nth; exact L).
        assert (B1 : forall i w y, bit p1 i w y = bit p i w y || (Nat.eqb i j && (Nat.eqb w v && N.testbit x y))).
        { intros i w y. unfold bit, p1. rewrite nth_set_nth by lia. destruct (Nat.eqb i j) eqn:EI; cbn [andb]; [|rewrite orb_false_r; reflexivity].
          apply Nat.eqb_eq in EI. subst i. fold child. rewrite dget_dset. destruct (Nat.eqb w v) eqn:EW; cbn [andb]; [|rewrite orb_false_r; reflexivity].
          apply Nat.eqb_eq in EW. subst w. rewrite N.lor_spec. reflexivity. }
        assert (Q1 : List.In j q1).
        { unfold q1. destruct (existsb (Nat.eqb j) q) eqn:EQ.
          - apply existsb_exists in EQ. destruct EQ as (z & K & Z). apply Nat.eqb_eq in Z. subst. exact K.
          - apply in_app_iff. right. left. reflexivity. }
        assert (G1 : grown p p1 q q1).
        { constructor.
          - congruence.
          - intros H i. unfold p1. rewrite nth_set_nth by lia. destruct (Nat.eqb i j); [apply nodup_dset|]; apply H.
          - intros i w y K. rewrite B1, K. reflexivity.
          - unfold q1. destruct (existsb (Nat.eqb j) q); [apply incl_refl | apply incl_appl; apply incl_refl].
          - intros H i K. unfold q1 in K. destruct (existsb (Nat.eqb j) q); [exact (H i K)|].
            apply in_app_iff in K. destruct K as [K|[K|[]]]; [exact (H i K) | subst; exact J].
          - intros i w K. unfold p1 in K. rewrite nth_set_nth in K by lia. destruct (Nat.eqb i j) eqn:EI; [|exfalso; apply K; reflexivity].
            apply Nat.eqb_eq in EI. subst i. exact Q1.
          - destruct (not_all_in x (dget child v) E) as (y & Y1 & Y2).
            destruct F1 as [V K]. cbn [fst snd] in V, K. destruct (K y Y1) as (k & K1 & ->).
            assert (M : measure p1 < measure p).
            { apply measure_lt with (j := j) (v := v) (k := k); try assumption.
              - intros i w y T. rewrite B1, T. reflexivity.
              - rewrite B1, !Nat.eqb_refl, Y1. cbn [andb]. apply orb_true_r. }
            assert (List.length q1 <= S (List.length q)) by (unfold q1; destruct (existsb (Nat.eqb j) q); [lia | rewrite app_length; cbn; lia]).
            lia. }
        destruct (IH p1 q1 F2 J L1) as (p' & q' & R & G & B). exists p', q'. split; [exact R|].
        split; [exact (grown_trans _ _ _ _ _ _ G1 G)|].
        intros i w y. rewrite B, B1. cbn [has existsb fst snd]. fold (has upd w y).
        destruct (Nat.eqb i j); cbn [andb]; [|rewrite !orb_false_r; reflexivity]. rewrite orb_assoc. reflexivity.
  Qed.

  Lemma to_successors_right upd : forall targets p q,
    Forall fine upd -> List.length p = n -> (forall t, List.In t targets -> empty t = false -> List.In t order) ->
    exists p' q', to_successors order empty upd targets p q = Ok (p', q') /\ grown p p' q q' /\
      (forall i v x, bit p' i v x = true <->
         bit p i v x = true \/ (exists t, List.In t targets /\ nth_error order i = Some t) /\ has upd v x = true).
  Proof.
    induction targets as [|t targets IH]; intros p q F L T.
    - exists p, q. split; [reflexivity|]. split; [apply grown_refl|]. intros. split; [tauto|]. intros [K|[(t & [] & _) _]]. exact K.
    - cbn [to_successors]. destruct (empty t) eqn:E.
      + destruct (IH p q F L (fun u K => T u (or_intror K))) as (p' & q' & R & G & B). exists p', q'. split; [exact R|]. split; [exact G|].
        intros i v x. rewrite B. split.
        * intros [K|[(u & K1 & K2) K3]]; [left; exact K|]. right. split; [exists u; split; [right; exact K1 | exact K2] | exact K3].
        * intros [K|[(u & [K1|K1] & K2) K3]]; [left; exact K| |].
          -- subst u. exfalso. apply nth_error_In in K2. apply order_full in K2. congruence.
          -- right. split; [exists u; split; [exact K1 | exact K2] | exact K3].
      + destruct (index_some t (T t (or_introl eq_refl) E)) as (j & IJ & NJ). rewrite IJ. cbn [bind].
        destruct (hand_over_right upd j p q F (nth_lt j t NJ) L) as (p1 & q1 & R1 & G1 & B1). rewrite R1. cbn [bind fst snd].
        destruct (IH p1 q1 F (eq_trans (g_len _ _ _ _ G1) L) (fun u K => T u (or_intror K))) as (p' & q' & R & G & B).
        exists p', q'. split; [exact R|]. split; [exact (grown_trans _ _ _ _ _ _ G1 G)|].
        intros i v x. rewrite B, B1, orb_true_iff, andb_true_iff, Nat.eqb_eq. split.
        * intros [[K|[-> K]]|[(u & K1 & K2) K3]]; [left; exact K| |].
          -- right. split; [exists t; split; [left; reflexivity | exact NJ] | exact K].
          -- right. split; [exists u; split; [right; exact K1 | exact K2] | exact K3].
        * intros [K|[(u & [K1|K1] & K2) K3]]; [left; left; exact K| |].
          -- subst u. left. right. split; [exact (nth_inj i j t K2 NJ) | exact K3].
          -- right. split; [exists u; split; [exact K1 | exact K2] | exact K3].
  Qed.

  (** ** The invariant *)
  Record inv (c p : list dict) (q : list nat) : Prop := {
    i_c : List.length c = n;
    i_p : List.length p = n;
    i_keys : forall j, NoDup (map fst (nth j p []));
    i_queue : forall i, List.In i q -> i < n;
    i_sound : forall j v x, bit p j v x = true -> exists k, k < n /\ x = N.of_nat (offset + k) /\ way v k j;
    i_killed : forall i v x, i < n -> killed i v = true -> (bit c i v x = true <-> x = N.of_nat (offset + i));
    i_sub : forall i v x, killed i v = false -> bit c i v x = true -> bit p i v x = true;
    i_flow : forall i j v x, step i j -> bit c i v x = true -> bit p j v x = true;
    i_settled : forall i v, i < n -> ~ List.In i q -> killed i v = false -> dget (nth i c []) v = dget (nth i p []) v }.

  Lemma way_def v a b : way v a b -> def a v.
  Proof. induction 1; assumption. Qed.
  Lemma way_lt v a b : way v a b -> b < n.
  Proof. intros H. destruct H as [a b _ (x & y & _ & K & _)|a m b _ _ (x & y & _ & K & _)]; exact (nth_lt b y K). Qed.

  Lemma round c p q i : inv c p (i :: q) ->
    exists p' q', to_successors order empty (snd (update killed_vars i (nth i p []) (nth i c []))) (after_block (nth i order 0)) p q = Ok (p', q') /\
      inv (set_nth i (fst (update killed_vars i (nth i p []) (nth i c []))) c) p' q' /\
      List.length q' + measure p' < List.length (i :: q) + measure p.
  Proof.
    intros [IC IP IK IQ IS IKi ISub IF ISe].
    assert (LI : i < n) by (apply IQ; left; reflexivity).
    destruct (update_right i (nth i p []) (nth i c []) [] (IK i)) as [U1 U2].
    fold (update killed_vars i (nth i p []) (nth i c [])) in U1, U2.
    set (r := update killed_vars i (nth i p []) (nth i c [])) in *.
    (* the new row equals the row of the parents where nothing is defined *)
    assert (U : forall v, dget (fst r) v = if killed i v then dget (nth i c []) v else dget (nth i p []) v).
    { intro v. rewrite U1. destruct (killed i v) eqn:K; [reflexivity|]. destruct (existsb (Nat.eqb v) (map fst (nth i p []))) eqn:E; [reflexivity|].
      assert (Z : dget (nth i p []) v = 0%N).
      { apply dget_missing. intro Z. assert (existsb (Nat.eqb v) (map fst (nth i p [])) = true); [|congruence].
        apply existsb_exists. exists v. split; [exact Z | apply Nat.eqb_refl]. }
      rewrite Z. apply N.bits_inj. intro x. rewrite N.bits_0.
      destruct (N.testbit (dget (nth i c []) v) x) eqn:T; [|reflexivity].
      pose proof (ISub i v x K T) as T2. unfold bit in T2. rewrite Z, N.bits_0 in T2. discriminate T2. }
    assert (HU : forall v x, has (snd r) v x = true -> killed i v = false /\ bit p i v x = true).
    { intros v x H. unfold has in H. apply existsb_exists in H. destruct H as ((w & y) & H1 & H2). cbn [fst snd] in H2.
      apply andb_true_iff in H2. destruct H2 as [H2 H3]. apply Nat.eqb_eq in H2. subst w.
      apply U2 in H1. destruct H1 as [[]|(H1 & _ & H4)]. split; [exact H4|]. unfold bit. rewrite (dget_in _ v y (IK i) H1). exact H3. }
    assert (HF : Forall fine (snd r)).
    { apply Forall_forall. intros (v & y) H. apply U2 in H. destruct H as [[]|(H1 & H2 & H3)]. unfold fine. cbn [fst snd].
      pose proof (dget_in _ v y (IK i) H1) as E. split.
      - assert (Y : y <> 0%N).
        { intros ->. apply H2. apply N.bits_inj. intro x. rewrite N.bits_0. destruct (N.testbit (dget (nth i c []) v) x) eqn:T; [|reflexivity].
          pose proof (ISub i v x H3 T) as T2. unfold bit in T2. rewrite E, N.bits_0 in T2. discriminate T2. }
        pose proof (N.bit_log2 y Y) as T. rewrite <- E in T at 1. destruct (IS i v _ T) as (k & K1 & _ & K2).
        exact (def_vars k v (way_def v k i K2)).
      - intros x T. rewrite <- E in T. destruct (IS i v x T) as (k & K1 & K2 & _). exists k. auto. }
    assert (NI : nth_error order i = Some (nth i order 0)) by (apply nth_error_nth'; exact LI).
    assert (OI : List.In (nth i order 0) order) by (apply nth_In; exact LI).
    destruct (to_successors_right (snd r) (after_block (nth i order 0)) p q HF IP
                (fun t K E => closed _ t OI K E)) as (p' & q' & R & [G1 G2 G3 G4 G5 G6 G7] & B).
    exists p', q'. split; [exact R|]. split; [|cbn [List.length]; lia].
    assert (IQ' : forall j, List.In j q -> j < n) by (intros j K; apply IQ; right; exact K).
    assert (C : forall j v x, bit (set_nth i (fst r) c) j v x = if Nat.eqb j i then N.testbit (dget (fst r) v) x else bit c j v x).
    { intros j v x. unfold bit. rewrite nth_set_nth by lia. destruct (Nat.eqb j i); reflexivity. }
    constructor.
    - rewrite length_set_nth. exact IC.
    - congruence.
    - exact (G2 IK).
    - exact (G5 IQ').
    - intros j v x H. apply B in H. destruct H as [H|[(t & H1 & H2) H3]]; [exact (IS j v x H)|].
      destruct (HU v x H3) as [H4 H5]. destruct (IS i v x H5) as (k & K1 & K2 & K3). exists k. split; [exact K1|]. split; [exact K2|].
      apply reaches_further with (m := i); [exact K3| |].
      + intros [_ D]. apply killed_iff in D. congruence.
      + exists (nth i order 0), t. auto.
    - intros j v x J K. rewrite C. destruct (Nat.eqb j i) eqn:E; [|exact (IKi j v x J K)].
      apply Nat.eqb_eq in E. subst j. rewrite U, K. exact (IKi i v x J K).
    - intros j v x K. rewrite C. destruct (Nat.eqb j i) eqn:E.
      + apply Nat.eqb_eq in E. subst j. rewrite U, K. intro T. apply G3. exact T.
      + intro T. apply G3. exact (ISub j v x K T).
    - intros j t v x K. rewrite C. destruct (Nat.eqb j i) eqn:E.
      + apply Nat.eqb_eq in E. subst j. intro T. apply B.
        destruct (bit c i v x) eqn:CB; [left; exact (IF i t v x K CB)|].
        right. destruct K as (a & b & K1 & K2 & K3). split.
        * exists b. split; [|exact K2]. assert (a = nth i order 0) by congruence. subst a. exact K3.
        * rewrite U in T. destruct (killed i v) eqn:KV; [unfold bit in CB; congruence|].
          unfold has. apply existsb_exists. exists (v, dget (nth i p []) v). cbn [fst snd]. rewrite Nat.eqb_refl, T. split; [|reflexivity].
          apply U2. right. split.
          -- apply in_dget. destruct (in_dec Nat.eq_dec v (map fst (nth i p []))) as [D|D]; [exact D|].
             rewrite (dget_missing _ v D), N.bits_0 in T. discriminate T.
          -- split; [|exact KV]. intro Z. unfold bit in CB. rewrite Z in CB. congruence.
      + intro T. apply G3. exact (IF j t v x K T).
    - intros j v J K KV. rewrite nth_set_nth by lia. destruct (Nat.eqb j i) eqn:E.
      + apply Nat.eqb_eq in E. subst j. rewrite U, KV.
        destruct (N.eq_dec (dget (nth i p' []) v) (dget (nth i p []) v)) as [D|D]; [congruence|]. exfalso. apply K. exact (G6 i v D).
      + assert (K' : ~ List.In j (i :: q)).
        { intros [Z|Z]; [subst; rewrite Nat.eqb_refl in E; discriminate E|]. apply K. apply G4. exact Z. }
        rewrite (ISe j v J K' KV).
        destruct (N.eq_dec (dget (nth j p' []) v) (dget (nth j p []) v)) as [D|D]; [congruence|]. exfalso. apply K. exact (G6 j v D).
  Qed.

  Lemma rounds_right : forall fuel c p q, inv c p q -> List.length q + measure p < fuel ->
    exists c' p', rounds order after_block empty killed_vars fuel c p q = Ok (c', p') /\ inv c' p' [].
  Proof.
    induction fuel as [|fuel IH]; intros c p q H L; [lia|]. cbn [rounds].
    destruct q as [|i q]; [exists c, p; split; [reflexivity | exact H]|].
    assert (LI : i < n) by (apply (i_queue _ _ _ H); left; reflexivity).
    rewrite (get_ok p i []) by (rewrite (i_p _ _ _ H); exact LI). cbn [bind].
    rewrite (get_ok c i []) by (rewrite (i_c _ _ _ H); exact LI). cbn [bind].
    rewrite (get_ok order i 0) by exact LI. cbn [bind].
    destruct (round c p q i H) as (p' & q' & R & H' & M).
    destruct (update killed_vars i (nth i p []) (nth i c [])) as [own upd]. cbn [fst snd] in *.
    rewrite R. cbn [bind fst snd]. apply IH; [exact H'|]. cbn [List.length] in *. lia.
  Qed.

  Lemma rounds_same : forall fuel more c p q r, rounds order after_block empty killed_vars fuel c p q = Ok r ->
    rounds order after_block empty killed_vars (fuel + more) c p q = Ok r.
  Proof.
    induction fuel as [|fuel IH]; intros more c p q r H; [discriminate H|]. cbn [rounds Nat.add] in *.
    destruct q as [|i q]; [exact H|].
    destruct (get p i) as [pi|e]; [|discriminate H]. cbn [bind] in *.
    destruct (get c i) as [ci|e]; [|discriminate H]. cbn [bind] in *.
    destruct (get order i) as [b|e]; [|discriminate H]. cbn [bind] in *.
    destruct (update killed_vars i pi ci) as [own upd].
    destruct (to_successors order empty upd (after_block b) p q) as [x|e]; [|discriminate H]. cbn [bind] in *. apply IH. exact H.
  Qed.

  (** ** The start *)
  Notation computed0 := (collect_computed_kills order killed_vars offset).
  Lemma computed0_len : List.length computed0 = n.
  Proof. unfold collect_computed_kills. rewrite map_length, seq_length. reflexivity. Qed.
  Lemma computed0_nth i : i < n -> nth i computed0 [] = map (fun v => (v, N.shiftl 1 (N.of_nat (offset + i)))) (killed_vars i).
  Proof.
    intro H. unfold collect_computed_kills. set (f := fun i : nat => map _ (killed_vars i)).
    rewrite (nth_indep (map f (seq 0 n)) [] (f 0)) by (rewrite map_length, seq_length; exact H).
    rewrite map_nth, seq_nth by exact H. reflexivity.
  Qed.
  Lemma dget_const l y v : dget (map (fun v => (v, y)) l) v = if existsb (Nat.eqb v) l then y else 0%N.
  Proof. induction l as [|w l IH]; [reflexivity|]. cbn [map dget existsb]. destruct (Nat.eqb v w); [reflexivity | exact IH]. Qed.
  Lemma has_const l y v x : has (map (fun v => (v, y)) l) v x = existsb (Nat.eqb v) l && N.testbit y x.
  Proof.
    induction l as [|w l IH]; [reflexivity|]. cbn [map has existsb fst snd]. fold (has (map (fun v => (v, y)) l) v x). rewrite IH.
    destruct (Nat.eqb v w), (existsb (Nat.eqb v) l), (N.testbit y x); reflexivity.
  Qed.
  Lemma computed0_bit i v x : i < n -> (bit computed0 i v x = true <-> killed i v = true /\ x = N.of_nat (offset + i)).
  Proof.
    intro H. unfold bit. rewrite computed0_nth by exact H. rewrite dget_const. fold (killed i v).
    destruct (killed i v); [rewrite bit_one, N.eqb_eq; tauto|]. rewrite N.bits_0. split; [discriminate | intros [K _]; discriminate K].
  Qed.

  Lemma from_parents_right : forall ps r, (forall p, List.In p ps -> reachable p = true -> List.In p order) -> NoDup (map fst r) ->
    exists d, from_parents order reachable computed0 ps r = Ok d /\ NoDup (map fst d) /\
      forall v x, N.testbit (dget d v) x = true <->
        N.testbit (dget r v) x = true \/
        exists i p, List.In p ps /\ reachable p = true /\ nth_error order i = Some p /\ killed i v = true /\ x = N.of_nat (offset + i).
  Proof.
    induction ps as [|p ps IH]; intros r H N.
    - exists r. split; [reflexivity|]. split; [exact N|]. intros. split; [tauto|]. intros [K|(i & p & [] & _)]. exact K.
    - cbn [from_parents]. destruct (reachable p) eqn:E.
      + destruct (index_some p (H p (or_introl eq_refl) E)) as (i & I1 & I2). rewrite I1. cbn [bind].
        pose proof (nth_lt i p I2) as LI.
        rewrite (get_ok computed0 i []) by (rewrite computed0_len; exact LI). cbn [bind].
        rewrite computed0_nth by exact LI.
        destruct (IH (or_all r (map (fun v => (v, N.shiftl 1 (N.of_nat (offset + i)))) (killed_vars i)))
                    (fun q K => H q (or_intror K)) (or_all_nodup _ r N)) as (d & D1 & D2 & D3).
        exists d. split; [exact D1|]. split; [exact D2|]. intros v x.
        rewrite D3, or_all_bit, has_const, orb_true_iff, andb_true_iff, bit_one, N.eqb_eq. fold (killed i v). split.
        * intros [[K|[K1 K2]]|(j & q & K1 & K2 & K3)]; [left; exact K| |].
          -- right. exists i, p. split; [left; reflexivity|]. auto.
          -- right. exists j, q. split; [right; exact K1|]. split; [exact K2 | exact K3].
        * intros [K|(j & q & [K1|K1] & K2 & K3 & K4)]; [left; left; exact K| |].
          -- subst q. assert (j = i) by exact (nth_inj j i p K3 I2). subst j. left. right. exact K4.
          -- right. exists j, q. auto.
      + destruct (IH r (fun q K => H q (or_intror K)) N) as (d & D1 & D2 & D3). exists d. split; [exact D1|]. split; [exact D2|].
        intros v x. rewrite D3. split.
        * intros [K|(j & q & K1 & K2 & K3)]; [left; exact K|]. right. exists j, q. split; [right; exact K1|]. split; [exact K2 | exact K3].
        * intros [K|(j & q & [K1|K1] & K2 & K3)]; [left; exact K| |]; [subst q; congruence|]. right. exists j, q. auto.
  Qed.

  Definition of_block (b : nat) : res dict := match before_block b with [] => Ok [] | ps => from_parents order reachable computed0 ps [] end.
  Lemma of_block_right b : List.In b order ->
    exists d, of_block b = Ok d /\ NoDup (map fst d) /\
      forall v x, N.testbit (dget d v) x = true <->
        exists i p, List.In p (before_block b) /\ reachable p = true /\ nth_error order i = Some p /\ killed i v = true /\ x = N.of_nat (offset + i).
  Proof.
    intro H. unfold of_block.
    destruct (from_parents_right (before_block b) [] (fun p K E => proj1 (into b p H K E)) (NoDup_nil nat)) as (d & D1 & D2 & D3).
    destruct (before_block b) as [|q qs] eqn:E.
    - exists []. split; [reflexivity|]. split; [constructor|]. intros v x. cbn [dget]. rewrite N.bits_0.
      split; [discriminate | intros (i & p & [] & _)].
    - exists d. split; [exact D1|]. split; [exact D2|]. intros v x. rewrite D3. cbn [dget]. rewrite N.bits_0.
      split; [intros [K|K]; [discriminate K | exact K] | intro K; right; exact K].
  Qed.

  Lemma mapM_all {A B} (f : A -> res B) (P : A -> B -> Prop) l : (forall a, List.In a l -> exists b, f a = Ok b /\ P a b) ->
    exists bs, mapM f l = Ok bs /\ Forall2 P l bs.
  Proof.
    induction l as [|a l IH]; intro H; [exists []; split; [reflexivity | constructor]|].
    destruct (H a (or_introl eq_refl)) as (b & B1 & B2). destruct (IH (fun a K => H a (or_intror K))) as (bs & C1 & C2).
    exists (b :: bs). cbn [mapM]. rewrite B1. cbn [bind]. rewrite C1. split; [reflexivity | constructor; assumption].
  Qed.

  Lemma forall2_nth {A B} (P : A -> B -> Prop) l m d i a : Forall2 P l m -> nth_error l i = Some a -> i < List.length m /\ P a (nth i m d).
  Proof.
    intro H. revert i. induction H as [|x y l m H1 H2 IH]; intros [|i] K; try discriminate K.
    - cbn in K. assert (x = a) by congruence. subst. cbn. split; [lia | exact H1].
    - cbn in K. destruct (IH i K) as [I1 I2]. cbn. split; [lia | exact I2].
  Qed.

  Lemma start_right : exists p, collect_kills_from_parents order before_block reachable computed0 = Ok p /\ inv computed0 p (seq 0 n).
  Proof.
    destruct (mapM_all of_block (fun b d => NoDup (map fst d) /\
      forall v x, N.testbit (dget d v) x = true <->
        exists i p, List.In p (before_block b) /\ reachable p = true /\ nth_error order i = Some p /\ killed i v = true /\ x = N.of_nat (offset + i))
      order (fun b H => of_block_right b H)) as (p & R & F).
    exists p. split; [exact R|].
    assert (LP : List.length p = n).
    { clear R. induction F; [reflexivity | cbn; congruence]. }
    assert (B : forall j v x, bit p j v x = true <-> exists i b q, nth_error order j = Some b /\ List.In q (before_block b) /\ reachable q = true /\
               nth_error order i = Some q /\ killed i v = true /\ x = N.of_nat (offset + i)).
    { intros j v x. unfold bit. destruct (nth_error order j) as [b|] eqn:E.
      - destruct (forall2_nth _ _ _ [] j b F E) as [_ [_ K]]. rewrite K. split.
        + intros (i & q & H). exists i, b, q. split; [reflexivity | exact H].
        + intros (i & b' & q & E' & H). assert (b' = b) by congruence. subst b'. exists i, q. exact H.
      - apply nth_error_None in E. rewrite nth_overflow by lia. cbn [dget]. rewrite N.bits_0. split; [discriminate|].
        intros (i & b & q & K & _). discriminate K. }
    constructor.
    - exact computed0_len.
    - exact LP.
    - intro j. destruct (nth_error order j) as [b|] eqn:E.
      + exact (proj1 (proj2 (forall2_nth _ _ _ [] j b F E))).
      + apply nth_error_None in E. rewrite nth_overflow by lia. constructor.
    - intros i K. apply in_seq in K. lia.
    - intros j v x H. apply B in H. destruct H as (i & b & q & H1 & H2 & H3 & H4 & H5 & H6).
      exists i. split; [exact (nth_lt i q H4)|]. split; [exact H6|]. apply reaches_next.
      + split; [exact (nth_lt i q H4) | apply killed_iff; exact H5].
      + exists q, b. split; [exact H4|]. split; [exact H1|]. apply (into b q); [exact (nth_error_In _ _ H1) | exact H2 | exact H3].
    - intros i v x H K. rewrite computed0_bit by exact H. tauto.
    - intros i v x K T. destruct (le_lt_dec n i) as [L|L].
      + unfold bit in T. rewrite nth_overflow in T by (rewrite computed0_len; exact L). cbn [dget] in T. rewrite N.bits_0 in T. discriminate T.
      + apply computed0_bit in T; [|exact L]. destruct T as [T _]. congruence.
    - intros i j v x (a & b & H1 & H2 & H3) T. apply computed0_bit in T; [|exact (nth_lt i a H1)]. destruct T as [T1 T2].
      apply B. exists i, b, a. split; [exact H2|].
      destruct (outof a b (nth_error_In _ _ H1) (nth_error_In _ _ H2) H3) as [O1 O2]. auto.
    - intros i v H K. exfalso. apply K. apply in_seq. lia.
  Qed.

  Lemma measure_bound p : measure p <= n * (List.length vars * n).
  Proof.
    unfold measure. transitivity (List.length places).
    - induction places as [|a l IH]; cbn; [lia|]. destruct (negb _); cbn; lia.
    - unfold places. rewrite !prod_length, seq_length. lia.
  Qed.

  Theorem reaching_right :
    exists c p, (forall fuel, n + n * (List.length vars * n) < fuel -> reaching order after_block before_block empty reachable killed_vars offset fuel = Ok (c, p)) /\
      List.length c = n /\ List.length p = n /\ (forall j, NoDup (map fst (nth j p []))) /\
      (forall j v x, bit p j v x = true <-> exists k, k < n /\ x = N.of_nat (offset + k) /\ way v k j) /\
      (forall j v x, j < n -> bit c j v x = true <-> if killed j v then x = N.of_nat (offset + j) else bit p j v x = true).
  Proof.
    destruct start_right as (p0 & R0 & I0).
    pose proof (measure_bound p0) as M.
    destruct (rounds_right (S (n + measure p0)) computed0 p0 (seq 0 n) I0 ltac:(rewrite seq_length; lia)) as (c & p & R & I1).
    exists c, p. split.
    - intros fuel F. unfold reaching. rewrite R0. cbn [bind].
      replace fuel with (S (n + measure p0) + (fuel - S (n + measure p0))) by lia. apply rounds_same. exact R.
    - split; [exact (i_c _ _ _ I1)|]. split; [exact (i_p _ _ _ I1)|]. split; [exact (i_keys _ _ _ I1)|].
      assert (EQ : forall i v, i < n -> killed i v = false -> dget (nth i c []) v = dget (nth i p []) v).
      { intros i v H K. apply (i_settled _ _ _ I1 i v H); [intros [] | exact K]. }
      split.
      + intros j v x. split; [exact (i_sound _ _ _ I1 j v x)|]. intros (k & K1 & -> & W).
        assert (G : forall a b, way v a b -> bit p b v (N.of_nat (offset + a)) = true).
        { intros a b H. induction H as [a b D E|a m b H IH D E].
          - apply (i_flow _ _ _ I1 a b v); [exact E|]. apply (i_killed _ _ _ I1 a v); [exact (proj1 D) | apply killed_iff; exact (proj2 D) | reflexivity].
          - apply (i_flow _ _ _ I1 m b v); [exact E|]. pose proof (way_lt v a m H) as L. unfold bit.
            rewrite (EQ m v L); [exact IH|]. destruct (killed m v) eqn:K; [|reflexivity]. exfalso. apply D. split; [exact L | apply killed_iff; exact K]. }
        exact (G k j W).
      + intros j v x J. destruct (killed j v) eqn:K.
        * exact (i_killed _ _ _ I1 j v x J K).
        * unfold bit. rewrite (EQ j v J K). tauto.
  Qed.
End Proofs.
