(** Proofs about suggested ranges and lists. *)
From Coq Require Import String Ascii List Bool Arith NArith ZArith Lia.
From Verif Require Import Base PyModel PySpec IfModel FoldModel FoldSpec LocalModel LocalSpec IterModel IterSpec.
Import ListNotations.
Local Open Scope string_scope.
Local Open Scope list_scope.
Local Open Scope nat_scope.

(** ** Arithmetic sequences *)
Lemma arith_length a d n : length (arith a d n) = n.
Proof. unfold arith. rewrite map_length, seq_length. reflexivity. Qed.
Lemma arith_cons a d n : arith a d (S n) = a :: arith (a + d) d n.
Proof.
  unfold arith. cbn [seq map]. f_equal; [lia|]. rewrite <- seq_shift, map_map. apply map_ext. intro k. lia.
Qed.
Lemma arith_range a d n : d <> 0%Z -> 1 <= n -> is_range a (a + (Z.of_nat n - 1) * d + (if Z.ltb 0 d then 1 else -1))%Z d (arith a d n).
Proof.
  intros D N. split; [exact D|]. split; [rewrite arith_length; reflexivity|]. intro x. unfold arith. rewrite in_map_iff. split.
  - intros (k & <- & I). apply in_seq in I. exists (Z.of_nat k). split; [lia|]. split; [reflexivity|].
    destruct (Z.ltb_spec 0 d); split; intros; try lia; nia.
  - intros (k & K & -> & U & L). exists (Z.to_nat k). split; [rewrite Z2Nat.id by lia; reflexivity|]. apply in_seq. split; [lia|].
    destruct (Z.ltb_spec 0 d) as [Q|Q].
    + specialize (U Q). assert (k < Z.of_nat n)%Z by nia. lia.
    + specialize (L ltac:(lia)). assert (k < Z.of_nat n)%Z by nia. lia.
Qed.
Lemma range_unique a b s l l' : is_range a b s l -> is_range a b s l' -> l = l'.
Proof.
  intros (D & E & I) (_ & E' & I').
  assert (K : forall m m' (L : list Z) (L' : list Z), L = arith a s (length L) -> L' = arith a s (length L') -> length L = m -> length L' = m' -> m < m' -> ~ (forall x, List.In x L <-> List.In x L')).
  { intros m m' L L' EL EL' HL HL' LT Q. assert (J : List.In (a + Z.of_nat m * s)%Z L') by (rewrite EL'; unfold arith; apply in_map_iff; exists m; split; [reflexivity|]; apply in_seq; lia).
    apply Q in J. rewrite EL in J. unfold arith in J. apply in_map_iff in J. destruct J as (k & V & J). apply in_seq in J.
    assert (Z.of_nat k = Z.of_nat m) by nia. lia. }
  assert (B : forall x, List.In x l <-> List.In x l') by (intro x; rewrite I, I'; reflexivity).
  destruct (lt_eq_lt_dec (length l) (length l')) as [[Q|Q]|Q].
  - destruct (K _ _ l l' E E' eq_refl eq_refl Q B).
  - rewrite E, E', Q. reflexivity.
  - destruct (K _ _ l' l E' E eq_refl eq_refl Q). intro x. symmetry. apply B.
Qed.

(** ** Ranges *)
Lemma range_loop_ok start : forall l prev d p st, range_loop start prev (Some d) l = Some (p, st) ->
  st = Some d /\ map int_of l = map Some (arith (prev + d) d (length l)) /\ p = (prev + Z.of_nat (length l) * d)%Z.
Proof.
  induction l as [|s l IH]; intros prev d p st E; cbn [range_loop] in E.
  - assert (prev = p) by congruence. assert (Some d = st) by congruence. subst. cbn. split; [reflexivity|]. split; [reflexivity|lia].
  - destruct (int_of s) as [z|] eqn:Z; [|discriminate]. destruct (Z.eqb_spec (z - prev) d) as [D|D]; [|discriminate].
    destruct (IH _ _ _ _ E) as (-> & M & ->). split; [reflexivity|]. cbn [length map]. rewrite arith_cons. cbn [map]. rewrite Z, M.
    assert (z = (prev + d)%Z) as -> by lia. split; [reflexivity|]. lia.
Qed.
Lemma to_range_args_ok l v stop d : to_range_args l = Ok (Some (v, stop, d)) -> exists a, as_int v = Some a /\ 2 <= length l /\
  map int_of l = map Some (arith a d (length l)) /\ stop = (a + (Z.of_nat (length l) - 1) * d + (if Z.ltb 0 d then 1 else -1))%Z.
Proof.
  destruct l as [|[u|e] r]; cbn [to_range_args]; intro E; try discriminate. destruct (as_int u) as [a|] eqn:A; [|discriminate].
  destruct r as [|s r]; cbn [range_loop] in E; [discriminate|]. destruct (int_of s) as [z|] eqn:Z; [|discriminate].
  destruct (range_loop a z (Some (z - a)%Z) r) as [[p [d'|]]|] eqn:R; try discriminate.
  assert (u = v) by congruence. assert (d' = d) by congruence. assert (EV : (p + (if Z.ltb 0 d' then 1 else -1))%Z = stop) by congruence. clear E. subst u d'.
  destruct (range_loop_ok _ _ _ _ _ _ R) as (Q & M & ->). assert (d = (z - a)%Z) by congruence. subst d. clear Q.
  exists a. split; [exact A|]. cbn [length]. split; [lia|]. split.
  - rewrite 2 arith_cons. cbn [map]. rewrite M. cbn [int_of]. rewrite A, Z. replace (a + (z - a))%Z with z by lia. reflexivity.
  - rewrite <- EV. rewrite Nat2Z.inj_succ. destruct (Z.ltb 0 (z - a)); lia.
Qed.
Lemma to_range_args_total l : 2 <= length l -> exists r, to_range_args l = Ok r.
Proof.
  destruct l as [|[u|e] [|s r]]; cbn [length]; try lia; intros _; cbn [to_range_args]; try (eexists; reflexivity).
  destruct (as_int u) as [a|]; [|eexists; reflexivity]. cbn [range_loop]. destruct (int_of s) as [z|]; [|eexists; reflexivity].
  destruct (range_loop a z (Some (z - a)%Z) r) as [[p [d|]]|] eqn:R; try (eexists; reflexivity).
  destruct (range_loop_ok _ _ _ _ _ _ R) as (Q & _). discriminate.
Qed.

(** ** The nodes of a range *)
Lemma int_node_gives {W} (P : python W) w z : gives P w (int_node z) (VInt z).
Proof.
  unfold gives, int_node. destruct (Z.ltb_spec z 0); cbn [eval const_value]; unfold andthen, pure, unary; cbn [as_int]; unfold pure; do 3 f_equal; rewrite N2Z.inj_abs_N; lia.
Qed.
Lemma const_node_gives {W} (P : python W) w v : (forall n, v <> VObj n) -> gives P w (const_node v) v.
Proof.
  intro N. destruct v; cbn [const_node]; try reflexivity; [apply int_node_gives|]. destruct (N n eq_refl).
Qed.
Lemma as_int_gives {W} (P : python W) w v a : as_int v = Some a -> is_int P w (const_node v) a.
Proof. intro A. exists v. split; [apply const_node_gives; intros n ->; discriminate|exact A]. Qed.
Lemma range_node_arguments v a stop d : as_int v = Some a -> exists args, to_range_node (v, stop, d) = Call (Name "range") args /\
  forall W (P : python W) w, range_arguments P w args a stop d.
Proof.
  intro A. unfold to_range_node.
  assert (I : forall W (P : python W) w z, is_int P w (int_node z) z) by (intros; exists (VInt z); split; [apply int_node_gives|reflexivity]).
  destruct (Z.eqb_spec d 1) as [->|D]; cbn [negb].
  - destruct (value_eqb v (VInt 0)) eqn:V; cbn [negb]; eexists; (split; [reflexivity|]); intros W P w; cbn [range_arguments].
    + unfold value_eqb in V. rewrite A in V. cbn [as_int] in V. apply Z.eqb_eq in V. subst a. split; [reflexivity|]. split; [apply I|reflexivity].
    + split; [apply as_int_gives; exact A|]. split; [apply I|reflexivity].
  - eexists. split; [reflexivity|]. intros W P w. cbn [range_arguments]. split; [apply as_int_gives; exact A|]. split; apply I.
Qed.
Lemma range_node_iterates v a n d : as_int v = Some a -> d <> 0%Z -> 1 <= n ->
  let it := RangeCall (to_range_node (v, (a + (Z.of_nat n - 1) * d + (if Z.ltb 0 d then 1 else -1))%Z, d)) in
  iterations it n /\ forall W (P : python W) w, iterates P w it (map VInt (arith a d n)).
Proof.
  intros A D N it. destruct (range_node_arguments v a (a + (Z.of_nat n - 1) * d + (if Z.ltb 0 d then 1 else -1))%Z d A) as (args & E & R).
  pose proof (arith_range a d n D N) as I. unfold it, iterations, iterates. rewrite E. split.
  - split; [reflexivity|]. exists a, (a + (Z.of_nat n - 1) * d + (if Z.ltb 0 d then 1 else -1))%Z, d, (arith a d n). split; [exact R|]. split; [exact I|apply arith_length].
  - intros W P w. split; [reflexivity|]. exists a, (a + (Z.of_nat n - 1) * d + (if Z.ltb 0 d then 1 else -1))%Z, d, (arith a d n). split; [apply R|]. split; [exact I|reflexivity].
Qed.
