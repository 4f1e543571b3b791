(** Proofs about the candidates for similar blocks. *)
From Coq Require Import List Bool Arith Sorted Permutation Lia.
From Verif Require Import AlikeModel AlikeSpec.
Import ListNotations.
Local Open Scope list_scope.
Local Open Scope nat_scope.

(** ** Keys *)

Lemma nats_eqb_eq : forall l m, nats_eqb l m = true <-> l = m.
Proof.
  induction l as [|x l IH]; intros [|y m]; cbn [nats_eqb]; split; intro E; try reflexivity; try discriminate E.
  - apply andb_prop in E as [A B]. apply Nat.eqb_eq in A. apply (proj1 (IH m)) in B. congruence.
  - assert (x = y) by congruence. assert (l = m) by congruence. subst. rewrite Nat.eqb_refl. apply (proj2 (IH m) eq_refl).
Qed.
Lemma range_eqb_eq : forall r s, range_eqb r s = true <-> r = s.
Proof.
  intros [a [b|]] [c [e|]]; unfold range_eqb; cbn [fst snd]; rewrite andb_true_iff, Nat.eqb_eq; try rewrite Nat.eqb_eq; split;
    try (intros [-> H]; try discriminate H; try (rewrite H); reflexivity); try (intro H; split; congruence).
Qed.
Lemma piece_eqb_eq : forall p q, piece_eqb p q = true <-> p = q.
Proof.
  intros [r l] [s m]. unfold piece_eqb. cbn [fst snd]. rewrite andb_true_iff, range_eqb_eq, nats_eqb_eq. split; [intros [-> ->]; reflexivity|]. intro H. split; congruence.
Qed.
Lemma piece_eqb_refl : forall p, piece_eqb p p = true.
Proof. intro p. apply piece_eqb_eq. reflexivity. Qed.
Lemma piece_eqb_neq : forall p q, p <> q -> piece_eqb p q = false.
Proof. intros p q N. destruct (piece_eqb p q) eqn:E; [|reflexivity]. apply piece_eqb_eq in E. contradiction. Qed.
Lemma piece_dec : forall p q : piece, {p = q} + {p <> q}.
Proof. intros p q. destruct (piece_eqb p q) eqn:E; [left; apply piece_eqb_eq; exact E|right; intros ->; rewrite piece_eqb_refl in E; discriminate E]. Qed.

Lemma get_set_same : forall d k i, get (set d k i) k = Some i.
Proof.
  induction d as [|[p j] d IH]; intros k i; cbn [set get]; [rewrite piece_eqb_refl; reflexivity|].
  destruct (piece_eqb p k) eqn:E; cbn [get]; rewrite E; [reflexivity|apply IH].
Qed.
Lemma get_set_other : forall d k i q, q <> k -> get (set d k i) q = get d q.
Proof.
  induction d as [|[p j] d IH]; intros k i q N; cbn [set get]; [rewrite (piece_eqb_neq k q) by congruence; reflexivity|].
  destruct (piece_eqb p k) eqn:E; cbn [get].
  - apply piece_eqb_eq in E. subst p. rewrite (piece_eqb_neq k q) by congruence. reflexivity.
  - destruct (piece_eqb p q); [reflexivity|apply IH; exact N].
Qed.
Lemma get_set : forall d k i q, get (set d k i) q = if piece_eqb k q then Some i else get d q.
Proof.
  intros d k i q. destruct (piece_eqb k q) eqn:E; [apply piece_eqb_eq in E; subst; apply get_set_same|].
  apply get_set_other. intros ->. rewrite piece_eqb_refl in E. discriminate E.
Qed.
Lemma get_in : forall d k i, NoDup (map fst d) -> (get d k = Some i <-> In (k, i) d).
Proof.
  induction d as [|[p j] d IH]; intros k i N; cbn [get map fst] in *; [split; [discriminate|intros []]|].
  inversion N as [|? ? Np Nd]. subst. destruct (piece_eqb p k) eqn:E.
  - apply piece_eqb_eq in E. subst p. split; [intro H; left; congruence|]. intros [H|H]; [congruence|].
    exfalso. apply Np. apply in_map_iff. exists (k, i). auto.
  - rewrite (IH k i Nd). split; [intro H; right; exact H|]. intros [H|H]; [|exact H]. assert (p = k) by congruence. subst. rewrite piece_eqb_refl in E. discriminate E.
Qed.
Lemma set_keys : forall d k i, (In k (map fst d) /\ map fst (set d k i) = map fst d) \/ (~ In k (map fst d) /\ map fst (set d k i) = map fst d ++ [k]).
Proof.
  induction d as [|[p j] d IH]; intros k i; cbn [set map fst]; [right; split; [intros []|reflexivity]|].
  destruct (piece_eqb p k) eqn:E.
  - apply piece_eqb_eq in E. subst. left. split; [left; reflexivity|reflexivity].
  - cbn [map fst]. destruct (IH k i) as [[I Q]|[I Q]]; rewrite Q.
    + left. split; [right; exact I|reflexivity].
    + right. split; [|reflexivity]. intros [H|H]; [subst; rewrite piece_eqb_refl in E; discriminate E|contradiction].
Qed.
Lemma set_nodup : forall d k i, NoDup (map fst d) -> NoDup (map fst (set d k i)).
Proof.
  intros d k i N. destruct (set_keys d k i) as [[_ ->]|[I ->]]; [exact N|].
  apply (Permutation_NoDup (l := k :: map fst d)); [apply Permutation_cons_append|]. constructor; assumption.
Qed.
Lemma set_length : forall d k i, List.length d <= List.length (set d k i) /\ (get d k = None -> List.length (set d k i) = S (List.length d)).
Proof.
  induction d as [|[p j] d IH]; intros k i; cbn [set get List.length]; [auto|]. destruct (piece_eqb p k); cbn [List.length]; [split; [lia|discriminate]|].
  destruct (IH k i) as [A B]. split; [lia|]. intro H. rewrite (B H). reflexivity.
Qed.

(** ** Entering candidates *)

Notation start p := (fst (fst (p : piece))).
(** The pairs come in the order of their first pieces, and each second piece starts after the first. *)
Definition in_order (pairs : list (piece * piece)) : Prop :=
  StronglySorted (fun x y => start (fst x) <= start (fst y)) pairs /\ (forall x, In x pairs -> start (fst x) < start (snd x)) /\
  (forall x, In x pairs -> List.length (snd (fst x)) = List.length (snd (snd x))).
Definition invariant (done : list (piece * piece)) (d : list (piece * nat)) : Prop :=
  NoDup (map fst d) /\ (forall k i, get d k = Some i -> i < List.length d) /\
  (forall p k, In (p, k) done -> get d k <> None) /\ (forall p k, In (p, k) done -> get d p <> None) /\
  (forall k i, get d k = Some i -> exists p, In (p, k) done \/ In (k, p) done) /\
  exists root : nat -> piece, forall k i, get d k = Some i ->
    List.length (snd k) = List.length (snd (root i)) /\
    ((k = root i /\ forall p, ~ In (p, k) done) \/ exists p, In (p, k) done /\ get d p = Some i).

Lemma invariant_enter : forall done d q r, invariant done d -> start q < start r -> List.length (snd q) = List.length (snd r) ->
  (forall x, In x done -> start (fst x) <= start q) -> (forall x, In x done -> start (fst x) < start (snd x)) ->
  invariant (done ++ [(q, r)]) (enter d (q, r)).
Proof.
  intros done d q r (N & Lt & Sec & Fst & Src & root & R) QR Len Le Lts. unfold enter. cbn [fst snd].
  assert (Nqr : q <> r) by (intros ->; lia).
  assert (NR : forall k, ~ In (r, k) done). { intros k I. specialize (Le _ I). cbn [fst] in Le. lia. }
  set (i := match get d q with Some i => i | None => List.length d end).
  set (d1 := set d q i). set (d2 := set d1 r i).
  assert (L1 : List.length d <= List.length d1) by apply set_length. assert (L2 : List.length d1 <= List.length d2) by apply set_length.
  assert (Li : i < List.length d1).
  { unfold i, d1, i. destruct (get d q) as [j|] eqn:E.
    - specialize (Lt q j E). destruct (set_length d q j) as [A _]. lia.
    - destruct (set_length d q (List.length d)) as [_ B]. rewrite (B E). lia. }
  assert (G : forall k, get d2 k = if piece_eqb r k then Some i else if piece_eqb q k then Some i else get d k).
  { intro k. unfold d2, d1. rewrite !get_set. reflexivity. }
  assert (Gq : get d2 q = Some i). { rewrite G. rewrite (piece_eqb_neq r q) by congruence. rewrite piece_eqb_refl. reflexivity. }
  assert (Gr : get d2 r = Some i). { rewrite G, piece_eqb_refl. reflexivity. }
  assert (Go : forall k, k <> r -> forall j, get d k = Some j -> get d2 k = Some j).
  { intros k Nk j E. rewrite G. rewrite (piece_eqb_neq r k) by congruence. destruct (piece_eqb q k) eqn:Q; [|exact E].
    apply piece_eqb_eq in Q. subst k. unfold i. rewrite E. reflexivity. }
  split; [apply set_nodup, set_nodup, N|]. split.
  { intros k j E. rewrite G in E. destruct (piece_eqb r k); [assert (j = i) by congruence; lia|]. destruct (piece_eqb q k); [assert (j = i) by congruence; lia|].
    specialize (Lt k j E). lia. }
  assert (Ex : forall k, get d k <> None -> get d2 k <> None).
  { intros k H. rewrite G. destruct (piece_eqb r k); [discriminate|]. destruct (piece_eqb q k); [discriminate|exact H]. }
  split.
  { intros p k I. apply in_app_iff in I as [I|[I|[]]]; [apply Ex, (Sec p k I)|]. assert (k = r) by congruence. subst. rewrite Gr. discriminate. }
  split.
  { intros p k I. apply in_app_iff in I as [I|[I|[]]]; [apply Ex, (Fst p k I)|]. assert (p = q) by congruence. subst. rewrite Gq. discriminate. }
  split.
  { intros k j E. rewrite G in E. destruct (piece_eqb r k) eqn:Er.
    - apply piece_eqb_eq in Er. subst k. exists q. left. apply in_app_iff. right. left. reflexivity.
    - destruct (piece_eqb q k) eqn:Eq; [apply piece_eqb_eq in Eq; subst k; exists r; right; apply in_app_iff; right; left; reflexivity|].
      destruct (Src k j E) as [p [I|I]]; exists p; [left|right]; apply in_app_iff; left; exact I. }
  exists (fun j => match get d q with None => if Nat.eqb j (List.length d) then q else root j | Some _ => root j end).
  assert (Old : forall k j, get d k = Some j -> (match get d q with None => if Nat.eqb j (List.length d) then q else root j | Some _ => root j end) = root j).
  { intros k j E. destruct (get d q); [reflexivity|]. destruct (Nat.eqb j (List.length d)) eqn:Q; [|reflexivity]. apply Nat.eqb_eq in Q. specialize (Lt k j E). lia. }
  assert (Rq : List.length (snd q) = List.length (snd (match get d q with None => if Nat.eqb i (List.length d) then q else root i | Some _ => root i end))).
  { unfold i. destruct (get d q) as [j|] eqn:E; [exact (proj1 (R q j E))|]. rewrite Nat.eqb_refl. reflexivity. }
  intros k j E. destruct (piece_dec k r) as [->|Nk].
  { assert (j = i) by congruence. subst j. split; [rewrite <- Len; exact Rq|]. right. exists q. split; [apply in_app_iff; right; left; reflexivity|exact Gq]. }
  rewrite G in E. rewrite (piece_eqb_neq r k) in E by congruence. destruct (piece_eqb q k) eqn:Q.
  - apply piece_eqb_eq in Q. subst k. assert (j = i) by congruence. subst j. split; [exact Rq|]. unfold i in *. destruct (get d q) as [j|] eqn:Eq.
    + destruct (R q j Eq) as [_ [[Er Nd]|(p & I & Gp)]].
      * left. split; [exact Er|]. intros p I. apply in_app_iff in I as [I|[I|[]]]; [exact (Nd p I)|congruence].
      * right. exists p. split; [apply in_app_iff; left; exact I|]. apply Go; [|exact Gp]. intros ->. exact (NR q I).
    + left. rewrite Nat.eqb_refl. split; [reflexivity|]. intros p I. apply in_app_iff in I as [I|[I|[]]]; [|congruence].
      apply (Sec p q I). exact Eq.
  - rewrite (Old k j E). destruct (R k j E) as [Lk [[Er Nd]|(p & I & Gp)]]; (split; [exact Lk|]).
    + left. split; [exact Er|]. intros p I. apply in_app_iff in I as [I|[I|[]]]; [exact (Nd p I)|congruence].
    + right. exists p. split; [apply in_app_iff; left; exact I|]. apply Go; [|exact Gp]. intros ->. exact (NR k I).
Qed.

Lemma invariant_all : forall pairs done d, invariant done d -> in_order (done ++ pairs) -> invariant (done ++ pairs) (fold_left enter pairs d).
Proof.
  induction pairs as [|[q r] pairs IH]; intros done d I O; cbn [fold_left]; [rewrite app_nil_r; exact I|].
  replace (done ++ (q, r) :: pairs) with ((done ++ [(q, r)]) ++ pairs) in * by (rewrite <- app_assoc; reflexivity).
  apply IH; [|exact O]. destruct O as (Srt & Lt & Len).
  assert (Iqr : In (q, r) ((done ++ [(q, r)]) ++ pairs)) by (apply in_app_iff; left; apply in_app_iff; right; left; reflexivity).
  apply invariant_enter; [exact I|exact (Lt _ Iqr)|exact (Len _ Iqr)| |].
  - intros x X. clear - Srt X. induction done as [|y done IH]; [destruct X|]. cbn [app] in Srt. inversion Srt as [|? ? Sd F]. subst.
    destruct X as [<-|X]; [|exact (IH Sd X)]. rewrite Forall_forall in F. apply (F (q, r)). apply in_app_iff. left. apply in_app_iff. right. left. reflexivity.
  - intros x X. apply Lt. apply in_app_iff. left. apply in_app_iff. left. exact X.
Qed.
Lemma invariant_start : invariant [] [].
Proof.
  split; [constructor|]. split; [discriminate|]. split; [intros p k []|]. split; [intros p k []|]. split; [discriminate|].
  exists (fun _ => ((0, None), [])). discriminate.
Qed.
Lemma invariant_pairs : forall pairs, in_order pairs -> invariant pairs (fold_left enter pairs []).
Proof. intros pairs O. exact (invariant_all pairs [] [] invariant_start O). Qed.

(** ** Sorting *)

Lemma insert_perm {A} : forall (less : A -> A -> bool) x l, Permutation (x :: l) (insert less x l).
Proof.
  intros less x l. induction l as [|y l IH]; cbn [insert]; [apply Permutation_refl|]. destruct (less x y); [apply Permutation_refl|].
  apply perm_trans with (y :: x :: l); [apply perm_swap|]. apply perm_skip. exact IH.
Qed.
Lemma sort_perm {A} : forall (less : A -> A -> bool) l, Permutation l (sort less l).
Proof.
  intros less l. unfold sort. assert (H : forall s, Permutation (s ++ l) (fold_left (fun s x => insert less x s) l s)); [|exact (H [])].
  induction l as [|x l IH]; intro s; cbn [fold_left]; [rewrite app_nil_r; apply Permutation_refl|].
  apply perm_trans with (insert less x s ++ l); [|apply IH]. apply perm_trans with ((x :: s) ++ l); [|apply Permutation_app_tail, insert_perm].
  apply Permutation_sym. cbn [app]. apply Permutation_middle.
Qed.
Lemma insert_sorted {A} : forall (less : A -> A -> bool) (f : A -> nat), (forall a b, less a b = true -> f a <= f b) -> (forall a b, less a b = false -> f b <= f a) ->
  forall x l, StronglySorted (fun a b => f a <= f b) l -> StronglySorted (fun a b => f a <= f b) (insert less x l).
Proof.
  intros less f T F x l Sl. induction Sl as [|y l Sl IH Fy]; cbn [insert]; [repeat constructor|]. destruct (less x y) eqn:E.
  - constructor; [constructor; assumption|]. constructor; [exact (T x y E)|]. rewrite Forall_forall in *. intros z Z. specialize (Fy z Z). specialize (T x y E). lia.
  - constructor; [exact IH|]. rewrite Forall_forall in *. intros z Z. apply (Permutation_in z (Permutation_sym (insert_perm less x l))) in Z.
    destruct Z as [<-|Z]; [exact (F x y E)|exact (Fy z Z)].
Qed.
Lemma sort_sorted {A} : forall (less : A -> A -> bool) (f : A -> nat), (forall a b, less a b = true -> f a <= f b) -> (forall a b, less a b = false -> f b <= f a) ->
  forall l, StronglySorted (fun a b => f a <= f b) (sort less l).
Proof.
  intros less f T F l. unfold sort. assert (H : forall s, StronglySorted (fun a b => f a <= f b) s -> StronglySorted (fun a b => f a <= f b) (fold_left (fun s x => insert less x s) l s)).
  { induction l as [|x l IH]; intros s Hs; cbn [fold_left]; [exact Hs|]. apply IH, insert_sorted; assumption. }
  apply H. constructor.
Qed.
Lemma range_less_start : forall p q : piece, (range_less (fst p) (fst q) = true -> start p <= start q) /\ (range_less (fst p) (fst q) = false -> start q <= start p).
Proof.
  intros [[a b] l] [[c e] m]. unfold range_less. cbn [fst snd]. destruct (Nat.ltb a c) eqn:L; cbn [orb].
  - apply Nat.ltb_lt in L. split; [lia|discriminate].
  - apply Nat.ltb_ge in L. split; [|lia]. intro H. apply andb_prop in H as [H _]. apply Nat.eqb_eq in H. lia.
Qed.

(** ** Groups *)

Lemma ids_in : forall d seen i, In i (ids seen d) <-> ~ In i seen /\ In i (map snd d).
Proof.
  induction d as [|[p j] d IH]; intros seen i; cbn [ids map snd]; [split; [intros []|intros [_ []]]|].
  destruct (existsb (Nat.eqb j) seen) eqn:E.
  - rewrite IH. apply existsb_exists in E as (y & Y & Q). apply Nat.eqb_eq in Q. subst y. split; intros [A B]; (split; [exact A|]); [right; exact B|].
    destruct B as [->|B]; [contradiction|exact B].
  - assert (Nj : ~ In j seen). { intro I. assert (existsb (Nat.eqb j) seen = true); [|congruence]. apply existsb_exists. exists j. split; [exact I|apply Nat.eqb_refl]. }
    cbn [In]. rewrite IH. cbn [In]. split.
    + intros [->|[A B]]; [split; [exact Nj|left; reflexivity]|]. split; [tauto|right; exact B].
    + intros [A [->|B]]; [left; reflexivity|]. destruct (Nat.eq_dec j i) as [->|Nji]; [left; reflexivity|right]. split; [|exact B]. intros [H|H]; contradiction.
Qed.
Lemma with_id_in : forall d i k, In k (with_id d i) <-> In (k, i) d.
Proof.
  intros d i k. unfold with_id. rewrite in_map_iff. split.
  - intros ([p j] & <- & I). apply filter_In in I as [I E]. cbn [snd] in E. apply Nat.eqb_eq in E. subst. exact I.
  - intro I. exists (k, i). split; [reflexivity|]. apply filter_In. split; [exact I|apply Nat.eqb_refl].
Qed.
Lemma with_id_nodup : forall d i, NoDup (map fst d) -> NoDup (with_id d i).
Proof.
  intros d i N. unfold with_id. induction d as [|[p j] d IH]; cbn [filter map fst] in *; [constructor|]. inversion N as [|? ? Np Nd]. subst.
  destruct (Nat.eqb (snd (p, j)) i); [|exact (IH Nd)]. cbn [map fst]. constructor; [|exact (IH Nd)]. intro I. apply Np.
  apply in_map_iff in I as (e & E & I). apply filter_In in I as [I _]. apply in_map_iff. exists e. auto.
Qed.
Lemma group_is : forall d g, In g (get_ordered_candidates d) -> exists i, In i (map snd d) /\ Permutation (with_id d i) g /\ StronglySorted (fun p q => start p <= start q) g.
Proof.
  intros d g I. unfold get_ordered_candidates in I. apply (Permutation_in g (Permutation_sym (sort_perm _ _))) in I. apply in_map_iff in I as (i & <- & I).
  exists i. apply ids_in in I as [_ I]. split; [exact I|]. split; [apply sort_perm|].
  apply (sort_sorted (fun p q => range_less (fst p) (fst q)) (fun p => start p)); intros p q; [exact (proj1 (range_less_start p q))|exact (proj2 (range_less_start p q))].
Qed.
Lemma group_has : forall d k i, In (k, i) d -> exists g, In g (get_ordered_candidates d) /\ forall q, In q g <-> In (q, i) d.
Proof.
  intros d k i I. exists (sort (fun p q => range_less (fst p) (fst q)) (with_id d i)). split.
  - unfold get_ordered_candidates. apply (Permutation_in _ (sort_perm _ _)). apply in_map_iff. exists i. split; [reflexivity|]. apply ids_in.
    split; [intros []|]. apply in_map_iff. exists (k, i). auto.
  - intro q. rewrite <- with_id_in. split; apply Permutation_in; [apply Permutation_sym|]; apply sort_perm.
Qed.

(** A group: its first piece, and the others, each paired with an earlier one. *)
Lemma group_paired : forall pairs g, in_order pairs -> In g (get_ordered_candidates (fold_left enter pairs [])) ->
  exists h t, g = h :: t /\ NoDup g /\ StronglySorted (fun p q => start p <= start q) g /\
    (forall k, In k g -> List.length (snd k) = List.length (snd h)) /\ (forall k, In k t -> exists p, In p g /\ In (p, k) pairs).
Proof.
  intros pairs g O I. assert (Inv := invariant_pairs pairs O). set (d := fold_left enter pairs []) in *.
  destruct Inv as (N & Lt & Sec & Fst & Src & root & R). destruct (group_is d g I) as (i & Ii & P & Srt).
  assert (M : forall k, In k g <-> get d k = Some i).
  { intro k. rewrite (get_in d k i N), <- with_id_in. split; apply Permutation_in; [apply Permutation_sym; exact P|exact P]. }
  assert (Nd : NoDup g) by (apply (Permutation_NoDup P), with_id_nodup, N).
  destruct g as [|h t].
  { exfalso. apply in_map_iff in Ii as ([k j] & E & X). cbn [snd] in E. subst j. apply with_id_in in X. exact (Permutation_in k P X). }
  exists h, t. split; [reflexivity|]. split; [exact Nd|]. split; [exact Srt|].
  assert (Gh : get d h = Some i) by (apply M; left; reflexivity). split.
  { intros k K. apply M in K. destruct (R k i K) as [A _]. destruct (R h i Gh) as [B _]. congruence. }
  intros k K. assert (Gk : get d k = Some i) by (apply M; right; exact K). destruct (R k i Gk) as [_ [[Er _]|(p & X & Gp)]].
  - destruct (R h i Gh) as [_ [[Eh _]|(p & X & Gp)]].
    + assert (h = k) by congruence. subst. inversion Nd. contradiction.
    + exfalso. destruct O as (_ & Lto & _). specialize (Lto _ X). cbn [fst snd] in Lto. apply M in Gp. inversion Srt as [|? ? _ F]. subst.
      destruct Gp as [->|Gp]; [lia|]. rewrite Forall_forall in F. specialize (F p Gp). lia.
  - exists p. split; [apply M; exact Gp|exact X].
Qed.
(** The second piece of a pair is in a group with a piece it is paired with. *)
Lemma second_paired : forall pairs p k, in_order pairs -> In (p, k) pairs ->
  exists g q, In g (get_ordered_candidates (fold_left enter pairs [])) /\ In k g /\ In q g /\ In (q, k) pairs.
Proof.
  intros pairs p k O I. assert (Inv := invariant_pairs pairs O). set (d := fold_left enter pairs []) in *.
  destruct Inv as (N & Lt & Sec & Fst & Src & root & R). destruct (get d k) as [i|] eqn:G; [|destruct (Sec p k I G)].
  destruct (group_has d k i (proj1 (get_in d k i N) G)) as (g & Ig & M). destruct (R k i G) as [_ [[_ Nd]|(q & X & Gq)]]; [destruct (Nd p I)|].
  exists g, q. split; [exact Ig|]. split; [apply M, (get_in d k i N), G|]. split; [apply M, (get_in d q i N), Gq|exact X].
Qed.

(** ** The candidates *)

Lemma index_in_nth : forall l x i, index_in l x = Some i -> nth i l 0 = x /\ i < List.length l.
Proof.
  induction l as [|y l IH]; intros x i E; cbn [index_in] in E; [discriminate E|]. destruct (Nat.eqb y x) eqn:Q.
  - apply Nat.eqb_eq in Q. assert (i = 0) by congruence. subst. cbn [nth List.length]. split; [reflexivity|lia].
  - destruct (index_in l x) as [j|] eqn:J; [|discriminate E]. cbn [option_map] in E. assert (i = S j) by congruence. subst. cbn [nth List.length].
    destruct (IH x j J) as [A B]. split; [exact A|lia].
Qed.
Lemma skip_inside_incl : forall stmts from line l j, In j (skip_inside stmts from line l) -> In j l.
Proof. intros stmts from line. induction l as [|x l IH]; intros j I; cbn [skip_inside] in I; [destruct I|]. destruct (Nat.leb _ _); [right; exact (IH j I)|exact I]. Qed.
Lemma common_length_le : forall f n l m, common_length f n l m <= n /\ common_length f n l m <= List.length l /\ common_length f n l m <= List.length m.
Proof.
  intros f n. induction n as [|n IH]; intros l m; [cbn; lia|]. destruct l as [|x l], m as [|y m]; cbn [common_length List.length]; try lia.
  destruct (f x y); [|lia]. specialize (IH l m). lia.
Qed.
Lemma common_length_types : forall f n l m k, k <= common_length f n l m -> Forall2 (fun x y => f x y = true) (firstn k l) (firstn k m).
Proof.
  intros f n. induction n as [|n IH]; intros l m k K; [assert (k = 0) by (cbn in K; lia); subst; constructor|].
  destruct l as [|x l], m as [|y m]; cbn [common_length] in K; try (assert (k = 0) by lia; subst; constructor).
  destruct (f x y) eqn:E; [|assert (k = 0) by lia; subst; constructor]. destruct k as [|k]; [constructor|]. cbn [firstn]. constructor; [exact E|]. apply IH. lia.
Qed.
Lemma sorted_flat_map {A B} : forall (f : A -> list B) (g : B -> nat) (h : A -> nat) l, (forall x y, In y (f x) -> g y = h x) ->
  StronglySorted (fun x y => h x < h y) l -> StronglySorted (fun x y => g x <= g y) (flat_map f l).
Proof.
  intros f g h l E Sl. induction Sl as [|x l Sl IH F]; cbn [flat_map]; [constructor|].
  assert (Lx : forall y, In y (f x) -> g y = h x) by (intro y; apply E). revert Lx. induction (f x) as [|y ys IHy]; intro Lx; cbn [app]; [exact IH|].
  constructor; [apply IHy; intros z Z; apply Lx; right; exact Z|]. apply Forall_forall. intros z Z. rewrite (Lx y (or_introl eq_refl)).
  apply in_app_iff in Z as [Z|Z]; [rewrite (Lx z (or_intror Z)); lia|]. apply in_flat_map in Z as (w & W & Z). rewrite (E w z Z).
  rewrite Forall_forall in F. specialize (F w W). lia.
Qed.

Section Pairs.
  Variable stmt_nodes : list nat.
  Variable fromlineno tolineno : nat -> nat.
  Variable is_type_of : nat -> nat -> bool.
  Variable no_one_line : nat -> bool.
  Variable siblings : nat -> list nat.
  Hypothesis own : own_siblings stmt_nodes siblings.
  Notation pairs_at := (get_similar_to_block_candidates stmt_nodes fromlineno tolineno is_type_of no_one_line siblings).
  Notation node i := (nth i stmt_nodes 0).
  Definition piece_at (i n : nat) : piece := (get_stmt_range stmt_nodes i (firstn n (siblings (node i))), firstn n (siblings (node i))).

  Lemma longest_is : forall i j n p, longest stmt_nodes fromlineno tolineno is_type_of no_one_line siblings i j n = Some p ->
    exists m, 1 <= m /\ m <= n /\ p = (piece_at i m, piece_at j m) /\ overlap stmt_nodes fromlineno tolineno (fst (fst p)) (fst (snd p)) = false /\
      is_duplication_candidate is_type_of (slice stmt_nodes (fst (fst p))) (slice stmt_nodes (fst (snd p))) = true.
  Proof.
    intros i j n. induction n as [|n IH]; intros p E; cbn [longest] in E; [discriminate E|].
    destruct (_ && (_ || _)); [discriminate E|].
    destruct (negb (overlap _ _ _ _ _) && _) eqn:O.
    - apply andb_prop in O as [O Dc]. apply negb_true_iff in O. exists (S n). split; [lia|]. split; [lia|].
      assert (Q : p = (piece_at i (S n), piece_at j (S n))) by (unfold piece_at; congruence). split; [exact Q|]. rewrite Q. cbn [fst snd piece_at]. split; [exact O|exact Dc].
    - destruct (IH p E) as (m & A & B & C). exists m. split; [exact A|]. split; [lia|exact C].
  Qed.
  Lemma pair_is : forall i p, In p (pairs_at i) -> exists j m, i < j /\ j < List.length stmt_nodes /\ 1 <= m /\
    m <= List.length (siblings (node i)) /\ m <= List.length (siblings (node j)) /\ p = (piece_at i m, piece_at j m) /\
    overlap stmt_nodes fromlineno tolineno (fst (fst p)) (fst (snd p)) = false /\
    is_duplication_candidate is_type_of (slice stmt_nodes (fst (fst p))) (slice stmt_nodes (fst (snd p))) = true /\
    Forall2 (fun x y => is_type_of x y = true) (snd (fst p)) (snd (snd p)).
  Proof.
    intros i p I. unfold get_similar_to_block_candidates in I. apply in_flat_map in I as (j & J & I). unfold candidate_snd in J.
    apply skip_inside_incl in J. apply in_seq in J. unfold candidate_pair in I. cbv zeta in I.
    destruct (longest _ _ _ _ _ _ i j _) as [q|] eqn:E; [|destruct I]. destruct I as [<-|[]].
    destruct (longest_is i j _ q E) as (m & A & B & C & O & Dc).
    assert (L := common_length_le is_type_of (Nat.min (Nat.min (List.length (siblings (node i))) (List.length (siblings (node j)))) (j - i)) (siblings (node i)) (siblings (node j))).
    exists j, m. split; [lia|]. split; [lia|]. split; [exact A|]. split; [lia|]. split; [lia|]. split; [exact C|]. split; [exact O|]. split; [exact Dc|].
    rewrite C. cbn [fst snd piece_at]. exact (common_length_types is_type_of _ _ _ m B).
  Qed.
  Lemma pair_starts : forall i p, In p (pairs_at i) -> start (fst p) = i.
  Proof. intros i p I. destruct (pair_is i p I) as (j & m & _ & _ & _ & _ & _ & -> & _). reflexivity. Qed.

  Lemma pairs_in_order : forall positions, StronglySorted lt positions -> in_order (flat_map pairs_at positions).
  Proof.
    intros positions Sp. split; [|split].
    - apply (sorted_flat_map pairs_at (fun x => start (fst x)) (fun i => i)); [exact pair_starts|exact Sp].
    - intros p I. apply in_flat_map in I as (i & _ & I). destruct (pair_is i p I) as (j & m & L & _ & _ & _ & _ & -> & _). exact L.
    - intros p I. apply in_flat_map in I as (i & _ & I). destruct (pair_is i p I) as (j & m & _ & _ & _ & A & B & -> & _). cbn [fst snd piece_at].
      rewrite !firstn_length. lia.
  Qed.

  Lemma piece_run : forall i m, i < List.length stmt_nodes -> 1 <= m -> run_of stmt_nodes siblings (snd (piece_at i m)) /\ hd 0 (snd (piece_at i m)) = node i /\ snd (piece_at i m) <> [].
  Proof.
    intros i m L M. cbn [snd piece_at]. assert (X : In (node i) stmt_nodes) by (apply nth_In; exact L). destruct (proj2 own (node i) X) as [l E].
    rewrite E. destruct m as [|m]; [lia|]. cbn [firstn hd]. split; [|split; [reflexivity|discriminate]].
    exists (node i), (S m). split; [exact X|]. rewrite E. split; reflexivity.
  Qed.
  Lemma at_most_once : forall a b x, nth_error stmt_nodes a = Some x -> nth_error stmt_nodes b = Some x -> a = b.
  Proof.
    intros a b x A B. apply (proj1 (NoDup_nth_error stmt_nodes) (proj1 own)); [|congruence]. apply nth_error_Some. congruence.
  Qed.
  Lemma at_node : forall i, i < List.length stmt_nodes -> nth_error stmt_nodes i = Some (node i).
  Proof. intros i L. apply nth_error_nth'. exact L. Qed.
  Lemma candidate_pointwise : forall l m n x y, is_duplication_candidate is_type_of l m = true -> nth_error l n = Some x -> nth_error m n = Some y -> is_type_of y x = true.
  Proof.
    unfold is_duplication_candidate. induction l as [|a l IH]; intros m n x y D X Y; [destruct n; discriminate X|].
    destruct m as [|b m]; [destruct n; discriminate Y|]. cbn [combine forallb fst snd] in D. apply andb_prop in D as [D R]. destruct n as [|n].
    - cbn [nth_error] in X, Y. apply andb_prop in D as [_ D]. congruence.
    - exact (IH m n x y R X Y).
  Qed.
  Lemma nth_error_firstn_lt {A} : forall (l : list A) k n, n < k -> nth_error (firstn k l) n = nth_error l n.
  Proof.
    induction l as [|a l IH]; intros k n L; [rewrite firstn_nil; reflexivity|]. destruct k as [|k]; [lia|]. destruct n as [|n]; [reflexivity|].
    cbn [firstn nth_error]. apply IH. lia.
  Qed.
  Lemma nth_error_skipn_add {A} : forall (l : list A) k n, nth_error (skipn k l) n = nth_error l (k + n).
  Proof. induction l as [|a l IH]; intros [|k] n; cbn [skipn Nat.add nth_error]; try reflexivity; [destruct n; reflexivity|apply IH]. Qed.
  Lemma slice_nth : forall i m e n x, nth_error stmt_nodes e = Some (last (snd (piece_at i m)) 0) -> i + n <= e ->
    nth_error stmt_nodes (i + n) = Some x -> nth_error (slice stmt_nodes (fst (piece_at i m))) n = Some x.
  Proof.
    intros i m e n x Ae Le Ax. cbn [snd fst piece_at] in *. unfold slice, get_stmt_range. cbn [fst snd].
    destruct (index_in stmt_nodes (last (firstn m (siblings (node i))) 0)) as [z|] eqn:E; cbn [option_map].
    - destruct (index_in_nth _ _ _ E) as [Q Lz]. assert (z = e). { apply (at_most_once z e (last (firstn m (siblings (node i))) 0)); [|exact Ae]. rewrite (at_node z Lz), Q. reflexivity. }
      subst z. rewrite nth_error_firstn_lt by lia. rewrite nth_error_skipn_add. exact Ax.
    - rewrite nth_error_skipn_add. exact Ax.
  Qed.
  Lemma candidate_inside : forall i m j m' i' e j' f n x y, i < List.length stmt_nodes -> j < List.length stmt_nodes ->
    is_duplication_candidate is_type_of (slice stmt_nodes (fst (piece_at i m))) (slice stmt_nodes (fst (piece_at j m'))) = true ->
    nth_error stmt_nodes i' = Some (node i) -> nth_error stmt_nodes e = Some (last (snd (piece_at i m)) 0) ->
    nth_error stmt_nodes j' = Some (node j) -> nth_error stmt_nodes f = Some (last (snd (piece_at j m')) 0) ->
    i' + n <= e -> j' + n <= f -> nth_error stmt_nodes (i' + n) = Some x -> nth_error stmt_nodes (j' + n) = Some y -> is_type_of y x = true.
  Proof.
    intros i m j m' i' e j' f n x y Li Lj D Ai Ae Aj Af Le Lf Ax Ay.
    assert (i' = i) by exact (at_most_once _ _ _ Ai (at_node i Li)). assert (j' = j) by exact (at_most_once _ _ _ Aj (at_node j Lj)). subst i' j'.
    exact (candidate_pointwise _ _ n x y D (slice_nth i m e n x Ae Le Ax) (slice_nth j m' f n y Af Lf Ay)).
  Qed.
  Lemma pair_alike : forall positions p, (forall i, In i positions -> i < List.length stmt_nodes) -> In p (flat_map pairs_at positions) ->
    alike stmt_nodes fromlineno tolineno is_type_of siblings (snd (fst p)) (snd (snd p)).
  Proof.
    intros positions p B I. apply in_flat_map in I as (i & Ii & I). specialize (B i Ii). destruct (pair_is i p I) as (j & m & L & Lj & M & Li & Lsj & -> & O & Dc & T).
    cbn [fst snd] in *. destruct (piece_run i m B M) as (Ri & Hi & Ni). destruct (piece_run j m Lj M) as (Rj & Hj & Nj).
    split; [exact Ri|]. split; [exact Rj|]. split; [exact T|]. split.
    { intros i' e j' f n x y Ai Ae Aj Af Le Lf Ax Ay. rewrite Hi in Ai. rewrite Hj in Aj.
      apply (candidate_inside i m j m i' e j' f n x y); assumption. }
    split; [exact Ni|]. split; [exact Nj|]. rewrite Hj.
    unfold overlap in O. unfold piece_at at 1 2 3 in O. cbn [fst snd piece_at get_stmt_range] in O.
    destruct (index_in stmt_nodes (last (firstn m (siblings (node i))) 0)) as [e|] eqn:E; cbn [option_map] in O; [|discriminate O].
    destruct (index_in stmt_nodes (last (firstn m (siblings (node j))) 0)) as [e'|]; cbn [option_map] in O; [|discriminate O].
    apply Nat.leb_gt in O. destruct (index_in_nth _ _ _ E) as [Q _]. replace (S e - 1) with e in O by lia. rewrite Q in O. exact O.
  Qed.
  Lemma piece_determined : forall positions k k', (exists p, In (p, k) (flat_map pairs_at positions) \/ In (k, p) (flat_map pairs_at positions)) ->
    (exists p, In (p, k') (flat_map pairs_at positions) \/ In (k', p) (flat_map pairs_at positions)) ->
    start k = start k' -> List.length (snd k) = List.length (snd k') -> k = k'.
  Proof.
    intros positions. assert (Form : forall k, (exists p, In (p, k) (flat_map pairs_at positions) \/ In (k, p) (flat_map pairs_at positions)) ->
      exists i m, k = piece_at i m /\ m = List.length (snd k)).
    { intros k [p [I|I]]; apply in_flat_map in I as (i & _ & I); destruct (pair_is i _ I) as (j & m & _ & _ & _ & A & B & E & _).
      - exists j, m. assert (k = piece_at j m) by congruence. subst k. split; [reflexivity|]. cbn [snd piece_at]. rewrite firstn_length. lia.
      - exists i, m. assert (k = piece_at i m) by congruence. subst k. split; [reflexivity|]. cbn [snd piece_at]. rewrite firstn_length. lia. }
    intros k k' F F' Es El. destruct (Form k F) as (i & m & -> & M). destruct (Form k' F') as (i' & m' & -> & M'). cbn [fst piece_at get_stmt_range] in Es.
    congruence.
  Qed.

  Notation groups positions := (get_ordered_candidates (candidates stmt_nodes fromlineno tolineno is_type_of no_one_line siblings positions)).
  Notation Alike := (alike stmt_nodes fromlineno tolineno is_type_of siblings).

  Lemma group_alike : forall positions g, StronglySorted lt positions -> (forall i, In i positions -> i < List.length stmt_nodes) -> In g (groups positions) ->
    exists h t, g = h :: t /\ StronglySorted starts_before g /\ (forall k, In k g -> List.length (snd k) = List.length (snd h)) /\
      (forall k, In k t -> exists p, In p g /\ starts_before p k /\ Alike (snd p) (snd k)).
  Proof.
    intros positions g Sp B I. unfold candidates in I. assert (O := pairs_in_order positions Sp).
    destruct (group_paired _ g O I) as (h & t & -> & Nd & Srt & Len & Par). exists h, t. split; [reflexivity|].
    assert (Src : t = [] \/ forall k, In k (h :: t) -> exists p, In (p, k) (flat_map pairs_at positions) \/ In (k, p) (flat_map pairs_at positions)).
    { assert (Inv := invariant_pairs _ O). destruct Inv as (N & _ & _ & _ & Src & _). right. intros k K.
      destruct (group_is _ _ I) as (i & _ & P & _). apply (Permutation_in k (Permutation_sym P)) in K. apply with_id_in in K.
      apply (get_in _ k i N) in K. exact (Src k i K). }
    split; [|split; [exact Len|]].
    - destruct Src as [->|Src]; [constructor; [constructor|constructor]|].
      assert (Strict : forall k k', In k (h :: t) -> In k' (h :: t) -> k <> k' -> start k <= start k' -> start k < start k').
      { intros k k' K K' Nk Le. destruct (Nat.eq_dec (start k) (start k')) as [E|E]; [|lia]. exfalso. apply Nk.
        apply (piece_determined positions k k' (Src k K) (Src k' K') E). rewrite (Len k K), (Len k' K'). reflexivity. }
      clear - Nd Srt Strict. remember (h :: t) as g. clear h t Heqg. unfold starts_before. induction Srt as [|x l Sl IH F]; [constructor|].
      inversion Nd as [|? ? Nx Nl]. subst. constructor.
      + apply IH; [exact Nl|]. intros k k' K K'. apply Strict; right; assumption.
      + rewrite Forall_forall in *. intros y Y. apply Strict; [left; reflexivity|right; exact Y|intros ->; contradiction|exact (F y Y)].
    - intros k K. destruct (Par k K) as (p & P & X). exists p. split; [exact P|]. split; [exact (proj1 (proj2 O) _ X)|]. exact (pair_alike positions (p, k) B X).
  Qed.

  Variable next_sibling : nat -> option nat.
  Variable all_children_of_one_statement : list (list nat) -> bool.
  Variable similar_to_block : list (list nat) -> bool.
  Variable nodes_of : list nat -> list nat.
  Notation found := (similar_groups next_sibling all_children_of_one_statement similar_to_block nodes_of).

  Lemma found_in : forall gs duplicate g, In g (found duplicate gs) ->
    In g gs /\ may_be_similar_to_loop next_sibling (map snd g) = false /\ similar_to_block (map snd g) = true /\ ~ In (hd 0 (hd [] (map snd g))) duplicate.
  Proof.
    induction gs as [|x gs IH]; intros duplicate g I; cbn [similar_groups] in I; [destruct I|].
    assert (Go : forall D, incl duplicate D -> In g (found D gs) -> In g (x :: gs) /\ may_be_similar_to_loop next_sibling (map snd g) = false /\
      similar_to_block (map snd g) = true /\ ~ In (hd 0 (hd [] (map snd g))) duplicate).
    { intros D Inc J. destruct (IH D g J) as (A & B & C & E). split; [right; exact A|]. split; [exact B|]. split; [exact C|]. intro X. apply E, Inc, X. }
    destruct (may_be_similar_to_loop next_sibling (map snd x)) eqn:M; [exact (Go duplicate (fun y Y => Y) I)|].
    destruct (existsb (Nat.eqb (hd 0 (hd [] (map snd x)))) duplicate) eqn:D; [exact (Go duplicate (fun y Y => Y) I)|].
    destruct (all_children_of_one_statement (map snd x)); [exact (Go duplicate (fun y Y => Y) I)|].
    destruct (similar_to_block (map snd x)) eqn:Sb; [|exact (Go duplicate (fun y Y => Y) I)].
    destruct I as [<-|I].
    - split; [left; reflexivity|]. split; [exact M|]. split; [exact Sb|]. intro X.
      assert (existsb (Nat.eqb (hd 0 (hd [] (map snd x)))) duplicate = true); [|congruence]. apply existsb_exists. eexists. split; [exact X|apply Nat.eqb_refl].
    - refine (Go _ _ I). intros y Y. apply in_app_iff. right. exact Y.
  Qed.
  Lemma found_apart : forall gs duplicate l1 g1 l2 g2 l3, found duplicate gs = l1 ++ g1 :: l2 ++ g2 :: l3 ->
    ~ In (hd 0 (hd [] (map snd g2))) (flat_map nodes_of (map snd g1)).
  Proof.
    induction gs as [|x gs IH]; intros duplicate l1 g1 l2 g2 l3 E; cbn [similar_groups] in E; [destruct l1; discriminate E|].
    destruct (may_be_similar_to_loop next_sibling (map snd x)); [exact (IH _ _ _ _ _ _ E)|].
    destruct (existsb _ duplicate); [exact (IH _ _ _ _ _ _ E)|]. destruct (all_children_of_one_statement (map snd x)); [exact (IH _ _ _ _ _ _ E)|].
    destruct (similar_to_block (map snd x)); [|exact (IH _ _ _ _ _ _ E)]. destruct l1 as [|y l1].
    - cbn [app] in E. assert (x = g1) by congruence. subst x. assert (E2 : found (flat_map nodes_of (map snd g1) ++ duplicate) gs = l2 ++ g2 :: l3) by congruence.
      assert (I : In g2 (found (flat_map nodes_of (map snd g1) ++ duplicate) gs)) by (rewrite E2; apply in_app_iff; right; left; reflexivity).
      apply found_in in I as (_ & _ & _ & N). intro X. apply N. apply in_app_iff. left. exact X.
    - cbn [app] in E. assert (E2 : found (flat_map nodes_of (map snd x) ++ duplicate) gs = l1 ++ g1 :: l2 ++ g2 :: l3) by congruence. exact (IH _ _ _ _ _ _ E2).
  Qed.

  Notation reported := (is_any_similar_to_block stmt_nodes fromlineno tolineno is_type_of no_one_line siblings next_sibling all_children_of_one_statement similar_to_block nodes_of).
  Theorem reported_alike : forall duplicate positions g, StronglySorted lt positions -> (forall i, In i positions -> i < List.length stmt_nodes) ->
    In g (reported duplicate positions) ->
    exists h t, g = h :: t /\ t <> [] /\ similar_to_block (map snd g) = true /\ StronglySorted starts_before g /\
      (forall k, In k g -> List.length (snd k) = List.length (snd h)) /\
      (forall k, In k t -> exists p, In p g /\ starts_before p k /\ Alike (snd p) (snd k)).
  Proof.
    intros duplicate positions g Sp B I. unfold is_any_similar_to_block in I. apply found_in in I as (I & M & Sb & _).
    destruct (group_alike positions g Sp B I) as (h & t & -> & Srt & Len & Par). exists h, t. split; [reflexivity|]. split; [intros ->; discriminate M|].
    split; [exact Sb|]. split; [exact Srt|]. split; [exact Len|exact Par].
  Qed.
  Theorem reported_two : forall duplicate positions p q, StronglySorted lt positions -> (forall i, In i positions -> i < List.length stmt_nodes) ->
    In [p; q] (reported duplicate positions) -> lies_before fromlineno tolineno (snd p) (snd q).
  Proof.
    intros duplicate positions p q Sp B I. destruct (reported_alike duplicate positions _ Sp B I) as (h & t & E & _ & _ & _ & _ & Par).
    assert (h = p) by congruence. assert (t = [q]) by congruence. subst. destruct (Par q (or_introl eq_refl)) as (x & [<-|[<-|[]]] & Lt & A); [exact (proj2 (proj2 (proj2 (proj2 A))))|].
    unfold starts_before in Lt. lia.
  Qed.
  Theorem reported_apart : forall duplicate positions l1 g1 l2 g2 l3, reported duplicate positions = l1 ++ g1 :: l2 ++ g2 :: l3 ->
    ~ In (hd 0 (hd [] (map snd g2))) (flat_map nodes_of (map snd g1)).
  Proof. intros duplicate positions l1 g1 l2 g2 l3. apply found_apart. Qed.
  Theorem second_in_group : forall positions i p k, StronglySorted lt positions -> (forall i, In i positions -> i < List.length stmt_nodes) ->
    In i positions -> In (p, k) (pairs_at i) ->
    exists g q, In g (groups positions) /\ In k g /\ In q g /\ starts_before q k /\ Alike (snd q) (snd k).
  Proof.
    intros positions i p k Sp B Ii I. assert (J : In (p, k) (flat_map pairs_at positions)) by (apply in_flat_map; exists i; auto).
    assert (O := pairs_in_order positions Sp). destruct (second_paired _ p k O J) as (g & q & G & K & Q & X). exists g, q. split; [exact G|]. split; [exact K|].
    split; [exact Q|]. split; [exact (proj1 (proj2 O) _ X)|exact (pair_alike positions (q, k) B X)].
  Qed.
End Pairs.
