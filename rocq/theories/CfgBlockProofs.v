(** Proofs about enumerating the blocks of a graph. *)
From Coq Require Import String List Bool Arith Lia Permutation.
From Verif Require Import Base CfgModel CfgSpec.
Import ListNotations.
Local Open Scope list_scope.
Local Open Scope nat_scope.

Lemma has_in : forall x l, existsb (Nat.eqb x) l = true <-> List.In x l.
Proof.
  intros x l. rewrite existsb_exists. split.
  - intros [y [I E]]. apply Nat.eqb_eq in E. subst y. exact I.
  - intros I. exists x. split; [exact I | apply Nat.eqb_refl].
Qed.
Lemma has_not_in : forall x l, existsb (Nat.eqb x) l = false <-> ~ List.In x l.
Proof.
  intros x l. rewrite <- has_in. destruct (existsb (Nat.eqb x) l); split; intros H; try congruence; try discriminate; auto.
Qed.

Section Enumerating.
  Variable next : nat -> list nat.
  Variable n : nat.
  Hypothesis CLOSED : forall b c, b < n -> List.In c (next b) -> c < n.

  Definition size (b : nat) : nat := S (List.length (next b)).
  (** The work left for blocks that were not seen. *)
  Definition unseen (visited : list nat) : nat :=
    list_sum (map (fun b => if existsb (Nat.eqb b) visited then 0 else size b) (seq 0 n)).
  Definition left_over (stack : list (nat * nat)) : nat := list_sum (map (fun x => size (snd x) - fst x) stack).

  Lemma unseen_more_from : forall c visited k m, ~ List.In c visited -> k <= c -> c < k + m ->
    list_sum (map (fun b => if existsb (Nat.eqb b) visited then 0 else size b) (seq k m)) =
    size c + list_sum (map (fun b => if existsb (Nat.eqb b) (c :: visited) then 0 else size b) (seq k m)).
  Proof.
    intros c visited k m NI. revert k. induction m as [|m IH]; intros k L U; [lia|].
    cbn [seq map list_sum fold_right]. change (fold_right Nat.add 0) with list_sum.
    destruct (Nat.eq_dec k c) as [->|D].
    - assert (A : existsb (Nat.eqb c) visited = false) by (apply has_not_in; exact NI). rewrite A.
      cbn [existsb]. rewrite Nat.eqb_refl. cbn [orb].
      replace (list_sum (map (fun b => if existsb (Nat.eqb b) visited then 0 else size b) (seq (S c) m)))
        with (list_sum (map (fun b => if (b =? c) || existsb (Nat.eqb b) visited then 0 else size b) (seq (S c) m))); [lia|].
      f_equal. apply map_ext_in. intros b B. apply in_seq in B.
      replace (b =? c) with false by (symmetry; apply Nat.eqb_neq; lia). reflexivity.
    - rewrite (IH (S k)) by lia. cbn [existsb].
      replace (k =? c) with false by (symmetry; apply Nat.eqb_neq; lia). cbn [orb]. lia.
  Qed.
  Lemma unseen_more : forall c visited, ~ List.In c visited -> c < n -> unseen visited = size c + unseen (c :: visited).
  Proof. intros c visited NI L. unfold unseen. apply unseen_more_from; [exact NI | lia | lia]. Qed.

  Definition fresh (stack : list (nat * nat)) : list nat := map snd (filter (fun x => Nat.eqb (fst x) 0) stack).

  Lemma in_fresh : forall b stack, List.In b (fresh stack) <-> List.In (0, b) stack.
  Proof.
    intros b stack. unfold fresh. rewrite in_map_iff. split.
    - intros [[i c] [E I]]. apply filter_In in I. destruct I as [I Z]. cbn in E, Z. apply Nat.eqb_eq in Z. subst. exact I.
    - intros I. exists (0, b). split; [reflexivity|]. apply filter_In. split; [exact I | reflexivity].
  Qed.

  Lemma blocks_from_right : forall fuel stack visited,
    left_over stack + unseen visited < fuel ->
    (forall i b, List.In (i, b) stack -> List.In b visited /\ i <= List.length (next b)) ->
    (forall b, List.In b visited -> b < n) ->
    NoDup (fresh stack) ->
    (forall b, List.In b visited ->
       (forall c, List.In c (next b) -> List.In c visited) \/
       exists i, List.In (i, b) stack /\ forall c, List.In c (firstn i (next b)) -> List.In c visited) ->
    exists l, blocks_from next fuel stack visited = Ok l /\ NoDup l /\
      (forall b, List.In b l -> List.In b (fresh stack) \/ (~ List.In b visited /\ exists i a, List.In (i, a) stack /\ path next a b)) /\
      (forall b, List.In b (fresh stack) -> List.In b l) /\
      (forall b c, List.In b visited \/ List.In b l -> List.In c (next b) -> List.In c visited \/ List.In c l).
  Proof.
    induction fuel as [|fuel IH]; intros stack visited F ST VN ND CL; [lia|].
    cbn [blocks_from]. destruct stack as [|[i b] stack].
    - exists []. split; [reflexivity|]. split; [constructor|]. split; [intros b []|]. split; [intros b []|].
      intros b c [B|[]] C. left. destruct (CL b B) as [A|[i [[] _]]]. exact (A c C).
    - destruct (ST i b (or_introl eq_refl)) as [BV BI].
      assert (BN : b < n) by exact (VN b BV).
      assert (FR : fresh ((i, b) :: stack) = (if Nat.eqb i 0 then [b] else []) ++ fresh stack)
        by (unfold fresh; cbn [filter fst]; destruct (Nat.eqb i 0); reflexivity).
      assert (NDT : NoDup (fresh stack))
        by (rewrite FR in ND; destruct (Nat.eqb i 0); [inversion ND; assumption | exact ND]).
      assert (BF : Nat.eqb i 0 = true -> ~ List.In b (fresh stack))
        by (intros Z; rewrite FR, Z in ND; inversion ND; assumption).
      assert (LO : left_over ((i, b) :: stack) = (size b - i) + left_over stack) by reflexivity.
      destruct (Nat.leb (List.length (next b)) i) eqn:LE.
      + apply Nat.leb_le in LE.
        destruct (IH stack visited) as [l [E [NDL [SO [FL CO]]]]].
        * unfold size in LO. lia.
        * intros j a A. apply ST. right. exact A.
        * exact VN.
        * exact NDT.
        * intros a A. destruct (CL a A) as [C|[j [[J|J] C]]].
          -- left. exact C.
          -- left. assert (E1 : j = i /\ a = b) by (split; congruence). destruct E1 as [-> ->].
             intros c Cc. apply C. rewrite firstn_all2 by lia. exact Cc.
          -- right. exists j. split; assumption.
        * rewrite E. cbn [bind]. eexists. split; [reflexivity|]. rewrite FR. split; [|split; [|split]].
          -- destruct (Nat.eqb i 0) eqn:Z; [|exact NDL]. cbn [app]. constructor; [|exact NDL].
             intros A. destruct (SO b A) as [B|[B _]]; [exact (BF eq_refl B) | exact (B BV)].
          -- intros a A. apply in_app_or in A. destruct A as [A|A].
             ++ left. apply in_or_app. left. exact A.
             ++ destruct (SO a A) as [B|[B [j [d [J P]]]]].
                ** left. apply in_or_app. right. exact B.
                ** right. split; [exact B|]. exists j, d. split; [right; exact J | exact P].
          -- intros a A. apply in_app_or in A. apply in_or_app. destruct A as [A|A]; [left; exact A | right; apply FL; exact A].
          -- intros a c A C. assert (A' : List.In a visited \/ List.In a l).
             { destruct A as [A|A]; [left; exact A|]. apply in_app_or in A. destruct A as [A|A]; [|right; exact A].
               destruct (Nat.eqb i 0); [destruct A as [A|[]]; subst a; left; exact BV | destruct A]. }
             destruct (CO a c A' C) as [D|D]; [left; exact D | right; apply in_or_app; right; exact D].
      + apply Nat.leb_gt in LE.
        set (c := nth i (next b) 0).
        assert (CI : List.In c (next b)) by (apply nth_In; exact LE).
        assert (CN : c < n) by exact (CLOSED b c BN CI).
        assert (FN : firstn (S i) (next b) = firstn i (next b) ++ [c]).
        { unfold c. clear - LE. revert i LE. induction (next b) as [|x l IHl]; intros i LE; [cbn in LE; lia|].
          destruct i as [|i]; [reflexivity|]. cbn [firstn nth app]. f_equal. apply IHl. cbn in LE. lia. }
        destruct (existsb (Nat.eqb c) visited) eqn:V.
        * apply has_in in V.
          destruct (IH ((S i, b) :: stack) visited) as [l [E [NDL [SO [FL CO]]]]].
          -- change (left_over ((S i, b) :: stack)) with ((size b - S i) + left_over stack). unfold size in *. lia.
          -- intros j a [A|A]; [assert (E1 : j = S i /\ a = b) by (split; congruence); destruct E1 as [-> ->]; split; [exact BV | lia] | apply ST; right; exact A].
          -- exact VN.
          -- exact NDT.
          -- intros a A. destruct (CL a A) as [C|[j [[J|J] C]]].
             ++ left. exact C.
             ++ right. assert (E1 : j = i /\ a = b) by (split; congruence). destruct E1 as [-> ->].
                exists (S i). split; [left; reflexivity|]. intros d D. rewrite FN in D. apply in_app_or in D.
                destruct D as [D|[D|[]]]; [exact (C d D) | subst d; exact V].
             ++ right. exists j. split; [right; exact J | exact C].
          -- rewrite E. cbn [bind]. eexists. split; [reflexivity|]. rewrite FR.
             assert (FS : fresh ((S i, b) :: stack) = fresh stack) by reflexivity. rewrite FS in SO, FL.
             split; [|split; [|split]].
             ++ destruct (Nat.eqb i 0) eqn:Z; [|exact NDL]. cbn [app]. constructor; [|exact NDL].
                intros A. destruct (SO b A) as [B|[B _]]; [exact (BF eq_refl B) | exact (B BV)].
             ++ intros a A. apply in_app_or in A. destruct A as [A|A].
                ** left. apply in_or_app. left. exact A.
                ** destruct (SO a A) as [B|[B [j [d [J P]]]]].
                   --- left. apply in_or_app. right. exact B.
                   --- right. split; [exact B|]. destruct J as [J|J].
                       +++ exists i, b. split; [left; reflexivity|]. replace b with d by congruence. exact P.
                       +++ exists j, d. split; [right; exact J | exact P].
             ++ intros a A. apply in_app_or in A. apply in_or_app. destruct A as [A|A]; [left; exact A | right; apply FL; exact A].
             ++ intros a d A C. assert (A' : List.In a visited \/ List.In a l).
                { destruct A as [A|A]; [left; exact A|]. apply in_app_or in A. destruct A as [A|A]; [|right; exact A].
                  destruct (Nat.eqb i 0); [destruct A as [A|[]]; subst a; left; exact BV | destruct A]. }
                destruct (CO a d A' C) as [D|D]; [left; exact D | right; apply in_or_app; right; exact D].
        * apply has_not_in in V.
          destruct (IH ((0, c) :: (S i, b) :: stack) (c :: visited)) as [l [E [NDL [SO [FL CO]]]]].
          -- change (left_over ((0, c) :: (S i, b) :: stack)) with ((size c - 0) + ((size b - S i) + left_over stack)).
             rewrite (unseen_more c visited V CN) in F. unfold size in *. lia.
          -- intros j a [A|[A|A]].
             ++ assert (E1 : j = 0 /\ a = c) by (split; congruence). destruct E1 as [-> ->]. split; [left; reflexivity | lia].
             ++ assert (E1 : j = S i /\ a = b) by (split; congruence). destruct E1 as [-> ->]. split; [right; exact BV | lia].
             ++ destruct (ST j a (or_intror A)) as [G1 G2]. split; [right; exact G1 | exact G2].
          -- intros a [A|A]; [subst a; exact CN | exact (VN a A)].
          -- change (fresh ((0, c) :: (S i, b) :: stack)) with (c :: fresh stack). constructor; [|exact NDT].
             intros A. apply in_fresh in A. destruct (ST 0 c (or_intror A)) as [G1 _]. exact (V G1).
          -- intros a [A|A].
             ++ subst a. right. exists 0. split; [left; reflexivity|]. intros d [].
             ++ destruct (CL a A) as [C|[j [[J|J] C]]].
                ** left. intros d D. right. exact (C d D).
                ** right. assert (E1 : j = i /\ a = b) by (split; congruence). destruct E1 as [-> ->].
                   exists (S i). split; [right; left; reflexivity|]. intros d D. rewrite FN in D. apply in_app_or in D.
                   destruct D as [D|[D|[]]]; [right; exact (C d D) | subst d; left; reflexivity].
                ** right. exists j. split; [right; right; exact J | intros d D; right; exact (C d D)].
          -- rewrite E. cbn [bind]. eexists. split; [reflexivity|]. rewrite FR.
             assert (FS : fresh ((0, c) :: (S i, b) :: stack) = c :: fresh stack) by reflexivity. rewrite FS in SO, FL.
             split; [|split; [|split]].
             ++ destruct (Nat.eqb i 0) eqn:Z; [|exact NDL]. cbn [app]. constructor; [|exact NDL].
                intros A. destruct (SO b A) as [[B|B]|[B _]].
                ** apply V. rewrite B. exact BV.
                ** exact (BF eq_refl B).
                ** apply B. right. exact BV.
             ++ intros a A. apply in_app_or in A. destruct A as [A|A].
                ** left. apply in_or_app. left. exact A.
                ** destruct (SO a A) as [[B|B]|[B [j [d [J P]]]]].
                   --- subst a. right. split; [exact V|]. exists i, b. split; [left; reflexivity|].
                       apply (path_on next b c c CI). apply path_here.
                   --- left. apply in_or_app. right. exact B.
                   --- right. split; [intros Q; apply B; right; exact Q|]. destruct J as [J|[J|J]].
                       +++ exists i, b. split; [left; reflexivity|]. apply (path_on next b c a CI).
                           replace c with d by congruence. exact P.
                       +++ exists i, b. split; [left; reflexivity|]. replace b with d by congruence. exact P.
                       +++ exists j, d. split; [right; exact J | exact P].
             ++ intros a A. apply in_app_or in A. apply in_or_app. destruct A as [A|A]; [left; exact A | right; apply FL; right; exact A].
             ++ intros a d A C.
                assert (A' : List.In a (c :: visited) \/ List.In a l).
                { destruct A as [A|A]; [left; right; exact A|]. apply in_app_or in A. destruct A as [A|A]; [|right; exact A].
                  destruct (Nat.eqb i 0); [destruct A as [A|[]]; subst a; left; right; exact BV | destruct A]. }
                destruct (CO a d A' C) as [[D|D]|D].
                ** right. apply in_or_app. right. apply FL. left. exact D.
                ** left. exact D.
                ** right. apply in_or_app. right. exact D.
  Qed.

  Definition rounds : nat := S (list_sum (map (fun b => S (List.length (next b))) (seq 0 n))).

  Lemma unseen_none : unseen [] = list_sum (map (fun b => S (List.length (next b))) (seq 0 n)).
  Proof. reflexivity. Qed.

  Lemma get_blocks_exact : forall first fuel, first < n -> rounds <= fuel ->
    exists l, get_blocks next fuel first = Ok l /\ NoDup l /\ forall b, List.In b l <-> path next first b.
  Proof.
    intros first fuel FN FU. unfold get_blocks.
    destruct (blocks_from_right fuel [(0, first)] [first]) as [l [E [ND [SO [FL CO]]]]].
    - change (left_over [(0, first)]) with (size first - 0 + 0).
      assert (NI : ~ List.In first []) by (intros []). pose proof (unseen_more first [] NI FN) as U. rewrite unseen_none in U.
      unfold rounds in FU. lia.
    - intros i b [H|[]]. assert (E1 : i = 0 /\ b = first) by (split; congruence). destruct E1 as [-> ->]. split; [left; reflexivity | lia].
    - intros b [H|[]]. subst b. exact FN.
    - cbn. constructor; [intros [] | constructor].
    - intros b [H|[]]. subst b. right. exists 0. split; [left; reflexivity|]. intros c [].
    - exists l. split; [exact E|]. split; [exact ND|]. intros b. split.
      + intros B. destruct (SO b B) as [[A|[]]|[_ [i [a [[H|[]] P]]]]].
        * cbn in A. subst b. apply path_here.
        * replace first with a by congruence. exact P.
      + intros P. assert (F0 : List.In first l) by (apply FL; left; reflexivity).
        assert (G : forall a c, path next a c -> List.In a l -> List.In c l).
        { intros a c Q. induction Q as [a | a d c D Q IH]; intros A; [exact A|].
          apply IH. destruct (CO a d (or_intror A) D) as [[X|[]]|X]; [subst d; exact F0 | exact X]. }
        exact (G first b P F0).
  Qed.

  (** *** Recursion *)

  Definition rest (visited : list nat) : nat := List.length (filter (fun b => negb (existsb (Nat.eqb b) visited)) (seq 0 n)).

  Lemma rest_more_from : forall c visited k m, ~ List.In c visited -> k <= c -> c < k + m ->
    List.length (filter (fun b => negb (existsb (Nat.eqb b) visited)) (seq k m)) =
    S (List.length (filter (fun b => negb (existsb (Nat.eqb b) (c :: visited))) (seq k m))).
  Proof.
    intros c visited k m NI. revert k. induction m as [|m IH]; intros k L U; [lia|].
    cbn [seq filter]. destruct (Nat.eq_dec k c) as [->|D].
    - assert (A : existsb (Nat.eqb c) visited = false) by (apply has_not_in; exact NI). rewrite A.
      cbn [existsb]. rewrite Nat.eqb_refl. cbn [orb negb List.length]. f_equal. f_equal.
      apply filter_ext_in. intros b B. apply in_seq in B.
      replace (b =? c) with false by (symmetry; apply Nat.eqb_neq; lia). reflexivity.
    - cbn [existsb]. replace (k =? c) with false by (symmetry; apply Nat.eqb_neq; lia). cbn [orb].
      destruct (existsb (Nat.eqb k) visited); cbn [negb List.length]; rewrite (IH (S k)) by lia; reflexivity.
  Qed.
  Lemma rest_more : forall c visited, ~ List.In c visited -> c < n -> rest visited = S (rest (c :: visited)).
  Proof. intros c visited NI L. unfold rest. apply rest_more_from; [exact NI | lia | lia]. Qed.
  Lemma rest_less : forall v w, (forall b, List.In b v -> List.In b w) -> rest w <= rest v.
  Proof.
    intros v w S. unfold rest. generalize (seq 0 n) as l. induction l as [|b l IH]; [cbn; lia|].
    cbn [filter]. destruct (existsb (Nat.eqb b) v) eqn:A.
    - apply has_in in A. apply S in A. apply has_in in A. rewrite A. cbn [negb]. exact IH.
    - destruct (existsb (Nat.eqb b) w); cbn [negb List.length]; lia.
  Qed.
  Lemma rest_all : rest [] = n.
  Proof.
    unfold rest. cbn [existsb negb].
    assert (A : forall l : list nat, filter (fun _ => true) l = l)
      by (induction l as [|x l IH]; [reflexivity | cbn [filter]; rewrite IH; reflexivity]).
    rewrite A. apply seq_length.
  Qed.

  (** What visiting adds: the new blocks. *)
  Definition visits (b : nat) (visited l v : list nat) : Prop :=
    NoDup l /\ (forall x, List.In x v <-> List.In x l \/ List.In x visited) /\ (forall x, List.In x l -> ~ List.In x visited) /\
    (forall x, List.In x l -> path next b x /\ x < n) /\ List.In b v /\ (forall x y, List.In x l -> List.In y (next x) -> List.In y v).
  Definition visits_all (bs visited l v : list nat) : Prop :=
    NoDup l /\ (forall x, List.In x v <-> List.In x l \/ List.In x visited) /\ (forall x, List.In x l -> ~ List.In x visited) /\
    (forall x, List.In x l -> (exists b, List.In b bs /\ path next b x) /\ x < n) /\ (forall b, List.In b bs -> List.In b v) /\
    (forall x y, List.In x l -> List.In y (next x) -> List.In y v).

  Lemma visits_none : forall visited, visits_all [] visited [] visited.
  Proof.
    intros visited. refine (conj (NoDup_nil _) (conj _ (conj _ (conj _ (conj _ _))))); try (intros x y []; fail); try (intros x X; destruct X; fail).
    intros x. split; [intros A; right; exact A | intros [[]|A]; exact A].
  Qed.
  Lemma nodup_app : forall (l m : list nat), NoDup l -> NoDup m -> (forall x, List.In x l -> ~ List.In x m) -> NoDup (l ++ m).
  Proof.
    induction l as [|x l IH]; intros m L M D; [exact M|]. cbn [app]. inversion L; subst. constructor.
    - intros A. apply in_app_or in A. destruct A as [A|A]; [contradiction | exact (D x (or_introl eq_refl) A)].
    - apply IH; try assumption. intros y Y. apply D. right. exact Y.
  Qed.
  Lemma visits_cons : forall b bs visited l v l' v', visits b visited l v -> visits_all bs v l' v' -> visits_all (b :: bs) visited (l ++ l') v'.
  Proof.
    intros b bs visited l v l' v' (N1 & V1 & D1 & P1 & B1 & C1) (N2 & V2 & D2 & P2 & B2 & C2).
    refine (conj _ (conj _ (conj _ (conj _ (conj _ _))))).
    - apply nodup_app; try assumption. intros x X Y. apply (D2 x Y). apply V1. left. exact X.
    - intros x. rewrite V2, V1, in_app_iff. tauto.
    - intros x X. apply in_app_or in X. destruct X as [X|X]; [exact (D1 x X)|]. intros Y. apply (D2 x X). apply V1. right. exact Y.
    - intros x X. apply in_app_or in X. destruct X as [X|X].
      + destruct (P1 x X) as [A A']. split; [exists b; split; [left; reflexivity | exact A] | exact A'].
      + destruct (P2 x X) as [[c [I A]] A']. split; [exists c; split; [right; exact I | exact A] | exact A'].
    - intros c [C|C]; [subst c; apply V2; right; exact B1 | exact (B2 c C)].
    - intros x y X Y. apply in_app_or in X. destruct X as [X|X]; [apply V2; right; exact (C1 x y X Y) | exact (C2 x y X Y)].
  Qed.
  Lemma visits_node : forall b visited l v l', ~ List.In b visited -> b < n -> visits_all (next b) (b :: visited) l v ->
    (forall x, List.In x l' <-> x = b \/ List.In x l) -> NoDup l' -> visits b visited l' v.
  Proof.
    intros b visited l v l' NI BN (N & V & D & P & B & C) L ND.
    refine (conj ND (conj _ (conj _ (conj _ (conj _ _))))).
    - intros x. rewrite V, L. cbn [List.In]. split; intros H; intuition congruence.
    - intros x X. apply L in X. destruct X as [->|X]; [exact NI|]. intros Y. apply (D x X). right. exact Y.
    - intros x X. apply L in X. destruct X as [->|X]; [split; [apply path_here | exact BN]|].
      destruct (P x X) as [[c [I Q]] XN]. split; [exact (path_on next b c x I Q) | exact XN].
    - apply V. right. left. reflexivity.
    - intros x y X Y. apply L in X. destruct X as [->|X]; [exact (B y Y) | exact (C x y X Y)].
  Qed.

  Lemma postorder_from_right : forall depth b visited, b < n -> (forall x, List.In x visited -> x < n) -> rest visited < depth ->
    exists l v, postorder_from next depth b visited = Ok (l, v) /\ visits b visited l v /\
      (~ List.In b visited -> exists l', l = l' ++ [b]).
  Proof.
    induction depth as [|depth IH]; intros b visited BN VN F; [lia|].
    cbn [postorder_from]. destruct (existsb (Nat.eqb b) visited) eqn:A.
    - apply has_in in A. exists [], visited. split; [reflexivity|]. split; [|intros C; contradiction].
      refine (conj (NoDup_nil _) (conj _ (conj _ (conj _ (conj A _))))); try (intros x y []; fail); try (intros x X; destruct X; fail).
      intros x. split; [intros X; right; exact X | intros [[]|X]; exact X].
    - apply has_not_in in A.
      assert (G : forall bs vis, (forall c, List.In c bs -> c < n) -> (forall x, List.In x vis -> x < n) -> rest vis < depth ->
        exists l v, (fix children (l : list nat) (visited : list nat) : res (list nat * list nat) :=
                     match l with
                     | [] => Ok ([], visited)
                     | c :: l => do r <- postorder_from next depth c visited; do r' <- children l (snd r); Ok (fst r ++ fst r', snd r')
                     end) bs vis = Ok (l, v) /\ visits_all bs vis l v).
      { induction bs as [|c bs IHb]; intros vis CN VN' F'.
        - exists [], vis. split; [reflexivity | apply visits_none].
        - destruct (IH c vis (CN c (or_introl eq_refl)) VN' F') as [l1 [v1 [E1 [W1 _]]]]. rewrite E1. cbn [bind fst snd].
          assert (VN1 : forall x, List.In x v1 -> x < n).
          { destruct W1 as (_ & V1 & _ & P1 & _). intros x X. apply V1 in X. destruct X as [X|X]; [exact (proj2 (P1 x X)) | exact (VN' x X)]. }
          assert (F1 : rest v1 < depth).
          { assert (L : rest v1 <= rest vis) by (apply rest_less; intros x X; destruct W1 as (_ & V1 & _); apply V1; right; exact X). lia. }
          destruct (IHb v1 (fun d D => CN d (or_intror D)) VN1 F1) as [l2 [v2 [E2 W2]]]. rewrite E2. cbn [bind fst snd].
          exists (l1 ++ l2), v2. split; [reflexivity|]. exact (visits_cons c bs vis l1 v1 l2 v2 W1 W2). }
      destruct (G (next b) (b :: visited)) as [l [v [E W]]].
      + intros c C. exact (CLOSED b c BN C).
      + intros x [X|X]; [subst x; exact BN | exact (VN x X)].
      + rewrite (rest_more b visited A BN) in F. lia.
      + rewrite E. cbn [bind fst snd]. exists (l ++ [b]), v. split; [reflexivity|]. split; [|intros _; exists l; reflexivity].
        assert (BL : ~ List.In b l) by (intros X; destruct W as (_ & _ & D & _); apply (D b X); left; reflexivity).
        apply (visits_node b visited l v (l ++ [b]) A BN W).
        * intros x. rewrite in_app_iff. cbn [List.In]. intuition congruence.
        * apply nodup_app; [exact (proj1 W) | constructor; [intros [] | constructor]|]. intros x X [Y|[]]. subst x. contradiction.
  Qed.

  Lemma visits_exact : forall first l v, visits first [] l v -> forall b, List.In b l <-> path next first b.
  Proof.
    intros first l v (N & V & D & P & B & C) b. split; [intros X; exact (proj1 (P b X))|].
    assert (VL : forall x, List.In x v -> List.In x l) by (intros x X; apply V in X; destruct X as [X|[]]; exact X).
    assert (G : forall a c, path next a c -> List.In a l -> List.In c l).
    { intros a c Q. induction Q as [a | a d c E Q IH]; intros A; [exact A|]. apply IH. apply VL. exact (C a d A E). }
    intros Q. exact (G first b Q (VL first B)).
  Qed.

  Lemma get_blocks_postorder_exact : forall first depth, first < n -> n < depth ->
    exists l, get_blocks_postorder next depth first = Ok (l ++ [first]) /\ NoDup (l ++ [first]) /\
      forall b, List.In b (l ++ [first]) <-> path next first b.
  Proof.
    intros first depth FN D. unfold get_blocks_postorder.
    destruct (postorder_from_right depth first [] FN (fun x X => match X with end)) as [l [v [E [W H]]]]; [rewrite rest_all; exact D|].
    destruct (H (fun X => X)) as [l' ->]. rewrite E. cbn [bind fst]. exists l'. split; [reflexivity|]. split; [exact (proj1 W)|].
    exact (visits_exact first _ v W).
  Qed.

  (** All the edges out of a block. *)
  Definition edges_of (b : nat) : list (nat * nat) := map (fun c => (b, c)) (next b).

  Lemma edges_from_right : forall depth b visited, b < n -> (forall x, List.In x visited -> x < n) -> rest visited < depth ->
    exists es v l, edges_from next depth b visited = Ok (es, v) /\ visits b visited l v /\ Permutation es (flat_map edges_of l).
  Proof.
    induction depth as [|depth IH]; intros b visited BN VN F; [lia|].
    cbn [edges_from]. destruct (existsb (Nat.eqb b) visited) eqn:A.
    - apply has_in in A. exists [], visited, []. split; [reflexivity|]. split; [|constructor].
      refine (conj (NoDup_nil _) (conj _ (conj _ (conj _ (conj A _))))); try (intros x y []; fail); try (intros x X; destruct X; fail).
      intros x. split; [intros X; right; exact X | intros [[]|X]; exact X].
    - apply has_not_in in A.
      assert (G : forall bs vis, (forall c, List.In c bs -> c < n) -> (forall x, List.In x vis -> x < n) -> rest vis < depth ->
        exists es v l, (fix children (l : list nat) (visited : list nat) : res (list (nat * nat) * list nat) :=
                     match l with
                     | [] => Ok ([], visited)
                     | c :: l => do r <- edges_from next depth c visited; do r' <- children l (snd r); Ok ((b, c) :: fst r ++ fst r', snd r')
                     end) bs vis = Ok (es, v) /\ visits_all bs vis l v /\ Permutation es (map (fun c => (b, c)) bs ++ flat_map edges_of l)).
      { induction bs as [|c bs IHb]; intros vis CN VN' F'.
        - exists [], vis, []. split; [reflexivity|]. split; [apply visits_none | constructor].
        - destruct (IH c vis (CN c (or_introl eq_refl)) VN' F') as [es1 [v1 [l1 [E1 [W1 Q1]]]]]. rewrite E1. cbn [bind fst snd].
          assert (VN1 : forall x, List.In x v1 -> x < n).
          { destruct W1 as (_ & V1 & _ & P1 & _). intros x X. apply V1 in X. destruct X as [X|X]; [exact (proj2 (P1 x X)) | exact (VN' x X)]. }
          assert (F1 : rest v1 < depth).
          { assert (L : rest v1 <= rest vis) by (apply rest_less; intros x X; destruct W1 as (_ & V1 & _); apply V1; right; exact X). lia. }
          destruct (IHb v1 (fun d D => CN d (or_intror D)) VN1 F1) as [es2 [v2 [l2 [E2 [W2 Q2]]]]]. rewrite E2. cbn [bind fst snd].
          eexists _, v2, (l1 ++ l2). split; [reflexivity|]. split; [exact (visits_cons c bs vis l1 v1 l2 v2 W1 W2)|].
          cbn [map app]. constructor. rewrite flat_map_app. rewrite Q1, Q2.
          rewrite !app_assoc. apply Permutation_app_tail. apply Permutation_app_comm. }
      destruct (G (next b) (b :: visited)) as [es [v [l [E [W Q]]]]].
      + intros c C. exact (CLOSED b c BN C).
      + intros x [X|X]; [subst x; exact BN | exact (VN x X)].
      + rewrite (rest_more b visited A BN) in F. lia.
      + rewrite E. exists es, v, (b :: l). split; [reflexivity|]. split.
        * assert (BL : ~ List.In b l) by (intros X; destruct W as (_ & _ & D & _); apply (D b X); left; reflexivity).
          apply (visits_node b visited l v (b :: l) A BN W).
          -- intros x. cbn [List.In]. intuition congruence.
          -- constructor; [exact BL | exact (proj1 W)].
        * rewrite Q. reflexivity.
  Qed.

  Lemma get_edges_exact : forall first depth, first < n -> n < depth ->
    exists es l, get_edges next depth first = Ok es /\ NoDup l /\ (forall b, List.In b l <-> path next first b) /\
      Permutation es (flat_map (fun b => map (fun c => (b, c)) (next b)) l).
  Proof.
    intros first depth FN D. unfold get_edges.
    destruct (edges_from_right depth first [] FN (fun x X => match X with end)) as [es [v [l [E [W Q]]]]]; [rewrite rest_all; exact D|].
    rewrite E. cbn [bind fst]. exists es, l. split; [reflexivity|]. split; [exact (proj1 W)|]. split; [exact (visits_exact first l v W) | exact Q].
  Qed.
End Enumerating.
