(** Proofs that the simplification of chains ends, and when it ends without an exception. *)
From Coq Require Import String List Bool Arith NArith ZArith QArith Lia Permutation.
From Verif Require Import Base PyModel PySpec PyProofs IfModel IfSpec IfProofs FoldModel FoldSpec FoldProofs TypeModel LocalModel LocalSpec LocalProofs MergeSpec MergeProofs SolverModel SolverSpec SolverProofs RedundantProofs SortProofs ChainModel ChainSpec ChainProofs ChainRightProofs.
Import ListNotations.
Local Open Scope string_scope.
Local Open Scope list_scope.
Local Open Scope nat_scope.

(** ** Running out of fuel *)
Definition runs {A} (r : res A) : Prop := r <> Raise (OtherError "out of fuel").
Lemma runs_ok {A} (x : A) : runs (Ok x). Proof. discriminate. Qed.
Lemma runs_bind {A B} (r : res A) (k : A -> res B) : runs r -> (forall x, r = Ok x -> runs (k x)) -> runs (bind r k).
Proof. intros R K. destruct r as [x|e]; [exact (K x eq_refl)|]. intro X. apply R. cbn [bind] in X. congruence. Qed.
Lemma runs_need z : runs (need z). Proof. destruct z; discriminate. Qed.
Lemma runs_at l i : runs (at_index l i). Proof. unfold at_index, get. destruct (nth_error l i); discriminate. Qed.
Lemma runs_last l : runs (last_block l). Proof. unfold last_block. destruct (rev l); discriminate. Qed.
Lemma runs_count l : runs (elif_count l). Proof. unfold elif_count. apply runs_bind; [apply runs_last|]. intros x _. destruct (condition x); discriminate. Qed.
Lemma runs_negations l : runs (negations l).
Proof. induction l as [|b l IH]; [discriminate|]. rewrite negations_cons. apply runs_bind; [apply runs_need|]. intros n _. apply runs_bind; [exact IH|]. discriminate. Qed.

Lemma replace_at l i b x : at_index l i = Ok b -> replace l i x = firstn i l ++ x :: skipn (S i) l.
Proof. intro GB. destruct (at_index_split l i b GB) as [SP LN]. rewrite SP at 1. rewrite <- LN at 3. apply replace_split. Qed.

(** ** Sizes *)
Definition size (l : list block) : nat := list_sum (map (fun b => S (length (operands b))) l).
Lemma size_app l l' : size (l ++ l') = size l + size l'.
Proof. unfold size. rewrite map_app, list_sum_app. reflexivity. Qed.
Lemma size_cons b l : size (b :: l) = S (length (operands b)) + size l.
Proof. reflexivity. Qed.
Lemma size_length l : length l <= size l.
Proof. induction l as [|b l IH]; [apply le_n|]. rewrite size_cons. cbn [length]. lia. Qed.
Lemma size_permutation l l' : Permutation l l' -> size l = size l'.
Proof. induction 1; rewrite ?size_cons; lia. Qed.
(** Operands and terms belong together. *)
Definition shape (b : block) : Prop := condition b <> None -> operands b <> [] /\ (1 < length (operands b) -> length (operation_terms b) = length (operands b) /\
  length (terms b) = length (operands b)).
Lemma left_over_length {A B} (f : B -> bool) zs : forall k (l : list A), length l = length zs -> length (left_over f l zs) + length (numbers_of f k zs) = length zs.
Proof.
  induction zs as [|z zs IH]; intros k [|x l] L; try discriminate; [reflexivity|]. injection L as L. rewrite left_over_cons, numbers_of_cons, app_length.
  specialize (IH (S k) l L). destruct (f z); cbn [length]; lia.
Qed.

Section Steps.
  Variable unsat : zexpr -> bool.
  Variable text_length : text -> nat.

  Definition shrinks (b : block) (al : option bool) (rm : list nat) : Prop :=
    condition b <> None /\ match al with Some _ => True | None => rm <> [] /\ length (operands (remove_operands b rm)) < length (operands b) /\ shape (remove_operands b rm) end.
  Lemma under_shrinks b a al rm : shape b -> under_assumption unsat b a = Ok (al, rm) -> found (al, rm) = true -> shrinks b al rm.
  Proof.
    intros SH U F. unfold under_assumption in U. destruct (condition b) as [c|] eqn:C; [|discriminate]. cbn [need bind] in U. split; [congruence|].
    destruct al as [al|]; [exact Logic.I|]. destruct rm as [|r0 rm]; [discriminate|]. clear F. split; [discriminate|].
    destruct (implies unsat a c); [discriminate|]. destruct (negated b) as [n|]; [|discriminate]. cbn [need bind] in U. destruct (implies unsat a n); [discriminate|].
    destruct (Nat.ltb 1 (length (operands b))) eqn:L1; [|discriminate]. apply Nat.ltb_lt in L1.
    destruct (SH ltac:(congruence)) as [_ LT]. destruct (LT L1) as [L2 L3].
    destruct (Nat.eqb (length (implied_indices unsat a (operation_terms b))) (length (operands b))) eqn:E; [discriminate|]. apply Nat.eqb_neq in E.
    assert (R : r0 :: rm = numbers_of (implies unsat a) 0 (operation_terms b)) by (unfold implied_indices in U; unfold numbers_of; congruence).
    change (implied_indices unsat a (operation_terms b)) with (numbers_of (implies unsat a) 0 (operation_terms b)) in E. rewrite <- R in E.
    assert (K : forall A (l : list A), length l = length (operands b) -> length (without l (r0 :: rm)) = length (operands b) - length (r0 :: rm)).
    { intros A l L. change (without l (r0 :: rm)) with (except 0 l (r0 :: rm)). rewrite R. rewrite except_left_over by lia.
      pose proof (left_over_length (implies unsat a) (operation_terms b) 0 l ltac:(lia)). lia. }
    assert (T : length (r0 :: rm) <= length (operands b)).
    { rewrite R. pose proof (left_over_length (implies unsat a) (operation_terms b) 0 (operands b) ltac:(lia)). lia. }
    unfold remove_operands, shape. cbn [condition operands terms]. rewrite (K _ (operands b) eq_refl). split; [cbn [length] in *; lia|]. intros _. split.
    - intro X. apply (f_equal (@length expr)) in X. rewrite (K _ (operands b) eq_refl) in X. cbn [length] in X, E, T. lia.
    - intros _. split; [|apply K; exact L3]. unfold operation_terms. cbn [is_or terms negated_terms].
      unfold operation_terms in L2. destruct (is_or b); apply K; [exact L2|exact L3].
  Qed.
  Lemma simplify_shrinks l i b al rm l' del : Forall shape l -> at_index l i = Ok b -> shrinks b al rm -> simplify_at l i al rm = Ok (l', del) ->
    size l' < size l /\ Forall shape l'.
  Proof.
    intros F GB (C & SH) S1. destruct (at_index_split l i b GB) as [SP LN]. unfold simplify_at in S1.
    assert (F' := F). rewrite SP in F'. apply Forall_app in F'. destruct F' as [F1 F2]. inversion F2 as [|? ? Fb F3]; subst.
    assert (SZ : size l = size (firstn i l) + (S (length (operands b)) + size (skipn (S i) l))) by (rewrite SP at 1; rewrite size_app, size_cons; lia).
    destruct al as [[]|].
    - rewrite GB in S1. cbn [bind] in S1. assert (l' = firstn i l ++ [default_block (position b)]) by congruence. subst l'. split.
      + rewrite size_app. change (size [default_block (position b)]) with 1. destruct (Fb C) as [N _]. destruct (operands b); [congruence|]. cbn [length] in SZ. lia.
      + apply Forall_app. split; [exact F1|]. constructor; [|constructor]. intro X. cbn in X. congruence.
    - assert (l' = firstn i l ++ skipn (S i) l) by congruence. subst l'. rewrite size_app. split; [lia|]. apply Forall_app. split; assumption.
    - destruct SH as (N & LT & SR). destruct rm as [|r0 rm]; [congruence|]. rewrite GB in S1. cbn [bind] in S1.
      assert (E : l' = replace l i (remove_operands b (r0 :: rm))) by congruence. rewrite (replace_at l i b _ GB) in E. subst l'.
      rewrite size_app, size_cons. split; [lia|]. apply Forall_app. split; [exact F1|]. constructor; [exact SR|exact F3].
  Qed.
  Lemma moved_block l current i c b l1 : current < i -> at_index l current = Ok c -> at_index l i = Ok b -> move_block l current i = Ok l1 ->
    Permutation l l1 /\ at_index l1 (S current) = Ok c.
  Proof.
    intros LT GC GB M. unfold move_block in M. rewrite GB in M. cbn [bind] in M. assert (M' : l1 = firstn current l ++ b :: skipn current (firstn i l) ++ skipn (S i) l) by congruence. clear M.
    destruct (at_index_split l i b GB) as [SP LN]. destruct (at_index_split l current c GC) as [SC LC].
    set (mid := skipn current (firstn i l)) in *. set (post := skipn (S i) l) in *. set (pre := firstn current l) in *.
    assert (PM : firstn i l = pre ++ mid).
    { unfold pre, mid. rewrite <- (firstn_skipn current (firstn i l)) at 1. rewrite firstn_firstn. rewrite Nat.min_l by lia. reflexivity. }
    assert (MC : exists mid', mid = c :: mid').
    { assert (NTH : nth_error (firstn i l) current = Some c).
      { unfold at_index, get in GC. destruct (nth_error l current) as [c'|] eqn:NC; [|discriminate]. assert (c' = c) by congruence. subst c'.
        rewrite SP in NC. rewrite nth_error_app1 in NC by lia. exact NC. }
      rewrite PM in NTH. rewrite nth_error_app2 in NTH by lia. rewrite LC, Nat.sub_diag in NTH. destruct mid as [|x mid']; [discriminate|]. cbn [nth_error] in NTH. exists mid'. congruence. }
    destruct MC as (mid' & MC). rewrite PM in SP. rewrite <- app_assoc in SP. clearbody pre mid post. subst mid. subst l1. split.
    - rewrite SP. apply Permutation_app_head. symmetry. apply (Permutation_middle (c :: mid') post b).
    - unfold at_index, get. rewrite nth_error_app2 by lia. rewrite LC. replace (S current - current) with 1 by lia. reflexivity.
  Qed.
  Lemma runs_under b a : runs (under_assumption unsat b a).
  Proof.
    unfold under_assumption. apply runs_bind; [apply runs_need|]. intros c _. destruct (implies unsat a c); [discriminate|]. apply runs_bind; [apply runs_need|]. intros n _.
    repeat match goal with |- runs (if ?t then _ else _) => destruct t end; discriminate.
  Qed.
  Lemma runs_movable_in l current before is_ : runs (first_movable_in unsat l current before is_).
  Proof.
    induction is_ as [|i is_ IH]; [discriminate|]. cbn [first_movable_in]. apply runs_bind.
    { unfold valid_move_up. apply runs_bind; [apply runs_at|]. intros b _. apply runs_bind; [apply runs_need|]. intros c _. apply runs_bind; [apply runs_negations|]. discriminate. }
    intros v _. destruct v; [|exact IH]. apply runs_bind; [apply runs_at|]. intros c _. apply runs_bind; [apply runs_at|]. intros b _. apply runs_bind; [apply runs_need|]. intros g _.
    apply runs_bind; [apply runs_under|]. intros r _. destruct (found r); [discriminate|exact IH].
  Qed.
  Lemma runs_movable l current n : runs (first_movable unsat l current n).
  Proof. unfold first_movable. apply runs_bind; [apply runs_negations|]. intros ns _. apply runs_movable_in. Qed.
  Lemma runs_simplify l i al rm : runs (simplify_at l i al rm).
  Proof.
    unfold simplify_at. destruct al as [[]|]; [apply runs_bind; [apply runs_at|discriminate]|discriminate|]. destruct rm; [discriminate|]. apply runs_bind; [apply runs_at|discriminate].
  Qed.
  Lemma runs_less l h current : runs (simplifies_less l h current).
  Proof. unfold simplifies_less. destruct (h && _); [|discriminate]. apply runs_bind; [apply runs_at|]. intros c _. apply runs_bind; [apply runs_at|discriminate]. Qed.
  Definition may_move (l : list block) (current n : nat) (m : nat * option bool * list nat) : Prop :=
    let '(i, al, rm) := m in current < i /\ i < n /\ exists c b a, at_index l current = Ok c /\ at_index l i = Ok b /\ under_assumption unsat c a = Ok (al, rm) /\ found (al, rm) = true.
  Lemma movable_facts l current n m : first_movable unsat l current n = Ok (Some m) -> may_move l current n m.
  Proof.
    unfold first_movable. destruct (negations (firstn current l)) as [ns|]; [|discriminate]. cbn [bind]. set (before := ZAnd ns).
    assert (IS : forall i, List.In i (seq (S current) (n - S current)) -> current < i /\ i < n) by (intros i I; apply in_seq in I; lia).
    revert IS. generalize (seq (S current) (n - S current)). intro is_. induction is_ as [|i is_ IH]; intros IS M; [discriminate|]. cbn [first_movable_in] in M.
    destruct (valid_move_up unsat l i current before) as [v|]; [|discriminate]. cbn [bind] in M.
    destruct v; [|apply IH; [intros j J; apply IS; right; exact J|exact M]].
    destruct (at_index l current) as [c|] eqn:GC; [|discriminate]. cbn [bind] in M. destruct (at_index l i) as [b|] eqn:GB; [|discriminate]. cbn [bind] in M.
    destruct (need (negated b)) as [g|]; [|discriminate]. cbn [bind] in M. destruct (under_assumption unsat c (ZAnd [before; g])) as [[al rm]|] eqn:U; [|discriminate]. cbn [bind fst snd] in M.
    destruct (found (al, rm)) eqn:F; [|apply IH; [intros j J; apply IS; right; exact J|exact M]].
    assert (m = (i, al, rm)) by congruence. subst m. destruct (IS i (or_introl eq_refl)) as [A B]. refine (conj A (conj B _)). exists c, b, (ZAnd [before; g]). repeat split; assumption.
  Qed.

  (** ** Moving ends *)
  Fixpoint rounds (m : nat) : nat := match m with 0 => 1 | S m => S (S m + 1 + rounds m) end.
  Lemma moves_end m :
    (forall todo l n start h made fuel, size l <= m -> Forall shape l -> todo + 1 + rounds m <= fuel ->
       runs (move_up unsat fuel l n start todo h made) /\ forall r, move_up unsat fuel l n start todo h made = Ok r -> size (fst r) <= size l /\ Forall shape (fst r)) /\
    (forall l n current mv h fuel, size l <= m -> Forall shape l -> may_move l current n mv -> rounds m <= fuel ->
       runs (move_rounds unsat fuel l n current mv h) /\ forall r, move_rounds unsat fuel l n current mv h = Ok r -> size (fst r) <= size l /\ Forall shape (fst r)).
  Proof.
    induction m as [|m [IHU IHR]].
    - assert (R : forall l n current mv h fuel, size l <= 0 -> Forall shape l -> may_move l current n mv -> rounds 0 <= fuel ->
        runs (move_rounds unsat fuel l n current mv h) /\ forall r, move_rounds unsat fuel l n current mv h = Ok r -> size (fst r) <= size l /\ Forall shape (fst r)).
      { intros l n current [[i al] rm] h fuel SZ _ (_ & _ & c & b & a & GC & _) _. exfalso. pose proof (size_length l). destruct l as [|x l]; [destruct current; discriminate|cbn [length] in *; lia]. }
      split; [|exact R]. induction todo as [|todo IH]; intros l n start h made fuel SZ F L; (destruct fuel as [|fuel]; [lia|]); rewrite move_up_S; [split; [discriminate|intros r E; assert (r = (l, made)) by congruence; subst; split; [apply le_n|exact F]]|].
      cbv zeta. destruct (simplifies_less l h (start + todo)) as [less|e] eqn:SL; [|split; [apply runs_bind; [rewrite <- SL; apply runs_less|discriminate]|discriminate]]. cbn [bind].
      destruct less; [apply IH; [exact SZ|exact F|cbn [rounds] in *; lia]|].
      destruct (first_movable unsat l (start + todo) n) as [[mv|]|e] eqn:FM; [| |split; [apply runs_bind; [rewrite <- FM; apply runs_movable|discriminate]|discriminate]]; cbn [bind]; [|apply IH; [exact SZ|exact F|cbn [rounds] in *; lia]].
      apply movable_facts in FM. destruct mv as [[i al] rm]. destruct FM as (_ & _ & c & b & a & GC & _). exfalso. pose proof (size_length l). destruct l as [|x l]; [destruct (start + todo); discriminate|cbn [length] in *; lia].
    - assert (R : forall l n current mv h fuel, size l <= S m -> Forall shape l -> may_move l current n mv -> rounds (S m) <= fuel ->
        runs (move_rounds unsat fuel l n current mv h) /\ forall r, move_rounds unsat fuel l n current mv h = Ok r -> size (fst r) <= size l /\ Forall shape (fst r)).
      { intros l n current [[i al] rm] h fuel SZ F (LT & _ & c & b & a & GC & GB & U & FD) L. cbn [rounds] in L. destruct fuel as [|fuel]; [lia|]. rewrite move_rounds_S.
        destruct (move_block l current i) as [l1|e] eqn:MB.
        2: { unfold move_block in MB. rewrite GB in MB. discriminate MB. }
        cbn [bind]. destruct (moved_block l current i c b l1 LT GC GB MB) as [PM GC1].
        assert (F1 : Forall shape l1) by (rewrite Forall_forall in *; intros x I; apply F; exact (Permutation_in _ (Permutation_sym PM) I)).
        assert (SC : shape c). { destruct (at_index_split l current c GC) as [SP _]. rewrite SP in F. apply Forall_app in F. destruct F as [_ F]. inversion F; assumption. }
        pose proof (under_shrinks c a al rm SC U FD) as SH.
        destruct (simplify_at l1 (S current) al rm) as [[l2 del]|e] eqn:SA; [|split; [apply runs_bind; [rewrite <- SA; apply runs_simplify|discriminate]|discriminate]]. cbn [bind].
        destruct (simplify_shrinks l1 (S current) c al rm l2 del F1 GC1 SH SA) as [SZ2 F2]. rewrite <- (size_permutation _ _ PM) in SZ2.
        assert (LI : i < length l). { unfold at_index, get in GB. apply nth_error_Some. destruct (nth_error l i); [discriminate|discriminate GB]. }
        pose proof (size_length l) as SLN.
        match goal with |- runs (bind ?t _) /\ _ => destruct t as [n1|e] eqn:NE end.
        2: { split; [|discriminate]. destruct al; [|discriminate]. rewrite <- NE. apply runs_bind; [apply runs_count|]. intros x X. rewrite X in NE. discriminate. }
        cbn [bind]. destruct (Nat.eqb (length l2) (S (S current))).
        { split; [discriminate|]. intros r E. assert (r = (l2, n1)) by congruence. subst r. cbn [fst]. split; [lia|exact F2]. }
        assert (SM : size l2 <= m) by lia. assert (FU : (i - S current) + 1 + rounds m <= fuel) by lia. destruct del.
        - destruct (IHU (i - S current) l2 n1 (S current) h false fuel SM F2 FU) as [R1 R2]. split.
          + apply runs_bind; [exact R1|discriminate].
          + intros r E. destruct (move_up unsat fuel l2 n1 (S current) (i - S current) h false) as [[l3 mm]|]; [|discriminate]. cbn [bind fst] in E. assert (r = (l3, n1)) by congruence. subst r.
            destruct (R2 _ eq_refl) as [A B]. cbn [fst] in *. split; [lia|exact B].
        - destruct (IHU (i - S current) l2 n1 (S (S current)) h false fuel SM F2 FU) as [R1 R2].
          destruct (move_up unsat fuel l2 n1 (S (S current)) (i - S current) h false) as [[l3 mm]|e] eqn:MU; [|split; [apply runs_bind; [exact R1|discriminate]|discriminate]]. cbn [bind fst].
          destruct (R2 _ eq_refl) as [A B]. cbn [fst] in A, B.
          destruct (first_movable unsat l3 (S current) n1) as [[mv|]|e] eqn:FM; [| |split; [apply runs_bind; [rewrite <- FM; apply runs_movable|discriminate]|discriminate]]; cbn [bind].
          + destruct (IHR l3 n1 (S current) mv h fuel ltac:(lia) B (movable_facts _ _ _ _ FM) ltac:(lia)) as [Q1 Q2]. split; [exact Q1|]. intros r E. destruct (Q2 r E) as [X Y]. split; [lia|exact Y].
          + split; [discriminate|]. intros r E. assert (r = (l3, n1)) by congruence. subst r. cbn [fst]. split; [lia|exact B]. }
      split; [|exact R]. induction todo as [|todo IH]; intros l n start h made fuel SZ F L; (destruct fuel as [|fuel]; [lia|]); rewrite move_up_S; [split; [discriminate|intros r E; assert (r = (l, made)) by congruence; subst; split; [apply le_n|exact F]]|].
      cbv zeta. destruct (simplifies_less l h (start + todo)) as [less|e] eqn:SL; [|split; [apply runs_bind; [rewrite <- SL; apply runs_less|discriminate]|discriminate]]. cbn [bind].
      destruct less; [apply IH; [exact SZ|exact F|lia]|].
      destruct (first_movable unsat l (start + todo) n) as [[mv|]|e] eqn:FM; [| |split; [apply runs_bind; [rewrite <- FM; apply runs_movable|discriminate]|discriminate]]; cbn [bind]; [|apply IH; [exact SZ|exact F|lia]].
      destruct (R l n (start + todo) mv h fuel SZ F (movable_facts _ _ _ _ FM) ltac:(lia)) as [R1 R2].
      destruct (move_rounds unsat fuel l n (start + todo) mv h) as [[l1 n1]|e] eqn:MR; [|split; [apply runs_bind; [exact R1|discriminate]|discriminate]]. cbn [bind].
      destruct (R2 _ eq_refl) as [A B]. cbn [fst] in A, B. destruct (IH l1 n1 start h true fuel ltac:(lia) B ltac:(lia)) as [Q1 Q2]. split; [exact Q1|]. intros r E. destruct (Q2 r E) as [X Y]. split; [lia|exact Y].
  Qed.
  (** ** Immediate simplifications end *)
  Lemma simplify_keeps l i b al rm l' del : at_index l i = Ok b -> (forall r, al = None -> rm = r -> rm <> [] -> shape (remove_operands b rm)) -> simplify_at l i al rm = Ok (l', del) -> Forall shape l ->
    Forall shape l' /\ length l' <= length l /\ (del = true -> length l' < length l).
  Proof.
    intros GB SR S1 F. destruct (at_index_split l i b GB) as [SP LN]. assert (F' := F). rewrite SP in F'. apply Forall_app in F'. destruct F' as [F1 F2]. inversion F2 as [|? ? Fb F3]; subst.
    assert (LE : length l = i + S (length (skipn (S i) l))) by (rewrite SP at 1; rewrite app_length, LN; reflexivity).
    unfold simplify_at in S1. destruct al as [[]|].
    - rewrite GB in S1. cbn [bind] in S1. assert (l' = firstn i l ++ [default_block (position b)] /\ del = false) as [-> ->] by (split; congruence). rewrite app_length, LN. cbn [length]. split; [|split; [lia|discriminate]].
      apply Forall_app. split; [exact F1|]. constructor; [|constructor]. intro X. cbn in X. congruence.
    - assert (l' = firstn i l ++ skipn (S i) l) by congruence. subst l'. rewrite app_length, LN. split; [apply Forall_app; split; assumption|lia].
    - destruct rm as [|r0 rm]; [assert (l' = l /\ del = false) as [-> ->] by (split; congruence); split; [exact F|split; [lia|discriminate]]|]. rewrite GB in S1. cbn [bind] in S1.
      assert (E : l' = replace l i (remove_operands b (r0 :: rm)) /\ del = false) by (split; congruence). destruct E as [E ->]. rewrite (replace_at l i b _ GB) in E. subst l'.
      rewrite app_length, LN. cbn [length]. split; [|split; [lia|discriminate]]. apply Forall_app. split; [exact F1|]. constructor; [apply (SR (r0 :: rm)); [reflexivity|reflexivity|discriminate]|exact F3].
  Qed.
  Lemma loop_ends fuel : forall l i n before made h, S (length l - i) <= fuel -> Forall shape l ->
    runs (immediate_loop unsat text_length fuel l i n before made h) /\
    forall r, immediate_loop unsat text_length fuel l i n before made h = Ok r -> Forall shape (fst (fst r)).
  Proof.
    induction fuel as [|fuel IH]; intros l i n before made h L F; [lia|]. cbn [immediate_loop]. destruct (Nat.ltb i n).
    2: { split; [discriminate|]. intros r E. assert (r = (l, made, h)) by congruence. subst r. cbn [fst]. auto. }
    destruct (at_index l i) as [b|e] eqn:GB; [|split; [apply runs_bind; [rewrite <- GB; apply runs_at|discriminate]|discriminate]]. cbn [bind].
    destruct (under_assumption unsat b before) as [[al rm]|e] eqn:U; [|split; [apply runs_bind; [rewrite <- U; apply runs_under|discriminate]|discriminate]]. cbn [bind fst snd].
    assert (LI : i < length l). { unfold at_index, get in GB. apply nth_error_Some. destruct (nth_error l i); [discriminate|discriminate GB]. }
    assert (SB : shape b). { destruct (at_index_split l i b GB) as [SP _]. rewrite SP in F. apply Forall_app in F. destruct F as [_ F]. inversion F; assumption. }
    match goal with |- runs (bind ?t _) /\ _ => destruct t as [[[l1 del] h1]|e] eqn:ST end.
    2: { split; [|discriminate]. apply runs_bind; [|discriminate]. rewrite <- ST. destruct (found (al, rm)); [|discriminate]. destruct (kept_test text_length b al); [discriminate|]. apply runs_bind; [apply runs_simplify|discriminate]. }
    cbn [bind].
    assert (K : Forall shape l1 /\ length l1 <= length l /\ (del = true -> length l1 < length l)).
    { destruct (found (al, rm)) eqn:FD; [|assert (l1 = l /\ del = false) as [-> ->] by (split; congruence); split; [exact F|split; [lia|discriminate]]].
      destruct (kept_test text_length b al).
      - assert (l1 = firstn (S i) l /\ del = false) as [-> ->] by (split; congruence). split; [apply firstn_forall; exact F|]. split; [rewrite firstn_length; lia|discriminate].
      - destruct (simplify_at l i al rm) as [[l2 d2]|] eqn:SA; [|discriminate]. cbn [bind] in ST. assert (l1 = l2 /\ del = d2) as [-> ->] by (split; congruence).
        refine (simplify_keeps l i b al rm l2 d2 GB _ SA F). intros r -> _ N. exact (proj2 (proj2 (proj2 (under_shrinks b before None rm SB U FD)))). }
    destruct K as (F1 & L1 & D1). destruct (nth_error l1 i) as [b1|]; [|split; [discriminate|]; intros r E; assert (r = (l1, made || found (al, rm), h1)) by congruence; subst r; cbn [fst]; auto].
    destruct (condition b1); [|split; [discriminate|]; intros r E; assert (r = (l1, made || found (al, rm), h1)) by congruence; subst r; cbn [fst]; auto].
    match goal with |- runs (bind ?t _) /\ _ => destruct t as [n1|e] eqn:NE end.
    2: { split; [|discriminate]. destruct al; [|discriminate]. rewrite <- NE. apply runs_bind; [apply runs_count|]. intros x X. rewrite X in NE. discriminate. }
    cbn [bind]. destruct del.
    - apply IH; [specialize (D1 eq_refl); lia|exact F1].
    - destruct (need (negated b1)) as [g|e] eqn:NG; [|split; [apply runs_bind; [rewrite <- NG; apply runs_need|discriminate]|discriminate]]. cbn [bind]. apply IH; [lia|exact F1].
  Qed.
  Lemma immediate_ends l : Forall shape l -> runs (immediate unsat text_length l) /\ forall r, immediate unsat text_length l = Ok r -> Forall shape (fst (fst r)).
  Proof.
    intro F. unfold immediate. destruct (at_index l 0) as [b|e] eqn:GB; [|split; [apply runs_bind; [rewrite <- GB; apply runs_at|discriminate]|discriminate]]. cbn [bind].
    destruct (need (negated b)) as [g|e] eqn:NG; [|split; [apply runs_bind; [rewrite <- NG; apply runs_need|discriminate]|discriminate]]. cbn [bind].
    destruct (elif_count l) as [n|e] eqn:NE; [|split; [apply runs_bind; [rewrite <- NE; apply runs_count|discriminate]|discriminate]]. cbn [bind].
    destruct (loop_ends (S (length l)) l 1 n g false false ltac:(lia) F) as [R1 R2].
    destruct (immediate_loop unsat text_length (S (length l)) l 1 n g false false) as [[[l1 made] h]|e] eqn:IL; [|split; [apply runs_bind; [exact R1|discriminate]|discriminate]]. cbn [bind].
    assert (F1 := R2 _ eq_refl). cbn [fst] in F1.
    destruct (last_block l1) as [e|e] eqn:LB; [|split; [apply runs_bind; [rewrite <- LB; apply runs_last|discriminate]|discriminate]]. cbn [bind]. split; [destruct (condition e); discriminate|].
    intros r E. assert (fst (fst r) = l1) by (destruct (condition e); assert (K := f_equal (fun x => match x with Ok y => fst (fst y) | _ => [] end) E); cbn in K; congruence). rewrite H. exact F1.
  Qed.
End Steps.

(** ** The whole check ends *)
Section Negation.
  Variable H : host.
  Hypothesis TH : tame_host H.
  Definition foldable (e : expr) : Prop := well_formed e = true /\ no_power e = true.
  Lemma two_ends e : foldable e -> exists b, is_mod_two H e = Ok b /\ (b = true -> exists x, mod_left e = Ok x).
  Proof.
    intros [WF NP]. destruct e; try (exists false; split; [reflexivity|discriminate]). cbn [well_formed no_power] in WF, NP. apply andb_true_iff in WF. destruct WF as [W1 W2].
    destruct o; try (exists false; split; [reflexivity|discriminate]). apply andb_true_iff in NP. destruct NP as [N1 N2].
    destruct (folding_ends H TH e2 W2 N2) as (v & V). cbn [is_mod_two]. rewrite V. cbn [bind]. eexists. split; [reflexivity|]. intros _. exists e1. reflexivity.
  Qed.
  Lemma mod_ends a ops b ops2 : foldable a -> Forall (fun cv => foldable (snd cv)) ops -> foldable b -> Forall (fun cv => foldable (snd cv)) ops2 -> exists r, mod_two_negation H a ops b ops2 = Ok r.
  Proof.
    assert (K : forall a ops, foldable a -> Forall (fun cv => foldable (snd cv)) ops -> exists x, is_eq_mod_two H a ops = Ok x /\ (x = true -> exists p y, mod_and_value H a ops = Ok p /\ mod_left (fst p) = Ok y)).
    { clear a ops. intros a ops FA FO. unfold is_eq_mod_two. destruct ops as [|[c b1] ops]; [exists false; split; [reflexivity|discriminate]|].
      destruct ops; [|exists false; split; [reflexivity|discriminate]]. destruct (is_eq_op c); [|exists false; split; [reflexivity|discriminate]].
      inversion FO as [|? ? FB _]; subst. cbn [snd] in FB. destruct (two_ends a FA) as (x & X & XL). destruct (two_ends b1 FB) as (y & Y & YL). rewrite X, Y. cbn [bind]. eexists. split; [reflexivity|].
      intro D. unfold mod_and_value. rewrite X. cbn [bind]. destruct x.
      - destruct (XL eq_refl) as (z & Z). exists (a, b1), z. split; [reflexivity|exact Z].
      - destruct y; [|discriminate]. destruct (YL eq_refl) as (z & Z). exists (b1, a), z. split; [reflexivity|exact Z]. }
    intros A O B O2. unfold mod_two_negation. destruct (K a ops A O) as (x & -> & XP). cbn [bind]. destruct x; [|eexists; reflexivity]. cbn [negb].
    destruct (K b ops2 B O2) as (y & -> & YP). cbn [bind]. destruct y; [|eexists; reflexivity]. cbn [negb].
    destruct (XP eq_refl) as (p & u & -> & U). destruct (YP eq_refl) as (q & v & -> & V). cbn [bind]. rewrite U, V. eexists. reflexivity.
  Qed.
  Lemma strip_foldable e : forall neg e' neg', strip_nots e neg = (e', neg') -> foldable e -> foldable e'.
  Proof.
    induction e; intros neg e' neg' S1 F; try (cbn in S1; assert (e' = e') by reflexivity; injection S1 as <- _; exact F).
    destruct o; try (cbn in S1; injection S1 as <- _; exact F). exact (IHe (negb neg) e' neg' S1 F).
  Qed.
  Lemma negation_ends lt : forall rt neg, foldable lt -> foldable rt -> exists b, is_negation H lt rt neg = Ok b.
  Proof.
    induction lt as [x|c|o a IHa|o a b IHa IHb|o vs IHvs|a ops IHa IHops|g args IHg IHargs|a x IHa|a i IHa IHi|c a b IHc IHa IHb|n] using expr_ind'; intros rt neg F1 F2.
    3: destruct o; [exact (IHa rt (negb neg) F1 F2)| | |].
    all: cbn [is_negation]; destruct (strip_nots rt neg) as [rt' neg'] eqn:SR; pose proof (strip_foldable _ _ _ _ SR F2) as F3;
      match goal with |- exists _, (if negb (same_type ?p ?q) then _ else _) = _ => destruct (same_type p q) end; cbn [negb]; try (eexists; reflexivity).
    - destruct rt'; try (eexists; reflexivity). match goal with |- exists b, (if ?t then _ else _) = _ => destruct t end; [|eexists; reflexivity].
      assert (A1 : Forall foldable vs). { destruct F1 as [W N]. cbn [well_formed no_power] in W, N. apply andb_true_iff in W. destruct W as [_ W]. rewrite forallb_forall in W, N. apply Forall_forall. intros y Y. split; [exact (W y Y)|exact (N y Y)]. }
      assert (A2 : Forall foldable vs0). { destruct F3 as [W N]. cbn [well_formed no_power] in W, N. apply andb_true_iff in W. destruct W as [_ W]. rewrite forallb_forall in W, N. apply Forall_forall. intros y Y. split; [exact (W y Y)|exact (N y Y)]. }
      clear F1 F2 F3 SR. revert vs0 A2. induction IHvs as [|v vs V IHvs IH]; intros us A2; [eexists; reflexivity|]. destruct us as [|u us]; [eexists; reflexivity|].
      inversion A1 as [|? ? V1 A1']; subst. inversion A2 as [|? ? U1 A2']; subst. destruct (V u neg' V1 U1) as (b & ->). cbn [bind]. destruct b; [exact (IH A1' us A2')|eexists; reflexivity].
    - destruct rt'; try (eexists; reflexivity). destruct (negb (Nat.eqb (length ops) (length ops0))); [eexists; reflexivity|].
      assert (A1 : foldable a /\ Forall (fun cv => foldable (snd cv)) ops).
      { destruct F1 as [W N]. cbn [well_formed no_power] in W, N. repeat (apply andb_true_iff in W; destruct W as [W ?]). apply andb_true_iff in N. destruct N as [N1 N2]. rewrite forallb_forall in *.
        split; [split; assumption|]. apply Forall_forall. intros y Y. split; auto. }
      assert (A2 : foldable rt' /\ Forall (fun cv => foldable (snd cv)) ops0).
      { destruct F3 as [W N]. cbn [well_formed no_power] in W, N. repeat (apply andb_true_iff in W; destruct W as [W ?]). apply andb_true_iff in N. destruct N as [N1 N2]. rewrite forallb_forall in *.
        split; [split; assumption|]. apply Forall_forall. intros y Y. split; auto. }
      destruct A1 as [A1 B1]. destruct A2 as [A2 B2].
      set (all := fun negated => do x <- is_negation H a rt' negated;
                 if x
                 then (fix all (l r : list (cmpop * expr)) : res bool :=
                         match l, r with
                         | (_, x) :: l, (_, y) :: r => do b <- is_negation H x y negated; if b then all l r else Ok false
                         | _, _ => Ok true
                         end) ops ops0
                 else Ok false).
      assert (ALL : forall negated, exists r, all negated = Ok r).
      { intro negated. unfold all. destruct (IHa rt' negated A1 A2) as (x & ->). cbn [bind]. destruct x; [|eexists; reflexivity].
        clear -IHops B1 B2. revert ops0 B2. induction IHops as [|[c v] ops V IHops IH]; intros us A2; [eexists; reflexivity|]. destruct us as [|[c' u] us]; [eexists; reflexivity|].
        inversion B1 as [|? ? V1 B1']; subst. inversion A2 as [|? ? U1 A2']; subst. cbn [snd] in *. destruct (V u negated V1 U1) as (b & ->). cbn [bind]. destruct b; [exact (IH B1' us A2')|eexists; reflexivity]. }
      change (exists b, (if neg' && ops_match (fun c => c) ops ops0 then all neg' else
        do x <- (if negb neg' && ops_match negated_cmp ops ops0 then do r <- all (negb neg'); Ok (Some r) else Ok None);
        match x with Some r => Ok r | None => if negb neg' then mod_two_negation H a ops rt' ops0 else Ok false end) = Ok b).
      destruct (neg' && ops_match (fun c => c) ops ops0); [apply ALL|].
      destruct (negb neg' && ops_match negated_cmp ops ops0).
      + destruct (ALL (negb neg')) as (r & ->). cbn [bind]. eexists. reflexivity.
      + cbn [bind]. destruct (negb neg'); [apply mod_ends; assumption|eexists; reflexivity].
  Qed.
End Negation.

(** ** The branches are conditions, and else at the end *)
Definition full (b : block) : Prop := condition b <> None /\ negated b <> None.
Definition parts (n : nat) (l : list block) : Prop :=
  exists front tail, l = front ++ tail /\ length front = n /\ Forall full front /\ (tail = [] \/ exists e, tail = [e] /\ condition e = None).
Lemma parts_all l : Forall full l -> parts (length l) l.
Proof. intro F. exists l, []. rewrite app_nil_r. auto. Qed.
Lemma parts_count n l : parts n l -> l <> [] -> elif_count l = Ok n.
Proof.
  intros (front & tail & -> & <- & F & T) NE. unfold elif_count. destruct T as [->|(e & -> & C)].
  - rewrite app_nil_r in *. destruct (rev front) as [|b m] eqn:R.
    + exfalso. apply NE. apply (f_equal (@rev block)) in R. rewrite rev_involutive in R. exact R.
    + unfold last_block. rewrite R. cbn [bind]. assert (FB : full b) by (rewrite Forall_forall in F; apply F; apply in_rev; rewrite R; left; reflexivity).
      destruct FB as [CB _]. destruct (condition b); [reflexivity|congruence].
  - rewrite last_block_app. cbn [bind]. rewrite C, app_length. cbn [length]. f_equal. lia.
Qed.
Lemma parts_length n l : parts n l -> n <= length l /\ length l <= S n.
Proof. intros (front & tail & -> & <- & _ & [->|(e & -> & _)]); rewrite app_length; cbn [length]; lia. Qed.
Lemma parts_at n l i : parts n l -> i < n -> exists b, at_index l i = Ok b /\ full b.
Proof.
  intros (front & tail & -> & <- & F & _) L. unfold at_index, get. rewrite nth_error_app1 by exact L. destruct (nth_error front i) as [b|] eqn:N; [|apply nth_error_None in N; lia].
  exists b. split; [reflexivity|]. rewrite Forall_forall in F. exact (F b (nth_error_In _ _ N)).
Qed.
Lemma parts_first n l i : parts n l -> i <= n -> Forall full (firstn i l).
Proof. intros (front & tail & -> & <- & F & _) L. rewrite firstn_app. replace (i - length front) with 0 by lia. cbn [firstn]. rewrite app_nil_r. apply firstn_forall. exact F. Qed.
Lemma full_negations l : Forall full l -> exists ns, negations l = Ok ns.
Proof.
  induction 1 as [|b l [_ N] F (ns & IH)]; [eexists; reflexivity|]. rewrite negations_cons. destruct (negated b) as [g|]; [|congruence]. cbn [need bind]. rewrite IH. eexists. reflexivity.
Qed.
Lemma full_removed b rm : full (remove_operands b rm).
Proof. split; discriminate. Qed.
Lemma last_parts n l : parts n l -> l <> [] -> exists e, last_block l = Ok e /\ (condition e = None -> parts n l /\ S n = length l).
Proof.
  intros (front & tail & -> & <- & F & T) NE. destruct T as [->|(e & -> & C)].
  - rewrite app_nil_r in *. destruct (last_block front) as [e|x] eqn:LB.
    + exists e. split; [reflexivity|]. intro C. exfalso. pose proof (last_split _ _ LB) as SP. rewrite SP in F. apply Forall_app in F. destruct F as [_ F]. inversion F as [|? ? [K _] _]; subst. congruence.
    + exfalso. unfold last_block in LB. destruct (rev front) eqn:R; [|discriminate]. apply NE. apply (f_equal (@rev block)) in R. rewrite rev_involutive in R. exact R.
  - exists e. rewrite last_block_app. split; [reflexivity|]. intros _. split; [|rewrite app_length; cbn [length]; lia]. exists front, [e]. split; [reflexivity|]. split; [reflexivity|]. split; [exact F|]. right. exists e. auto.
Qed.

Section Total.
  Variable unsat : zexpr -> bool.
  Variable text_length : text -> nat.
  Lemma under_full b a : full b -> exists al rm, under_assumption unsat b a = Ok (al, rm).
  Proof.
    intros [C N]. unfold under_assumption. destruct (condition b) as [c|]; [|congruence]. destruct (negated b) as [g|]; [|congruence]. cbn [need bind].
    repeat match goal with |- exists al rm, (if ?t then _ else _) = _ => destruct t; try (eexists; eexists; reflexivity) end.
  Qed.
  Lemma movable_total n l current : parts n l -> current <= n -> exists m, first_movable unsat l current n = Ok m.
  Proof.
    intros PT L. unfold first_movable. destruct (full_negations _ (parts_first n l current PT L)) as (ns & ->). cbn [bind].
    assert (IS : forall i, List.In i (seq (S current) (n - S current)) -> current < i /\ i < n) by (intros i I; apply in_seq in I; lia).
    revert IS. generalize (seq (S current) (n - S current)). intro is_. induction is_ as [|i is_ IH]; intro IS; [eexists; reflexivity|]. cbn [first_movable_in].
    destruct (IS i (or_introl eq_refl)) as [L1 L2]. destruct (parts_at n l i PT L2) as (b & GB & FB). destruct (parts_at n l current PT ltac:(lia)) as (c & GC & FC).
    assert (IS' : forall j, List.In j is_ -> current < j /\ j < n) by (intros j J; apply IS; right; exact J).
    unfold valid_move_up. rewrite GB. cbn [bind]. destruct FB as [CB NB]. destruct (condition b) as [z|] eqn:Z; [|congruence]. cbn [need bind].
    destruct (full_negations (skipn current (firstn i l))) as (ms & ->); [apply skipn_forall; apply (parts_first n); [exact PT|lia]|]. cbn [bind].
    destruct (implies unsat (ZAnd [ZAnd ns; z]) (ZAnd ms)); [|exact (IH IS')]. rewrite GC. cbn [bind]. destruct (negated b) as [g|]; [|congruence]. cbn [need bind].
    destruct (under_full c (ZAnd [ZAnd ns; g]) FC) as (al & rm & ->). cbn [bind fst snd]. destruct (found (al, rm)); [eexists; reflexivity|exact (IH IS')].
  Qed.
  Lemma at_in l i : i < length l -> exists b, at_index l i = Ok b.
  Proof. intro L. unfold at_index, get. destruct (nth_error l i) as [b|] eqn:N; [eexists; reflexivity|]. apply nth_error_None in N. lia. Qed.
  Lemma less_total l h current : exists b, simplifies_less l h current = Ok b.
  Proof.
    unfold simplifies_less. destruct (h && Nat.eqb (current + 2) (length l)) eqn:K; [|eexists; reflexivity]. apply andb_true_iff in K. destruct K as [_ K]. apply Nat.eqb_eq in K. 
    destruct (at_in l current ltac:(lia)) as (c & ->). cbn [bind]. destruct (at_in l (S current) ltac:(lia)) as (e & ->). cbn [bind]. eexists. reflexivity.
  Qed.
  Lemma front_cut n l i : parts n l -> i < n -> exists b post tail, l = firstn i l ++ b :: post ++ tail /\ at_index l i = Ok b /\ skipn (S i) l = post ++ tail /\ length (firstn i l) = i /\ i + S (length post) = n /\
    Forall full (firstn i l) /\ full b /\ Forall full post /\ (tail = [] \/ exists e, tail = [e] /\ condition e = None).
  Proof.
    intros PT L. destruct (parts_at n l i PT L) as (b & GB & FB). destruct (at_index_split l i b GB) as [SP LN]. pose proof (parts_first n l i PT ltac:(lia)) as F1.
    destruct PT as (front & tail & -> & <- & F & T). exists b, (skipn (S i) front), tail.
    assert (SK : skipn (S i) (front ++ tail) = skipn (S i) front ++ tail) by (rewrite skipn_app; replace (S i - length front) with 0 by lia; reflexivity).
    rewrite SK in SP. refine (conj SP (conj GB (conj SK (conj LN (conj _ (conj F1 (conj FB (conj (skipn_forall _ _ _ F) T)))))))). rewrite skipn_length. lia.
  Qed.
  Lemma simplify_total n l i al rm : parts n l -> i < n -> exists l' del, simplify_at l i al rm = Ok (l', del) /\
    match al with Some true => parts i l' /\ length l' = S i /\ del = false | Some false => parts (n - 1) l' /\ del = true | None => parts n l' /\ del = false end.
  Proof.
    intros PT L. destruct (front_cut n l i PT L) as (b & post & tail & SP & GB & SK & LN & LE & F1 & FB & F2 & T). unfold simplify_at. rewrite GB. cbn [bind]. destruct al as [[]|].
    - eexists. eexists. split; [reflexivity|]. split; [|split; [rewrite app_length, LN; cbn [length]; lia|reflexivity]]. exists (firstn i l), [default_block (position b)]. split; [reflexivity|]. split; [exact LN|]. split; [exact F1|]. right. exists (default_block (position b)). auto.
    - eexists. eexists. split; [reflexivity|]. split; [|reflexivity]. rewrite SK. exists (firstn i l ++ post), tail. rewrite app_assoc. split; [reflexivity|]. split; [rewrite app_length; lia|]. split; [apply Forall_app; auto|exact T].
    - destruct rm as [|r0 rm]; eexists; eexists; (split; [reflexivity|]); (split; [|reflexivity]); [exact PT|]. rewrite (replace_at l i b _ GB), SK. exists (firstn i l ++ remove_operands b (r0 :: rm) :: post), tail.
      rewrite <- app_assoc. split; [reflexivity|]. split; [rewrite app_length; cbn [length]; lia|]. split; [|exact T]. apply Forall_app. split; [exact F1|]. constructor; [apply full_removed|exact F2].
  Qed.
  Lemma move_total n l current i : parts n l -> current < i -> i < n -> exists l1, move_block l current i = Ok l1 /\ parts n l1.
  Proof.
    intros PT L1 L2. destruct (front_cut n l i PT L2) as (b & post & tail & SP & GB & SK & LN & LE & F1 & FB & F2 & T). unfold move_block. rewrite GB. cbn [bind]. eexists. split; [reflexivity|].
    rewrite SK. exists (firstn current l ++ b :: skipn current (firstn i l) ++ post), tail. split; [rewrite <- !app_assoc; cbn [app]; rewrite <- app_assoc; reflexivity|].
    split; [rewrite app_length; cbn [length]; rewrite app_length, firstn_length, skipn_length, LN; pose proof (parts_length n l PT); lia|]. split; [|exact T].
    apply Forall_app. split; [apply (parts_first n); [exact PT|lia]|]. constructor; [exact FB|]. apply Forall_app. split; [apply skipn_forall; exact F1|exact F2].
  Qed.
  Lemma parts_some n l : parts n l -> 0 < n -> l <> [].
  Proof. intros PT L ->. pose proof (parts_length n [] PT). cbn [length] in *. lia. Qed.

  (** ** Nothing is moved near the end *)
  Lemma idle fuel : forall todo l n start h made, parts n l -> n <= S start -> start + todo <= S n -> runs (move_up unsat fuel l n start todo h made) ->
    move_up unsat fuel l n start todo h made = Ok (l, made).
  Proof.
    induction fuel as [|fuel IH]; intros todo l n start h made PT N L R; [exfalso; apply R; reflexivity|]. rewrite move_up_S in *. destruct todo as [|todo]; [reflexivity|]. cbv zeta in *.
    destruct (less_total l h (start + todo)) as (less & SL). rewrite SL in *. cbn [bind] in *. destruct less; [apply IH; [exact PT|exact N|lia|exact R]|].
    assert (FM : first_movable unsat l (start + todo) n = Ok None).
    { unfold first_movable. destruct (full_negations _ (parts_first n l (start + todo) PT ltac:(lia))) as (ns & ->). cbn [bind]. replace (n - S (start + todo)) with 0 by lia. reflexivity. }
    rewrite FM in *. cbn [bind] in *. apply IH; [exact PT|exact N|lia|exact R].
  Qed.
  (** ** At most three branches *)
  Lemma rounds_total fuel : forall l n current mv h, parts n l -> n <= 3 -> may_move unsat l current n mv -> runs (move_rounds unsat fuel l n current mv h) ->
    exists l' n', move_rounds unsat fuel l n current mv h = Ok (l', n') /\ parts n' l' /\ current < n' /\ n' <= 3.
  Proof.
    induction fuel as [|fuel IH]; intros l n current [[i al] rm] h PT N (L1 & L2 & _) R; [exfalso; apply R; reflexivity|]. rewrite move_rounds_S in *.
    destruct (move_total n l current i PT L1 L2) as (l1 & MB & PT1). rewrite MB in *. cbn [bind] in *.
    destruct (simplify_total n l1 (S current) al rm PT1 ltac:(lia)) as (l2 & del & SA & K). rewrite SA in *. cbn [bind] in *.
    assert (C : exists n1, match al with Some _ => elif_count l2 | None => Ok n end = Ok n1 /\ parts n1 l2 /\ current < n1 /\ n1 <= n /\ (del = true -> n1 = n - 1)).
    { destruct al as [[]|].
      - destruct K as (K & LK & ->). exists (S current). split; [apply parts_count; [exact K|apply (parts_some _ _ K); lia]|]. split; [exact K|]. split; [lia|]. split; [lia|discriminate].
      - destruct K as [K ->]. exists (n - 1). split; [apply parts_count; [exact K|apply (parts_some _ _ K); lia]|]. split; [exact K|]. split; [lia|]. split; [lia|reflexivity].
      - destruct K as [K ->]. exists n. split; [reflexivity|]. split; [exact K|]. split; [lia|]. split; [lia|discriminate]. }
    destruct C as (n1 & CE & PT2 & C1 & C2 & C3). rewrite CE in *. cbn [bind] in *.
    destruct (Nat.eqb (length l2) (S (S current))) eqn:LQ; [exists l2, n1; split; [reflexivity|split; [exact PT2|split; [exact C1|lia]]]|]. destruct del.
    - specialize (C3 eq_refl). assert (RU : runs (move_up unsat fuel l2 n1 (S current) (i - S current) h false)).
      { intro X. apply R. rewrite X. reflexivity. }
      rewrite (idle fuel (i - S current) l2 n1 (S current) h false PT2 ltac:(lia) ltac:(lia) RU) in *. cbn [bind fst]. exists l2, n1. split; [reflexivity|]. split; [exact PT2|]. split; [exact C1|lia].
    - assert (KN : n1 = n).
      { destruct al as [[]|]; [|destruct K as [_ K]; discriminate|assert (n1 = n) by congruence; assumption]. destruct K as (_ & LK & _). rewrite LK, Nat.eqb_refl in LQ. discriminate. }
      subst n1. assert (RU : runs (move_up unsat fuel l2 n (S (S current)) (i - S current) h false)).
      { intro X. apply R. rewrite X. reflexivity. }
      rewrite (idle fuel (i - S current) l2 n (S (S current)) h false PT2 ltac:(lia) ltac:(lia) RU) in *. cbn [bind fst] in *.
      destruct (movable_total n l2 (S current) PT2 ltac:(lia)) as (m & FM). rewrite FM in *. cbn [bind] in *. destruct m as [m|].
      + destruct (IH l2 n (S current) m h PT2 N (movable_facts _ _ _ _ _ FM) R) as (l' & n' & E & Q1 & Q2 & Q3). exists l', n'. split; [exact E|]. split; [exact Q1|]. split; [lia|exact Q3].
      + exists l2, n. split; [reflexivity|]. split; [exact PT2|]. split; [exact C1|exact N].
  Qed.
  Lemma up_total fuel : forall todo l n h made, parts n l -> 0 < n -> n <= 3 -> todo <= n -> runs (move_up unsat fuel l n 0 todo h made) ->
    exists l' b n', move_up unsat fuel l n 0 todo h made = Ok (l', b) /\ parts n' l' /\ 0 < n'.
  Proof.
    induction fuel as [|fuel IH]; intros todo l n h made PT N0 N L R; [exfalso; apply R; reflexivity|]. rewrite move_up_S in *. destruct todo as [|todo]; [exists l, made, n; auto|]. cbv zeta in *. cbn [Nat.add] in *.
    destruct (less_total l h todo) as (less & SL). rewrite SL in *. cbn [bind] in *. destruct less; [apply IH; try assumption; lia|].
    destruct (movable_total n l todo PT ltac:(lia)) as (m & FM). rewrite FM in *. cbn [bind] in *. destruct m as [m|]; [|apply IH; try assumption; lia].
    assert (RR : runs (move_rounds unsat fuel l n todo m h)) by (intro X; apply R; rewrite X; reflexivity).
    destruct (rounds_total fuel l n todo m h PT N (movable_facts _ _ _ _ _ FM) RR) as (l1 & n1 & E & P1 & P2 & P3). rewrite E in *. cbn [bind] in *. apply IH; try assumption; lia.
  Qed.
  (** ** Immediate simplifications *)
  Lemma loop_total fuel : forall l i n before made h, parts n l -> 0 < i -> i <= n -> runs (immediate_loop unsat text_length fuel l i n before made h) ->
    exists l' made' h' n', immediate_loop unsat text_length fuel l i n before made h = Ok (l', made', h') /\ parts n' l' /\ 0 < n' /\ n' <= n.
  Proof.
    induction fuel as [|fuel IH]; intros l i n before made h PT I0 IN R; [exfalso; apply R; reflexivity|]. cbn [immediate_loop] in *. destruct (Nat.ltb i n) eqn:LT.
    2: { exists l, made, h, n. split; [reflexivity|]. split; [exact PT|lia]. }
    apply Nat.ltb_lt in LT. destruct (parts_at n l i PT LT) as (b & GB & FB). rewrite GB in *. cbn [bind] in *. destruct (under_full b before FB) as (al & rm & U). rewrite U in *. cbn [bind fst snd] in *.
    set (step := if found (al, rm) then if kept_test text_length b al then Ok (firstn (S i) l, false, true) else do s <- simplify_at l i al rm; Ok (s, h) else Ok (l, false, h)) in *.
    assert (ST : exists l1 del h1, step = Ok (l1, del, h1) /\
      ((exists b1 n1, nth_error l1 i = Some b1 /\ full b1 /\ parts n1 l1 /\ i < n1 /\ n1 <= n /\ match al with Some _ => elif_count l1 | None => Ok n end = Ok n1) \/
       ((nth_error l1 i = None \/ exists b1, nth_error l1 i = Some b1 /\ condition b1 = None) /\ exists n1, parts n1 l1 /\ 0 < n1 /\ n1 <= n))).
    { assert (AT : forall n1 l1, parts n1 l1 -> i < n1 -> exists b1, nth_error l1 i = Some b1 /\ full b1).
      { intros n1 l1 P1 L1. destruct (parts_at n1 l1 i P1 L1) as (b1 & G1 & F1). exists b1. split; [|exact F1]. unfold at_index, get in G1. destruct (nth_error l1 i); congruence. }
      unfold step. destruct (found (al, rm)) eqn:FD.
      2: { exists l, false, h. split; [reflexivity|]. left. destruct (AT n l PT LT) as (b1 & G1 & F1). exists b1, n. destruct al; [discriminate FD|]. auto 10. }
      destruct (kept_test text_length b al) eqn:KT.
      - exists (firstn (S i) l), false, true. split; [reflexivity|]. left. pose proof (parts_all _ (parts_first n l (S i) PT LT)) as P1. rewrite firstn_length in P1. pose proof (parts_length n l PT) as LL. rewrite Nat.min_l in P1 by lia.
        destruct (AT (S i) _ P1 ltac:(lia)) as (b1 & G1 & F1). exists b1, (S i). split; [exact G1|]. split; [exact F1|]. split; [exact P1|]. split; [lia|]. split; [lia|].
        destruct al; [|discriminate KT]. apply parts_count; [exact P1|apply (parts_some _ _ P1); lia].
      - destruct (simplify_total n l i al rm PT LT) as (l1 & del & SA & K). rewrite SA. cbn [bind]. exists l1, del, h. split; [reflexivity|]. destruct al as [[]|].
        + destruct K as (K & LK & _). right. split; [|exists i; split; [exact K|lia]]. right. assert (E : l1 = firstn i l ++ [default_block (position b)]) by (unfold simplify_at in SA; rewrite GB in SA; cbn [bind] in SA; congruence).
          destruct (at_index_split l i b GB) as [_ LN]. exists (default_block (position b)). rewrite E, nth_error_app2 by lia. rewrite LN, Nat.sub_diag. split; reflexivity.
        + destruct K as [K _]. assert (PC : elif_count l1 = Ok (n - 1)) by (apply parts_count; [exact K|apply (parts_some _ _ K); lia]). destruct (Nat.eq_dec i (n - 1)) as [EQ|NQ].
          * right. split; [|exists (n - 1); split; [exact K|lia]]. destruct K as (front & tail & -> & LF & F & T). rewrite nth_error_app2 by lia. replace (i - length front) with 0 by lia.
            destruct T as [->|(e & -> & C)]; [left; reflexivity|right; exists e; split; [reflexivity|exact C]].
          * left. destruct (AT (n - 1) l1 K ltac:(lia)) as (b1 & G1 & F1). exists b1, (n - 1). split; [exact G1|]. split; [exact F1|]. split; [exact K|]. split; [lia|]. split; [lia|exact PC].
        + destruct K as [K _]. left. destruct (AT n l1 K LT) as (b1 & G1 & F1). exists b1, n. auto 10. }
    destruct ST as (l1 & del & h1 & SE & C). rewrite SE in *. cbn [bind] in *. destruct C as [(b1 & n1 & G1 & [C1 N1] & P1 & L1 & L2 & CE)|[G1 (n1 & P1 & L1 & L2)]].
    - rewrite G1 in *. destruct (condition b1); [|congruence]. rewrite CE in *. cbn [bind] in *. destruct del.
      + destruct (IH l1 i n1 before (made || found (al, rm)) h1 P1 I0 ltac:(lia) R) as (l' & m' & h' & n' & E & Q1 & Q2 & Q3). exists l', m', h', n'. split; [exact E|]. split; [exact Q1|lia].
      + destruct (negated b1) as [g|]; [|congruence]. cbn [need bind] in *.
        destruct (IH l1 (S i) n1 (ZAnd [before; g]) (made || found (al, rm)) h1 P1 ltac:(lia) ltac:(lia) R) as (l' & m' & h' & n' & E & Q1 & Q2 & Q3). exists l', m', h', n'. split; [exact E|]. split; [exact Q1|lia].
    - exists l1, (made || found (al, rm)), h1, n1. split; [|split; [exact P1|lia]]. destruct G1 as [->|(b1 & -> & C)]; [reflexivity|]. rewrite C. reflexivity.
  Qed.
  Lemma immediate_total n l : parts n l -> 0 < n -> Forall shape l -> exists l' made h n', immediate unsat text_length l = Ok (l', made, h) /\ parts n' l' /\ 0 < n' /\ n' <= n.
  Proof.
    intros PT N0 F. destruct (immediate_ends unsat text_length l F) as [R _]. unfold immediate in *. destruct (parts_at n l 0 PT N0) as (b & GB & [_ NB]). rewrite GB in *. cbn [bind] in *.
    destruct (negated b) as [g|]; [|congruence]. cbn [need bind] in *. rewrite (parts_count n l PT (parts_some n l PT N0)) in *. cbn [bind] in *.
    assert (RL : runs (immediate_loop unsat text_length (S (length l)) l 1 n g false false)) by (intro X; apply R; rewrite X; reflexivity).
    destruct (loop_total (S (length l)) l 1 n g false false PT ltac:(lia) ltac:(lia) RL) as (l' & m' & h' & n' & E & P1 & Q1 & Q2). rewrite E in *. cbn [bind] in *.
    destruct (last_parts n' l' P1 (parts_some n' l' P1 Q1)) as (e & LB & _). rewrite LB. cbn [bind]. exists l', m', (match condition e with None => true | Some _ => h' end), n'. split; [reflexivity|auto].
  Qed.
End Total.

(** ** The whole check *)
Definition readable (extract : text -> res expr) : Prop :=
  forall a b op, fine a = true -> fine b = true -> exists e, extract (as_string a ++ [TRel op] ++ as_string b) = Ok e.
Section Check.
  Variables (H : host) (G : inspection) (unsat : zexpr -> bool) (text_length : text -> nat).
  Hypothesis TH : tame_host H.
  Hypothesis NH : numeric_host H.
  (** The variables of a test are in [d]. *)
  Definition ready (d : variables) (t : expr) : Prop := fit t /\ exists int_op d0 d1, initialize H G true int_op true t d0 = Ok (true, d1) /\ keeps d1 d.
  Lemma tests_end I tests : Forall fit tests -> forall d, exists r, initialize_tests I H G tests d = Ok r /\
    match r with inl d1 => Forall (ready d1) tests /\ keeps d d1 | inr k => 0 < k end.
  Proof.
    induction 1 as [|t tests T F IH]; intro d; cbn [initialize_tests]; [eexists; split; [reflexivity|]; split; [constructor|apply keeps_refl]|].
    destruct (is_pure_expression I t); [|eexists; split; [reflexivity|apply Nat.lt_0_1]].
    destruct (initialize_ends H G true TH t T false true d) as ([ok d1] & IT). rewrite IT. cbn [bind fst snd]. destruct ok; [|eexists; split; [reflexivity|apply Nat.lt_0_1]].
    destruct (IH d1) as (r & -> & R). cbn [bind]. eexists. split; [reflexivity|]. destruct r as [d2|k]; [|apply Nat.lt_0_succ]. destruct R as [R1 R2].
    pose proof (initialize_keeps H G true t false true d (true, d1) IT) as K1. cbn [snd] in K1. split; [|exact (keeps_trans _ _ _ K1 R2)].
    constructor; [|exact R1]. split; [exact T|]. exists false, d, d1. split; [exact IT|exact R2].
  Qed.
  Lemma each_ends d vs : forall int_op d0 d1, Forall fit vs -> init_all H G true int_op true vs d0 = Ok (true, d1) -> keeps d1 d -> exists r, convert_each H d vs = Ok r /\ forall ts, r = Some ts -> length ts = length vs.
  Proof.
    induction vs as [|v vs IH]; intros int_op d0 d1 F I K; cbn [convert_each]; [exists (Some []); split; [reflexivity|]; intros ts E; assert (ts = []) by congruence; subst; reflexivity|].
    inversion F as [|? ? Fv F']; subst. cbn [init_all] in I. destruct (initialize H G true int_op true v d0) as [[[] dx]|] eqn:IX; try discriminate. cbn [bind fst snd] in I.
    assert (KX : keeps dx d).
    { eapply keeps_trans; [|exact K]. refine (all_keeps H G true vs _ _ _ _ _ I). rewrite Forall_forall. intros y _. apply initialize_keeps. }
    destruct (convert_ends H G true TH NH v Fv _ _ _ _ d IX KX) as (z & c & -> & _). cbn [bind fst]. destruct z as [z|]; [|exists None; split; [reflexivity|discriminate]].
    destruct (IH int_op dx d1 F' I K) as (r & -> & R). cbn [bind]. eexists. split; [reflexivity|]. destruct r as [l|]; [|discriminate]. intros ts E. assert (ts = z :: l) by congruence. subst. cbn [length]. rewrite (R l eq_refl). reflexivity.
  Qed.
  Lemma make_ends d t p : ready d t -> exists b, make_block H d t p = Ok b /\ shape b /\ (condition b <> None -> full b).
  Proof.
    intros (F & int_op & d0 & d1 & I & K).
    assert (ONE : exists b, (do r <- convert H d true t; Ok {| position := p; condition := fst r; negated := option_map ZNot (fst r); operands := [t]; terms := []; negated_terms := []; is_or := false |}) = Ok b /\ shape b /\ (condition b <> None -> full b)).
    { destruct (convert_ends H G true TH NH t F _ _ _ _ d I K) as (z & c & -> & _). cbn [bind fst]. eexists. split; [reflexivity|]. split.
      - intros _. cbn [operands]. split; [discriminate|]. cbn [length]. lia.
      - unfold full. cbn [condition negated]. intro C. split; [exact C|]. destruct z; [discriminate|congruence]. }
    unfold make_block. destruct t; try exact ONE. rewrite init_bool in I. destruct (each_ends d vs int_op d0 d1 (fit_bool o vs F) I K) as (r & -> & R). cbn [bind]. destruct r as [ts|].
    - eexists. split; [reflexivity|]. specialize (R ts eq_refl). split; [|intros _; split; discriminate]. intros _. cbn [operands]. split.
      + destruct F as [WF _]. cbn [well_formed] in WF. apply andb_true_iff in WF. destruct WF as [WF _]. destruct vs; [discriminate WF|discriminate].
      + intros _. unfold operation_terms. cbn [is_or terms negated_terms]. split; [|exact R]. destruct o; [exact R|rewrite map_length; exact R].
    - eexists. split; [reflexivity|]. split; [intro X; cbn in X; congruence|intro X; cbn in X; congruence].
  Qed.
  Lemma decompose_tests_end d tests : Forall (ready d) tests -> forall p, exists l, decompose_tests H d tests p = Ok l /\ Forall shape l /\ Forall full l /\ (l <> [] -> length l = length tests).
  Proof.
    induction 1 as [|t tests T F IH]; intro p; cbn [decompose_tests]; [exists []; split; [reflexivity|]; split; [constructor|]; split; [constructor|reflexivity]|].
    destruct (make_ends d t p T) as (b & -> & SB & FB). cbn [bind]. destruct (condition b) as [z|]; [|exists []; split; [reflexivity|]; split; [constructor|]; split; [constructor|congruence]].
    specialize (FB ltac:(discriminate)). destruct tests as [|t' tests].
    - exists [b]. split; [reflexivity|]. split; [constructor; [exact SB|constructor]|]. split; [constructor; [exact FB|constructor]|reflexivity].
    - destruct (IH (S p)) as (l & -> & S1 & F1 & L1). cbn [bind]. destruct l as [|b' l]; [exists []; split; [reflexivity|]; split; [constructor|]; split; [constructor|congruence]|].
      exists (b :: b' :: l). split; [reflexivity|]. split; [constructor; assumption|]. split; [constructor; assumption|]. intros _. specialize (L1 ltac:(discriminate)). cbn [length] in *. lia.
  Qed.
  Lemma decompose_end d tests he : Forall (ready d) tests -> exists l, decompose H d tests he = Ok l /\ Forall shape l /\ (l <> [] -> parts (length tests) l /\ length l = length tests + (if he then 1 else 0)).
  Proof.
    intro F. unfold decompose. destruct (decompose_tests_end d tests F 1) as (l & -> & S1 & F1 & L1). cbn [bind]. eexists. split; [reflexivity|]. destruct l as [|b l]; [split; [constructor|congruence]|]. specialize (L1 ltac:(discriminate)). destruct he.
    - split; [apply Forall_app; split; [exact S1|]; constructor; [intro X; cbn in X; congruence|constructor]|]. intros _. split; [|rewrite app_length, L1; reflexivity].
      exists (b :: l), [default_block (S (length tests))]. split; [reflexivity|]. split; [exact L1|]. split; [exact F1|]. right. eexists. split; reflexivity.
    - split; [exact S1|]. intros _. rewrite Nat.add_0_r. split; [rewrite <- L1; apply parts_all; exact F1|exact L1].
  Qed.
  Lemma else_shape extract d l : (forall t, runs (extract t)) -> Forall shape l -> runs (convert_else unsat extract d l) /\ forall l', convert_else unsat extract d l = Ok l' -> Forall shape l'.
  Proof.
    intros RE F. unfold convert_else. destruct d as [|[k i] [|[k' i'] [|]]]; try (split; [discriminate|intros l' E; assert (l' = l) by congruence; subst; exact F]).
    destruct (negations (removelast l)) as [ns|e] eqn:NS; [|split; [apply runs_bind; [rewrite <- NS; apply runs_negations|discriminate]|discriminate]]. cbn [bind]. cbv zeta.
    match goal with |- context [equivalent unsat ?a ?b] => destruct (equivalent unsat a b) as [[op z]|] end; [|split; [discriminate|intros l' E; assert (l' = l) by congruence; subst; exact F]].
    destruct (last_block l) as [e|x] eqn:LB; [|split; [apply runs_bind; [rewrite <- LB; apply runs_last|discriminate]|discriminate]]. cbn [bind].
    destruct (extract (k ++ [TRel op] ++ k')) as [c|x] eqn:EX; [|split; [apply runs_bind; [rewrite <- EX; apply RE|discriminate]|discriminate]]. cbn [bind]. split; [discriminate|].
    intros l' E. match type of E with Ok ?t = _ => assert (l' = t) by congruence end. subst l'. pose proof (last_split l e LB) as SP. rewrite SP in F. apply Forall_app in F. apply Forall_app. split; [exact (proj1 F)|].
    constructor; [|constructor]. intros _. cbn [operands length]. split; [discriminate|lia].
  Qed.
  Lemma simplify_ends extract d skip tests he : (forall t, runs (extract t)) -> Forall (ready d) tests ->
    exists N, forall fuel, N <= fuel -> runs (simplify_chain unsat text_length fuel extract H d skip tests he).
  Proof.
    intros RE F. unfold simplify_chain. destruct (decompose_end d tests he F) as (l0 & -> & S0 & _). cbn [bind]. destruct l0 as [|b0 l0]; [exists 0; discriminate|].
    destruct (immediate_ends unsat text_length _ S0) as [R1 R2]. destruct (immediate unsat text_length (b0 :: l0)) as [[[l made] els]|e]; [|exists 0; intros fuel _; apply runs_bind; [exact R1|discriminate]]. cbn [bind].
    specialize (R2 _ eq_refl). cbn [fst] in R2.
    assert (REST : forall r : list block * bool, runs (let '(l, changed) := r in if negb (made || changed) then Ok [] else
      do e <- last_block l; let l := if els then removelast l ++ [{| position := position e; condition := None; negated := negated e; operands := operands e; terms := terms e; negated_terms := negated_terms e; is_or := is_or e |}] else l in
      if (changed : bool) then Ok [changed_order l] else do e <- last_block l; Ok (same_order tests 1 l (match condition e with Some _ => true | None => false end) he))).
    { intros [l1 ch]. destruct (negb (made || ch)); [discriminate|]. apply runs_bind; [apply runs_last|]. intros e _. cbv zeta. destruct ch; [discriminate|]. apply runs_bind; [apply runs_last|discriminate]. }
    destruct skip; [exists 0; intros fuel _; exact (REST (l, false))|].
    destruct (last_block l) as [e|x] eqn:LB; [|exists 0; intros fuel _; apply runs_bind; [apply runs_bind; [rewrite <- LB; apply runs_last|discriminate]|discriminate]]. cbn [bind].
    assert (CV : runs (match condition e with None => convert_else unsat extract d l | Some _ => Ok l end) /\ forall l', match condition e with None => convert_else unsat extract d l | Some _ => Ok l end = Ok l' -> Forall shape l').
    { destruct (condition e); [split; [discriminate|]; intros l' E; assert (l' = l) by congruence; subst; exact R2|]. exact (else_shape extract d l RE R2). }
    destruct CV as [C1 C2]. destruct (match condition e with None => convert_else unsat extract d l | Some _ => Ok l end) as [l1|x]; [|exists 0; intros fuel _; apply runs_bind; [apply runs_bind; [exact C1|discriminate]|discriminate]]. cbn [bind].
    specialize (C2 l1 eq_refl). destruct (elif_count l1) as [n|x] eqn:EC; [|exists 0; intros fuel _; apply runs_bind; [apply runs_bind; [rewrite <- EC; apply runs_count|discriminate]|discriminate]]. cbn [bind].
    exists ((n - 1) + 1 + rounds (size l1)). intros fuel LE. apply runs_bind; [exact (proj1 (proj1 (moves_end unsat (size l1)) (n - 1) l1 n 0 els false fuel (le_n _) C2 LE))|]. intros r _. exact (REST r).
  Qed.
  Lemma rest_ends extract I he : (forall t, runs (extract t)) -> forall depth skip p tests, Forall fit tests -> length tests <= depth -> 0 < depth ->
    exists N, forall fuel, N <= fuel -> runs (check_rest unsat text_length depth fuel extract I H G skip p tests he).
  Proof.
    intros RE. induction depth as [|depth IH]; intros skip p tests F L D; [lia|]. cbn [check_rest]. destruct (Nat.ltb (length tests) 2); [exists 0; discriminate|].
    destruct (tests_end I tests F []) as (r & -> & R). cbn [bind]. destruct r as [d|k].
    - destruct (simplify_ends extract d skip tests he RE (proj1 R)) as (N & RN). exists N. intros fuel LE. apply runs_bind; [exact (RN fuel LE)|discriminate].
    - destruct (skipn k tests) as [|t rest] eqn:SK; [exists 0; discriminate|]. apply IH; [rewrite <- SK; apply skipn_forall; exact F| |].
      + rewrite <- SK, skipn_length. lia.
      + assert (X : length (skipn k tests) = S (length rest)) by (rewrite SK; reflexivity). rewrite skipn_length in X. lia.
  Qed.
  Lemma fit_foldable t : fit t -> foldable t. Proof. intros (A & B & _). split; assumption. Qed.
  Lemma elif_ends I he tests : Forall fit tests -> forall p, exists r, elif_instead_of_else I H p tests he = Ok r.
  Proof.
    induction 1 as [|t tests T F IH]; intro p; [eexists; reflexivity|]. destruct tests as [|u rest]; [eexists; reflexivity|]. inversion F as [|? ? U F']; subst.
    change (elif_instead_of_else I H p (t :: u :: rest) he) with
      (do n <- (if is_pure_expression I t && is_pure_expression I u then is_negation H t u false else Ok false);
       if (n : bool) then Ok (Some (AlwaysTrue (S p) :: unreachable_rest (S (S p)) rest he)) else elif_instead_of_else I H (S p) (u :: rest) he).
    destruct (negation_ends H TH t u false (fit_foldable t T) (fit_foldable u U)) as (b & ->). destruct (is_pure_expression I t && is_pure_expression I u); cbn [bind]; [destruct b; [eexists; reflexivity|]|]; apply IH.
  Qed.
  Theorem check_ends extract I tests he : (forall t, runs (extract t)) -> Forall fit tests ->
    exists N, forall fuel, N <= fuel -> runs (check_chain unsat text_length fuel extract I H G tests he).
  Proof.
    intros RE F. unfold check_chain. destruct (Nat.ltb (length tests) 2) eqn:L; [exists 0; discriminate|]. apply Nat.ltb_ge in L.
    destruct (elif_ends I he tests F 1) as (r & ->). cbn [bind]. destruct r; [exists 0; discriminate|]. apply rest_ends; [exact RE|exact F|lia|lia].
  Qed.

  (** ** No exceptions *)
  Lemma else_total extract ns d n l e : readable extract -> Forall (fun s => fine s = true) ns -> (forall k, List.In k (map fst d) -> named ns k) -> parts n l -> last_block l = Ok e -> condition e = None ->
    exists l' n', convert_else unsat extract d l = Ok l' /\ parts n' l' /\ n <= n' /\ n' <= S n.
  Proof.
    intros RE FN KN PT LB CE. unfold convert_else. assert (SAME : exists l' n', Ok l = Ok l' /\ parts n' l' /\ n <= n' /\ n' <= S n) by (exists l, n; split; [reflexivity|split; [exact PT|lia]]).
    destruct d as [|[k i] [|[k' i'] [|]]]; try exact SAME.
    destruct PT as (front & tail & -> & <- & F & T). destruct T as [->|(e1 & -> & C)].
    { exfalso. rewrite app_nil_r in LB. pose proof (last_split _ _ LB) as SP. rewrite SP in F. apply Forall_app in F. destruct F as [_ F]. inversion F as [|? ? [K _] _]; subst. congruence. }
    rewrite removelast_last. cbv zeta. destruct (full_negations front F) as (g & ->). cbn [bind].
    match goal with |- context [equivalent unsat ?a ?b] => destruct (equivalent unsat a b) as [[op z]|] end; [|exact SAME]. rewrite LB. cbn [bind].
    destruct (KN k (or_introl eq_refl)) as (a & IA & <- & _). destruct (KN k' (or_intror (or_introl eq_refl))) as (b & IB & <- & _). rewrite Forall_forall in FN.
    destruct (RE a b op (FN a IA) (FN b IB)) as (c & ->). cbn [bind]. eexists. exists (S (length front)). split; [reflexivity|]. split; [|lia].
    match goal with |- parts _ (_ ++ [?x]) => exists (front ++ [x]), (@nil block) end. rewrite app_nil_r. split; [reflexivity|]. split; [rewrite app_length; cbn [length]; lia|]. split; [|left; reflexivity]. apply Forall_app. split; [exact F|]. constructor; [split; discriminate|constructor].
  Qed.
  Lemma simplify_three extract d skip tests (he : bool) : readable extract -> Forall (fun t => fine t = true) tests -> (forall k, List.In k (map fst d) -> named (flat_map numbers tests) k) -> Forall (ready d) tests -> tests <> [] ->
    (skip = false -> length tests + (if he then 1 else 0) <= 3) -> forall fuel, runs (simplify_chain unsat text_length fuel extract H d skip tests he) -> exists ms, simplify_chain unsat text_length fuel extract H d skip tests he = Ok ms.
  Proof.
    intros RE FN KN F TN L fuel R. unfold simplify_chain in *. destruct (decompose_end d tests he F) as (l0 & D & S0 & K). rewrite D in *. cbn [bind] in *. destruct l0 as [|b0 l0]; [eexists; reflexivity|].
    destruct (K ltac:(discriminate)) as [P0 L0]. assert (T0 : 0 < length tests) by (destruct tests; [congruence|cbn [length]; lia]).
    destruct (immediate_total unsat text_length (length tests) (b0 :: l0) P0 T0 S0) as (l & made & els & n & IM & P1 & N1 & N2). rewrite IM in *. cbn [bind] in *.
    assert (REST : forall (r : list block * bool) m, parts m (fst r) -> 0 < m -> exists ms, (let '(l, changed) := r in if negb (made || changed) then Ok [] else
      do e <- last_block l; let l := if els then removelast l ++ [{| position := position e; condition := None; negated := negated e; operands := operands e; terms := terms e; negated_terms := negated_terms e; is_or := is_or e |}] else l in
      if (changed : bool) then Ok [changed_order l] else do e <- last_block l; Ok (same_order tests 1 l (match condition e with Some _ => true | None => false end) he)) = Ok ms).
    { intros [l1 ch] m PM M0. cbn [fst] in PM. destruct (negb (made || ch)); [eexists; reflexivity|]. destruct (last_parts m l1 PM (parts_some m l1 PM M0)) as (e & LB & _). rewrite LB. cbn [bind]. cbv zeta. destruct ch; [eexists; reflexivity|].
      destruct els; [rewrite last_block_app; eexists; reflexivity|rewrite LB; eexists; reflexivity]. }
    destruct skip; [exact (REST (l, false) n P1 N1)|]. specialize (L eq_refl).
    destruct (last_parts n l P1 (parts_some n l P1 N1)) as (e & LB & EL). rewrite LB in *. cbn [bind] in *.
    assert (CV : exists l1 n1, match condition e with None => convert_else unsat extract d l | Some _ => Ok l end = Ok l1 /\ parts n1 l1 /\ n <= n1 /\ n1 <= 3).
    { destruct (condition e) eqn:CE; [exists l, n; split; [reflexivity|]; split; [exact P1|]; destruct he; lia|].
      destruct (else_total extract (flat_map numbers tests) d n l e RE) as (l' & n' & E & Q1 & Q2 & Q3); try assumption.
      - rewrite Forall_forall in *. intros s X. apply in_flat_map in X. destruct X as (t & T & X). pose proof (fine_numbers t (FN t T)) as Z. rewrite Forall_forall in Z. exact (Z s X).
      - exists l', n'. split; [exact E|]. split; [exact Q1|]. split; [exact Q2|]. destruct he; [lia|].
        (* without else, the last block can only lose its condition when it is not the last test *)
        assert (NL : S n <= length tests); [|lia]. destruct (EL eq_refl) as [_ LEN]. rewrite LEN.
        assert (LL : length l <= length (b0 :: l0)); [|lia].
        clear -IM. unfold immediate in IM. destruct (at_index (b0 :: l0) 0) as [bb|]; [|discriminate]. cbn [bind] in IM. destruct (need (negated bb)) as [g|]; [|discriminate]. cbn [bind] in IM.
        destruct (elif_count (b0 :: l0)) as [c|]; [|discriminate]. cbn [bind] in IM.
        assert (LOOP : forall fuel l i n before made h r, immediate_loop unsat text_length fuel l i n before made h = Ok r -> length (fst (fst r)) <= length l).
        { clear. induction fuel as [|fuel IH]; intros l i n before made h r E; [discriminate|]. cbn [immediate_loop] in E. destruct (Nat.ltb i n); [|assert (r = (l, made, h)) by congruence; subst; apply le_n].
          destruct (at_index l i) as [b|] eqn:GB; [|discriminate]. cbn [bind] in E. destruct (under_assumption unsat b before) as [[al rm]|]; [|discriminate]. cbn [bind fst snd] in E.
          match type of E with (bind ?t _) = _ => destruct t as [[[l1 del] h1]|] eqn:ST; [|discriminate] end. cbn [bind] in E.
          assert (L1 : length l1 <= length l).
          { destruct (found (al, rm)); [|assert (l1 = l) by congruence; subst; apply le_n]. destruct (kept_test text_length b al); [assert (l1 = firstn (S i) l) by congruence; subst; rewrite firstn_length; lia|].
            destruct (simplify_at l i al rm) as [[l2 d2]|] eqn:SA; [|discriminate]. cbn [bind] in ST. assert (l1 = l2) by congruence. subst l2. destruct (at_index_split l i b GB) as [SP LN].
            assert (LE : length l = i + S (length (skipn (S i) l))) by (rewrite SP at 1; rewrite app_length, LN; reflexivity). unfold simplify_at in SA. rewrite GB in SA. cbn [bind] in SA. destruct al as [[]|].
            - assert (l1 = firstn i l ++ [default_block (position b)]) by congruence. subst. rewrite app_length, LN. cbn [length]. lia.
            - assert (l1 = firstn i l ++ skipn (S i) l) by congruence. subst. rewrite app_length, LN. lia.
            - destruct rm as [|r0 rm]; [assert (l1 = l) by congruence; subst; apply le_n|]. assert (l1 = replace l i (remove_operands b (r0 :: rm))) by congruence. subst. rewrite (replace_at l i b _ GB), app_length, LN. cbn [length]. lia. }
          destruct (nth_error l1 i) as [b1|]; [|assert (r = (l1, made || found (al, rm), h1)) by congruence; subst; exact L1].
          destruct (condition b1); [|assert (r = (l1, made || found (al, rm), h1)) by congruence; subst; exact L1].
          match type of E with (bind ?t _) = _ => destruct t as [n1|]; [|discriminate] end. cbn [bind] in E. destruct del; [specialize (IH _ _ _ _ _ _ _ E); lia|].
          destruct (need (negated b1)) as [g|]; [|discriminate]. cbn [bind] in E. specialize (IH _ _ _ _ _ _ _ E). lia. }
        destruct (immediate_loop unsat text_length (S (length (b0 :: l0))) (b0 :: l0) 1 c g false false) as [[[lx mx] hx]|] eqn:IL; [|discriminate]. cbn [bind] in IM.
        destruct (last_block lx) as [ex|]; [|discriminate]. cbn [bind] in IM. assert (lx = l) by (destruct (condition ex); congruence). subst lx. exact (LOOP _ _ _ _ _ _ _ _ IL). }
    destruct CV as (l1 & n1 & CV & P2 & N3 & N4). rewrite CV in *. cbn [bind] in *. rewrite (parts_count n1 l1 P2 (parts_some n1 l1 P2 ltac:(lia))) in *. cbn [bind] in *.
    assert (RU : runs (move_up unsat fuel l1 n1 0 (n1 - 1) els false)) by (intro X; apply R; rewrite X; reflexivity).
    destruct (up_total unsat fuel (n1 - 1) l1 n1 els false P2 ltac:(lia) N4 ltac:(lia) RU) as (l2 & ch & n2 & MU & P3 & N5). rewrite MU. cbn [bind]. exact (REST (l2, ch) n2 P3 N5).
  Qed.
  Lemma rest_three extract I (he : bool) : readable extract -> forall depth skip p tests, Forall fit tests -> Forall (fun t => fine t = true) tests -> (skip = false -> length tests + (if he then 1 else 0) <= 3) -> forall fuel,
    runs (check_rest unsat text_length depth fuel extract I H G skip p tests he) -> exists r, check_rest unsat text_length depth fuel extract I H G skip p tests he = Ok r.
  Proof.
    intro RE. induction depth as [|depth IH]; intros skip p tests F FN L fuel R; [exfalso; apply R; reflexivity|]. cbn [check_rest] in *. destruct (Nat.ltb (length tests) 2) eqn:LT; [eexists; reflexivity|]. apply Nat.ltb_ge in LT.
    destruct (tests_end I tests F []) as (r & IT & K). rewrite IT in *. cbn [bind] in *. destruct r as [d|k].
    - assert (RS : runs (simplify_chain unsat text_length fuel extract H d skip tests he)) by (intro X; apply R; rewrite X; reflexivity).
      destruct (simplify_three extract d skip tests he RE FN) with (fuel := fuel) as (ms & ->); [|exact (proj1 K)|destruct tests; [cbn [length] in LT; lia|discriminate]|exact L|exact RS|eexists; reflexivity].
      intros k0 X. destruct (tests_named H G true I tests [] d IT eq_refl) as [AD _]. destruct (AD k0 X) as [[]|N]. exact N.
    - destruct (skipn k tests) as [|t rest] eqn:SK; [eexists; reflexivity|]. rewrite <- SK in *. apply IH; [apply skipn_forall; exact F|apply skipn_forall; exact FN|discriminate|exact R].
  Qed.
  Theorem check_three extract I tests (he : bool) : (forall t, runs (extract t)) -> readable extract -> Forall fit tests -> Forall (fun t => fine t = true) tests -> length tests + (if he then 1 else 0) <= 3 ->
    exists N, forall fuel, N <= fuel -> exists r, check_chain unsat text_length fuel extract I H G tests he = Ok r.
  Proof.
    intros RR RE F FN L. destruct (check_ends extract I tests he RR F) as (N & RN). exists N. intros fuel LE. specialize (RN fuel LE). unfold check_chain in *. destruct (Nat.ltb (length tests) 2); [eexists; reflexivity|].
    destruct (elif_ends I he tests F 1) as (r & EE). rewrite EE in *. cbn [bind] in *. destruct r; [eexists; reflexivity|]. exact (rest_three extract I he RE _ false 0 tests F FN (fun _ => L) fuel RN).
  Qed.
End Check.
