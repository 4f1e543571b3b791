(** Proofs about the simplification of chains: for fixed values of the variables, every step keeps the branch that is taken. *)
From Coq Require Import String List Bool Arith NArith ZArith QArith Lia Permutation.
From Verif Require Import Base PyModel PySpec PyProofs IfModel IfSpec IfProofs FoldModel FoldSpec FoldProofs TypeModel LocalModel LocalSpec LocalProofs MergeSpec MergeProofs SolverModel SolverSpec SolverProofs RedundantProofs ChainModel ChainSpec.
Import ListNotations.
Local Open Scope string_scope.
Local Open Scope list_scope.
Local Open Scope nat_scope.

(** ** Lists *)
Definition except {A} (i : nat) (l : list A) (removed : list nat) : list A :=
  map snd (filter (fun p => negb (existsb (Nat.eqb (fst p)) removed)) (combine (seq i (length l)) l)).
Lemma except_cons {A} i (x : A) l r : except i (x :: l) r = if existsb (Nat.eqb i) r then except (S i) l r else x :: except (S i) l r.
Proof. unfold except. cbn [length seq combine filter fst]. destruct (existsb (Nat.eqb i) r); reflexivity. Qed.
Lemma except_two {A B} (R : A -> B -> Prop) l l' : Forall2 R l l' -> forall i r, Forall2 R (except i l r) (except i l' r).
Proof.
  induction 1 as [|x y l l' X F IH]; intros i r; [constructor|]. rewrite !except_cons. destruct (existsb (Nat.eqb i) r); [apply IH|constructor; [exact X|apply IH]].
Qed.
Lemma except_forall {A} (Q : A -> Prop) l : Forall Q l -> forall i r, Forall Q (except i l r).
Proof.
  induction 1 as [|x l X F IH]; intros i r; [constructor|]. rewrite except_cons. destruct (existsb (Nat.eqb i) r); [apply IH|constructor; [exact X|apply IH]].
Qed.
Lemma except_length {A B} (l : list A) : forall (l' : list B) i r, length l = length l' -> length (except i l r) = length (except i l' r).
Proof.
  induction l as [|x l IH]; intros [|y l'] i r L; try discriminate; [reflexivity|]. injection L as L. rewrite !except_cons.
  destruct (existsb (Nat.eqb i) r); [apply IH; exact L|cbn [length]; rewrite (IH l' (S i) r L); reflexivity].
Qed.
Lemma except_map {A B} (f : A -> B) l : forall i r, except i (map f l) r = map f (except i l r).
Proof.
  induction l as [|x l IH]; intros i r; [reflexivity|]. cbn [map]. rewrite !except_cons. destruct (existsb (Nat.eqb i) r); [apply IH|cbn [map]; rewrite IH; reflexivity].
Qed.
Definition numbers_of {A} (f : A -> bool) (k : nat) (zs : list A) : list nat := map fst (filter (fun p => f (snd p)) (combine (seq k (length zs)) zs)).
Lemma numbers_of_cons {A} (f : A -> bool) k z zs : numbers_of f k (z :: zs) = (if f z then [k] else []) ++ numbers_of f (S k) zs.
Proof. unfold numbers_of. cbn [length seq combine filter snd]. destruct (f z); reflexivity. Qed.
Lemma numbers_of_from {A} (f : A -> bool) zs : forall k i, List.In i (numbers_of f k zs) -> k <= i.
Proof.
  induction zs as [|z zs IH]; intros k i; [intros []|]. rewrite numbers_of_cons. intro I. apply in_app_or in I. destruct I as [I|I].
  - destruct (f z); [destruct I as [<-|[]]; lia|destruct I].
  - specialize (IH _ _ I). lia.
Qed.
Definition left_over {A B} (f : B -> bool) (l : list A) (zs : list B) : list A := map fst (filter (fun p => negb (f (snd p))) (combine l zs)).
Lemma left_over_cons {A B} (f : B -> bool) (x : A) l z zs : left_over f (x :: l) (z :: zs) = if f z then left_over f l zs else x :: left_over f l zs.
Proof. unfold left_over. cbn [combine filter snd]. destruct (f z); reflexivity. Qed.
Lemma except_skip {A} (l : list A) : forall k i r, i < k -> except k l (i :: r) = except k l r.
Proof.
  induction l as [|x l IH]; intros k i r L; [reflexivity|]. rewrite !except_cons. cbn [existsb]. replace (Nat.eqb k i) with false by (symmetry; apply Nat.eqb_neq; lia).
  cbn [orb]. rewrite (IH (S k) i r) by lia. reflexivity.
Qed.
Lemma except_left_over {A B} (f : B -> bool) zs : forall k (l : list A), length l = length zs -> except k l (numbers_of f k zs) = left_over f l zs.
Proof.
  induction zs as [|z zs IH]; intros k [|x l] L; try discriminate; [reflexivity|]. injection L as L. rewrite numbers_of_cons, except_cons, left_over_cons, existsb_app.
  replace (existsb (Nat.eqb k) (numbers_of f (S k) zs)) with false.
  - destruct (f z); cbn [existsb app orb].
    + rewrite Nat.eqb_refl. cbn [orb]. rewrite except_skip by lia. apply IH. exact L.
    + rewrite IH by exact L. reflexivity.
  - symmetry. destruct (existsb (Nat.eqb k) (numbers_of f (S k) zs)) eqn:X; [|reflexivity]. apply existsb_exists in X. destruct X as (i & I & K).
    apply Nat.eqb_eq in K. apply numbers_of_from in I. lia.
Qed.
Lemma left_over_none {A B} (f : B -> bool) zs : forall k (l : list A), length l = length zs -> left_over f l zs = [] -> length (numbers_of f k zs) = length zs.
Proof.
  induction zs as [|z zs IH]; intros k [|x l] L N; try discriminate; [reflexivity|]. injection L as L. rewrite left_over_cons in N. rewrite numbers_of_cons.
  destruct (f z); [|discriminate]. cbn [app length]. rewrite (IH (S k) l L N). reflexivity.
Qed.
Lemma length_two {A B} (R : A -> B -> Prop) l l' : Forall2 R l l' -> length l = length l'.
Proof. induction 1; cbn; congruence. Qed.
Lemma at_index_split l i b : at_index l i = Ok b -> l = firstn i l ++ b :: skipn (S i) l /\ length (firstn i l) = i.
Proof.
  unfold at_index, get. destruct (nth_error l i) as [x|] eqn:N; [|discriminate]. intro E. assert (x = b) by congruence. subst x. clear E.
  revert i N. induction l as [|y l IH]; intros [|i] N; try discriminate.
  - cbn in N |- *. split; [congruence|reflexivity].
  - cbn [nth_error] in N. destruct (IH i N) as [E L]. cbn [firstn skipn app length]. rewrite L. split; [f_equal; exact E|reflexivity].
Qed.
Lemma replace_split pre b post b' : replace (pre ++ b :: post) (length pre) b' = pre ++ b' :: post.
Proof. induction pre as [|x pre IH]; [reflexivity|]. cbn [app length replace]. rewrite IH. reflexivity. Qed.
Lemma last_split l b : last_block l = Ok b -> l = removelast l ++ [b].
Proof.
  unfold last_block. destruct (rev l) as [|x r] eqn:E; [discriminate|]. intro X. assert (x = b) by congruence. subst x. clear X.
  apply (f_equal (@rev block)) in E. rewrite rev_involutive in E. cbn [rev] in E. rewrite E. rewrite removelast_last. reflexivity.
Qed.
Lemma last_block_app l b : last_block (l ++ [b]) = Ok b.
Proof. unfold last_block. rewrite rev_app_distr. reflexivity. Qed.
Lemma nth_split l i (b : block) : nth_error l i = Some b -> at_index l i = Ok b.
Proof. unfold at_index, get. intros ->. reflexivity. Qed.

(** ** Conditions and their values *)
Section Values.
  Variable unsat : zexpr -> bool.
  Variable text_length : text -> nat.
  Hypothesis SOUND : sound unsat.
  Context {W : Type}.
  Variable P : python W.
  Variable w : W.
  Variable E : environment.

  Definition ev (z : zexpr) (b : bool) : Prop := zeval E z = Some (ZB b).
  Definition holds (e : expr) (b : bool) : Prop := exists v, gives P w e v /\ truth P v w = (w, Ok b).
  Lemma holds_test e b : holds e b -> test P e w = (w, Ok b).
  Proof. intros (v & GV & TV). unfold test, andthen. unfold gives in GV. rewrite GV. exact TV. Qed.
  Definition joined (o : bool) (bs : list bool) : bool := connect (if o then Or else And) bs.

  Inductive okb (b : block) : Prop :=
  | okb_none : condition b = None -> negated b = None -> okb b
  | okb_some z n bs : condition b = Some z -> negated b = Some n -> ev z (joined (is_or b) bs) -> ev n (negb (joined (is_or b) bs)) ->
      operands b <> [] -> Forall (fun e => fine e = true) (operands b) -> Forall2 holds (operands b) bs ->
      (1 < length (operands b) -> Forall2 ev (terms b) bs /\ (is_or b = true -> Forall2 ev (negated_terms b) (map negb bs))) -> okb b.
  Definition tk (b : block) : bool := match condition b with None => true | Some z => match zeval E z with Some (ZB t) => t | _ => false end end.
  Definition none_taken (l : list block) : bool := forallb (fun b => negb (tk b)) l.
  Definition sel (l : list block) : option nat := option_map position (find tk l).

  Lemma ev_and l bs : Forall2 ev l bs -> ev (ZAnd l) (forallb (fun b => b) bs).
  Proof. intro F. unfold ev. cbn [zeval]. apply ztruths_eval. exact F. Qed.
  Lemma ev_and2 a b x y : ev a x -> ev b y -> ev (ZAnd [a; b]) (x && y).
  Proof. intros A B. assert (X : ev (ZAnd [a; b]) (forallb (fun b => b) [x; y])) by (apply ev_and; constructor; [exact A|constructor; [exact B|constructor]]). cbn [forallb] in X. rewrite andb_true_r in X. exact X. Qed.
  Lemma ev_not a x : ev a x -> ev (ZNot a) (negb x).
  Proof. intro A. unfold ev in *. cbn [zeval]. rewrite A. reflexivity. Qed.
  Lemma ev_bool o l bs : Forall2 ev l bs -> ev (bool_condition l o) (joined o bs).
  Proof. intro F. unfold ev, bool_condition, joined. destruct o; cbn [zeval connect]; apply ztruths_eval; exact F. Qed.
  Lemma implied a c x y : implies unsat a c = true -> ev a x -> ev c y -> x = true -> y = true.
  Proof.
    unfold implies. intros U A C X. destruct y; [reflexivity|]. exfalso. apply (SOUND _ U E).
    pose proof (ev_and2 a (ZNot c) x (negb false) A (ev_not c false C)) as Y. rewrite X in Y. exact Y.
  Qed.
  Lemma okb_tk b z : okb b -> condition b = Some z -> ev z (tk b) /\ exists n, negated b = Some n /\ ev n (negb (tk b)).
  Proof.
    intros [N N'|z' n bs C G EZ EN _ _ _ _] K; [congruence|]. assert (z' = z) by congruence. subst z'. assert (T : tk b = joined (is_or b) bs) by (unfold tk; rewrite C; unfold ev in EZ; rewrite EZ; reflexivity). rewrite T.
    split; [exact EZ|]. exists n. split; [exact G|exact EN].
  Qed.
  Lemma need_ok A (o : option A) x : match o with Some z => Ok z | None => Raise (OtherError "Z3Exception") end = Ok x -> o = Some x.
  Proof. destruct o; congruence. Qed.
  Lemma need_some o z : need o = Ok z -> o = Some z.
  Proof. apply need_ok. Qed.
  Lemma okb_negated b n : okb b -> negated b = Some n -> ev n (negb (tk b)).
  Proof.
    intros O G. destruct (condition b) as [z|] eqn:Z; [|destruct O; congruence].
    destruct (okb_tk b z O Z) as (_ & n' & N & EN). assert (n' = n) by congruence. subst n'. exact EN.
  Qed.
  Lemma negations_cons b l : negations (b :: l) = do n <- need (negated b); do ns <- negations l; Ok (n :: ns).
  Proof. reflexivity. Qed.
  Lemma negations_ok l ns : Forall okb l -> negations l = Ok ns -> ev (ZAnd ns) (none_taken l).
  Proof.
    intros F N. assert (X : Forall2 ev ns (map (fun b => negb (tk b)) l)).
    { revert ns N. induction F as [|b l O F IH]; intros ns N.
      - assert (ns = []) by (cbn in N; congruence). subst ns. constructor.
      - rewrite negations_cons in N. destruct (need (negated b)) as [n|] eqn:NB; [|discriminate]. cbn [bind] in N.
        destruct (negations l) as [ns'|]; [|discriminate]. cbn [bind] in N. assert (ns = n :: ns') by congruence. subst ns.
        cbn [map]. constructor; [|apply IH; reflexivity]. apply need_some in NB. exact (okb_negated b n O NB). }
    pose proof (ev_and ns _ X) as Y. rewrite forallb_map in Y. exact Y.
  Qed.

  (** ** Which block is taken *)
  Lemma none_app l l' : none_taken (l ++ l') = none_taken l && none_taken l'.
  Proof. apply forallb_app. Qed.
  Lemma sel_app pre l l' : (none_taken pre = true -> sel l = sel l') -> sel (pre ++ l) = sel (pre ++ l').
  Proof.
    unfold sel. induction pre as [|b pre IH]; intro X; [apply X; reflexivity|]. cbn [app find]. destruct (tk b) eqn:T; [reflexivity|].
    apply IH. intro N. apply X. unfold none_taken in *. cbn [forallb]. rewrite T. exact N.
  Qed.
  Lemma sel_skip pre l : none_taken pre = true -> sel (pre ++ l) = sel l.
  Proof.
    unfold sel. induction pre as [|b pre IH]; intro X; [reflexivity|]. unfold none_taken in X. cbn [forallb] in X. apply andb_true_iff in X. destruct X as [T X].
    cbn [app find]. destruct (tk b); [discriminate|]. apply IH. exact X.
  Qed.
  Lemma sel_here b l : tk b = true -> sel (b :: l) = Some (position b).
  Proof. unfold sel. cbn [find]. intros ->. reflexivity. Qed.
  Lemma sel_next b l : tk b = false -> sel (b :: l) = sel l.
  Proof. unfold sel. cbn [find]. intros ->. reflexivity. Qed.

  Lemma joined_left o zs bs : (forall f : zexpr -> bool, Forall2 (fun z b => f z = true -> b = negb o) zs bs -> joined o (left_over f bs zs) = joined o bs).
  Proof.
    intros f F. induction F as [|z b zs bs X F IH]; [reflexivity|]. rewrite left_over_cons. destruct (f z) eqn:K.
    - rewrite IH. rewrite (X eq_refl). unfold joined. destruct o; reflexivity.
    - unfold joined in *. destruct o; cbn [connect existsb forallb]; cbn [connect] in IH; rewrite IH; reflexivity.
  Qed.
  Lemma under_ok b a x al rm : okb b -> ev a x -> under_assumption unsat b a = Ok (al, rm) ->
    condition b <> None /\ match al with
    | Some v => x = true -> tk b = v
    | None => rm <> [] -> okb (remove_operands b rm) /\ condition (remove_operands b rm) <> None /\ (x = true -> tk (remove_operands b rm) = tk b) /\ length (operands (remove_operands b rm)) < length (operands b)
    end.
  Proof.
    intros O A U. unfold under_assumption in U. destruct (condition b) as [c|] eqn:C; [|discriminate]. cbn [need bind] in U.
    split; [discriminate|]. destruct (okb_tk b c O C) as (EC & n & GN & EN). destruct (implies unsat a c) eqn:I1.
    - assert (al = Some true) by congruence. subst al. intro X. exact (implied a c x (tk b) I1 A EC X).
    - rewrite GN in U. cbn [need bind] in U. destruct (implies unsat a n) eqn:I2.
      + assert (al = Some false) by congruence. subst al. intro X. pose proof (implied a n x _ I2 A EN X) as Y. destruct (tk b); [discriminate|reflexivity].
      + destruct (Nat.ltb 1 (length (operands b))) eqn:L1; [|assert (al = None /\ rm = []) as [-> ->] by (split; congruence); congruence].
        apply Nat.ltb_lt in L1. destruct O as [N N'|z' n' bs C' G' EZ EN' NE FI HO TM]; [congruence|]. destruct (TM L1) as [T1 T2].
        set (r := implied_indices unsat a (operation_terms b)) in *.
        assert (RN : r = numbers_of (implies unsat a) 0 (operation_terms b)) by reflexivity.
        assert (LO : length (operation_terms b) = length (operands b)).
        { unfold operation_terms. destruct (is_or b) eqn:OR.
          - rewrite (length_two _ _ _ (T2 eq_refl)), map_length. symmetry. exact (length_two _ _ _ HO).
          - rewrite (length_two _ _ _ T1). symmetry. exact (length_two _ _ _ HO). }
        assert (LB : length bs = length (operation_terms b)) by (rewrite LO; symmetry; exact (length_two _ _ _ HO)).
        assert (VAL : x = true -> Forall2 (fun z t => implies unsat a z = true -> t = negb (is_or b)) (operation_terms b) bs).
        { intro X. unfold operation_terms. destruct (is_or b) eqn:OR.
          - specialize (T2 eq_refl). clear -T2 X A SOUND. revert T2. generalize (negated_terms b). intro l. remember (map negb bs) as cs eqn:CS. intro F. revert bs CS.
            induction F as [|z t l cs Z F IH]; intros [|u bs] CS; try discriminate; [constructor|]. cbn [map] in CS. assert (t = negb u /\ cs = map negb bs) as [-> ->] by (split; congruence).
            constructor; [|apply IH; reflexivity]. intro IM. pose proof (implied a z x (negb u) IM A Z X) as Y. destruct u; [discriminate|reflexivity].
          - clear -T1 X A SOUND. induction T1 as [|z t l bs Z F IH]; [constructor|]. constructor; [|exact IH]. intro IM. exact (implied a z x t IM A Z X). }
        destruct (Nat.eqb (length r) (length (operands b))) eqn:LE.
        * apply Nat.eqb_eq in LE. assert (al = Some (negb (is_or b))) by congruence. subst al. intro X. specialize (VAL X).
          assert (ALL : forall z, List.In z (operation_terms b) -> implies unsat a z = true).
          { intros z I. rewrite RN, <- LO in LE. clear -LE I. revert LE I. generalize (operation_terms b) as l. generalize 0 as k. intros k l. revert k.
            assert (LL : forall l k, length (numbers_of (implies unsat a) k l) <= length l).
            { clear. induction l as [|y l IH]; intro k; [apply le_n|]. rewrite numbers_of_cons, app_length. specialize (IH (S k)). destruct (implies unsat a y); cbn [length]; lia. }
            induction l as [|y l IH]; intros k LE I; [destruct I|]. rewrite numbers_of_cons, app_length in LE. specialize (LL l (S k)).
            destruct (implies unsat a y) eqn:Y; cbn [length] in LE; [|lia]. destruct I as [<-|I]; [exact Y|]. apply (IH (S k)); [lia|exact I]. }
          assert (TB : tk b = joined (is_or b) bs) by (unfold tk; rewrite C'; unfold ev in EZ; rewrite EZ; reflexivity). rewrite TB.
          assert (BB : Forall (fun t => t = negb (is_or b)) bs).
          { clear -VAL ALL. revert ALL VAL. generalize (operation_terms b). intros l ALL F. induction F as [|z t l bs Z F IH]; [constructor|].
            constructor; [apply Z, ALL; left; reflexivity|apply IH; intros y I; apply ALL; right; exact I]. }
          assert (NB : bs <> []) by (intro K; rewrite K in LB; cbn in LB; lia).
          clear -BB NB. unfold joined. destruct (is_or b); cbn [negb connect] in *.
          -- induction BB as [|t bs T B IH]; [congruence|]. cbn [existsb]. rewrite T. destruct bs as [|u bs]; [reflexivity|]. apply IH. discriminate.
          -- clear NB. induction BB as [|t bs T B IH]; [reflexivity|]. cbn [forallb]. rewrite T. exact IH.
        * apply Nat.eqb_neq in LE. assert (al = None /\ rm = r) as [-> ->] by (split; congruence). intro RE.
          change (without (terms b) r) with (except 0 (terms b) r) in *.
          assert (TW : Forall2 ev (except 0 (terms b) r) (except 0 bs r)) by (apply except_two; exact T1).
          assert (EC2 : ev (bool_condition (except 0 (terms b) r) (is_or b)) (joined (is_or b) (except 0 bs r))) by (apply ev_bool; exact TW).
          assert (BL : except 0 bs r = left_over (implies unsat a) bs (operation_terms b)) by (rewrite RN; apply except_left_over; exact LB).
          assert (OL : except 0 (operands b) r = left_over (implies unsat a) (operands b) (operation_terms b)) by (rewrite RN; apply except_left_over; symmetry; exact LO).
          split; [|split; [discriminate|split]].
          -- apply (okb_some _ (bool_condition (except 0 (terms b) r) (is_or b)) (ZNot (bool_condition (except 0 (terms b) r) (is_or b))) (except 0 bs r)); cbn [condition negated operands is_or terms negated_terms remove_operands].
             ++ reflexivity.
             ++ reflexivity.
             ++ exact EC2.
             ++ apply ev_not. exact EC2.
             ++ change (except 0 (operands b) r <> []). rewrite OL. intro K. apply LE. rewrite RN, <- LO. apply (left_over_none _ _ 0 (operands b)); [symmetry; exact LO|exact K].
             ++ apply except_forall. exact FI.
             ++ apply except_two. exact HO.
             ++ intros _. split; [exact TW|]. intro OR. change (without (negated_terms b) r) with (except 0 (negated_terms b) r). rewrite <- except_map. apply except_two. exact (T2 OR).
          -- intro X. unfold tk at 1. cbn [condition remove_operands]. change (without (terms b) r) with (except 0 (terms b) r). unfold ev in EC2. rewrite EC2.
             unfold tk. rewrite C'. unfold ev in EZ. rewrite EZ. rewrite BL. apply joined_left. exact (VAL X).
          -- cbn [operands remove_operands]. change (without (operands b) r) with (except 0 (operands b) r). rewrite OL.
             clear -RE RN LO. rewrite RN in RE. clear RN r. revert RE. generalize 0 as k. revert LO. generalize (operation_terms b) as zs. generalize (operands b) as l.
             intros l zs. revert l. assert (LL : forall (zs : list zexpr) (l : list expr), length (left_over (implies unsat a) l zs) <= length l).
             { clear. induction zs as [|z zs IH]; intros [|y l]; [apply le_n|apply Nat.le_0_l|apply le_n|]. rewrite left_over_cons.
               specialize (IH l). destruct (implies unsat a z); cbn [length]; lia. }
             induction zs as [|z zs IH]; intros [|y l] L k RE; try discriminate; [destruct RE; reflexivity|]. injection L as L. rewrite left_over_cons. rewrite numbers_of_cons in RE.
             specialize (LL zs l). destruct (implies unsat a z); cbn [length]; [lia|]. cbn [app] in RE. specialize (IH l L (S k) RE). lia.
  Qed.

  (** ** Simplifying one block *)
  (** A list that leads to the same branch, without branches that were not there. *)
  Definition leads (l l' : list block) : Prop :=
    Forall okb l' /\ sel l' = sel l /\ (NoDup (map position l) -> NoDup (map position l')) /\ incl (map position l') (map position l).
  Lemma leads_refl l : Forall okb l -> leads l l.
  Proof. intro F. split; [exact F|]. split; [reflexivity|]. split; [trivial|apply incl_refl]. Qed.
  Lemma leads_trans a b c : leads a b -> leads b c -> leads a c.
  Proof.
    intros (F1 & S1 & N1 & I1) (F2 & S2 & N2 & I2). split; [exact F2|]. split; [congruence|]. split; [auto|]. exact (incl_tran I2 I1).
  Qed.
  Lemma okb_default p : okb (default_block p).
  Proof. apply okb_none; reflexivity. Qed.
  (** What simplifying a block changes. *)
  Definition settled (b : block) (al : option bool) (rm : list nat) (x : bool) : Prop :=
    match al with
    | Some v => x = true -> tk b = v
    | None => rm <> [] -> okb (remove_operands b rm) /\ (x = true -> tk (remove_operands b rm) = tk b)
    end.
  Lemma nodup_drop (A B C : list nat) : NoDup (A ++ B ++ C) -> NoDup (A ++ C).
  Proof.
    induction B as [|b B IH]; [trivial|]. intro N. apply IH. rewrite app_comm_cons, <- app_assoc in N || idtac. apply NoDup_remove_1 with (a := b). exact N.
  Qed.
  Lemma simplify_leads l i b al rm l' del : Forall okb l -> at_index l i = Ok b -> settled b al rm (none_taken (firstn i l)) ->
    simplify_at l i al rm = Ok (l', del) -> leads l l'.
  Proof.
    intros F GB S1 SA. destruct (at_index_split l i b GB) as [SP LN]. set (pre := firstn i l) in *. set (post := skipn (S i) l) in *. clearbody pre post.
    assert (FB : Forall okb pre /\ okb b /\ Forall okb post) by (rewrite SP in F; apply Forall_app in F; destruct F as [F1 F2]; inversion F2; subst; auto).
    destruct FB as (Fpre & Fb & Fpost). unfold simplify_at in SA. destruct al as [[|]|].
    - rewrite GB in SA. cbn [bind] in SA. change (firstn i l) with (firstn i l) in SA.
      assert (l' = firstn i l ++ [default_block (position b)]) by congruence. subst l'. rewrite SP. rewrite firstn_app, <- LN, Nat.sub_diag, firstn_all. cbn [firstn].
      rewrite app_nil_r. split; [apply Forall_app; split; [exact Fpre|constructor; [apply okb_default|constructor]]|]. split; [|split].
      + apply sel_app. intro N. specialize (S1 N). rewrite (sel_here b post S1). reflexivity.
      + rewrite !map_app. cbn [map position default_block]. intro N. replace (map position pre ++ [position b]) with ((map position pre ++ [position b]) ++ []) by apply app_nil_r.
        apply nodup_drop with (B := map position post). rewrite app_nil_r, <- app_assoc. exact N.
      + rewrite !map_app. cbn [map position default_block]. apply incl_app; [apply incl_appl, incl_refl|]. intros x [<-|[]]. apply in_or_app. right. left. reflexivity.
    - assert (l' = firstn i l ++ skipn (S i) l) by congruence. subst l'. clear SA.
      assert (E1 : firstn i l = pre) by (rewrite SP, firstn_app, <- LN, Nat.sub_diag, firstn_all; cbn [firstn]; apply app_nil_r).
      assert (E2 : skipn (S i) l = post).
      { rewrite SP, skipn_app, <- LN. rewrite skipn_all2 by lia. replace (S (length pre) - length pre) with 1 by lia. reflexivity. }
      rewrite E1, E2. clear E1 E2. rewrite SP. split; [apply Forall_app; split; assumption|]. split; [|split].
      + apply sel_app. intro N. rewrite (sel_next b post (S1 N)). reflexivity.
      + rewrite !map_app. cbn [map]. intro N. exact (NoDup_remove_1 _ _ _ N).
      + rewrite !map_app. cbn [map]. apply incl_app; [apply incl_appl, incl_refl|apply incl_appr, incl_tl, incl_refl].
    - destruct rm as [|k rm]; [assert (l' = l) by congruence; subst l'; apply leads_refl; exact F|].
      destruct (S1 ltac:(discriminate)) as [O T]. rewrite GB in SA. cbn [bind] in SA. assert (l' = replace l i (remove_operands b (k :: rm))) by congruence. subst l'. clear SA.
      rewrite SP, <- LN, replace_split. set (b' := remove_operands b (k :: rm)) in *. assert (PB : position b' = position b) by reflexivity. clearbody b'.
      split; [apply Forall_app; split; [exact Fpre|constructor; assumption]|]. split; [|split].
      + apply sel_app. intro N. specialize (T N). unfold sel. cbn [find]. rewrite T. destruct (tk b); [cbn [option_map]; rewrite PB; reflexivity|reflexivity].
      + rewrite !map_app. cbn [map]. rewrite PB. trivial.
      + rewrite !map_app. cbn [map]. rewrite PB. apply incl_refl.
  Qed.

  (** ** Chains in the same order *)
  (** [l] is what is left of the branches from position [p] on, whose tests have the values [ts]; [r] says whether they are reached. *)
  Inductive simp (he : bool) : bool -> nat -> list bool -> list block -> Prop :=
  | simp_end r p : (he = true -> r = false) -> simp he r p [] []
  | simp_else r p e : he = true -> condition e = None -> position e = p -> simp he r p [] [e]
  | simp_keep r p t ts b l : position b = p -> (r = true -> tk b = t) -> simp he (r && negb t) (S p) ts l -> simp he r p (t :: ts) (b :: l)
  | simp_drop r p t ts l : (r = true -> t = false) -> simp he (r && negb t) (S p) ts l -> simp he r p (t :: ts) l.
  Arguments simp_end {he}. Arguments simp_else {he}. Arguments simp_keep {he}. Arguments simp_drop {he}.
  Lemma simp_over he ts : forall p, simp he false p ts [].
  Proof. induction ts as [|t ts IH]; intro p; [apply simp_end; reflexivity|]. apply simp_drop; [discriminate|apply IH]. Qed.
  Lemma simp_from he r p ts l : simp he r p ts l -> forall b, List.In b l -> p <= position b.
  Proof.
    induction 1 as [r p X|r p e H1 H2 H3|r p t ts b l PB T S1 IH|r p t ts l T S1 IH]; intros x I.
    - destruct I.
    - destruct I as [<-|[]]. lia.
    - destruct I as [<-|I]; [lia|]. specialize (IH x I). lia.
    - specialize (IH x I). lia.
  Qed.
  Lemma simp_replace he r p ts rest rest' : rest <> [] -> forall pre, simp he r p ts (pre ++ rest) ->
    (forall r' p' ts', (r' = true -> r = true /\ none_taken pre = true) -> simp he r' p' ts' rest -> simp he r' p' ts' rest') -> simp he r p ts (pre ++ rest').
  Proof.
    intros NE pre S1. remember (pre ++ rest) as l eqn:L. revert pre L.
    induction S1 as [r p X|r p e H1 H2 H3|r p t ts b l PB T S1 IH|r p t ts l T S1 IH]; intros pre L K.
    - destruct pre; [|discriminate]. cbn [app] in *. subst rest. apply K; [split; [assumption|reflexivity]|]. apply simp_end. exact X.
    - destruct pre as [|x pre]; cbn [app] in *.
      + subst rest. apply K; [split; [assumption|reflexivity]|]. apply simp_else; assumption.
      + exfalso. apply NE. destruct pre, rest; try discriminate; reflexivity.
    - destruct pre as [|x pre]; cbn [app] in *.
      + subst rest. apply K; [split; [assumption|reflexivity]|]. apply simp_keep; assumption.
      + assert (x = b /\ l = pre ++ rest) as [-> ->] by (split; congruence). apply simp_keep; [exact PB|exact T|]. apply IH; [reflexivity|].
        intros r' p' ts' R S2. apply K; [|exact S2]. intro R1. destruct (R R1) as [R2 N]. apply andb_true_iff in R2. destruct R2 as [R2 R3].
        split; [exact R2|]. unfold none_taken. cbn [forallb]. rewrite (T R2), R3. exact N.
    - apply simp_drop; [exact T|]. apply IH; [exact L|]. intros r' p' ts' R S2. apply K; [|exact S2]. intro R1. destruct (R R1) as [R2 N].
      apply andb_true_iff in R2. destruct R2 as [R2 R3]. split; assumption.
  Qed.

  Lemma simp_at he r p ts b post rest' : simp he r p ts (b :: post) ->
    (forall r1 t ts1, (r1 = true -> r = true) -> (r1 = true -> tk b = t) -> simp he (r1 && negb t) (S (position b)) ts1 post -> simp he r1 (position b) (t :: ts1) rest') ->
    (forall r1, (r1 = true -> r = true) -> he = true -> condition b = None -> post = [] -> simp he r1 (position b) [] rest') -> simp he r p ts rest'.
  Proof.
    intros S1. remember (b :: post) as l eqn:L. induction S1 as [r p X|r p e H1 H2 H3|r p t ts b' l PB T S1 IH|r p t ts l T S1 IH]; intros K1 K2.
    - discriminate.
    - assert (e = b /\ post = []) as [-> ->] by (split; congruence). rewrite <- H3. apply K2; auto.
    - assert (b' = b /\ l = post) as [-> ->] by (split; congruence). rewrite <- PB. apply K1; [trivial|exact T|]. rewrite PB. exact S1.
    - apply simp_drop; [exact T|]. apply IH; [exact L| |].
      + intros r1 t1 ts1 R. apply K1. intro X. specialize (R X). apply andb_true_iff in R. tauto.
      + intros r1 R. apply K2. intro X. specialize (R X). apply andb_true_iff in R. tauto.
  Qed.
  (** The branch that is taken, by the values of the tests. *)
  Fixpoint first_true (he : bool) (p : nat) (ts : list bool) : option nat :=
    match ts with [] => if he then Some p else None | t :: ts => if t then Some p else first_true he (S p) ts end.
  Lemma simp_sel he r p ts l : simp he r p ts l -> r = true -> sel l = first_true he p ts.
  Proof.
    induction 1 as [r p X|r p e H1 H2 H3|r p t ts b l PB T S1 IH|r p t ts l T S1 IH]; intros ->; cbn [first_true].
    - destruct he; [discriminate X; reflexivity|reflexivity].
    - rewrite H1. unfold sel. cbn [find]. unfold tk. rewrite H2. cbn [option_map]. rewrite H3. reflexivity.
    - specialize (T eq_refl). destruct t.
      + rewrite (sel_here b l T). rewrite PB. reflexivity.
      + rewrite (sel_next b l T). apply IH. reflexivity.
    - rewrite (T eq_refl) in *. apply IH. reflexivity.
  Qed.
  Lemma simp_positions he r p ts l : simp he r p ts l -> NoDup (map position l) /\ incl (map position l) (map fst (numbered p (map (fun _ => Name "") ts) he)).
  Proof.
    induction 1 as [r p X|r p e H1 H2 H3|r p t ts b l PB T S1 IH|r p t ts l T S1 IH]; cbn [map numbered].
    - split; [constructor|intros x []].
    - rewrite H1. cbn [map fst]. rewrite H3. split; [constructor; [intros []|constructor]|apply incl_refl].
    - destruct IH as [N I]. split; [constructor; [|exact N]|].
      + intro K. apply in_map_iff in K. destruct K as (x & PX & IX). pose proof (simp_from _ _ _ _ _ S1 x IX). lia.
      + cbn [fst]. rewrite PB. intros x [<-|X]; [left; reflexivity|right; apply I; exact X].
    - destruct IH as [N I]. split; [exact N|]. apply incl_tl. exact I.
  Qed.
  Lemma sel_taken l : existsb tk l = match sel l with Some _ => true | None => false end.
  Proof. unfold sel. induction l as [|b l IH]; [reflexivity|]. cbn [existsb find]. destruct (tk b); [reflexivity|exact IH]. Qed.
  (** Simplifying the block at an index. *)
  Lemma simplify_simp he ts l i b al rm l' del : simp he true 1 ts l -> Forall okb l -> at_index l i = Ok b -> settled b al rm (none_taken (firstn i l)) ->
    condition b <> None -> simplify_at l i al rm = Ok (l', del) -> simp he true 1 ts l'.
  Proof.
    intros SM F GB S1 CB SA. destruct (at_index_split l i b GB) as [SP LN].
    unfold simplify_at in SA. destruct al as [[|]|].
    - rewrite GB in SA. cbn [bind] in SA. assert (l' = firstn i l ++ [default_block (position b)]) by congruence. subst l'. clear SA.
      rewrite SP in SM. refine (simp_replace he true 1 ts (b :: skipn (S i) l) [default_block (position b)] _ _ SM _); [discriminate|].
      intros r' p' ts' R S2. apply (simp_at _ _ _ _ _ _ _ S2).
      + intros r1 t ts1 R1 T S3. apply simp_keep; [reflexivity| |].
        * intro X. rewrite <- (T X). destruct (R (R1 X)) as [_ N]. rewrite (S1 N). reflexivity.
        * destruct r1; [|apply simp_over]. rewrite <- (T eq_refl). destruct (R (R1 eq_refl)) as [_ N]. rewrite (S1 N). apply simp_over.
      + intros. congruence.
    - assert (l' = firstn i l ++ skipn (S i) l) by congruence. subst l'. clear SA.
      rewrite SP in SM. refine (simp_replace he true 1 ts (b :: skipn (S i) l) (skipn (S i) l) _ _ SM _); [discriminate|].
      intros r' p' ts' R S2. apply (simp_at _ _ _ _ _ _ _ S2).
      + intros r1 t ts1 R1 T S3. apply simp_drop; [|exact S3]. intro X. rewrite <- (T X). destruct (R (R1 X)) as [_ N]. exact (S1 N).
      + intros. congruence.
    - destruct rm as [|k rm]; [assert (l' = l) by congruence; subst l'; exact SM|].
      destruct (S1 ltac:(discriminate)) as [O T]. rewrite GB in SA. cbn [bind] in SA. assert (l' = replace l i (remove_operands b (k :: rm))) by congruence. subst l'. clear SA.
      replace (replace l i (remove_operands b (k :: rm))) with (firstn i l ++ remove_operands b (k :: rm) :: skipn (S i) l).
      2:{ pose proof (replace_split (firstn i l) b (skipn (S i) l) (remove_operands b (k :: rm))) as RS. rewrite LN, <- SP in RS. symmetry. exact RS. }
      rewrite SP in SM. refine (simp_replace he true 1 ts (b :: skipn (S i) l) _ _ _ SM _); [discriminate|].
      intros r' p' ts' R S2. apply (simp_at _ _ _ _ _ _ _ S2).
      + intros r1 t ts1 R1 T1 S3. apply simp_keep; [reflexivity| |exact S3]. intro X. rewrite <- (T1 X). destruct (R (R1 X)) as [_ N]. exact (T N).
      + intros. congruence.
  Qed.
  Lemma keep_simp he ts l i b : simp he true 1 ts l -> at_index l i = Ok b -> (none_taken (firstn i l) = true -> tk b = true) -> condition b <> None ->
    simp he true 1 ts (firstn (S i) l) /\ existsb tk l = true.
  Proof.
    intros SM GB S1 CB. destruct (at_index_split l i b GB) as [SP LN].
    assert (FE : firstn (S i) l = firstn i l ++ [b]).
    { rewrite SP at 1. rewrite firstn_app, LN. replace (S i - i) with 1 by lia. rewrite firstn_all2 by lia. reflexivity. }
    split.
    - rewrite FE. rewrite SP in SM. refine (simp_replace he true 1 ts (b :: skipn (S i) l) [b] _ _ SM _); [discriminate|].
      intros r' p' ts' R S2. apply (simp_at _ _ _ _ _ _ _ S2).
      + intros r1 t ts1 R1 T S3. apply simp_keep; [reflexivity|exact T|]. destruct r1; [|apply simp_over]. rewrite <- (T eq_refl). destruct (R (R1 eq_refl)) as [_ N]. rewrite (S1 N). apply simp_over.
      + intros. congruence.
    - rewrite SP, existsb_app. cbn [existsb]. destruct (none_taken (firstn i l)) eqn:N; [rewrite (S1 eq_refl); cbn [orb]; apply orb_true_r|].
      replace (existsb tk (firstn i l)) with true; [reflexivity|]. clear -N. induction (firstn i l) as [|x m IH]; [discriminate|]. unfold none_taken in N. cbn [forallb existsb] in *.
      destruct (tk x); [reflexivity|]. exact (IH N).
  Qed.
  Lemma settled_under b a x al rm : okb b -> ev a x -> under_assumption unsat b a = Ok (al, rm) -> settled b al rm x /\ condition b <> None.
  Proof.
    intros O A U. destruct (under_ok b a x al rm O A U) as [C K]. split; [|exact C]. unfold settled. destruct al; [exact K|]. intro N. destruct (K N) as (K1 & _ & K2 & _). split; assumption.
  Qed.

  (** ** Simplifications in the same order *)
  Lemma none_firstn_S l i b : nth_error l i = Some b -> none_taken (firstn (S i) l) = none_taken (firstn i l) && negb (tk b).
  Proof.
    intro N. destruct (at_index_split l i b (nth_split l i b N)) as [SP LN].
    assert (FE : firstn (S i) l = firstn i l ++ [b]).
    { rewrite SP at 1. rewrite firstn_app, LN. replace (S i - i) with 1 by lia. rewrite firstn_all2 by lia. reflexivity. }
    rewrite FE, none_app. unfold none_taken at 2. cbn [forallb]. rewrite andb_true_r. reflexivity.
  Qed.
  Lemma simplify_prefix l i al rm l' del : simplify_at l i al rm = Ok (l', del) -> firstn i l' = firstn i l.
  Proof.
    unfold simplify_at. intro SA. destruct al as [[|]|].
    - destruct (at_index l i) as [b|] eqn:GB; [|discriminate]. cbn [bind] in SA. destruct (at_index_split l i b GB) as [SP LN].
      assert (l' = firstn i l ++ [default_block (position b)]) by congruence. subst l'. rewrite firstn_app, LN, Nat.sub_diag. cbn [firstn]. rewrite app_nil_r.
      apply firstn_all2. lia.
    - assert (l' = firstn i l ++ skipn (S i) l) by congruence. subst l'. destruct (Nat.le_gt_cases i (length l)) as [L|L].
      + rewrite firstn_app, firstn_length, Nat.min_l by exact L. rewrite Nat.sub_diag. cbn [firstn]. rewrite app_nil_r. apply firstn_all2. rewrite firstn_length. lia.
      + rewrite (firstn_all2 l) by lia. rewrite (skipn_all2 l) by lia. rewrite app_nil_r. apply firstn_all2. lia.
    - destruct rm as [|k rm]; [congruence|]. destruct (at_index l i) as [b|] eqn:GB; [|discriminate]. cbn [bind] in SA. assert (l' = replace l i (remove_operands b (k :: rm))) by congruence. subst l'.
      clear. revert i. induction l as [|x l IH]; intros [|i]; try reflexivity. cbn [replace firstn]. rewrite IH. reflexivity.
  Qed.
  Lemma firstn_forall {A} (Q : A -> Prop) l n : Forall Q l -> Forall Q (firstn n l).
  Proof. intro F. rewrite Forall_forall in *. intros x I. apply F. rewrite <- (firstn_skipn n l). apply in_or_app. left. exact I. Qed.
  Lemma loop_simp he ts fuel : forall l i n before made h r, simp he true 1 ts l -> Forall okb l -> ev before (none_taken (firstn i l)) -> (h = true -> first_true he 1 ts <> None) ->
    immediate_loop unsat text_length fuel l i n before made h = Ok r ->
    simp he true 1 ts (fst (fst r)) /\ Forall okb (fst (fst r)) /\ (snd r = true -> first_true he 1 ts <> None).
  Proof.
    induction fuel as [|fuel IH]; intros l i n before made h r SM F EB HH L; [discriminate|]. cbn [immediate_loop] in L.
    destruct (Nat.ltb i n); [|assert (r = (l, made, h)) by congruence; subst r; auto].
    destruct (at_index l i) as [b|] eqn:GB; [|discriminate]. cbn [bind] in L.
    destruct (under_assumption unsat b before) as [[al rm]|] eqn:U; [|discriminate]. cbn [bind fst snd] in L.
    assert (OB : okb b) by (destruct (at_index_split l i b GB) as [SP _]; rewrite SP in F; apply Forall_app in F; destruct F as [_ F]; inversion F; assumption).
    destruct (settled_under b before _ al rm OB EB U) as [ST CB].
    match type of L with (bind ?t _) = _ => destruct t as [[[l' del] h']|] eqn:STEP; [|discriminate] end. cbn [bind] in L.
    assert (N : simp he true 1 ts l' /\ Forall okb l' /\ (h' = true -> first_true he 1 ts <> None) /\ firstn i l' = firstn i l).
    { destruct (found (al, rm)).
      - destruct (kept_test text_length b al) eqn:KT.
        + assert (l' = firstn (S i) l) by congruence. subst l'.
          assert (al = Some true) by (unfold kept_test in KT; destruct al as [[|]|]; try discriminate; reflexivity). subst al.
          destruct (keep_simp he ts l i b SM GB ST CB) as [S1 S2]. split; [exact S1|]. split; [apply firstn_forall; exact F|]. split.
          * intros _. rewrite <- (simp_sel _ _ _ _ _ SM eq_refl). rewrite sel_taken in S2. destruct (sel l); [discriminate|discriminate S2].
          * rewrite firstn_firstn. f_equal. lia.
        + destruct (simplify_at l i al rm) as [[l1 d1]|] eqn:SA; [|discriminate]. cbn [bind] in STEP. assert (l1 = l' /\ h' = h) as [-> ->] by (split; congruence).
          split; [exact (simplify_simp he ts l i b al rm l' d1 SM F GB ST CB SA)|]. split; [exact (proj1 (simplify_leads l i b al rm l' d1 F GB ST SA))|].
          split; [exact HH|exact (simplify_prefix l i al rm l' d1 SA)].
      - assert (l' = l /\ h' = h) as [-> ->] by (split; congruence). auto. }
    clear STEP ST SM F HH. destruct N as (SM & F & HH & FE). rewrite <- FE in EB.
    destruct (nth_error l' i) as [b'|] eqn:NB; [|assert (r = (l', made || found (al, rm), h')) by congruence; subst r; auto].
    destruct (condition b') as [c|] eqn:C; [|assert (r = (l', made || found (al, rm), h')) by congruence; subst r; auto].
    match type of L with (bind ?t _) = _ => destruct t as [n'|]; [|discriminate] end. cbn [bind] in L. destruct del.
    - exact (IH l' i n' before _ h' r SM F EB HH L).
    - destruct (need (negated b')) as [g|] eqn:G; [|discriminate]. cbn [bind] in L. apply need_some in G.
      refine (IH l' (S i) n' (ZAnd [before; g]) _ h' r SM F _ HH L). rewrite (none_firstn_S l' i b' NB). apply ev_and2; [exact EB|].
      apply okb_negated; [|exact G]. rewrite Forall_forall in F. apply F. exact (nth_error_In _ _ NB).
  Qed.
  Lemma immediate_simp he ts l r : simp he true 1 ts l -> Forall okb l -> immediate unsat text_length l = Ok r ->
    simp he true 1 ts (fst (fst r)) /\ Forall okb (fst (fst r)) /\ (snd r = true -> first_true he 1 ts <> None) /\ fst (fst r) <> [].
  Proof.
    intros SM F L. unfold immediate in L. destruct (at_index l 0) as [b|] eqn:GB; [|discriminate]. cbn [bind] in L.
    destruct (need (negated b)) as [g|] eqn:G; [|discriminate]. cbn [bind] in L. apply need_some in G.
    destruct (elif_count l) as [n|]; [|discriminate]. cbn [bind] in L.
    destruct (immediate_loop unsat text_length (S (length l)) l 1 n g false false) as [[[l' made] h]|] eqn:LP; [|discriminate]. cbn [bind] in L.
    destruct (last_block l') as [e|] eqn:LB; [|discriminate]. cbn [bind] in L.
    assert (X : nth_error l 0 = Some b) by (unfold at_index, get in GB; destruct (nth_error l 0); congruence).
    assert (EB : ev g (none_taken (firstn 1 l))).
    { rewrite (none_firstn_S l 0 b X). cbn [firstn none_taken forallb andb]. apply okb_negated; [|exact G]. rewrite Forall_forall in F. apply F. exact (nth_error_In _ _ X). }
    destruct (loop_simp he ts _ l 1 n g false false _ SM F EB ltac:(discriminate) LP) as (S1 & F1 & H1). cbn [fst snd] in *.
    pose proof (last_split l' e LB) as SP.
    assert (r = (l', made, match condition e with None => true | Some _ => h end)) by (destruct (condition e); congruence). subst r. cbn [fst snd].
    split; [exact S1|]. split; [exact F1|]. split; [|intro K; rewrite K in LB; discriminate LB].
    destruct (condition e) eqn:C; [exact H1|]. intros _. rewrite <- (simp_sel _ _ _ _ _ S1 eq_refl).
    assert (K : existsb tk l' = true) by (rewrite SP, existsb_app; cbn [existsb]; unfold tk at 2; rewrite C; cbn [orb]; apply orb_true_r).
    rewrite sel_taken in K. destruct (sel l'); [discriminate|discriminate K].
  Qed.
  (** The last block becomes else. *)
  Definition to_else (l : list block) (e : block) : list block :=
    removelast l ++ [{| position := position e; condition := None; negated := negated e; operands := operands e; terms := terms e; negated_terms := negated_terms e; is_or := is_or e |}].
  Lemma else_simp he ts l e : simp he true 1 ts l -> last_block l = Ok e -> first_true he 1 ts <> None -> simp he true 1 ts (to_else l e).
  Proof.
    intros SM LB FT. pose proof (last_split l e LB) as SP. unfold to_else. assert (ET : existsb tk l = true).
    { rewrite sel_taken. rewrite (simp_sel _ _ _ _ _ SM eq_refl). destruct (first_true he 1 ts); [reflexivity|congruence]. }
    rewrite SP in SM. refine (simp_replace he true 1 ts [e] _ _ _ SM _); [discriminate|].
    intros r' p' ts' R S2. apply (simp_at _ _ _ _ _ _ _ S2).
    - intros r1 t ts1 R1 T S3.
      assert (TT : r1 = true -> t = true).
      { intro X. rewrite <- (T X). destruct (R (R1 X)) as [_ N]. rewrite SP, existsb_app in ET. cbn [existsb] in ET. rewrite orb_false_r in ET.
        destruct (tk e); [reflexivity|]. rewrite orb_false_r in ET. exfalso. clear -N ET. induction (removelast l) as [|x m IH]; [discriminate|].
        unfold none_taken in N. cbn [forallb existsb] in *. destruct (tk x); [discriminate|]. exact (IH ET N). }
      apply simp_keep; [reflexivity|cbn; intro X; rewrite (TT X); reflexivity|exact S3].
    - intros r1 R1 HE CE _. apply simp_else; [exact HE|reflexivity|reflexivity].
  Qed.
  Lemma else_sel l e : last_block l = Ok e -> sel l <> None -> sel (to_else l e) = sel l.
  Proof.
    intros LB SL. pose proof (last_split l e LB) as SP. unfold to_else. rewrite SP at 2. apply sel_app. intro N.
    rewrite SP in SL. rewrite (sel_skip _ _ N) in SL. destruct (tk e) eqn:T.
    - rewrite (sel_here e [] T). reflexivity.
    - exfalso. apply SL. rewrite (sel_next e [] T). reflexivity.
  Qed.
  Lemma else_positions l e : last_block l = Ok e -> map position (to_else l e) = map position l.
  Proof. intro LB. pose proof (last_split l e LB) as SP. unfold to_else. rewrite SP at 2. rewrite !map_app. reflexivity. Qed.

  (** ** Moving blocks *)
  Definition movable (l : list block) (current : nat) (m : nat * option bool * list nat) : Prop :=
    let '(i, al, rm) := m in
    current < i /\ exists c b, at_index l current = Ok c /\ at_index l i = Ok b /\
      (none_taken (firstn current l) = true -> tk b = true -> none_taken (skipn current (firstn i l)) = true) /\
      settled c al rm (none_taken (firstn current l) && negb (tk b)).
  Lemma at_index_okb l i b : Forall okb l -> at_index l i = Ok b -> okb b.
  Proof. intros F GB. destruct (at_index_split l i b GB) as [SP _]. rewrite SP in F. apply Forall_app in F. destruct F as [_ F]. inversion F; assumption. Qed.
  Lemma skipn_forall {A} (Q : A -> Prop) l n : Forall Q l -> Forall Q (skipn n l).
  Proof. intro F. rewrite Forall_forall in *. intros x I. apply F. rewrite <- (firstn_skipn n l). apply in_or_app. right. exact I. Qed.
  Lemma movable_in l current before is_ m : Forall okb l -> ev before (none_taken (firstn current l)) -> (forall i, List.In i is_ -> current < i) ->
    first_movable_in unsat l current before is_ = Ok (Some m) -> movable l current m.
  Proof.
    intros F EB IS. induction is_ as [|i is_ IH]; intro M; [discriminate|]. cbn [first_movable_in] in M.
    destruct (valid_move_up unsat l i current before) as [v|] eqn:V; [|discriminate]. cbn [bind] in M.
    destruct v; [|apply IH; [intros j J; apply IS; right; exact J|exact M]].
    destruct (at_index l current) as [c|] eqn:GC; [|discriminate]. cbn [bind] in M. destruct (at_index l i) as [b|] eqn:GB; [|discriminate]. cbn [bind] in M.
    destruct (need (negated b)) as [g|] eqn:G; [|discriminate]. cbn [bind] in M. apply need_some in G.
    destruct (under_assumption unsat c (ZAnd [before; g])) as [[al rm]|] eqn:U; [|discriminate]. cbn [bind fst snd] in M.
    destruct (found (al, rm)); [|apply IH; [intros j J; apply IS; right; exact J|exact M]].
    assert (m = (i, al, rm)) by congruence. subst m. clear M IH. pose proof (at_index_okb l i b F GB) as OB. pose proof (at_index_okb l current c F GC) as OC.
    split; [apply IS; left; reflexivity|]. exists c, b. split; [first [exact GC|reflexivity]|]. split; [first [exact GB|reflexivity]|].
    pose proof (okb_negated b g OB G) as EG. split.
    - unfold valid_move_up in V. rewrite GB in V. cbn [bind] in V. destruct (condition b) as [z|] eqn:Z; [|discriminate]. cbn [need bind] in V.
      destruct (negations (skipn current (firstn i l))) as [ns|] eqn:NS; [|discriminate]. cbn [bind] in V. injection V as V.
      assert (EN := negations_ok _ _ (skipn_forall _ _ current (firstn_forall _ _ i F)) NS). destruct (okb_tk b z OB Z) as [EZ _].
      intros N T. refine (implied _ _ _ _ V (ev_and2 _ _ _ _ EB EZ) EN _). rewrite N, T. reflexivity.
    - exact (proj1 (settled_under c _ _ al rm OC (ev_and2 _ _ _ _ EB EG) U)).
  Qed.
  Lemma first_movable_ok l current n m : Forall okb l -> first_movable unsat l current n = Ok (Some m) -> movable l current m.
  Proof.
    intros F M. unfold first_movable in M. destruct (negations (firstn current l)) as [ns|] eqn:NS; [|discriminate]. cbn [bind] in M.
    refine (movable_in l current (ZAnd ns) _ m F _ _ M).
    - apply negations_ok; [apply firstn_forall; exact F|exact NS].
    - intros i I. apply in_seq in I. lia.
  Qed.
  Lemma moved l current i al rm l1 : Forall okb l -> movable l current (i, al, rm) -> move_block l current i = Ok l1 ->
    leads l l1 /\ exists c, at_index l1 (S current) = Ok c /\ settled c al rm (none_taken (firstn (S current) l1)).
  Proof.
    intros F (LT & c & b & GC & GB & V & ST) M. unfold move_block in M. rewrite GB in M. cbn [bind] in M. assert (M' : l1 = firstn current l ++ b :: skipn current (firstn i l) ++ skipn (S i) l) by congruence. clear M.
    destruct (at_index_split l i b GB) as [SP LN]. destruct (at_index_split l current c GC) as [SC LC].
    set (mid := skipn current (firstn i l)) in *. set (post := skipn (S i) l) in *. set (pre := firstn current l) in *.
    assert (PM : firstn i l = pre ++ mid).
    { unfold pre, mid. rewrite <- (firstn_skipn current (firstn i l)) at 1. rewrite firstn_firstn. rewrite Nat.min_l by lia. reflexivity. }
    assert (MC : exists mid', mid = c :: mid').
    { assert (NTH : nth_error (firstn i l) current = Some c).
      { unfold at_index, get in GC. destruct (nth_error l current) as [c'|] eqn:NC; [|discriminate]. assert (c' = c) by congruence. subst c'.
        rewrite SP in NC. rewrite nth_error_app1 in NC by lia. exact NC. }
      rewrite PM in NTH. rewrite nth_error_app2 in NTH by lia. rewrite LC, Nat.sub_diag in NTH. destruct mid as [|x mid']; [discriminate|]. cbn [nth_error] in NTH. exists mid'. congruence. }
    destruct MC as (mid' & MC). rewrite PM in SP. rewrite <- app_assoc in SP. clearbody pre mid post. subst mid.
    assert (FF : Forall okb pre /\ Forall okb (c :: mid') /\ okb b /\ Forall okb post).
    { rewrite SP in F. apply Forall_app in F. destruct F as [F1 F2]. apply Forall_app in F2. destruct F2 as [F2 F3]. inversion F3; subst. auto. }
    destruct FF as (F1 & F2 & F3 & F4). split.
    - subst l1. rewrite SP. split; [apply Forall_app; split; [exact F1|constructor; [exact F3|exact (proj2 (Forall_app okb (c :: mid') post) (conj F2 F4))]]|]. split; [|split].
      + apply sel_app. intro N. destruct (tk b) eqn:T.
        * rewrite (sel_here b _ T). rewrite (sel_skip _ _ (V N eq_refl)). rewrite (sel_here b _ T). reflexivity.
        * rewrite (sel_next b _ T). change (sel ((c :: mid') ++ post) = sel ((c :: mid') ++ b :: post)). apply sel_app. intros _. rewrite (sel_next b _ T). reflexivity.
      + intro N. eapply Permutation_NoDup; [|exact N]. apply Permutation_map. apply Permutation_app_head. symmetry. apply Permutation_middle.
      + intros x I. eapply Permutation_in; [|exact I]. apply Permutation_map. apply Permutation_app_head. apply (Permutation_middle (c :: mid') post b).
    - exists c. subst l1. assert (FE : firstn (S current) (pre ++ b :: (c :: mid') ++ post) = pre ++ [b]).
      { rewrite firstn_app, LC. replace (S current - current) with 1 by lia. rewrite firstn_all2 by lia. reflexivity. }
      split.
      + unfold at_index, get. rewrite nth_error_app2 by lia. rewrite LC. replace (S current - current) with 1 by lia. reflexivity.
      + rewrite FE, none_app. unfold none_taken at 2. cbn [forallb]. rewrite andb_true_r. exact ST.
  Qed.
  Lemma move_up_S fuel l n start todo h made : move_up unsat (S fuel) l n start todo h made =
    match todo with
    | 0 => Ok (l, made)
    | S todo =>
        let current := start + todo in
        do less <- simplifies_less l h current;
        if (less : bool) then move_up unsat fuel l n start todo h made
        else
          do m <- first_movable unsat l current n;
          match m with
          | None => move_up unsat fuel l n start todo h made
          | Some m => do r <- move_rounds unsat fuel l n current m h; let '(l, n) := r in move_up unsat fuel l n start todo h true
          end
    end.
  Proof. reflexivity. Qed.
  Lemma move_rounds_S fuel l n current i al rm h : move_rounds unsat (S fuel) l n current (i, al, rm) h =
    do l <- move_block l current i;
    do s <- simplify_at l (S current) al rm;
    let '(l, deleted) := s in
    do n <- match al with Some _ => elif_count l | None => Ok n end;
    if Nat.eqb (length l) (S (S current)) then Ok (l, n)
    else if (deleted : bool) then do r <- move_up unsat fuel l n (S current) (i - S current) h false; Ok (fst r, n)
    else
      do r <- move_up unsat fuel l n (S (S current)) (i - S current) h false;
      let l := fst r in
      do m <- first_movable unsat l (S current) n;
      match m with None => Ok (l, n) | Some m => move_rounds unsat fuel l n (S current) m h end.
  Proof. reflexivity. Qed.
  Lemma moves_lead fuel :
    (forall l n start todo h made r, Forall okb l -> move_up unsat fuel l n start todo h made = Ok r -> leads l (fst r)) /\
    (forall l n current m h r, Forall okb l -> movable l current m -> move_rounds unsat fuel l n current m h = Ok r -> leads l (fst r)).
  Proof.
    induction fuel as [|fuel [IHU IHR]]; [split; intros; discriminate|]. split.
    - intros l n start todo h made r F M. rewrite move_up_S in M. destruct todo as [|todo]; cbv zeta in M; [assert (r = (l, made)) by congruence; subst r; apply leads_refl; exact F|].
      destruct (simplifies_less l h (start + todo)) as [less|]; [|discriminate]. cbn [bind] in M. destruct less; [exact (IHU _ _ _ _ _ _ _ F M)|].
      destruct (first_movable unsat l (start + todo) n) as [[m|]|] eqn:FM; [| |discriminate]; cbn [bind] in M; [|exact (IHU _ _ _ _ _ _ _ F M)].
      destruct (move_rounds unsat fuel l n (start + todo) m h) as [[l1 n1]|] eqn:MR; [|discriminate]. cbn [bind] in M.
      pose proof (IHR _ _ _ _ _ _ F (first_movable_ok _ _ _ _ F FM) MR) as L1. cbn [fst] in L1.
      exact (leads_trans _ _ _ L1 (IHU _ _ _ _ _ _ _ (proj1 L1) M)).
    - intros l n current [[i al] rm] h r F MV M. rewrite move_rounds_S in M. destruct (move_block l current i) as [l1|] eqn:MB; [|discriminate]. cbn [bind] in M.
      destruct (moved l current i al rm l1 F MV MB) as (L1 & c & GC & ST). destruct (simplify_at l1 (S current) al rm) as [[l2 del]|] eqn:SA; [|discriminate]. cbn [bind] in M.
      pose proof (simplify_leads l1 (S current) c al rm l2 del (proj1 L1) GC ST SA) as L2.
      pose proof (leads_trans _ _ _ L1 L2) as L3. pose proof (proj1 L3) as F3.
      match type of M with (bind ?t _) = _ => destruct t as [n1|]; [|discriminate] end. cbn [bind] in M.
      destruct (Nat.eqb (length l2) (S (S current))); [assert (r = (l2, n1)) by congruence; subst r; exact L3|]. destruct del.
      + destruct (move_up unsat fuel l2 n1 (S current) (i - S current) h false) as [[l4 mm]|] eqn:MU; [|discriminate]. cbn [bind fst] in M. assert (r = (l4, n1)) by congruence. subst r.
        exact (leads_trans _ _ _ L3 (IHU _ _ _ _ _ _ _ F3 MU)).
      + destruct (move_up unsat fuel l2 n1 (S (S current)) (i - S current) h false) as [[l4 mm]|] eqn:MU; [|discriminate]. cbn [bind fst] in M.
        pose proof (leads_trans _ _ _ L3 (IHU _ _ _ _ _ _ _ F3 MU)) as L4. cbn [fst] in L4.
        destruct (first_movable unsat l4 (S current) n1) as [[m|]|] eqn:FM; [| |discriminate]; cbn [bind] in M.
        * exact (leads_trans _ _ _ L4 (IHR _ _ _ _ _ _ (proj1 L4) (first_movable_ok _ _ _ _ (proj1 L4) FM) M)).
        * assert (r = (l4, n1)) by congruence. subst r. exact L4.
  Qed.
  (** If nothing is moved, nothing is changed. *)
  Lemma move_same fuel : forall l n start todo h made l', move_up unsat fuel l n start todo h made = Ok (l', false) -> l' = l.
  Proof.
    assert (T : forall fuel l n start todo h l' mm, move_up unsat fuel l n start todo h true = Ok (l', mm) -> mm = true).
    { clear fuel. induction fuel as [|fuel IH]; intros l n start todo h l' mm M; [discriminate|]. rewrite move_up_S in M. destruct todo as [|todo]; cbv zeta in M; [congruence|].
      destruct (simplifies_less l h (start + todo)) as [less|]; [|discriminate]. cbn [bind] in M. destruct less; [exact (IH _ _ _ _ _ _ _ M)|].
      destruct (first_movable unsat l (start + todo) n) as [[m|]|]; [| |discriminate]; cbn [bind] in M; [|exact (IH _ _ _ _ _ _ _ M)].
      destruct (move_rounds unsat fuel l n (start + todo) m h) as [[l1 n1]|]; [|discriminate]. cbn [bind] in M. exact (IH _ _ _ _ _ _ _ M). }
    induction fuel as [|fuel IH]; intros l n start todo h made l' M; [discriminate|]. rewrite move_up_S in M. destruct todo as [|todo]; cbv zeta in M; [congruence|].
    destruct (simplifies_less l h (start + todo)) as [less|]; [|discriminate]. cbn [bind] in M. destruct less; [exact (IH _ _ _ _ _ _ _ M)|].
    destruct (first_movable unsat l (start + todo) n) as [[m|]|]; [| |discriminate]; cbn [bind] in M; [|exact (IH _ _ _ _ _ _ _ M)].
    destruct (move_rounds unsat fuel l n (start + todo) m h) as [[l1 n1]|]; [|discriminate]. cbn [bind] in M. specialize (T _ _ _ _ _ _ _ _ M). discriminate.
  Qed.
End Values.
