(** With calls, a use is never linked to a definition that cannot arrive. *)
From Coq Require Import String List Bool Arith NArith Lia.
From Verif Require Import Base ReachModel ReachSpec ReachProofs ReachEventProofs ReachAllProofs.
Import ListNotations.
Local Open Scope list_scope.
Local Open Scope nat_scope.

(** Events of the statement itself surely happen, events in calls may happen. *)
Definition gives (i : item) (v : nat) : Prop := kills (ev i) v.
Definition surely (i : item) (v : nat) : Prop := match i with InCall _ => False | Own e => kills e v end.
Notation calm := (calm item surely).

Record may_state (f : found) (pre : list item) : Prop := {
  m_gens : forall v e, List.In e (gens f v) -> exists p i, nth_error pre p = Some i /\ ev i = e /\ generating e = true /\ variable e = v /\ calm v (firstn p pre);
  m_last : forall v d, List.In d (last (kill f v) []) -> exists a i b, pre = a ++ i :: b /\ ev i = d /\ kills d v /\ calm v b;
  m_some : forall v i, List.In i pre -> kills (ev i) v -> kill f v <> [] }.

Definition near (its : list item) (x : var_event * var_event) : Prop :=
  exists p i u d, x = (u, d) /\ nth_error its p = Some i /\ ev i = u /\ generating u = true /\
    exists a j b, firstn p its = a ++ j :: b /\ ev j = d /\ kills d (variable u) /\ calm (variable u) b.

Lemma near_app pre rest x : near pre x -> near (pre ++ rest) x.
Proof.
  intros (p & i & u & d & E & H1 & H2 & H3 & H4). exists p, i, u, d. split; [exact E|].
  assert (L : p < List.length pre) by (apply nth_error_Some; congruence).
  split; [rewrite nth_error_app1 by exact L; exact H1|]. split; [exact H2|]. split; [exact H3|]. rewrite firstn_short by lia. exact H4.
Qed.

Lemma in_add_links u ds : forall l x, List.In x (add_links l u ds) -> List.In x l \/ exists d, List.In d ds /\ x = (u, d).
Proof.
  induction ds as [|d ds IH]; intros l x H; [left; exact H|]. unfold add_links in H. cbn [fold_left] in H. fold (add_links (add_link l u d) u ds) in H.
  destruct (IH _ x H) as [K|(e & K1 & K2)].
  - unfold add_link in K. destruct (existsb _ l); [left; exact K|]. apply in_app_iff in K. destruct K as [K|[K|[]]]; [left; exact K|].
    right. exists d. split; [left; reflexivity | symmetry; exact K].
  - right. exists e. split; [right; exact K1 | exact K2].
Qed.

Lemma last_cons {A} (x : A) l d : l <> [] -> last (x :: l) d = last l d.
Proof. destruct l; [intro H; exfalso; apply H; reflexivity | reflexivity]. Qed.

Lemma one_may pre i f l f' l' : may_state f pre -> one_item i f l = (f', l') ->
  may_state f' (pre ++ [i]) /\ (forall x, List.In x (definitions l') -> List.In x (definitions l) \/ near (pre ++ [i]) x).
Proof.
  intros [MG ML MS] R.
  set (e := ev i).
  assert (KN : kill f (variable e) = [] -> calm (variable e) pre).
  { intros Z j J K. apply (MS (variable e) j J); [|exact Z]. destruct j as [x|x]; [destruct K | exact K]. }
  assert (NL : forall d, generating e = true -> List.In d (last (kill f (variable e)) []) -> near (pre ++ [i]) (e, d)).
  { intros d G K. destruct (ML _ d K) as (a & j & b & H1 & H2 & H3 & H4). exists (List.length pre), i, e, d. split; [reflexivity|].
    rewrite nth_error_app2 by lia. rewrite Nat.sub_diag. split; [reflexivity|]. split; [reflexivity|]. split; [exact G|].
    rewrite firstn_short by lia. rewrite firstn_all. exists a, j, b. auto. }
  assert (WG : forall f2, (forall v u, List.In u (gens f2 v) -> List.In u (gens f v) \/ (u = e /\ v = variable e /\ generating e = true /\ kill f (variable e) = [])) ->
     forall v u, List.In u (gens f2 v) -> exists p i0, nth_error (pre ++ [i]) p = Some i0 /\ ev i0 = u /\ generating u = true /\ variable u = v /\ calm v (firstn p (pre ++ [i]))).
  { intros f2 H v u K. destruct (H v u K) as [K'|(-> & -> & G & Z)].
    - destruct (MG v u K') as (p & j & J1 & J2 & J3 & J4 & J5). assert (L : p < List.length pre) by (apply nth_error_Some; congruence).
      exists p, j. split; [rewrite nth_error_app1 by exact L; exact J1|]. split; [exact J2|]. split; [exact J3|]. split; [exact J4|]. rewrite firstn_short by lia. exact J5.
    - exists (List.length pre), i. rewrite nth_error_app2 by lia. rewrite Nat.sub_diag. split; [reflexivity|]. split; [reflexivity|]. split; [exact G|].
      split; [reflexivity|]. rewrite firstn_short by lia. rewrite firstn_all. exact (KN Z). }
  assert (EVI : match i with InCall e0 | Own e0 => e0 end = e) by (destruct i; reflexivity).
  unfold one_item in R. rewrite EVI in R. cbv zeta in R.
  set (used := if generating e then match kill f (variable e) with
                                    | [] => (mk_found (at_key (gens f) (variable e) (gens f (variable e) ++ [e])) (kill f), l)
                                    | _ => (f, mk_links (add_links (definitions l) e (last (kill f (variable e)) [])) (redefines l))
                                    end else (f, l)) in R.
  assert (U1 : forall v u, List.In u (gens (fst used) v) -> List.In u (gens f v) \/ (u = e /\ v = variable e /\ generating e = true /\ kill f (variable e) = [])).
  { intros v u. unfold used. destruct (generating e) eqn:G; [|cbn [fst]; tauto]. destruct (kill f (variable e)) eqn:Z; cbn [fst gens]; [|tauto].
    unfold at_key. destruct (Nat.eqb v (variable e)) eqn:EV; [|tauto]. apply Nat.eqb_eq in EV. subst v. rewrite in_app_iff. cbn [List.In].
    intros [K|[K|[]]]; [left; exact K | right; auto]. }
  assert (U2 : kill (fst used) = kill f) by (unfold used; destruct (generating e); [destruct (kill f (variable e))|]; reflexivity).
  assert (U3 : forall x, List.In x (definitions (snd used)) -> List.In x (definitions l) \/ near (pre ++ [i]) x).
  { intro x. unfold used. destruct (generating e) eqn:G; [|cbn [snd]; tauto]. destruct (kill f (variable e)) as [|g gs] eqn:Z; cbn [snd definitions]; [tauto|].
    intro K. apply in_add_links in K. destruct K as [K|(d & K1 & ->)]; [left; exact K|]. right. apply NL; [reflexivity | exact K1]. }
  clearbody used. destruct used as [fu lu]. cbn [fst snd] in *.
  destruct (killing e) eqn:KE.
  - match type of R with (mk_found _ (at_key _ _ ?nn), ?ll) = _ => set (new := nn) in R; set (lnew := ll) in R end.
    assert (f' = mk_found (gens fu) (at_key (kill fu) (variable e) new) /\ l' = lnew) as [-> ->] by (split; congruence).
    assert (NN : new <> []) by (unfold new; destruct i; [destruct (kill f (variable e)); [discriminate|] | ]; intro Z; apply app_eq_nil in Z; destruct Z as [_ Z]; discriminate Z).
    assert (LN : forall d, List.In d (last new []) -> d = e \/ (List.In d (last (kill f (variable e)) []) /\ exists e0, i = InCall e0)).
    { intro d. unfold new. destruct i as [e0|e0].
      - destruct (kill f (variable e)) as [|g gs] eqn:Z.
        + cbn [last List.In]. intros [K|[]]; left; symmetry; exact K.
        + rewrite last_last, in_app_iff. cbn [List.In]. intros [K|[K|[]]]; [right; split; [exact K | exists e0; reflexivity] | left; symmetry; exact K].
      - rewrite last_last. cbn [List.In]. intros [K|[]]. left. symmetry. exact K. }
    split.
    + constructor; cbn [gens kill].
      * intros v u K. exact (WG fu U1 v u K).
      * intros v d K. unfold at_key in K. destruct (Nat.eqb v (variable e)) eqn:EV.
        -- apply Nat.eqb_eq in EV. subst v. destruct (LN d K) as [->|[K' (e0 & Q)]].
           ++ exists pre, i, []. split; [reflexivity|]. split; [reflexivity|]. split; [split; [exact KE | reflexivity] | intros j []].
           ++ destruct (ML _ d K') as (a & j & b & H1 & H2 & H3 & H4). exists a, j, (b ++ [i]). split; [rewrite H1, <- app_assoc; reflexivity|].
              split; [exact H2|]. split; [exact H3|]. intros z Z. apply in_app_iff in Z. destruct Z as [Z|[<-|[]]]; [exact (H4 z Z)|]. rewrite Q. intro W. exact W.
        -- rewrite U2 in K. destruct (ML _ d K) as (a & j & b & H1 & H2 & H3 & H4). exists a, j, (b ++ [i]). split; [rewrite H1, <- app_assoc; reflexivity|].
           split; [exact H2|]. split; [exact H3|]. intros z Z. apply in_app_iff in Z. destruct Z as [Z|[<-|[]]]; [exact (H4 z Z)|].
           intro W. assert (V : kills e v) by (unfold e; destruct i; [destruct W | exact W]). destruct V as [_ V]. rewrite V, Nat.eqb_refl in EV. discriminate EV.
      * intros v j J K. unfold at_key. destruct (Nat.eqb v (variable e)) eqn:EV; [exact NN|]. rewrite U2. apply in_app_iff in J.
        destruct J as [J|[<-|[]]]; [exact (MS v j J K)|]. destruct K as [_ K]. fold e in K. rewrite K, Nat.eqb_refl in EV. discriminate EV.
    + intros x K. apply U3. unfold lnew in K. destruct (kill f (variable e)); exact K.
  - assert (f' = fu /\ l' = lu) as [-> ->] by (split; congruence). split; [|exact U3].
    assert (NS : forall v, ~ kills e v) by (intros v [K _]; congruence).
    constructor.
    + intros v u K. exact (WG fu U1 v u K).
    + intros v d K. rewrite U2 in K. destruct (ML _ d K) as (a & j & b & H1 & H2 & H3 & H4). exists a, j, (b ++ [i]). split; [rewrite H1, <- app_assoc; reflexivity|].
      split; [exact H2|]. split; [exact H3|]. intros z Z. apply in_app_iff in Z. destruct Z as [Z|[<-|[]]]; [exact (H4 z Z)|].
      intro W. apply (NS v). unfold e. destruct i; [destruct W | exact W].
    + intros v j J K. rewrite U2. apply in_app_iff in J. destruct J as [J|[<-|[]]]; [exact (MS v j J K)|]. exfalso. exact (NS v K).
Qed.

Lemma items_may rest : forall pre f l f' l', may_state f pre -> items_of_block rest f l = (f', l') ->
  may_state f' (pre ++ rest) /\ (forall x, List.In x (definitions l') -> List.In x (definitions l) \/ near (pre ++ rest) x).
Proof.
  induction rest as [|i rest IH]; intros pre f l f' l' M R.
  - cbn in R. assert (f' = f /\ l' = l) as [-> ->] by (split; congruence). rewrite app_nil_r. split; [exact M | tauto].
  - cbn [items_of_block] in R. destruct (one_item i f l) as [f1 l1] eqn:E. destruct (one_may pre i f l f1 l1 M E) as [A1 A2].
    destruct (IH (pre ++ [i]) f1 l1 f' l' A1 R) as [B1 B2]. rewrite <- app_assoc in B1, B2. split; [exact B1|].
    intros x K. destruct (B2 x K) as [K'|K']; [|right; exact K']. destruct (A2 x K') as [K2|K2]; [left; exact K2|]. right.
    apply (near_app _ rest) in K2. rewrite <- app_assoc in K2. exact K2.
Qed.

Lemma may_nothing : may_state nothing_found [].
Proof. constructor; [intros v e [] | intros v d [] | intros v i []]. Qed.

Section Sound.
  Variables after_block before_block : nat -> list nat.
  Variables empty reachable : nat -> bool.
  Variable items : nat -> list item.
  Notation edges orders := (edge_among after_block orders).

  Lemma found_may b : may_state (found_of (items b)) (items b).
  Proof.
    unfold found_of. destruct (items_of_block (items b) nothing_found (mk_links [] [])) as [f l] eqn:E.
    exact (proj1 (items_may (items b) [] nothing_found _ f l may_nothing E)).
  Qed.

  Lemma links_may bs : forall l x, List.In x (definitions (fold_left (fun l b => link_block (items b) l) bs l)) ->
    List.In x (definitions l) \/ exists b, List.In b bs /\ near (items b) x.
  Proof.
    induction bs as [|b bs IH]; intros l x H; [left; exact H|]. cbn [fold_left] in H. destruct (IH _ x H) as [K|(c & K1 & K2)].
    - unfold link_block in K. destruct (items_of_block (items b) nothing_found l) as [f l1] eqn:E.
      destruct (proj2 (items_may (items b) [] nothing_found l f l1 may_nothing E) x K) as [K'|K']; [left; exact K'|].
      right. exists b. split; [left; reflexivity | exact K'].
    - right. exists c. split; [right; exact K1 | exact K2].
  Qed.

  Lemma reaches_calm orders v a b : reaches (edges orders) (defines items) v a b -> calm_walk item (edges orders) items surely v a b.
  Proof.
    intro H. induction H as [a b D E|a m b H IH D E].
    - apply calm_next. exact E.
    - apply calm_further with (m := m); [exact IH| |exact E]. intros i I K. apply D. exists i. split; [exact I|]. destruct i; [destruct K | exact K].
  Qed.

  Theorem links_sound orders :
    Forall (found_blocks after_block before_block empty reachable) orders -> NoDup (concat orders) ->
    exists bound l, (forall fuel, bound < fuel ->
        collect_reaching_definitions after_block before_block empty reachable items fuel orders = Ok l) /\
      (forall u d, List.In (u, d) (definitions l) ->
         exists b p i j, List.In b (concat orders) /\ nth_error (items b) p = Some i /\ ev i = u /\ generating u = true /\ ev j = d /\
           may_arrive item (edges orders) items gives surely (variable u) j b p).
  Proof.
    intros F ND. destruct (all_links after_block before_block empty reachable items orders F ND) as (bound & l & R & C).
    { intros b v (i & I & K). exact (m_some _ _ (found_may b) v i I K). }
    cbv zeta in C. destruct C as [C1 _]. exists bound, l. split; [exact R|].
    intros u d H. apply C1 in H. destruct H as [H|(a & b & v & u' & d' & E & B & W & S & (last & gs & L1 & L2))].
    - apply links_may in H. destruct H as [[]|(b & B & (p & i & u' & d' & E & H1 & H2 & H3 & (x1 & j & x2 & J1 & J2 & J3 & J4)))].
      assert (u' = u /\ d' = d) as [-> ->] by (split; congruence).
      exists b, p, i, j. split; [exact B|]. split; [exact H1|]. split; [exact H2|]. split; [exact H3|]. split; [exact J2|].
      exists x1, x2. split; [unfold gives; rewrite J2; exact J3|]. split; [exact J4|]. left. exact J1.
    - assert (u' = u /\ d' = d) as [-> ->] by (split; congruence).
      destruct (m_gens _ _ (found_may b) v u S) as (p & i & P1 & P2 & P3 & P4 & P5).
      assert (LL : List.In d (List.last (kill (found_of (items a)) v) [])).
      { rewrite <- (rev_involutive (kill (found_of (items a)) v)), L1. cbn [rev]. rewrite last_last. exact L2. }
      destruct (m_last _ _ (found_may a) v d LL) as (x1 & j & x2 & J1 & J2 & J3 & J4).
      exists b, p, i, j. split; [exact B|]. split; [exact P1|]. split; [exact P2|]. split; [exact P3|]. split; [exact J2|].
      exists x1, x2. rewrite P4. split; [unfold gives; rewrite J2; exact J3|]. split; [exact J4|]. right. exists a.
      split; [apply reaches_calm; exact W|]. split; [exact J1 | exact P5].
  Qed.
End Sound.
