(** Proofs about building control flow graphs: the larger operations. *)
From Coq Require Import String List Bool Arith Lia.
From Verif Require Import Base CfgModel CfgSpec CfgBlockProofs CfgWfProofs.
Import ListNotations.
Local Open Scope list_scope.
Local Open Scope nat_scope.

(** ** Creating a block after another one *)

Lemma new_block_places : forall g s, places (fst (new_block g s)) = places s.
Proof. reflexivity. Qed.
Lemma new_block_old : forall X g s b, wfx X s -> b < blocks s ->
  locs (fst (new_block g s)) b = locs s b /\ succs (fst (new_block g s)) b = succs s b /\ preds (fst (new_block g s)) b = preds s b.
Proof. intros X g s b W L. unfold new_block, with_graph. cbn. rewrite !set_other by lia. auto. Qed.
Lemma new_block_start : forall g h s, start (graph (fst (new_block g s)) h) = start (graph s h) /\ final (graph (fst (new_block g s)) h) = final (graph s h).
Proof. intros. unfold new_block, with_graph. cbn. unfold set_at. destruct (Nat.eqb_spec h g) as [->|_]; auto. Qed.

Lemma front_nonempty : forall s g c p, locs s c <> [] -> front s g c p -> p = Some (c, pred (List.length (locs s c))).
Proof. intros s g c p N F. unfold front in F. destruct (locs s c); [contradiction | exact F]. Qed.
Lemma nonempty_front : forall s g c p, locs s c <> [] -> p = Some (c, pred (List.length (locs s c))) -> front s g c p.
Proof. intros s g c p N F. unfold front. destruct (locs s c) eqn:E; [contradiction | exact F]. Qed.
Lemma empty_front : forall s g c p, locs s c = [] -> arrives s g c p -> (c = start (graph s g) -> p = None) -> front s g c p.
Proof. intros s g c p N F ST. unfold front. rewrite N. auto. Qed.

Lemma block_after_right : forall G g a s, wf s -> G <= graphs s -> g < graphs s -> a < blocks s -> locs s a <> [] ->
  exists t, block_after g a s = Ok (t, blocks s) /\ wf t /\ Ext G (eq a) s t /\ blocks t = S (blocks s) /\ graphs t = graphs s /\
    ready t g (blocks s) /\ locs t (blocks s) = [] /\ (forall p, front s g a p -> front t g (blocks s) p) /\ places t = places s /\
    start (graph t g) = start (graph s g) /\ (forall x, x < blocks s -> locs t x = locs s x) /\
    (forall x, x < blocks s -> x <> a -> succs t x = succs s x).
Proof.
  intros G g a s W GLE GL AL NA. unfold block_after. cbv zeta. change (snd (new_block g s)) with (blocks s).
  pose proof (new_block_wf _ g s W GL) as W1. pose proof (new_block_ext _ G (eq a) g s W) as E1.
  pose proof (new_block_ready _ g s W GL) as R1. destruct (new_block_empty g s) as [L1 P1].
  destruct (new_block_old _ g s a W AL) as (LA & SA & PA). pose proof (new_block_start g g s) as [S1 _].
  assert (OLD : forall x, x < blocks s -> locs (fst (new_block g s)) x = locs s x) by (intros x XL; exact (proj1 (new_block_old _ g s x W XL))).
  assert (OLS : forall x, x < blocks s -> succs (fst (new_block g s)) x = succs s x) by (intros x XL; exact (proj1 (proj2 (new_block_old _ g s x W XL)))).
  assert (BE : blocks (fst (new_block g s)) = S (blocks s)) by reflexivity.
  assert (GE : graphs (fst (new_block g s)) = graphs s) by reflexivity.
  assert (PE : places (fst (new_block g s)) = places s) by reflexivity.
  set (s1 := fst (new_block g s)) in *. clearbody s1.
  assert (NA1 : locs s1 a <> []) by (rewrite LA; exact NA).
  unfold link_or_merge. cbn [is_jump]. destruct (locs s1 a) as [|m l] eqn:EL; [congruence|]. cbn [bind].
  eexists. split; [reflexivity|].
  assert (W2 : wf (add_edge a (blocks s) s1)) by (apply add_edge_wf; [exact W1 | lia | lia | congruence]).
  split; [exact W2|]. split.
  { apply (ext_trans _ _ G (eq a) (eq a) s s1 _ W W1 GLE E1); [apply (add_edge_ext _ G a _ s1 W1) | auto]. }
  split; [exact BE|]. split; [exact GE|]. split.
  { destruct R1 as [R1 R2 R3]. constructor; unfold add_edge; cbn [blocks locs preds succs graph].
    - exact R1.
    - rewrite set_other by lia. exact R2.
    - exact R3. }
  split; [exact L1|]. split.
  { intros p F. apply empty_front; [exact L1| | intros C; exfalso; cbn [add_edge graph] in C; rewrite S1 in C; destruct (wf_ends _ s W g GL) as [C' _]; rewrite <- C in C'; lia].
    left. exists a, (edges s1). unfold add_edge. cbn [locs succs target]. rewrite !set_same.
    rewrite (front_nonempty s g a p NA F). rewrite (OLD a AL). split; [reflexivity|]. split; [apply in_or_app; right; left; reflexivity | reflexivity]. }
  split; [exact PE|]. split; [exact S1|]. split; [exact OLD|].
  intros x XL XA. unfold add_edge. cbn [succs]. rewrite set_other by exact XA. exact (OLS x XL).
Qed.

(** ** Linking to several blocks *)

(** Edges are added at blocks that have some already, and the edges in [es] are taken away. *)
Record grown (a : nat) (es : list nat) (s t : state) : Prop := {
  gr_blocks : blocks t = blocks s;
  gr_locs : locs t = locs s;
  gr_reach : reachable t = reachable s;
  gr_graphs : graphs t = graphs s;
  gr_graph : graph t = graph s;
  gr_places : places t = places s;
  gr_edges : edges s <= edges t;
  gr_ends : forall e, e < edges s -> source t e = source s e /\ target t e = target s e;
  gr_succs : forall x e, e < edges s -> (List.In e (succs t x) <-> List.In e (succs s x) /\ ~ List.In e es);
  gr_none : forall x, succs s x = [] -> succs t x = [];
  gr_some : forall x, succs s x <> [] -> succs t x <> [];
  gr_preds : preds t a = preds s a }.

Lemma grown_trans : forall a es fs s t u, grown a es s t -> grown a fs t u -> grown a (es ++ fs) s u.
Proof.
  intros a es fs s t u [A1 A2 A3 A4 A5 A6 A7 A8 A9 A10 A11 A12] [B1 B2 B3 B4 B5 B6 B7 B8 B9 B10 B11 B12].
  constructor; try congruence; try lia; auto.
  - intros e L. destruct (A8 e L), (B8 e ltac:(lia)). split; congruence.
  - intros x e L. rewrite (B9 x e ltac:(lia)), (A9 x e L), in_app_iff. tauto.
Qed.
Lemma add_edge_grown : forall a x t s, succs s x <> [] -> t <> a -> grown a [] s (add_edge x t s).
Proof.
  intros a x t s NE D. constructor; try reflexivity; unfold add_edge; cbn [blocks locs preds succs reachable edges source target graphs graph places].
  - lia.
  - intros e L. rewrite !set_other by lia. auto.
  - intros y e L. at_ y x; [|tauto]. rewrite in_app_iff. cbn [List.In]. split; [intros [A|[A|[]]]; [tauto | lia] | tauto].
  - intros y E. at_ y x; [contradiction | exact E].
  - intros y E. at_ y x; [|exact E]. intros C. apply app_eq_nil in C. destruct C. discriminate.
  - apply set_other. congruence.
Qed.

Definition add_edges (x : nat) (targets : list nat) (s : state) : state := fold_left (fun s t => add_edge x t s) targets s.

Lemma add_edges_right : forall X a x targets s, wfx X s -> x < blocks s -> locs s x <> [] -> succs s x <> [] ->
  Forall (fun t => t < blocks s /\ t <> a) targets ->
  wfx X (add_edges x targets s) /\ grown a [] s (add_edges x targets s) /\
  (targets <> [] -> exists e, edges s <= e /\ List.In e (succs (add_edges x targets s) x)).
Proof.
  intros X a x targets. induction targets as [|t targets IH]; intros s W XL NL NE F.
  - split; [exact W|]. split; [|congruence]. constructor; try reflexivity; auto. cbn. tauto.
  - inversion F as [|t' targets' [TL TA] F']; subst. unfold add_edges. cbn [fold_left].
    pose proof (add_edge_wf X x t s W XL TL NL) as W1. pose proof (add_edge_grown a x t s NE TA) as G1.
    destruct (IH (add_edge x t s) W1 XL NL (gr_some a [] _ _ G1 x NE)) as [W2 [G2 E2]]; [exact F'|].
    split; [exact W2|]. split; [exact (grown_trans a [] [] _ _ _ G1 G2)|]. intros _. exists (edges s). split; [lia|].
    apply (gr_succs _ _ _ _ G2); [unfold add_edge; cbn [edges]; lia|]. split; [|intros []].
    unfold add_edge. cbn [succs]. rewrite set_same. apply in_or_app. right. left. reflexivity.
Qed.

Lemma add_edges_source : forall x targets s e, e < edges s -> source (add_edges x targets s) e = source s e.
Proof.
  intros x targets. induction targets as [|t targets IH]; intros s e L; [reflexivity|]. unfold add_edges. cbn [fold_left].
  fold (add_edges x targets (add_edge x t s)). rewrite IH by (unfold add_edge; cbn [edges]; lia). unfold add_edge. cbn [source]. apply set_other. lia.
Qed.
Lemma add_edges_fold : forall e targets s, e < edges s ->
  fold_left (fun s t => add_edge (source s e) t s) targets s = add_edges (source s e) targets s.
Proof.
  intros e targets. induction targets as [|t targets IH]; intros s L; [reflexivity|]. unfold add_edges. cbn [fold_left].
  rewrite IH by (unfold add_edge; cbn [edges]; lia). unfold add_edge at 1. cbn [source]. rewrite set_other by lia. reflexivity.
Qed.

Definition without (x : nat) (l : list nat) (s : state) : state :=
  mk_state (blocks s) (locs s) (preds s) (set_at (succs s) x l) (reachable s) (edges s) (source s) (target s) (graphs s) (graph s) (places s).

Lemma spread_right : forall a targets, targets <> [] -> forall es s, wfx (eq a) s -> locs s a = [] ->
  Forall (fun t => t < blocks s /\ t <> a) targets -> NoDup es ->
  (forall e, List.In e es -> e < edges s /\ target s e = a /\ List.In e (succs s (source s e))) ->
  exists t, spread targets es s = Ok t /\ wfx (eq a) t /\ grown a es s t.
Proof.
  intros a targets NT. induction es as [|e es IH]; intros s W LA F N K.
  - exists s. split; [reflexivity|]. split; [exact W|]. constructor; try reflexivity; auto. cbn. tauto.
  - inversion N as [|e' es' NI N']; subst. cbn [spread].
    destruct (K e (or_introl eq_refl)) as (EL & ET & ES). rewrite (add_edges_fold e targets s EL).
    set (x := source s e) in *.
    assert (XL : x < blocks s) by exact (wf_succ_source _ s x e W ES).
    destruct (wf_succ _ s W x e ES) as (_ & _ & _ & NX).
    assert (NS : succs s x <> []) by (intros C; rewrite C in ES; destruct ES).
    destruct (add_edges_right _ a x targets s W XL NX NS F) as [W1 [G1 N1]]. destruct (N1 NT) as [f [FL FI]].
    assert (SX : source (add_edges x targets s) e = x) by exact (add_edges_source x targets s e EL). rewrite SX.
    assert (SX0 : source s e = x) by reflexivity. set (s1 := add_edges x targets s) in *. clearbody s1 x.
    destruct (remove_one_right ValueError e (succs s1 x)) as [l [EQ [NL HL]]].
    { apply (gr_succs _ _ _ _ G1); [exact EL|]. split; [exact ES | intros []]. }
    { exact (wf_once _ s1 W1 x). }
    rewrite EQ. cbn [bind]. fold (without x l s1).
    assert (W2 : wfx (eq a) (without x l s1)).
    { destruct W1 as [V1 V2 V3 V4 V5 V6 V7 V8]. unfold without.
      constructor; cbn [blocks locs preds succs reachable edges source target graphs graph places]; auto.
      - intros y i I. apply V2. at_ y x; [apply HL in I; exact (proj1 I) | exact I].
      - intros y. at_ y x; [exact NL | exact (V3 y)].
      - intros g y GL I. destruct (V5 g y GL I) as [YL KN]. split; [exact YL|]. intros D. specialize (KN D). unfold knows in *.
        cbn [locs preds succs source target edges]. intros YE. destruct (KN YE) as [P Q]. split; [exact P|]. intros i I'. destruct (Q i I') as (Q1 & Q2 & Q3).
        split; [exact Q1|]. split; [exact Q2|]. destruct (Nat.eq_dec (source s1 i) x) as [XX|XX]; [|rewrite set_other by exact XX; exact Q3]. rewrite XX in Q3. rewrite XX, set_same. apply HL. split; [exact Q3|].
        intros ->. destruct (gr_ends _ _ _ _ G1 e EL) as [_ TE]. apply D. congruence. }
    assert (G2 : grown a [e] s (without x l s1)).
    { destruct G1 as [V1 V2 V3 V4 V5 V6 V7 V8 V9 V10 V11 V12]. unfold without.
      constructor; cbn [blocks locs preds succs reachable edges source target graphs graph places]; auto.
      - intros y i IL. specialize (V9 y i IL). cbn [List.In] in *. at_ y x.
        + rewrite HL, V9. split; [intros [[A _] B]; split; [exact A | intros [C|[]]; congruence] | intros [A B]; split; [split; [exact A | tauto] | intros ->; tauto]].
        + rewrite V9. split; [|tauto]. intros [A _]. split; [exact A|]. intros [C|[]]. subst i. destruct (wf_succ _ s W y e A) as (_ & SE & _). apply N0. congruence.
      - intros y E. at_ y x; [contradiction | exact (V10 y E)].
      - intros y E. at_ y x; [|exact (V11 y E)]. intros C. assert (I : List.In f l) by (apply HL; split; [exact FI | lia]). rewrite C in I. destruct I. }
    destruct (IH (without x l s1)) as [t [E3 [W3 G3]]].
    + exact W2.
    + rewrite (gr_locs _ _ _ _ G2). exact LA.
    + rewrite (gr_blocks _ _ _ _ G2). exact F.
    + exact N'.
    + intros i I. destruct (K i (or_intror I)) as (I1 & I2 & I3). destruct (gr_ends _ _ _ _ G2 i I1) as [S2 T2].
      split; [pose proof (gr_edges _ _ _ _ G2); lia|]. rewrite S2, T2. split; [exact I2|]. apply (gr_succs _ _ _ _ G2 _ i I1). split; [exact I3|].
      intros [C|[]]. subst i. contradiction.
    + exists t. split; [exact E3|]. split; [exact W3|]. exact (grown_trans a [e] es _ _ _ G2 G3).
Qed.


Lemma multiple_right : forall G g a targets s, wf s -> G <= graphs s -> g < graphs s -> a < blocks s ->
  (locs s a = [] -> List.In a (unreachable (graph s g))) -> targets <> [] -> Forall (fun t => t < blocks s /\ t <> a) targets ->
  exists t, multiple_link_or_merge g a targets s = Ok t /\ wf t /\ Ext G (eq a) s t /\ blocks t = blocks s /\ graphs t = graphs s /\ locs t = locs s /\
    places t = places s /\ start (graph t g) = start (graph s g) /\ (forall x, x < blocks s -> x <> a -> succs s x = [] -> succs t x = []).
Proof.
  intros G g a targets s W GLE GL AL UN NT F. unfold multiple_link_or_merge. destruct (locs s a) as [|m l] eqn:LA.
  - assert (NE : existsb (Nat.eqb a) targets = false).
    { apply has_not_in. intros C. rewrite Forall_forall in F. destruct (F a C). congruence. }
    rewrite NE. cbn [andb]. specialize (UN eq_refl). destruct (wf_unr _ s W g a GL UN) as [_ K]. destruct (K (fun C => C) LA) as [NP KP]. clear K.
    destruct (spread_right a targets NT (preds s a) s) as [t [E [W1 G1]]]; auto.
    { exact (wfx_weaken _ _ s (fun x (C : False) => match C with end) W). }
    rewrite E. cbn [bind]. destruct G1 as [V1 V2 V3 V4 V5 V6 V7 V8 V9 V10 V11 V12].
    set (t1 := mk_state (blocks t) (locs t) (set_at (preds t) a []) (succs t) (reachable t) (edges t) (source t) (target t) (graphs t) (graph t) (places t)).
    assert (W2 : wfx (fun x => False \/ x = a) t1).
    { pose proof W1 as W1'. destruct W1 as [U1 U2 U3 U4 U5 U6 U7 U8]. constructor; unfold t1; cbn [blocks locs preds succs reachable edges source target graphs graph places]; auto.
      - intros y e I. destruct (U2 y e I) as (B1 & B2 & B3 & B4). repeat split; auto. destruct (Nat.eq_dec (target t e) a) as [TA|TA]; [|rewrite set_other by exact TA; exact B3].
        exfalso. rewrite TA, V12 in B3. destruct (KP e B3) as (C1 & C2 & C3). apply (proj1 (V9 y e C1)) in I. destruct I as [_ I]. contradiction.
      - intros y L. destruct (U4 y L). split; [assumption|]. at_ y a; auto.
      - intros h y HL I. destruct (U5 h y HL I) as [YL KN]. split; [exact YL|]. intros D. assert (DA : a <> y) by (intros ->; tauto). specialize (KN DA).
        unfold knows in *. cbn [locs preds succs source target edges]. rewrite (set_other _ _ a _ y) by congruence. exact KN. }
    assert (GL1 : g < graphs t1) by (unfold t1; cbn [graphs]; lia).
    assert (UN1 : List.In a (unreachable (graph t1 g))) by (unfold t1; cbn [graph]; rewrite V5; exact UN).
    destruct (not_unreachable_right _ g a t1 W2 GL1 UN1) as [u [E2 [NU U]]]. rewrite E2. eexists. split; [reflexivity|].
    split.
    { apply (with_unr_wf (fun _ => False) a); auto.
      - exact (proj1 (wf_ends _ t1 W2 g GL1)).
      - exact (proj2 (wf_ends _ t1 W2 g GL1)).
      - intros y Y. exact (proj1 (U y) Y). }
    split.
    { constructor; unfold with_graph, t1; cbn [blocks locs preds succs reachable edges source target graphs graph places]; rewrite ?V1, ?V2, ?V3, ?V4, ?V5; auto.
      - intros x _. exists []. rewrite app_nil_r. reflexivity.
      - intros x e I D. destruct (wf_succ _ s W x e I) as (B1 & B2 & B3 & B4). split; [|exact (proj2 (V8 e B1))].
        apply (V9 x e B1). split; [exact I|]. intros C. destruct (KP e C) as (_ & T & _). rewrite T in D. destruct D as [D|D]; [congruence | contradiction].
      - intros h HL. unfold set_at. destruct (Nat.eqb_spec h g) as [->|D]; auto.
      - intros h x HL I D. unfold set_at. destruct (Nat.eqb_spec h g) as [->|D']; [|exact I]. cbn [unreachable]. apply U.
        unfold t1. cbn [graph]. rewrite V5. split; [exact I | congruence]. }
    split; [exact V1|]. split; [exact V4|]. split; [exact V2|]. split; [exact V6|]. split.
    + unfold with_graph, t1. cbn [graph]. rewrite set_same. cbn [start]. rewrite V5. reflexivity.
    + intros x _ _ Q. exact (V10 x Q).
  - clear UN. eexists. split; [reflexivity|]. cbv beta delta [link is_jump] iota. fold (add_edges a targets s).
    assert (NL : locs s a <> []) by congruence. clear LA.
    assert (H : forall targets s, wf s -> G <= graphs s -> a < blocks s -> locs s a <> [] -> Forall (fun t => t < blocks s /\ t <> a) targets ->
      wf (add_edges a targets s) /\ Ext G (eq a) s (add_edges a targets s) /\ blocks (add_edges a targets s) = blocks s /\ graphs (add_edges a targets s) = graphs s /\
      locs (add_edges a targets s) = locs s /\ places (add_edges a targets s) = places s /\ graph (add_edges a targets s) = graph s /\
      forall x, x <> a -> succs (add_edges a targets s) x = succs s x).
    { clear. induction targets as [|t targets IH]; intros s W GLE AL NL F.
      - split; [exact W|]. split; [apply ext_refl|]. repeat split; reflexivity.
      - inversion F as [|t' targets' [TL TA] F']; subst. unfold add_edges. cbn [fold_left]. fold (add_edges a targets (add_edge a t s)).
        pose proof (add_edge_wf _ a t s W AL TL NL) as W1.
        destruct (IH (add_edge a t s) W1 GLE AL NL F') as (B1 & B2 & B3 & B4 & B5 & B6 & B7 & B8).
        split; [exact B1|]. split; [apply (ext_trans _ _ G (eq a) (eq a) s (add_edge a t s) _ W W1 GLE (add_edge_ext _ G a t s W) B2); auto|].
        rewrite B3, B4, B5, B6, B7. repeat (split; [reflexivity|]). intros x D. rewrite (B8 x D). unfold add_edge. cbn [succs]. apply set_other. exact D. }
    destruct (H targets s W GLE AL NL F) as (B1 & B2 & B3 & B4 & B5 & B6 & B7 & B8). rewrite B7.
    repeat (split; [assumption|]). split; [reflexivity|]. intros x _ D Q. rewrite (B8 x D). exact Q.
Qed.

(** ** A new graph *)

Lemma new_block_of : forall g b lo pr su re ed so ta gs gr pl c, gr g = c ->
  new_block g (mk_state b lo pr su re ed so ta gs gr pl) =
    (mk_state (S b) (set_at lo b []) (set_at pr b []) (set_at su b []) (set_at re b false) ed so ta gs
              (set_at gr g (mk_cfg (start c) (final c) (b :: unreachable c) (owner c))) pl, b).
Proof. intros. subst c. reflexivity. Qed.
Lemma new_graph_is : forall o s,
  let b := blocks s in let g := graphs s in
  new_graph o s =
    (mk_state (S (S b)) (set_at (set_at (locs s) b []) (S b) []) (set_at (set_at (preds s) b []) (S b) []) (set_at (set_at (succs s) b []) (S b) [])
              (set_at (set_at (reachable s) b false) (S b) false) (edges s) (source s) (target s) (S g)
              (set_at (set_at (set_at (set_at (graph s) g (mk_cfg 0 0 [] o)) g (mk_cfg 0 0 [b] o)) g (mk_cfg 0 0 [S b; b] o)) g (mk_cfg b (S b) [S b; b] o)) (places s), g).
Proof.
  intros o s b g. unfold new_graph. cbv zeta. fold b. fold g. rewrite (new_block_of g _ _ _ _ _ _ _ _ _ _ _ _ (set_same _ _ _ _)). cbn [fst snd].
  rewrite (new_block_of g _ _ _ _ _ _ _ _ _ _ _ _ (set_same _ _ _ _)). cbn [fst snd start final unreachable owner]. unfold with_graph.
  cbn [blocks locs preds succs reachable edges source target graphs graph places]. rewrite !set_same. reflexivity.
Qed.

Lemma new_graph_right : forall o s, wf s ->
  exists t, new_graph o s = (t, graphs s) /\ wf t /\ Ext (graphs s) (fun _ => False) s t /\ blocks t = S (S (blocks s)) /\ graphs t = S (graphs s) /\
    start (graph t (graphs s)) = blocks s /\ final (graph t (graphs s)) = S (blocks s) /\ owner (graph t (graphs s)) = o /\
    ready t (graphs s) (blocks s) /\ ready t (graphs s) (S (blocks s)) /\
    locs t (blocks s) = [] /\ locs t (S (blocks s)) = [] /\ preds t (blocks s) = [] /\ preds t (S (blocks s)) = [] /\ places t = places s /\
    (forall x, x < blocks s -> locs t x = locs s x /\ succs t x = succs s x).
Proof.
  intros o s W. rewrite new_graph_is. eexists. split; [reflexivity|].
  assert (SE : forall b, succs s b <> [] -> b < blocks s).
  { intros b N. destruct (succs s b) as [|e l] eqn:E; [contradiction|]. apply (wf_succ_source _ s b e W). rewrite E. left. reflexivity. }
  assert (UL : forall h b, h < graphs s -> List.In b (unreachable (graph s h)) -> b < blocks s) by (intros h b HL I; exact (proj1 (wf_unr _ s W h b HL I))).
  assert (SO : forall A (f : nat -> A) x v w, x < blocks s -> set_at (set_at f (blocks s) v) (S (blocks s)) w x = f x)
    by (intros; rewrite !set_other by lia; reflexivity).
  assert (S1 : forall A (f : nat -> A) v w, set_at (set_at f (blocks s) v) (S (blocks s)) w (blocks s) = v)
    by (intros; rewrite set_other by lia; apply set_same).
  assert (GO : forall h v1 v2 v3 v4, h <> graphs s -> set_at (set_at (set_at (set_at (graph s) (graphs s) v1) (graphs s) v2) (graphs s) v3) (graphs s) v4 h = graph s h)
    by (intros; rewrite !set_other by assumption; reflexivity).
  cbn [fst snd blocks locs preds succs reachable edges source target graphs graph places].
  rewrite !set_same. cbn [start final unreachable owner].
  split; [|split; [|split; [reflexivity|split; [reflexivity|]]]].
  - destruct W as [W1 W2 W3 W4 W5 W6 W7 W8]. constructor; cbn [blocks locs preds succs reachable edges source target graphs graph places].
    + intros e L. destruct (W1 e L). split; lia.
    + intros b e I. destruct (Nat.eq_dec b (blocks s)) as [->|D]; [rewrite S1 in I; destruct I|].
      destruct (Nat.eq_dec b (S (blocks s))) as [->|D']; [rewrite set_same in I; destruct I|]. rewrite !set_other in I by assumption.
      destruct (W2 b e I) as (B1 & B2 & B3 & B4). destruct (W1 e B1) as [C1 C2]. rewrite SO by lia. rewrite SO by (rewrite <- B2; exact C1). auto.
    + intros b. at_ b (S (blocks s)); [constructor|]. at_ b (blocks s); [constructor|]. apply W3.
    + intros b L. rewrite !set_other by lia. apply W4. lia.
    + intros h b HL I. at_ h (graphs s).
      * cbn [unreachable List.In] in I. destruct I as [<-|[<-|[]]].
        -- split; [lia|]. intros _ _. cbn [preds]. rewrite set_same. split; [constructor | intros e []].
        -- split; [lia|]. intros _ _. cbn [preds]. rewrite S1. split; [constructor | intros e []].
      * assert (HL' : h < graphs s) by lia. destruct (W5 h b HL' I) as [BL K]. split; [lia|]. intros NX. specialize (K NX).
        unfold knows in *. cbn [locs preds succs edges source target]. rewrite !SO by exact BL. intros E. destruct (K E) as [K1 K2]. split; [exact K1|].
        intros e J. destruct (K2 e J) as (J1 & J2 & J3). rewrite SO by exact (proj1 (W1 e J1)). auto.
    + intros h HL. at_ h (graphs s).
      * cbn [unreachable]. constructor; [intros [C|[]]; lia|]. constructor; [intros [] | constructor].
      * apply W6. lia.
    + intros h k b HL KL I J. destruct (Nat.eq_dec h (graphs s)) as [->|D].
      * destruct (Nat.eq_dec k (graphs s)) as [->|D']; [reflexivity|]. rewrite GO in J by exact D'. specialize (UL k b ltac:(lia) J).
        rewrite !set_same in I. cbn [unreachable List.In] in I. destruct I as [C|[C|[]]]; lia.
      * rewrite GO in I by exact D. destruct (Nat.eq_dec k (graphs s)) as [->|D'].
        -- specialize (UL h b ltac:(lia) I). rewrite !set_same in J. cbn [unreachable List.In] in J. destruct J as [C|[C|[]]]; lia.
        -- rewrite GO in J by exact D'. apply (W7 h k b); [lia | lia | exact I | exact J].
    + intros h HL. at_ h (graphs s); [cbn; lia|]. destruct (W8 h ltac:(lia)). lia.
  - constructor; cbn [blocks locs preds succs reachable edges source target graphs graph places]; try lia.
    + intros b L _. rewrite !SO by exact L. auto.
    + intros b L. exists []. rewrite app_nil_r, SO by exact L. reflexivity.
    + intros b L. rewrite !SO by exact L. auto.
    + intros b e I _. rewrite SO; [auto|]. apply SE. intros C. rewrite C in I. destruct I.
    + intros h HL. rewrite GO by lia. auto.
    + intros h b HL I _. rewrite GO by lia. exact I.
    + intros b L R. rewrite SO by exact L. exact R.
  - split; [reflexivity|]. split; [reflexivity|]. split; [reflexivity|]. split; [|split].
    + constructor; cbn [blocks locs preds succs graph]; rewrite ?S1, ?set_same; auto. cbn. auto.
    + constructor; cbn [blocks locs preds succs graph]; rewrite ?S1, ?set_same; auto. cbn. auto.
    + rewrite !S1. repeat (split; [reflexivity|]). intros x L. rewrite !SO by exact L. auto.
Qed.

(** ** Reachability *)

Lemma update_right : forall g s, wf s -> g < graphs s ->
  exists t, update_block_reachability g s = Ok t /\ wf t /\ blocks t = blocks s /\ graphs t = graphs s /\ locs t = locs s /\ succs t = succs s /\
    target t = target s /\ places t = places s /\ start (graph t g) = start (graph s g) /\ (forall G, G <= g -> Ext G (fun _ => False) s t) /\
    (forall b, reachable t b = true <-> path (next_blocks s) (start (graph s g)) b \/ reachable s b = true) /\
    (forall h, start (graph t h) = start (graph s h) /\ owner (graph t h) = owner (graph s h)).
Proof.
  intros g s W GL. unfold update_block_reachability.
  assert (CL : forall b c, b < blocks s -> List.In c (next_blocks s b) -> c < blocks s).
  { intros b c _ I. unfold next_blocks in I. apply in_map_iff in I. destruct I as [e [<- I]]. exact (wf_succ_target _ s b e W I). }
  destruct (get_blocks_exact (next_blocks s) (blocks s) CL (start (graph s g)) (enough s) (proj1 (wf_ends _ s W g GL)) (le_n _)) as [l [E [N L]]].
  rewrite E. cbn [bind]. eexists. split; [reflexivity|].
  unfold with_graph, with_reachable. cbn [blocks locs preds succs reachable edges source target graphs graph places]. rewrite !set_same. cbn [start].
  set (u := filter (fun b => negb (existsb (Nat.eqb b) l)) (unreachable (graph s g))).
  assert (U : forall y, List.In y u -> List.In y (unreachable (graph s g))) by (intros y I; apply filter_In in I; exact (proj1 I)).
  split; [|repeat (split; [reflexivity|]); split; [|split]].
  - destruct W as [W1 W2 W3 W4 W5 W6 W7 W8]. constructor; cbn [blocks locs preds succs reachable edges source target graphs graph places]; auto.
    + intros h b HL I. destruct (W5 h b HL) as [BL K]; [at_ h g; [exact (U b I) | exact I]|]. auto.
    + intros h HL. at_ h g; [|exact (W6 h HL)]. apply NoDup_filter. exact (W6 g HL).
    + intros h k b HL KL I J. apply (W7 h k b HL KL); [at_ h g; [exact (U b I) | exact I] | at_ k g; [exact (U b J) | exact J]].
    + intros h HL. at_ h g; [exact (W8 g HL) | exact (W8 h HL)].
  - intros G GG. constructor; cbn [blocks locs preds succs reachable edges source target graphs graph places]; auto.
    + intros b _. exists []. rewrite app_nil_r. reflexivity.
    + intros h HL. rewrite set_other by lia. auto.
    + intros h b HL I _. rewrite set_other by lia. exact I.
    + intros b _ R. rewrite R. apply orb_true_r.
  - intros b. rewrite orb_true_iff, has_in, L. reflexivity.
  - intros h. at_ h g; auto.
Qed.
