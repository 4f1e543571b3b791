(** Proofs about building control flow graphs: what holds of the objects, and what the operations leave alone. *)
From Coq Require Import String List Bool Arith Lia.
From Verif Require Import Base CfgModel CfgSpec CfgBlockProofs.
Import ListNotations.
Local Open Scope list_scope.
Local Open Scope nat_scope.

Lemma set_same : forall A (f : nat -> A) k v, set_at f k v k = v.
Proof. intros. unfold set_at. rewrite Nat.eqb_refl. reflexivity. Qed.
Lemma set_other : forall A (f : nat -> A) k v x, x <> k -> set_at f k v x = f x.
Proof. intros A f k v x D. unfold set_at. apply Nat.eqb_neq in D. rewrite D. reflexivity. Qed.

Ltac at_ x k := destruct (Nat.eq_dec x k) as [?E|?N]; [try subst x; try subst k; rewrite ?set_same in * | rewrite ?(set_other _ _ k _ x) in * by assumption].

(** ** What holds of the objects *)

(** An empty block that may still be merged knows exactly the edges that lead to it. *)
Definition knows (s : state) (b : nat) : Prop :=
  locs s b = [] -> NoDup (preds s b) /\ forall e, List.In e (preds s b) -> e < edges s /\ target s e = b /\ List.In e (succs s (source s e)).

Record wfx (X : nat -> Prop) (s : state) : Prop := {
  wf_edge : forall e, e < edges s -> source s e < blocks s /\ target s e < blocks s;
  wf_succ : forall b e, List.In e (succs s b) -> e < edges s /\ source s e = b /\ List.In e (preds s (target s e)) /\ locs s b <> [];
  wf_once : forall b, NoDup (succs s b);
  wf_new : forall b, blocks s <= b -> locs s b = [] /\ preds s b = [];
  wf_unr : forall g b, g < graphs s -> List.In b (unreachable (graph s g)) -> b < blocks s /\ (~ X b -> knows s b);
  wf_unr_once : forall g, g < graphs s -> NoDup (unreachable (graph s g));
  wf_apart : forall g h b, g < graphs s -> h < graphs s -> List.In b (unreachable (graph s g)) -> List.In b (unreachable (graph s h)) -> g = h;
  wf_ends : forall g, g < graphs s -> start (graph s g) < blocks s /\ final (graph s g) < blocks s }.
Definition wf : state -> Prop := wfx (fun _ => False).

(** The block that is being filled: it may be merged. *)
Record ready (s : state) (g c : nat) : Prop := {
  ready_block : c < blocks s;
  ready_open : succs s c = [];
  ready_empty : locs s c = [] -> List.In c (unreachable (graph s g)) }.

(** ** What the operations leave alone, except for the blocks in [M] *)
Record Ext (G : nat) (M : nat -> Prop) (s t : state) : Prop := {
  x_blocks : blocks s <= blocks t;
  x_edges : edges s <= edges t;
  x_graphs : graphs s <= graphs t;
  x_same : forall b, b < blocks s -> ~ M b -> locs t b = locs s b /\ (succs s b = [] -> succs t b = []);
  x_more : forall b, b < blocks s -> exists l, locs t b = locs s b ++ l;
  x_closed : forall b, b < blocks s -> succs s b <> [] -> locs t b = locs s b /\ succs t b <> [];
  x_edge : forall b e, List.In e (succs s b) -> ~ M (target s e) \/ locs s (target s e) <> [] -> List.In e (succs t b) /\ target t e = target s e;
  x_graph : forall g, g < G -> final (graph t g) = final (graph s g) /\ owner (graph t g) = owner (graph s g) /\
    (start (graph t g) = start (graph s g) \/
     (M (start (graph s g)) /\ locs s (start (graph s g)) = [] /\ locs t (start (graph t g)) <> []));
  x_unr : forall g b, g < G -> List.In b (unreachable (graph s g)) -> ~ M b -> List.In b (unreachable (graph t g));
  x_reach : forall b, b < blocks s -> reachable s b = true -> reachable t b = true }.

Lemma wf_open : forall X s b, wfx X s -> locs s b = [] -> succs s b = [].
Proof.
  intros X s b W L. destruct (succs s b) as [|e l] eqn:E; [reflexivity|].
  destruct (wf_succ X s W b e) as (_ & _ & _ & N); [rewrite E; left; reflexivity | contradiction].
Qed.
Lemma wf_succ_target : forall X s b e, wfx X s -> List.In e (succs s b) -> target s e < blocks s.
Proof. intros X s b e W I. destruct (wf_succ X s W b e I) as (L & _). exact (proj2 (wf_edge X s W e L)). Qed.
Lemma wf_succ_source : forall X s b e, wfx X s -> List.In e (succs s b) -> b < blocks s.
Proof. intros X s b e W I. destruct (wf_succ X s W b e I) as (L & <- & _). exact (proj1 (wf_edge X s W e L)). Qed.

Lemma wfx_weaken : forall (X Y : nat -> Prop) s, (forall b, X b -> Y b) -> wfx X s -> wfx Y s.
Proof.
  intros X Y s S W. destruct W as [W1 W2 W3 W4 W5 W6 W7 W8]. constructor; try assumption.
  intros g b G I. destruct (W5 g b G I) as [B K]. split; [exact B|]. intros N. apply K. intros C. exact (N (S b C)).
Qed.

Lemma ext_refl : forall G M s, Ext G M s s.
Proof.
  intros G M s. constructor; try lia; auto.
  - intros b _. exists []. rewrite app_nil_r. reflexivity.
Qed.

Lemma ext_trans : forall X Y G M N s t u, wfx X s -> wfx Y t -> G <= graphs s -> Ext G M s t -> Ext G N t u ->
  (forall b, b < blocks s -> N b -> M b) -> Ext G M s u.
Proof.
  intros X Y G M N s t u W W' GL [A1 A2 A3 A4 A5 A6 A7 A8 A9 A10] [B1 B2 B3 B4 B5 B6 B7 B8 B9 B10] S.
  constructor; try lia.
  - intros b L NM. destruct (A4 b L NM) as [P Q]. assert (NN : ~ N b) by (intros C; exact (NM (S b L C))).
    destruct (B4 b ltac:(lia) NN) as [P' Q']. split; [congruence | auto].
  - intros b L. destruct (A5 b L) as [l E]. destruct (B5 b ltac:(lia)) as [l' E']. exists (l ++ l'). rewrite E', E, app_assoc. reflexivity.
  - intros b L NE. destruct (A6 b L NE) as [P Q]. destruct (B6 b ltac:(lia) Q) as [P' Q']. split; [congruence | exact Q'].
  - intros b e I NM. destruct (A7 b e I NM) as [P Q]. assert (TL : target s e < blocks s) by exact (wf_succ_target X s b e W I).
    destruct (B7 b e P) as [P' Q'].
    + rewrite Q. destruct NM as [NM|NM].
      * left. intros C. exact (NM (S _ TL C)).
      * right. destruct (A5 (target s e) TL) as [l E]. rewrite E. intros C. apply app_eq_nil in C. destruct C as [C _]. contradiction.
    + split; [exact P' | congruence].
  - intros g L. destruct (A8 g L) as (F & O & Z). destruct (B8 g L) as (F' & O' & Z').
    split; [congruence|]. split; [congruence|]. destruct (wf_ends X s W g ltac:(lia)) as [ST _]. destruct (wf_ends Y t W' g ltac:(lia)) as [ST' _].
    destruct Z as [Z|[Z1 [Z2 Z3]]].
    + destruct Z' as [Z'|[Z1 [Z2 Z3]]]; [left; congruence|]. right. rewrite Z in Z1, Z2. split; [exact (S _ ST Z1)|]. split; [|exact Z3].
      destruct (A5 _ ST) as [l E]. rewrite E in Z2. apply app_eq_nil in Z2. exact (proj1 Z2).
    + right. split; [exact Z1|]. split; [exact Z2|]. destruct Z' as [Z'|[Y1 [Y2 Y3]]]; [|contradiction].
      rewrite Z'. destruct (B5 _ ST') as [l E]. rewrite E. intros C. apply app_eq_nil in C. exact (Z3 (proj1 C)).
  - intros g b L I NM. destruct (wf_unr X s W g b ltac:(lia) I) as [BL _]. apply (B9 g b L); [exact (A9 g b L I NM)|]. intros C. exact (NM (S b BL C)).
  - intros b L R. apply B10; [lia|]. apply A10; assumption.
Qed.

Lemma ext_weaken : forall G H M s t, G <= H -> Ext H M s t -> Ext G M s t.
Proof.
  intros G H M s t L [A1 A2 A3 A4 A5 A6 A7 A8 A9 A10]. constructor; try assumption.
  - intros g K. apply A8. lia.
  - intros g b K. apply A9. lia.
Qed.
Lemma ext_blocks_weaken : forall X G (M N : nat -> Prop) s t, wfx X s -> G <= graphs s -> (forall b, b < blocks s -> M b -> N b) -> Ext G M s t -> Ext G N s t.
Proof.
  intros X G M N s t W GL S [A1 A2 A3 A4 A5 A6 A7 A8 A9 A10]. constructor; try assumption.
  - intros b L NN. apply A4; [exact L|]. intros C. exact (NN (S b L C)).
  - intros b e I D. apply A7; [exact I|]. destruct D as [D|D]; [left | right; exact D]. intros C.
    exact (D (S _ (wf_succ_target X s b e W I) C)).
  - intros g L. destruct (A8 g L) as (F & O & Z). split; [exact F|]. split; [exact O|]. destruct Z as [Z|[Z1 Z2]]; [left; exact Z|].
    right. split; [|exact Z2]. apply S; [|exact Z1]. exact (proj1 (wf_ends X s W g ltac:(lia))).
  - intros g b L I NN. apply A9; [exact L | exact I|]. intros C. destruct (wf_unr X s W g b ltac:(lia) I) as [BL _]. exact (NN (S b BL C)).
Qed.

(** ** The operations *)

Lemma add_statement_wf : forall X c n s, wfx X s -> c < blocks s -> succs s c = [] -> wfx X (add_statement c n s).
Proof.
  intros X c n s [W1 W2 W3 W4 W5 W6 W7 W8] L O. unfold add_statement. cbn [is_jump].
  constructor; unfold with_place, with_locs; cbn [blocks locs preds succs reachable edges source target graphs graph places]; auto.
  - intros b e I. destruct (W2 b e I) as (A & B & C & D). repeat split; try assumption.
    at_ b c; [rewrite O in I; destruct I | exact D].
  - intros b B. destruct (W4 b B) as [P Q]. split; [|exact Q]. at_ b c; [lia | exact P].
  - intros g b G I. destruct (W5 g b G I) as [B K]. split; [exact B|]. intros NX. specialize (K NX). unfold knows in *.
    cbn [blocks locs preds succs edges source target]. intros E. at_ b c; [|exact (K E)].
    exfalso. exact (app_cons_not_nil _ _ _ (eq_sym E)).
Qed.
Lemma add_statement_ext : forall G c n s, succs s c = [] -> Ext G (eq c) s (add_statement c n s).
Proof.
  intros G c n s O. unfold add_statement. cbn [is_jump].
  constructor; unfold with_place, with_locs; cbn [blocks locs preds succs reachable edges source target graphs graph places]; auto.
  - intros b L N. split; [|auto]. apply set_other. congruence.
  - intros b L. at_ b c; [exists [n]; reflexivity | exists []; rewrite app_nil_r; reflexivity].
  - intros b L S. split; [|exact S]. apply set_other. intros ->. contradiction.
Qed.
Lemma add_statement_locs : forall c n s, locs (add_statement c n s) c = locs s c ++ [n].
Proof. intros. unfold add_statement, with_place, with_locs. cbn. apply set_same. Qed.

Lemma with_place_wf : forall X n p s, wfx X s -> wfx X (with_place s n p).
Proof. intros X n p s [W1 W2 W3 W4 W5 W6 W7 W8]. constructor; auto. Qed.
Lemma with_place_ext : forall G M n p s, Ext G M s (with_place s n p).
Proof. intros. constructor; cbn; auto. intros b _. exists []. rewrite app_nil_r. reflexivity. Qed.

Lemma new_block_wf : forall X g s, wfx X s -> g < graphs s -> wfx X (fst (new_block g s)).
Proof.
  intros X g s [W1 W2 W3 W4 W5 W6 W7 W8] GL.
  assert (SE : forall b, succs s b <> [] -> b < blocks s).
  { intros b N. destruct (succs s b) as [|e l] eqn:E; [contradiction|].
    destruct (W2 b e) as (A & B & _); [rewrite E; left; reflexivity|]. rewrite <- B. exact (proj1 (W1 e A)). }
  assert (PN : forall h b, h < graphs s -> List.In b (unreachable (graph s h)) -> b <> blocks s)
    by (intros h b HL I; destruct (W5 h b HL I) as [A _]; lia).
  unfold new_block. cbn [fst].
  constructor; unfold with_graph; cbn [blocks locs preds succs reachable edges source target graphs graph places].
  - intros e E. destruct (W1 e E). lia.
  - intros b e. at_ b (blocks s); [intros [] |]. intros I. destruct (W2 b e I) as (A & B & C & D).
    repeat split; try assumption. destruct (W1 e A) as [_ T]. rewrite set_other by lia. exact C.
  - intros b. at_ b (blocks s); [constructor | apply W3].
  - intros b B. at_ b (blocks s); [lia|]. destruct (W4 b) as [P Q]; [lia|]. split; assumption.
  - intros h b HL I. assert (OLD : List.In b (unreachable (graph s h)) -> b < S (blocks s) /\ (~ X b -> knows
      (mk_state (S (blocks s)) (set_at (locs s) (blocks s) []) (set_at (preds s) (blocks s) []) (set_at (succs s) (blocks s) [])
         (set_at (reachable s) (blocks s) false) (edges s) (source s) (target s) (graphs s)
         (set_at (graph s) g (mk_cfg (start (graph s g)) (final (graph s g)) (blocks s :: unreachable (graph s g)) (owner (graph s g)))) (places s)) b)).
    { intros J. destruct (W5 h b HL J) as [BL K]. split; [lia|]. intros NX. specialize (K NX). unfold knows in *.
      cbn [blocks locs preds succs edges source target]. rewrite !(set_other _ _ (blocks s) _ b) by lia. intros E.
      destruct (K E) as [N1 N2]. split; [exact N1|]. intros e Ie. destruct (N2 e Ie) as (A & B & C). repeat split; try assumption.
      rewrite set_other; [exact C|]. destruct (W1 e A). lia. }
    at_ h g; [|exact (OLD I)]. cbn [unreachable] in I. destruct I as [I|I]; [|exact (OLD I)]. subst b. split; [lia|]. intros _.
    unfold knows. cbn [blocks locs preds succs edges source target]. rewrite !set_same. intros _. split; [constructor | intros e []].
  - intros h HL. at_ h g; [|exact (W6 h HL)]. cbn [unreachable]. constructor; [|exact (W6 g HL)]. intros I. exact (PN g _ HL I eq_refl).
  - intros h k b HL KL I J. at_ h g; at_ k g; try reflexivity; cbn [unreachable] in *.
    + destruct I as [I|I]; [subst b; exfalso; exact (PN k _ KL J eq_refl) | exact (W7 g k b HL KL I J)].
    + destruct J as [J|J]; [subst b; exfalso; exact (PN h _ HL I eq_refl) | exact (W7 h g b HL KL I J)].
    + exact (W7 h k b HL KL I J).
  - intros h HL. destruct (W8 h HL). at_ h g; cbn [start final]; lia.
Qed.
Lemma new_block_ext : forall X G M g s, wfx X s -> Ext G M s (fst (new_block g s)).
Proof.
  intros X G M g s W. unfold new_block. cbn [fst].
  constructor; unfold with_graph; cbn [blocks locs preds succs reachable edges source target graphs graph places]; try lia.
  - intros b L _. rewrite !(set_other _ _ (blocks s) _ b) by lia. auto.
  - intros b L. exists []. rewrite app_nil_r, set_other by lia. reflexivity.
  - intros b L. rewrite !(set_other _ _ (blocks s) _ b) by lia. auto.
  - intros b e I _. pose proof (wf_succ_source X s b e W I). rewrite set_other by lia. auto.
  - intros h _. at_ h g; auto.
  - intros h b _ I _. at_ h g; [right; exact I | exact I].
  - intros b L R. rewrite set_other by lia. exact R.
Qed.
Lemma new_block_ready : forall X g s, wfx X s -> g < graphs s -> ready (fst (new_block g s)) g (blocks s).
Proof.
  intros X g s W GL. unfold new_block. cbn [fst].
  constructor; unfold with_graph; cbn [blocks locs preds succs reachable edges source target graphs graph places]; rewrite ?set_same; auto.
  intros _. left. reflexivity.
Qed.
Lemma new_block_empty : forall g s, locs (fst (new_block g s)) (blocks s) = [] /\ preds (fst (new_block g s)) (blocks s) = [].
Proof. intros. unfold new_block, with_graph. cbn. rewrite !set_same. auto. Qed.

Lemma add_edge_wf : forall X a b s, wfx X s -> a < blocks s -> b < blocks s -> locs s a <> [] -> wfx X (add_edge a b s).
Proof.
  intros X a b s [W1 W2 W3 W4 W5 W6 W7 W8] LA LB NA. unfold add_edge.
  constructor; cbn [blocks locs preds succs reachable edges source target graphs graph places]; auto.
  - intros e E. at_ e (edges s); [lia|]. apply W1. lia.
  - intros x e I. at_ e (edges s).
    + repeat split; try lia.
      * at_ x a; [reflexivity|]. destruct (W2 x (edges s) I). lia.
      * rewrite ?set_same. apply in_or_app. right. left. reflexivity.
      * at_ x a; [exact NA|]. destruct (W2 x (edges s) I). lia.
    + assert (I' : List.In e (succs s x)).
      { at_ x a; [|exact I]. apply in_app_or in I. destruct I as [I|[I|[]]]; [exact I | congruence]. }
      destruct (W2 x e I') as (A & B & C & D). repeat split; try assumption; try lia.
      at_ (target s e) b; [|exact C]. apply in_or_app. left. exact C.
  - intros x. at_ x a; [|apply W3]. apply nodup_app; [apply W3 | constructor; [intros [] | constructor]|].
    intros e I [J|[]]. subst e. destruct (W2 a (edges s) I). lia.
  - intros x L. destruct (W4 x L) as [P Q]. split; [exact P|]. rewrite set_other by lia. exact Q.
  - intros g x GL I. destruct (W5 g x GL I) as [BL K]. split; [exact BL|]. intros NX. specialize (K NX). unfold knows in *.
    cbn [blocks locs preds succs edges source target]. intros E. destruct (K E) as [N1 N2]. split.
    + at_ x b; [|exact N1]. apply nodup_app; [exact N1 | constructor; [intros [] | constructor]|].
      intros e J [H|[]]. subst e. destruct (N2 _ J). lia.
    + intros e J. at_ e (edges s).
      * repeat split; try lia.
        -- at_ x b; [reflexivity|]. destruct (N2 _ J). lia.
        -- rewrite ?set_same. apply in_or_app. right. left. reflexivity.
      * assert (J' : List.In e (preds s x)).
        { at_ x b; [|exact J]. apply in_app_or in J. destruct J as [J|[J|[]]]; [exact J | congruence]. }
        destruct (N2 e J') as (A & B & C). repeat split; try lia; try assumption.
        at_ (source s e) a; [|exact C]. apply in_or_app. left. exact C.
Qed.
Lemma add_edge_ext : forall X G a b s, wfx X s -> Ext G (eq a) s (add_edge a b s).
Proof.
  intros X G a b s W. unfold add_edge.
  constructor; cbn [blocks locs preds succs reachable edges source target graphs graph places]; auto.
  - intros x L N. split; [reflexivity|]. intros E. rewrite set_other by congruence. exact E.
  - intros x _. exists []. rewrite app_nil_r. reflexivity.
  - intros x _ S. split; [reflexivity|]. at_ x a; [|exact S]. intros C. apply app_eq_nil in C. destruct C. discriminate.
  - intros x e I _. destruct (wf_succ X s W x e I) as (A & _). rewrite (set_other _ (target s) (edges s)) by lia. split; [|reflexivity].
    at_ x a; [apply in_or_app; left; exact I | exact I].
Qed.

(** ** Where control comes from *)

(** At the end of a block with an edge to [b]. *)
Definition into (s : state) (p : option (nat * nat)) (b : nat) : Prop :=
  exists x e, p = Some (x, pred (List.length (locs s x))) /\ List.In e (succs s x) /\ target s e = b.
Definition arrives (s : state) (g b : nat) (p : option (nat * nat)) : Prop :=
  into s p b \/ (p = None /\ start (graph s g) = b).
(** Control is at the end of block [c], as far as it has been filled. *)
Definition front (s : state) (g c : nat) (p : option (nat * nat)) : Prop :=
  match locs s c with [] => arrives s g c p /\ (c = start (graph s g) -> p = None) | _ => p = Some (c, pred (List.length (locs s c))) end.

Lemma into_ext : forall X G M s t p b, wfx X s -> Ext G M s t -> ~ M b \/ locs s b <> [] -> into s p b -> into t p b.
Proof.
  intros X G M s t p b W E D [x [e [P [I T]]]]. subst b. exists x, e.
  destruct (x_edge G M s t E x e I D) as [I' T'].
  destruct (x_closed G M s t E x (wf_succ_source X s x e W I)) as [L _]; [intros C; rewrite C in I; destruct I|].
  rewrite L. auto.
Qed.
Lemma start_ext : forall G M s t g, Ext G M s t -> g < G -> ~ M (start (graph s g)) \/ locs s (start (graph s g)) <> [] -> start (graph t g) = start (graph s g).
Proof.
  intros G M s t g E L D. destruct (x_graph G M s t E g L) as (_ & _ & [Z|[Z1 [Z2 _]]]); [exact Z|]. destruct D; contradiction.
Qed.
Lemma arrives_ext : forall X G M s t g b p, wfx X s -> Ext G M s t -> g < G -> ~ M b \/ locs s b <> [] -> arrives s g b p -> arrives t g b p.
Proof.
  intros X G M s t g b p W E GL D [I|[-> S]]; [left; exact (into_ext X G M s t p b W E D I)|].
  right. split; [reflexivity|]. subst b. exact (start_ext G M s t g E GL D).
Qed.
Lemma front_ext : forall X G M s t g c p, wfx X s -> Ext G M s t -> g < G -> c < blocks s -> ~ M c -> front s g c p -> front t g c p.
Proof.
  intros X G M s t g c p W E GL CL D F. unfold front in *. destruct (x_same G M s t E c CL D) as [L _]. rewrite L.
  destruct (locs s c) eqn:EL; [|exact F]. split; [exact (arrives_ext X G M s t g c p W E GL (or_introl D) (proj1 F))|]. intros SC. apply (proj2 F).
  destruct (x_graph G M s t E g GL) as (_ & _ & [Z|[_ [_ Z]]]); [congruence|]. rewrite <- SC, L in Z. contradiction.
Qed.
Lemma nonempty_ext : forall G M s t b, Ext G M s t -> b < blocks s -> locs s b <> [] -> locs t b <> [].
Proof. intros G M s t b E L N. destruct (x_more G M s t E b L) as [l ->]. intros C. apply app_eq_nil in C. exact (N (proj1 C)). Qed.

Lemma step_ext : forall X G M s t g p q n, wfx X s -> Ext G M s t -> g < G -> step s g p q n -> step t g p q n.
Proof.
  intros X G M s t g p q n W E GL [N P].
  assert (NE : locs s (fst q) <> []) by (intros C; rewrite C in N; destruct (snd q); discriminate).
  assert (QL : fst q < blocks s).
  { destruct (lt_dec (fst q) (blocks s)) as [L|L]; [exact L|]. exfalso. apply NE. apply (wf_new X s W). lia. }
  split.
  - destruct (x_more G M s t E (fst q) QL) as [l ->]. rewrite nth_error_app1; [exact N|]. apply nth_error_Some. congruence.
  - destruct p as [[b i]|].
    + destruct P as [P|(P1 & P2 & e & I & T)]; [left; exact P|]. right.
      destruct (x_closed G M s t E b (wf_succ_source X s b e W I)) as [L _]; [intros C; rewrite C in I; destruct I|].
      rewrite L. split; [exact P1|]. split; [exact P2|]. exists e.
      destruct (x_edge G M s t E b e I) as [I' T']; [right; rewrite T; exact NE|]. split; [exact I' | congruence].
    + subst q. cbn [fst] in *. rewrite (start_ext G M s t g E GL); [reflexivity|]. right. exact NE.
Qed.
Lemma walk_ext : forall X G M s t g p l q, wfx X s -> Ext G M s t -> g < G -> walk s g p l q -> walk t g p l q.
Proof.
  intros X G M s t g p l q W E GL H. induction H as [p | p q n l r S H IH]; [constructor|].
  apply (walk_on t g p q n l r); [exact (step_ext X G M s t g p q n W E GL S) | exact IH].
Qed.
Lemma walk_app : forall s g p l q m r, walk s g p l q -> walk s g q m r -> walk s g p (l ++ m) r.
Proof.
  intros s g p l q m r H K. induction H as [p | p q n l r' S H IH]; [exact K|]. cbn [app]. exact (walk_on s g p q n (l ++ m) r S (IH K)).
Qed.
Lemma walk_one : forall s g p q n, step s g p q n -> walk s g p [n] (Some q).
Proof. intros. apply (walk_on s g p q n [] (Some q) H). constructor. Qed.

(** Control arrives at a block that is not empty. *)
Lemma arrives_step : forall X s g b p n l, wfx X s -> locs s b = n :: l -> arrives s g b p -> step s g p (b, 0) n.
Proof.
  intros X s g b p n l W L A. split; [cbn [fst snd]; rewrite L; reflexivity|].
  destruct A as [[x [e [-> [I T]]]]|[-> S]]; [|cbn; congruence].
  right. destruct (wf_succ X s W x e I) as (_ & _ & _ & NE). cbn [fst snd]. split; [|split; [reflexivity | exists e; auto]].
  destruct (locs s x); [contradiction | reflexivity].
Qed.
(** A node is added to the current block. *)
Lemma enter : forall X s g c n p, wfx X s -> succs s c = [] -> front s g c p ->
  step (add_statement c n s) g p (c, List.length (locs s c)) n.
Proof.
  intros X s g c n p W O F. split.
  - cbn [fst snd]. rewrite add_statement_locs, nth_error_app2, Nat.sub_diag by lia. reflexivity.
  - unfold front in F. destruct (locs s c) as [|m l] eqn:L.
    + destruct F as [[[x [e [-> [I T]]]]|[-> S]] _].
      * right. assert (x <> c) by (intros ->; rewrite O in I; destruct I).
        unfold add_statement, with_place, with_locs. cbn [is_jump locs succs target fst snd]. rewrite set_other by assumption.
        destruct (wf_succ X s W x e I) as (_ & _ & _ & NE). split; [destruct (locs s x); [contradiction | reflexivity]|].
        split; [reflexivity|]. exists e. auto.
      * unfold add_statement. cbn. rewrite S. reflexivity.
    + rewrite F. left. cbn [fst snd]. split; [reflexivity|]. reflexivity.
Qed.
Lemma add_statement_front : forall c n s g, front (add_statement c n s) g c (Some (c, List.length (locs s c))).
Proof.
  intros c n s g. unfold front. rewrite add_statement_locs. destruct (locs s c ++ [n]) as [|m l] eqn:E.
  - exfalso. exact (app_cons_not_nil _ _ _ (eq_sym E)).
  - rewrite <- E, app_length. cbn [List.length]. f_equal. f_equal. lia.
Qed.

(** ** Linking and merging *)

Lemma remove_one_right : forall e x l, List.In x l -> NoDup l ->
  exists r, remove_one e x l = Ok r /\ NoDup r /\ (forall y, List.In y r <-> List.In y l /\ y <> x).
Proof.
  intros e x. induction l as [|y l IH]; intros I N; [destruct I|].
  inversion N as [|y' l' NI N']; subst. cbn [remove_one]. destruct (Nat.eqb_spec x y) as [->|D].
  - exists l. split; [reflexivity|]. split; [exact N'|]. intros z. cbn [List.In]. split.
    + intros Z. split; [right; exact Z|]. intros ->. contradiction.
    + intros [[Z|Z] Z']; [congruence | exact Z].
  - destruct I as [I|I]; [congruence|]. destruct (IH I N') as [r [E [NR R]]]. rewrite E. cbn [bind]. exists (y :: r).
    split; [reflexivity|]. split.
    + constructor; [|exact NR]. intros C. apply R in C. destruct C. contradiction.
    + intros z. cbn [List.In]. rewrite R. split; [intros [->|[A B]]; auto | intros [[->|A] B]; auto].
Qed.

(** Taking a block out of the set of a graph. *)
Lemma not_unreachable_right : forall X g a s, wfx X s -> g < graphs s -> List.In a (unreachable (graph s g)) ->
  exists u, not_unreachable g a s = Ok (with_graph s g (mk_cfg (start (graph s g)) (final (graph s g)) u (owner (graph s g)))) /\
    NoDup u /\ forall y, List.In y u <-> List.In y (unreachable (graph s g)) /\ y <> a.
Proof.
  intros X g a s W GL I. destruct (remove_one_right KeyError a _ I (wf_unr_once X s W g GL)) as [u [E [N U]]].
  exists u. unfold not_unreachable. rewrite E. cbn [bind]. auto.
Qed.

Lemma with_unr_wf : forall X a g b f u o s, wfx (fun x => X x \/ x = a) s -> g < graphs s -> b < blocks s -> f < blocks s ->
  NoDup u -> (forall y, List.In y u -> List.In y (unreachable (graph s g)) /\ y <> a) -> List.In a (unreachable (graph s g)) ->
  wfx X (with_graph s g (mk_cfg b f u o)).
Proof.
  intros X a g b f u o s [W1 W2 W3 W4 W5 W6 W7 W8] GL BL FL N U IA.
  constructor; unfold with_graph; cbn [blocks locs preds succs reachable edges source target graphs graph places]; auto.
  - intros h y HL I.
    assert (I' : List.In y (unreachable (graph s h)) /\ y <> a).
    { at_ h g; [cbn [unreachable] in I; exact (U y I)|]. split; [exact I|]. intros ->. apply N0. exact (W7 h g a HL GL I IA). }
    destruct I' as [I' D]. destruct (W5 h y HL I') as [YL K]. split; [exact YL|]. intros NX. apply K. intros [C|C]; contradiction.
  - intros h HL. at_ h g; [exact N | exact (W6 h HL)].
  - intros h k y HL KL I J. apply (W7 h k y HL KL).
    + at_ h g; [exact (proj1 (U y I)) | exact I].
    + at_ k g; [exact (proj1 (U y J)) | exact J].
  - intros h HL. at_ h g; [cbn; auto | exact (W8 h HL)].
Qed.

Lemma redirect_all : forall b es s, let t := fold_left (redirect b) es s in
  blocks t = blocks s /\ locs t = locs s /\ succs t = succs s /\ reachable t = reachable s /\ edges t = edges s /\ source t = source s /\
  graphs t = graphs s /\ graph t = graph s /\ places t = places s /\
  preds t b = preds s b ++ es /\ (forall x, x <> b -> preds t x = preds s x) /\
  (forall e, target t e = if existsb (Nat.eqb e) es then b else target s e).
Proof.
  intros b es. induction es as [|e es IH]; intros s t.
  - subst t. cbn [fold_left]. rewrite app_nil_r. repeat (split; [reflexivity|]). auto.
  - subst t. cbn [fold_left]. destruct (IH (redirect b s e)) as (A1 & A2 & A3 & A4 & A5 & A6 & A7 & A8 & A9 & A10 & A11 & A12).
    repeat (split; [assumption|]). split; [|split].
    + rewrite A10. unfold redirect. cbn [preds]. rewrite set_same, <- app_assoc. reflexivity.
    + intros x D. rewrite (A11 x D). unfold redirect. cbn [preds]. apply set_other. exact D.
    + intros f. rewrite A12. cbn [existsb]. unfold redirect. cbn [target]. unfold set_at.
      destruct (existsb (Nat.eqb f) es); [rewrite orb_true_r; reflexivity|]. rewrite orb_false_r. reflexivity.
Qed.

Lemma link_or_merge_right : forall G g a b s, wf s -> G <= graphs s -> g < graphs s -> a < blocks s -> b < blocks s -> a <> b ->
  (locs s a = [] -> List.In a (unreachable (graph s g))) ->
  (locs s a = [] -> a = start (graph s g) -> locs s b <> []) ->
  exists t, link_or_merge g a b s = Ok t /\ wf t /\ Ext G (eq a) s t /\ blocks t = blocks s /\ graphs t = graphs s /\ locs t = locs s /\
    (forall p, front s g a p -> arrives t g b p) /\ (forall x, x <> a -> succs t x = succs s x) /\ places t = places s /\
    (start (graph t g) = start (graph s g) \/ (start (graph t g) = b /\ locs s b <> [])) /\
    (forall x, x <> b -> preds t x = preds s x).
Proof.
  intros G g a b s W GLE GL AL BL AB UN ST. unfold link_or_merge. cbn [is_jump].
  destruct (locs s a) as [|m l] eqn:LA.
  - specialize (UN eq_refl). specialize (ST eq_refl). destruct (Nat.eqb_spec a (start (graph s g))) as [SA|SA].
    + pose proof (ST SA) as LB.
      set (s1 := with_graph s g (mk_cfg b (final (graph s g)) (unreachable (graph s g)) (owner (graph s g)))).
      assert (G1 : graph s1 g = mk_cfg b (final (graph s g)) (unreachable (graph s g)) (owner (graph s g)))
        by (unfold s1, with_graph; cbn [graph]; apply set_same).
      assert (W1 : wf s1).
      { destruct W as [W1 W2 W3 W4 W5 W6 W7 W8]. constructor; unfold s1, with_graph; cbn [blocks locs preds succs reachable edges source target graphs graph places]; auto.
        - intros h y HL I. apply (W5 h y HL). at_ h g; exact I.
        - intros h HL. at_ h g; [exact (W6 g HL) | exact (W6 h HL)].
        - intros h k y HL KL I J. apply (W7 h k y HL KL); [at_ h g; exact I | at_ k g; exact J].
        - intros h HL. destruct (W8 h HL). at_ h g; cbn; auto. }
      destruct (not_unreachable_right _ g a s1 W1 GL) as [u [E [NU U]]]; [rewrite G1; exact UN|].
      rewrite G1 in E, U. cbn [start final unreachable owner] in E, U. rewrite E. eexists. split; [reflexivity|].
      assert (W2 : wf (with_graph s1 g (mk_cfg b (final (graph s g)) u (owner (graph s g))))).
      { apply (with_unr_wf (fun _ => False) a); auto.
        - exact (wfx_weaken _ _ s1 (fun _ X => or_introl X) W1).
        - exact (proj2 (wf_ends _ s W g GL)).
        - intros y Y. rewrite G1. exact (proj1 (U y) Y).
        - rewrite G1. exact UN. }
      split; [exact W2|]. split; [|split; [reflexivity|split; [reflexivity|split; [reflexivity|split; [|split; [reflexivity|split; [reflexivity|split; [|reflexivity]]]]]]]].
      * constructor; unfold s1, with_graph; cbn [blocks locs preds succs reachable edges source target graphs graph places]; auto.
        -- intros x _. exists []. rewrite app_nil_r. reflexivity.
        -- intros h HL. unfold set_at. destruct (Nat.eqb_spec h g) as [->|D]; [|auto]. cbn [start final owner]. split; [reflexivity|]. split; [reflexivity|].
           right. rewrite <- SA. auto.
        -- intros h x HL I D. unfold set_at. destruct (Nat.eqb_spec h g) as [->|D']; [|exact I]. cbn [unreachable]. apply U. split; [exact I | congruence].
      * intros p F. unfold front in F. rewrite LA in F. destruct F as [_ F]. specialize (F SA). subst p.
        right. split; [reflexivity|]. unfold s1, with_graph. cbn [graph]. rewrite set_same. reflexivity.
      * right. unfold s1, with_graph. cbn [graph]. rewrite set_same. cbn [start]. auto.
    + replace (Nat.eqb a b) with false by (symmetry; apply Nat.eqb_neq; exact AB). cbn [andb].
      destruct (wf_unr _ s W g a GL UN) as [_ K]. destruct (K (fun C => C) LA) as [NP KP]. clear K.
      destruct (redirect_all b (preds s a) s) as (A1 & A2 & A3 & A4 & A5 & A6 & A7 & A8 & A9 & A10 & A11 & A12).
      set (s1 := fold_left (redirect b) (preds s a) s) in *.
      assert (TO : forall e, target s1 e = if existsb (Nat.eqb e) (preds s a) then b else target s e) by exact A12.
      assert (TN : forall e, ~ List.In e (preds s a) -> target s1 e = target s e)
        by (intros e N; rewrite A12; apply has_not_in in N; rewrite N; reflexivity).
      assert (TI : forall e, List.In e (preds s a) -> target s1 e = b)
        by (intros e N; rewrite A12; apply has_in in N; rewrite N; reflexivity).
      assert (W1 : wfx (fun x => x = a) s1).
      { destruct W as [W1 W2 W3 W4 W5 W6 W7 W8]. constructor; rewrite ?A1, ?A2, ?A3, ?A5, ?A6, ?A7, ?A8; auto.
        - intros e E. destruct (W1 e E). split; [assumption|]. rewrite TO. destruct (existsb (Nat.eqb e) (preds s a)); assumption.
        - intros x e I. destruct (W2 x e I) as (B1 & B2 & B3 & B4). repeat split; try assumption.
          destruct (in_dec Nat.eq_dec e (preds s a)) as [IA|IA].
          + rewrite (TI e IA), A10. apply in_or_app. right. exact IA.
          + rewrite (TN e IA). destruct (Nat.eq_dec (target s e) b) as [TB|D]; [rewrite TB in *; rewrite A10; apply in_or_app; left; exact B3 | rewrite (A11 _ D); exact B3].
        - intros x L. destruct (W4 x L) as [P Q]. split; [exact P|]. rewrite A11 by lia. exact Q.
        - intros h x HL I. destruct (W5 h x HL I) as [XL K]. split; [exact XL|]. intros NX. specialize (K (fun C => C)).
          unfold knows in *. rewrite A2, A3, A5, A6. intros E. destruct (K E) as [N1 N2].
          assert (DIS : forall e, List.In e (preds s x) -> ~ List.In e (preds s a)).
          { intros e I1 I2. destruct (N2 e I1) as (_ & T1 & _). destruct (KP e I2) as (_ & T2 & _). congruence. }
          destruct (Nat.eq_dec x b) as [->|D].
          + rewrite A10. split; [exact (nodup_app _ _ N1 NP DIS)|]. intros e I'. apply in_app_or in I'. destruct I' as [I'|I'].
            * destruct (N2 e I') as (P1 & P2 & P3). rewrite (TN e (DIS e I')). auto.
            * destruct (KP e I') as (P1 & P2 & P3). rewrite (TI e I'). auto.
          + rewrite (A11 x D). split; [exact N1|]. intros e I'. destruct (N2 e I') as (P1 & P2 & P3). rewrite (TN e (DIS e I')). auto. }
      assert (UN1 : List.In a (unreachable (graph s1 g))) by (rewrite A8; exact UN).
      assert (GL1 : g < graphs s1) by (rewrite A7; exact GL).
      destruct (not_unreachable_right _ g a s1 W1 GL1 UN1) as [u [E [NU U]]].
      rewrite E. eexists. split; [reflexivity|].
      assert (W2 : wf (with_graph s1 g (mk_cfg (start (graph s1 g)) (final (graph s1 g)) u (owner (graph s1 g))))).
      { apply (with_unr_wf (fun _ => False) a); auto.
        - exact (wfx_weaken _ _ s1 (fun _ X => or_intror X) W1).
        - exact (proj1 (wf_ends _ s1 W1 g GL1)).
        - exact (proj2 (wf_ends _ s1 W1 g GL1)).
        - intros y Y. exact (proj1 (U y) Y). }
      split; [exact W2|]. split; [|split; [exact A1|split; [exact A7|split; [exact A2|split; [|split; [|split; [|split; [|intros x D; exact (A11 x D)]]]]]]]].
      * constructor; unfold with_graph; cbn [blocks locs preds succs reachable edges source target graphs graph places]; rewrite ?A1, ?A2, ?A3, ?A4, ?A5, ?A7; auto.
        -- intros x _. exists []. rewrite app_nil_r. reflexivity.
        -- intros x e I D. split; [exact I|]. apply TN. intros C. destruct (KP e C) as (_ & T & _). destruct D as [D|D]; [congruence|].
           rewrite T in D. contradiction.
        -- intros h HL. unfold set_at. rewrite A8. destruct (Nat.eqb_spec h g) as [->|D]; auto.
        -- intros h x HL I D. unfold set_at. destruct (Nat.eqb_spec h g) as [->|D']; [|rewrite A8; exact I]. cbn [unreachable]. apply U.
           rewrite A8. split; [exact I | congruence].
      * intros p F. unfold front in F. rewrite LA in F. destruct F as [[[x [e [-> [I T]]]]|[_ C]] _]; [|congruence].
        left. exists x, e. unfold with_graph. cbn [locs succs target]. rewrite A2, A3. split; [reflexivity|]. split; [exact I|].
        apply TI. destruct (wf_succ _ s W x e I) as (_ & _ & C & _). rewrite T in C. exact C.
      * intros x _. unfold with_graph. cbn [succs]. rewrite A3. reflexivity.
      * exact A9.
      * left. unfold with_graph. cbn [graph]. rewrite set_same. cbn [start]. rewrite A8. reflexivity.
  - eexists. split; [reflexivity|]. assert (NA : locs s a <> []) by (rewrite LA; discriminate).
    split; [exact (add_edge_wf _ a b s W AL BL NA)|]. split; [exact (add_edge_ext _ G a b s W)|].
    split; [reflexivity|]. split; [reflexivity|]. split; [reflexivity|]. split; [|split; [|split; [reflexivity|split; [left; reflexivity|]]]].
    + intros p F. unfold front in F. rewrite LA in F. left. exists a, (edges s). unfold add_edge. cbn [locs succs target]. rewrite !set_same.
      rewrite LA. split; [exact F|]. split; [apply in_or_app; right; left; reflexivity | reflexivity].
    + intros x D. unfold add_edge. cbn [succs]. apply set_other. exact D.
    + intros x D. unfold add_edge. cbn [preds]. apply set_other. exact D.
Qed.
