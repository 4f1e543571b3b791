(** Where the nodes of the program end up in the graphs. *)
From Coq Require Import String List Bool Arith Lia.
From Verif Require Import Base CfgModel CfgSpec CfgLoopModel CfgLoopSpec CfgBlockProofs CfgWfProofs CfgOpProofs CfgVisitProofs.
Import ListNotations.
Local Open Scope list_scope.
Local Open Scope nat_scope.

Lemma bound : forall A B (r : res A) (k : A -> res B) y, bind r k = Ok y -> exists x, r = Ok x /\ k x = Ok y.
Proof. intros A B [x|e] k y H; [exists x; auto | discriminate]. Qed.

Definition sourced (s : state) : Prop := (forall e, e < edges s -> locs s (source s e) <> []) /\ (forall b e, List.In e (preds s b) -> e < edges s).
Definition clean (s : state) : Prop := (forall b, blocks s <= b -> locs s b = []) /\ sourced s.
Definition located (s : state) : Prop := forall b i x, nth_error (locs s b) i = Some x -> place_of x s = Ok (b, i).
Definition fresh (ns : list nat) (s : state) : Prop := forall b i x, nth_error (locs s b) i = Some x -> ~ List.In (number x) ns.

Record tidy (ns : list nat) (M : nat -> Prop) (s t : state) : Prop := {
  t_blocks : blocks s <= blocks t;
  t_frame : forall b, b < blocks s -> ~ M b -> locs t b = locs s b;
  t_more : forall b, exists l, locs t b = locs s b ++ l;
  t_grew : forall b i x, nth_error (locs t b) i = Some x -> nth_error (locs s b) i = Some x \/ List.In (number x) ns;
  t_place : forall x, ~ List.In (number x) ns -> place_of x t = place_of x s;
  t_clean : clean t;
  t_located : located t }.

Lemma tidy_trans : forall ns ms M N s t u, tidy ns M s t -> tidy ms N t u -> tidy (ns ++ ms) (fun b => M b \/ N b) s u.
Proof.
  intros ns ms M N s t u [A1 A2 A3 A4 A5 A6 A7] [B1 B2 B3 B4 B5 B6 B7]. constructor; auto.
  - lia.
  - intros b L D. rewrite B2, A2; [reflexivity | lia | tauto | lia | tauto].
  - intros b. destruct (A3 b) as [l E], (B3 b) as [l' E']. exists (l ++ l'). rewrite E', E, app_assoc. reflexivity.
  - intros b i x H. destruct (B4 b i x H) as [H'|H']; [destruct (A4 b i x H') as [H''|H'']|]; auto; right; apply in_or_app; auto.
  - intros x D. rewrite B5, A5; [reflexivity | |]; intros C; apply D; apply in_or_app; auto.
Qed.
Lemma tidy_weaken : forall ns ms (M N : nat -> Prop) s t, (forall m, List.In m ns -> List.In m ms) -> (forall b, b < blocks s -> M b -> N b) ->
  tidy ns M s t -> tidy ms N s t.
Proof.
  intros ns ms M N s t SN SM [A1 A2 A3 A4 A5 A6 A7]. constructor; auto.
  - intros b i x H. destruct (A4 b i x H); auto.
Qed.
Lemma tidy_nth : forall ns M s t b i x, tidy ns M s t -> nth_error (locs s b) i = Some x -> nth_error (locs t b) i = Some x.
Proof.
  intros ns M s t b i x T H. destruct (t_more _ _ _ _ T b) as [l ->]. rewrite nth_error_app1; [exact H|]. apply nth_error_Some. congruence.
Qed.
Lemma tidy_fresh : forall ns M s t ms, tidy ns M s t -> fresh ms s -> (forall m, List.In m ns -> ~ List.In m ms) -> fresh ms t.
Proof. intros ns M s t ms T F D b i x H. destruct (t_grew _ _ _ _ T b i x H) as [H'|H']; [exact (F b i x H') | exact (D _ H')]. Qed.
Lemma fresh_less : forall ns ms s, (forall m, List.In m ms -> List.In m ns) -> fresh ns s -> fresh ms s.
Proof. intros ns ms s S F b i x H C. exact (F b i x H (S _ C)). Qed.

(** ** The operations *)

Definition quiet (s t : state) : Prop := blocks t = blocks s /\ locs t = locs s /\ places t = places s /\ (sourced s -> sourced t).
Lemma quiet_tidy : forall s t, clean s -> located s -> quiet s t -> tidy [] (fun _ => False) s t.
Proof.
  intros s t [C SO] L (B & E & P & Q). assert (PO : forall x, place_of x t = place_of x s) by (intros x; unfold place_of; rewrite P; reflexivity). constructor.
  - lia.
  - intros b _ _. rewrite E. reflexivity.
  - intros b. exists []. rewrite E, app_nil_r. reflexivity.
  - intros b i x H. rewrite E in H. auto.
  - intros x _. apply PO.
  - split; [|exact (Q SO)]. intros b H. rewrite E. apply C. lia.
  - intros b i x H. rewrite PO. rewrite E in H. exact (L b i x H).
Qed.
Lemma quiet_refl : forall s, quiet s s.
Proof. intros s. split; [reflexivity|]. split; [reflexivity|]. split; [reflexivity | auto]. Qed.
Lemma quiet_trans : forall s t u, quiet s t -> quiet t u -> quiet s u.
Proof. intros s t u (A & B & C & X) (D & E & F & Y). split; [congruence|]. split; [congruence|]. split; [congruence | auto]. Qed.
Lemma quiet_same : forall s t, blocks t = blocks s -> locs t = locs s -> places t = places s -> edges t = edges s -> source t = source s ->
  (forall b e, List.In e (preds t b) -> List.In e (preds s b)) -> quiet s t.
Proof.
  intros s t A B C D E F. split; [exact A|]. split; [exact B|]. split; [exact C|]. intros [X Y]. split.
  - intros e H. rewrite B, E. apply X. lia.
  - intros b e H. rewrite D. exact (Y b e (F b e H)).
Qed.
Lemma not_unreachable_quiet : forall g b s t, not_unreachable g b s = Ok t -> quiet s t.
Proof.
  intros g b s t H. unfold not_unreachable in H. apply bound in H. destruct H as (u & _ & H).
  assert (t = with_graph s g (mk_cfg (start (graph s g)) (final (graph s g)) u (owner (graph s g)))) as -> by congruence. apply quiet_same; auto.
Qed.
Lemma add_edge_quiet : forall a b s, locs s a <> [] -> quiet s (add_edge a b s).
Proof.
  intros a b s N. split; [reflexivity|]. split; [reflexivity|]. split; [reflexivity|]. intros [X Y]. unfold add_edge. split; cbn [edges locs source preds].
  - intros e H. at_ e (edges s); [exact N | apply X; lia].
  - intros b' e H. at_ b' b; [apply in_app_or in H; destruct H as [H|[<-|[]]]; [specialize (Y b e H); lia | lia] | specialize (Y b' e H); lia].
Qed.
Lemma redirect_quiet : forall b es s, (forall e, List.In e es -> e < edges s) -> quiet s (fold_left (redirect b) es s).
Proof.
  intros b es. induction es as [|e es IH]; intros s L; [apply quiet_refl|]. cbn [fold_left]. apply (quiet_trans s (redirect b s e)).
  - split; [reflexivity|]. split; [reflexivity|]. split; [reflexivity|]. intros [X Y]. unfold redirect. split; cbn [edges locs source preds]; [exact X|].
    intros b' e' H. at_ b' b; [apply in_app_or in H; destruct H as [H|[<-|[]]]; [exact (Y b e' H) | apply L; left; reflexivity] | exact (Y b' e' H)].
  - apply IH. intros e' I. apply L. right. exact I.
Qed.
Lemma quiet_when : forall s t, (sourced s -> quiet s t) -> blocks t = blocks s -> locs t = locs s -> places t = places s -> quiet s t.
Proof. intros s t Q A B C. split; [exact A|]. split; [exact B|]. split; [exact C|]. intros S. destruct (Q S) as (_ & _ & _ & X). exact (X S). Qed.
Lemma redirect_frame : forall b es s, blocks (fold_left (redirect b) es s) = blocks s /\ locs (fold_left (redirect b) es s) = locs s /\ places (fold_left (redirect b) es s) = places s.
Proof. intros b es. induction es as [|e es IH]; intros s; [auto|]. cbn [fold_left]. destruct (IH (redirect b s e)) as (A & B & C). auto. Qed.
Lemma link_or_merge_quiet : forall g a b s t, link_or_merge g a b s = Ok t -> quiet s t.
Proof.
  intros g a b s t H. unfold link_or_merge in H. cbn [is_jump] in H. destruct (locs s a) eqn:LA.
  - destruct (Nat.eqb a (start (graph s g))).
    + apply not_unreachable_quiet in H. apply (quiet_trans _ _ _) with (2 := H). apply quiet_same; auto.
    + destruct (Nat.eqb a b && negb (Nat.eqb (List.length (preds s a)) 0)); [discriminate|].
      apply not_unreachable_quiet in H. apply (quiet_trans _ _ _) with (2 := H). destruct (redirect_frame b (preds s a) s) as (A & B & C).
      apply quiet_when; [|exact A | exact B | exact C]. intros [_ Y]. apply redirect_quiet. exact (Y a).
  - assert (t = add_edge a b s) as -> by congruence. apply add_edge_quiet. rewrite LA. discriminate.
Qed.
Lemma add_edges_quiet : forall e ts s, e < edges s -> locs s (source s e) <> [] -> quiet s (fold_left (fun s t => add_edge (source s e) t s) ts s) /\
  edges s <= edges (fold_left (fun s t => add_edge (source s e) t s) ts s) /\ (forall d, d < edges s -> source (fold_left (fun s t => add_edge (source s e) t s) ts s) d = source s d).
Proof.
  intros e ts. induction ts as [|x ts IH]; intros s L N; [split; [apply quiet_refl | auto]|]. cbn [fold_left].
  assert (SO : forall d, d < edges s -> source (add_edge (source s e) x s) d = source s d) by (intros d LD; unfold add_edge; cbn [source]; apply set_other; lia).
  assert (EE : edges (add_edge (source s e) x s) = S (edges s)) by reflexivity.
  destruct (IH (add_edge (source s e) x s)) as (Q & LE & SO'); [lia | rewrite SO by exact L; exact N|].
  split; [exact (quiet_trans _ _ _ (add_edge_quiet _ x s N) Q)|]. split; [lia|]. intros d LD. rewrite SO' by lia. exact (SO d LD).
Qed.
Lemma links_quiet : forall a ts s, locs s a <> [] -> quiet s (fold_left (fun s t => link a t s) ts s).
Proof. intros a ts. induction ts as [|x ts IH]; intros s N; [apply quiet_refl|]. cbn [fold_left]. exact (quiet_trans _ _ _ (add_edge_quiet a x s N) (IH (add_edge a x s) N)). Qed.
Lemma spread_quiet : forall ts es s t, spread ts es s = Ok t -> (forall e, List.In e es -> e < edges s /\ locs s (source s e) <> []) -> quiet s t.
Proof.
  intros ts es. induction es as [|e es IH]; intros s t H F; cbn [spread] in H; [assert (t = s) as -> by congruence; apply quiet_refl|].
  apply bound in H. destruct H as (l & _ & H). destruct (F e (or_introl eq_refl)) as [L N]. destruct (add_edges_quiet e ts s L N) as (Q & LE & SO).
  set (u := fold_left (fun s t => add_edge (source s e) t s) ts s) in *. clearbody u. apply IH in H.
  - apply (quiet_trans _ _ _ Q). apply (quiet_trans _ _ _) with (2 := H). apply quiet_same; auto.
  - cbn [edges locs source]. intros e' I. destruct (F e' (or_intror I)) as [L' N']. split; [lia|]. rewrite SO by exact L'. destruct Q as (_ & QL & _). rewrite QL. exact N'.
Qed.
Lemma spread_frame : forall ts es s t, spread ts es s = Ok t -> blocks t = blocks s /\ locs t = locs s /\ places t = places s.
Proof.
  assert (ADD : forall e ts s, let t := fold_left (fun s t => add_edge (source s e) t s) ts s in blocks t = blocks s /\ locs t = locs s /\ places t = places s).
  { intros e ts. induction ts as [|x ts IH]; intros s; [cbn; auto|]. cbn [fold_left]. destruct (IH (add_edge (source s e) x s)) as (A & B & C). auto. }
  intros ts es. induction es as [|e es IH]; intros s t H; cbn [spread] in H; [assert (t = s) as -> by congruence; auto|].
  apply bound in H. destruct H as (l & _ & H). apply IH in H. destruct (ADD e ts s) as (A & B & C). cbn [blocks locs places] in H. destruct H as (A' & B' & C').
  split; [congruence|]. split; congruence.
Qed.
Lemma multiple_quiet : forall g a ts s t, multiple_link_or_merge g a ts s = Ok t -> quiet s t.
Proof.
  intros g a ts s t H. unfold multiple_link_or_merge in H. destruct (locs s a) eqn:LA.
  - destruct (existsb (Nat.eqb a) ts && negb (Nat.eqb (List.length (preds s a)) 0)); [discriminate|].
    apply bound in H. destruct H as (u & E & H). apply not_unreachable_quiet in H. apply (quiet_trans _ _ _) with (2 := H).
    apply (quiet_trans s u).
    + destruct (spread_frame _ _ _ _ E) as (A & B & C). apply quiet_when; [|exact A | exact B | exact C]. intros [X Y]. apply (spread_quiet _ _ _ _ E).
      intros e I. split; [exact (Y a e I) | exact (X e (Y a e I))].
    + apply quiet_same; auto. cbn [preds]. intros b e I. at_ b a; [destruct I | exact I].
  - assert (t = fold_left (fun s t => link a t s) ts s) as -> by congruence. apply links_quiet. rewrite LA. discriminate.
Qed.
Lemma update_quiet : forall g s t, update_block_reachability g s = Ok t -> quiet s t.
Proof.
  intros g s t H. unfold update_block_reachability in H. apply bound in H. destruct H as (l & _ & H). cbv zeta in H.
  injection H as <-. apply quiet_same; auto.
Qed.

Lemma new_block_tidy : forall g s, clean s -> located s -> tidy [] (fun _ => False) s (fst (new_block g s)).
Proof.
  intros g s [C [SX SY]] L. assert (E : forall b, locs (fst (new_block g s)) b = locs s b).
  { intros b. unfold new_block, with_graph. cbn [fst locs]. unfold set_at. destruct (Nat.eqb_spec b (blocks s)) as [->|D]; [symmetry; apply C; lia | reflexivity]. }
  assert (PO : forall x, place_of x (fst (new_block g s)) = place_of x s) by reflexivity. constructor.
  - unfold new_block. cbn. lia.
  - intros b _ _. apply E.
  - intros b. exists []. rewrite E, app_nil_r. reflexivity.
  - intros b i x H. rewrite E in H. auto.
  - intros x _. apply PO.
  - split; [|split].
    + intros b H. rewrite E. apply C. unfold new_block in H. cbn in H. lia.
    + intros e H. rewrite E. exact (SX e H).
    + intros b e H. unfold new_block, with_graph in H |- *. cbn [fst preds edges] in *. at_ b (blocks s); [destruct H | exact (SY b e H)].
  - intros b i x H. rewrite PO. rewrite E in H. exact (L b i x H).
Qed.
Lemma new_graph_tidy : forall o s, clean s -> located s ->
  exists t, new_graph o s = (t, graphs s) /\ tidy [] (fun _ => False) s t /\ blocks t = S (S (blocks s)) /\ start (graph t (graphs s)) = blocks s.
Proof.
  intros o s [C [SX SY]] L. rewrite new_graph_is. eexists. split; [reflexivity|].
  match goal with |- tidy _ _ _ ?t /\ _ => set (u := t) end.
  assert (E : forall b, locs u b = locs s b).
  { intros b. unfold u. cbn [fst locs]. unfold set_at. destruct (Nat.eqb_spec b (S (blocks s))) as [->|D]; [symmetry; apply C; lia|].
    destruct (Nat.eqb_spec b (blocks s)) as [->|D']; [symmetry; apply C; lia | reflexivity]. }
  assert (PO : forall x, place_of x u = place_of x s) by reflexivity. split; [|split; [reflexivity | unfold u; cbn [graph]; rewrite !set_same; reflexivity]].
  constructor.
  - unfold u. cbn. lia.
  - intros b _ _. apply E.
  - intros b. exists []. rewrite E, app_nil_r. reflexivity.
  - intros b i x H. rewrite E in H. auto.
  - intros x _. apply PO.
  - split; [|split].
    + intros b H. rewrite E. apply C. unfold u in H. cbn in H. lia.
    + intros e H. rewrite E. exact (SX e H).
    + intros b e H. unfold u in H |- *. cbn [preds edges] in *. at_ b (S (blocks s)); [destruct H|]. at_ b (blocks s); [destruct H | exact (SY b e H)].
  - intros b i x H. rewrite PO. rewrite E in H. exact (L b i x H).
Qed.
Lemma block_after_tidy : forall g p s t b, block_after g p s = Ok (t, b) -> clean s -> located s ->
  tidy [] (fun _ => False) s t /\ b = blocks s /\ blocks t = S (blocks s).
Proof.
  intros g p s t b H C L. unfold block_after in H. apply bound in H. destruct H as (u & E & H). assert (u = t /\ b = blocks s) as [-> ->].
  { split; [congruence|]. change (snd (new_block g s)) with (blocks s) in H. congruence. }
  pose proof (new_block_tidy g s C L) as T1. apply link_or_merge_quiet in E. pose proof (quiet_tidy _ _ (t_clean _ _ _ _ T1) (t_located _ _ _ _ T1) E) as T2.
  split; [|split; [reflexivity|]].
  - apply (tidy_weaken _ [] _ (fun _ => False)) in T1; auto. apply (tidy_weaken ([] ++ []) _ (fun b => False \/ False) _ _ _); [auto | tauto | exact (tidy_trans _ _ _ _ _ _ _ T1 T2)].
  - destruct E as (B & _). rewrite B. reflexivity.
Qed.
Lemma node_eqb_ok : forall a b, node_eqb a b = true -> a = b.
Proof.
  intros a b H. destruct a as [n|n p], b as [m|m q]; cbn [node_eqb] in H; try discriminate.
  - apply Nat.eqb_eq in H. congruence.
  - apply andb_true_iff in H. destruct H as [H1 H2]. apply Nat.eqb_eq in H1. subst m. f_equal.
    destruct p, q; cbn [part_eqb] in H2; try discriminate; try reflexivity; apply Nat.eqb_eq in H2; congruence.
Qed.
Lemma place_with_same : forall s x p, place_of x (with_place s x p) = Ok p.
Proof. intros. unfold place_of, with_place. cbn [places find fst]. rewrite node_eqb_refl. reflexivity. Qed.
Lemma place_with_other : forall s x p y, x <> y -> place_of y (with_place s x p) = place_of y s.
Proof.
  intros s x p y D. unfold place_of, with_place. cbn [places find fst]. destruct (node_eqb x y) eqn:E; [apply node_eqb_ok in E; contradiction | reflexivity].
Qed.
Lemma with_place_tidy : forall y p s, clean s -> located s -> (forall b i, nth_error (locs s b) i <> Some y) -> tidy [number y] (fun _ => False) s (with_place s y p).
Proof.
  intros y p s C L N. constructor.
  - cbn. lia.
  - intros b _ _. reflexivity.
  - intros b. exists []. rewrite app_nil_r. reflexivity.
  - intros b i x H. left. exact H.
  - intros x D. apply place_with_other. intros ->. apply D. left. reflexivity.
  - exact C.
  - intros b i x H. rewrite place_with_other; [exact (L b i x H)|]. intros ->. exact (N b i H).
Qed.
Lemma add_statement_tidy : forall c y s, c < blocks s -> clean s -> located s -> (forall b i, nth_error (locs s b) i <> Some y) ->
  tidy [number y] (eq c) s (add_statement c y s).
Proof.
  intros c y s CL [C [SX SY]] L N. assert (E : locs (add_statement c y s) c = locs s c ++ [y]) by apply add_statement_locs.
  assert (O : forall b, b <> c -> locs (add_statement c y s) b = locs s b).
  { intros b D. unfold add_statement, with_place, with_locs. cbn [is_jump locs]. apply set_other. exact D. }
  assert (NT : forall b i x, nth_error (locs (add_statement c y s) b) i = Some x -> nth_error (locs s b) i = Some x \/ (x = y /\ b = c /\ i = List.length (locs s c))).
  { intros b i x H. destruct (Nat.eq_dec b c) as [->|D]; [|rewrite O in H by exact D; auto]. rewrite E in H.
    destruct (lt_dec i (List.length (locs s c))) as [LI|LI]; [rewrite nth_error_app1 in H by exact LI; auto|].
    rewrite nth_error_app2 in H by lia. destruct (i - List.length (locs s c)) as [|k] eqn:K; cbn [nth_error] in H; [|destruct k; discriminate].
    right. split; [congruence|]. split; [reflexivity | lia]. }
  constructor.
  - unfold add_statement. cbn. lia.
  - intros b _ D. apply O. congruence.
  - intros b. destruct (Nat.eq_dec b c) as [->|D]; [exists [y]; exact E | exists []; rewrite app_nil_r; exact (O b D)].
  - intros b i x H. destruct (NT b i x H) as [H'|[-> _]]; [auto | right; left; reflexivity].
  - intros x D. unfold add_statement. cbn [is_jump]. rewrite place_with_other; [reflexivity|]. intros ->. apply D. left. reflexivity.
  - split; [|split].
    + intros b H. rewrite O; [apply C; exact H|]. unfold add_statement in H. cbn in H. lia.
    + intros e H. change (source (add_statement c y s) e) with (source s e). destruct (Nat.eq_dec (source s e) c) as [->|D]; [rewrite E; intros Q; apply app_eq_nil in Q; destruct Q; discriminate|].
      rewrite O by exact D. exact (SX e H).
    + exact SY.
  - intros b i x H. destruct (NT b i x H) as [H'|(-> & -> & ->)].
    + unfold add_statement. cbn [is_jump]. rewrite place_with_other; [exact (L b i x H')|]. intros ->. exact (N b i H').
    + unfold add_statement. cbn [is_jump]. apply place_with_same.
Qed.
Lemma fresh_not : forall ns s x, fresh ns s -> List.In (number x) ns -> forall b i, nth_error (locs s b) i <> Some x.
Proof. intros ns s x F I b i H. exact (F b i x H I). Qed.
Lemma add_CF_place : forall b y p s t, add_CF_statement b y p s = Ok t -> exists i, position_of b p s = Ok i /\ t = with_place s y (b, i).
Proof. intros b y p s t H. unfold add_CF_statement in H. apply bound in H. destruct H as (i & E & H). exists i. split; [exact E | congruence]. Qed.

(** ** Statements *)

Definition loop_ok (t : state) (l : loop_stmt) : Prop :=
  exists b, place_of (loop_start l) t = Ok (b, 0) /\ nth_error (locs t b) 0 = Some (loop_head l) /\
    forall b' i x, nth_error (locs t b') i = Some x -> List.In (number x) (flat_map numbers (loop_body l)) ->
      exists y, nth_error (locs t b') 0 = Some y /\ List.In (number y) (flat_map numbers (loop_body l)).
Definition loop_numbers (l : loop_stmt) : list nat := loop_number l :: flat_map numbers (loop_body l).

Lemma then_tidy : forall ns ks (M K : nat -> Prop) st s t, tidy ns M st s -> tidy ks K s t -> (forall m, List.In m ks -> List.In m ns) ->
  (forall b, b < blocks st -> K b -> M b) -> tidy ns M st t.
Proof.
  intros ns ks M K st s t A B S1 S2. apply (tidy_weaken (ns ++ ks) ns (fun b => M b \/ K b) M st t).
  - intros m I. apply in_app_or in I. destruct I; auto.
  - intros b L [H|H]; auto.
  - exact (tidy_trans _ _ _ _ _ _ _ A B).
Qed.
Lemma then_quiet : forall ns (M : nat -> Prop) st s t, tidy ns M st s -> quiet s t -> tidy ns M st t.
Proof.
  intros ns M st s t A Q. apply (then_tidy ns [] M (fun _ => False) st s t A); [|intros m [] | tauto].
  exact (quiet_tidy s t (t_clean _ _ _ _ A) (t_located _ _ _ _ A) Q).
Qed.
Lemma then_new : forall ns (M : nat -> Prop) st s g, tidy ns M st s -> tidy ns M st (fst (new_block g s)).
Proof.
  intros ns M st s g A. apply (then_tidy ns [] M (fun _ => False) st s _ A); [|intros m [] | tauto].
  exact (new_block_tidy g s (t_clean _ _ _ _ A) (t_located _ _ _ _ A)).
Qed.
Lemma tidy_refl : forall ns M s, clean s -> located s -> tidy ns M s s.
Proof.
  intros ns M s C L. constructor; auto. intros b. exists []. rewrite app_nil_r. reflexivity.
Qed.
Lemma quiet_fresh : forall ms s t, quiet s t -> fresh ms s -> fresh ms t.
Proof. intros ms s t (_ & E & _) F b i x H. rewrite E in H. exact (F b i x H). Qed.
Lemma loop_ok_later : forall ks K s t l, tidy ks K s t -> loop_ok s l -> (forall m, List.In m (loop_numbers l) -> ~ List.In m ks) -> loop_ok t l.
Proof.
  intros ks K s t l T (b & P & N & F) D. exists b. split; [|split].
  - rewrite (t_place _ _ _ _ T); [exact P|]. apply D. left. unfold loop_start. destruct (loop_for l); reflexivity.
  - exact (tidy_nth _ _ _ _ _ _ _ T N).
  - intros b' i x H I. destruct (t_grew _ _ _ _ T b' i x H) as [H'|H'].
    + destruct (F b' i x H' I) as (y & Y & IY). exists y. split; [exact (tidy_nth _ _ _ _ _ _ _ T Y) | exact IY].
    + exfalso. apply (D (number x)); [right; exact I | exact H'].
Qed.
Lemma loops_ok_later : forall ks K s t ls, tidy ks K s t -> Forall (loop_ok s) ls -> (forall l m, List.In l ls -> List.In m (loop_numbers l) -> ~ List.In m ks) ->
  Forall (loop_ok t) ls.
Proof.
  intros ks K s t ls T F D. rewrite Forall_forall in *. intros l I. apply (loop_ok_later ks K s t l T (F l I)). intros m. exact (D l m I).
Qed.

Fixpoint loops_numbers (s : stmt) : forall l m, List.In l (loops s) -> List.In m (loop_numbers l) -> List.In m (numbers s).
Proof.
  assert (ALL : forall b l m, List.In l (flat_map loops b) -> List.In m (loop_numbers l) -> List.In m (flat_map numbers b)).
  { induction b as [|s' b IH]; intros l m I J; [destruct I|]. cbn [flat_map] in *. apply in_app_or in I. apply in_or_app.
    destruct I as [I|I]; [left; exact (loops_numbers s' l m I J) | right; exact (IH l m I J)]. }
  assert (HS : forall hs : list (list string * bool * list stmt), forall l m, List.In l (flat_map (fun h => flat_map loops (snd h)) hs) -> List.In m (loop_numbers l) ->
    List.In m (flat_map (fun h => flat_map numbers (snd h)) hs)).
  { induction hs as [|[[ty nm] b] hs IH]; intros l m I J; [destruct I|]. cbn [flat_map snd] in *. apply in_app_or in I. apply in_or_app.
    destruct I as [I|I]; [left; exact (ALL b l m I J) | right; exact (IH l m I J)]. }
  assert (HEAD : forall f n b e l m, l = mk_loop f n b e -> List.In m (loop_numbers l) -> List.In m (n :: flat_map numbers b ++ flat_map numbers e)).
  { intros f n b e l m -> J. unfold loop_numbers in J. cbn [loop_number loop_body] in J. destruct J as [J|J]; [left; exact J | right; apply in_or_app; left; exact J]. }
  assert (BOTH : forall n b e l m, List.In l (flat_map loops b ++ flat_map loops e) -> List.In m (loop_numbers l) -> List.In m (n :: flat_map numbers b ++ flat_map numbers e)).
  { intros n b e l m I J. apply in_app_or in I. right. apply in_or_app. destruct I as [I|I]; [left | right]; exact (ALL _ l m I J). }
  destruct s; intros l m I J; cbn [loops numbers] in *.
  - destruct I.
  - destruct I.
  - destruct I.
  - right. exact (ALL _ l m I J).
  - right. exact (ALL _ l m I J).
  - exact (BOTH _ _ _ l m I J).
  - destruct I as [I|I]; [exact (HEAD _ _ _ _ l m (eq_sym I) J) | exact (BOTH _ _ _ l m I J)].
  - destruct I as [I|I]; [exact (HEAD _ _ _ _ l m (eq_sym I) J) | exact (BOTH _ _ _ l m I J)].
  - right. rewrite !in_app_iff in *. destruct I as [I|[I|I]]; [left; exact (ALL _ l m I J) | right; left; exact (HS _ l m I J) | right; right; left; exact (ALL _ l m I J)].
  - right. exact (ALL _ l m I J).
Qed.
Lemma loops_numbers_all : forall b l m, List.In l (flat_map loops b) -> List.In m (loop_numbers l) -> List.In m (flat_map numbers b).
Proof.
  intros b l m I J. apply in_flat_map in I. destruct I as (s & I & L). apply in_flat_map. exists s. split; [exact I | exact (loops_numbers s l m L J)].
Qed.

Record done (ns : list nat) (ls : list loop_stmt) (st : state) (c : nat) (t : state) (c' : nat) : Prop := {
  d_tidy : tidy ns (eq c) st t;
  d_block : c' < blocks t;
  d_where : c' = c \/ blocks st <= c';
  d_loops : Forall (loop_ok t) ls }.
Definition stmt_tidy (s : stmt) : Prop :=
  forall g bs st c t c', visit g bs s (st, c) = Ok (t, c') -> NoDup (numbers s) -> c < blocks st -> clean st -> located st -> fresh (numbers s) st ->
    done (numbers s) (loops s) st c t c'.
Definition list_tidy (l : list stmt) : Prop :=
  forall g bs st c t c', visit_all g bs l (st, c) = Ok (t, c') -> NoDup (flat_map numbers l) -> c < blocks st -> clean st -> located st ->
    fresh (flat_map numbers l) st -> done (flat_map numbers l) (flat_map loops l) st c t c'.

Lemma list_tidy_of : forall l, Forall stmt_tidy l -> list_tidy l.
Proof.
  intros l F. induction F as [|s l HS F IH]; intros g bs st c t c' E ND CL C L FR.
  - cbn [visit_all] in E. assert (t = st /\ c' = c) as [-> ->] by (split; congruence). constructor; [exact (tidy_refl _ _ st C L) | exact CL | auto | constructor].
  - cbn [visit_all] in E. apply bound in E. destruct E as ([s1 c1] & E1 & E). cbn [flat_map] in *. destruct (NoDup_app_l _ _ ND) as (N1 & N2 & D).
    destruct (HS g bs st c s1 c1 E1 N1 CL C L) as [T1 B1 W1 L1].
    { apply (fresh_less (numbers s ++ flat_map numbers l)); [intros m I; apply in_or_app; auto | exact FR]. }
    destruct (IH g bs s1 c1 t c' E N2 B1 (t_clean _ _ _ _ T1) (t_located _ _ _ _ T1)) as [T2 B2 W2 L2].
    { apply (tidy_fresh _ _ _ _ _ T1); [|exact D]. apply (fresh_less (numbers s ++ flat_map numbers l)); [intros m I; apply in_or_app; auto | exact FR]. }
    pose proof (t_blocks _ _ _ _ T1). constructor.
    + apply (tidy_weaken (numbers s ++ flat_map numbers l) _ (fun b => c = b \/ c1 = b) (eq c) st t); [auto | | exact (tidy_trans _ _ _ _ _ _ _ T1 T2)].
      intros b LB [Q|Q]; [exact Q|]. destruct W1; lia.
    + exact B2.
    + destruct W2 as [->|W2]; [exact W1 | right; lia].
    + apply Forall_app. split; [|exact L2]. apply (loops_ok_later _ _ _ _ _ T2 L1). intros x m I J. apply D. exact (loops_numbers s x m I J).
Qed.

Lemma add_tidy : forall c y s ns, c < blocks s -> clean s -> located s -> fresh ns s -> List.In (number y) ns -> tidy [number y] (eq c) s (add_statement c y s).
Proof. intros c y s ns CL C L F I. exact (add_statement_tidy c y s CL C L (fresh_not ns s y F I)). Qed.

Lemma simple_tidy : forall n, stmt_tidy (Simple n).
Proof.
  intros n g bs st c t c' E ND CL C L FR. cbn [visit] in E. assert (t = add_statement c (Whole n) st /\ c' = c) as [-> ->] by (split; congruence).
  constructor; auto; [|constructor]. exact (add_tidy c (Whole n) st _ CL C L FR (or_introl eq_refl)).
Qed.
Lemma opaque_tidy : forall n b, stmt_tidy (Opaque n b).
Proof.
  intros n b g bs st c t c' E ND CL C L FR. cbn [visit] in E. assert (t = add_statement c (Whole n) st /\ c' = c) as [-> ->] by (split; congruence).
  constructor; auto; [|constructor]. apply (tidy_weaken [n] _ (eq c)); [intros m [<-|[]]; left; reflexivity | auto|].
  exact (add_tidy c (Whole n) st _ CL C L FR (or_introl eq_refl)).
Qed.
Lemma jump_tidy : forall n k, stmt_tidy (Jump n k).
Proof.
  intros n k g bs st c t c' E ND CL C L FR. cbn [visit] in E.
  pose proof (add_tidy c (Whole n) st _ CL C L FR (or_introl eq_refl)) as T1.
  assert (Q : quiet (add_statement c (Whole n) st) match jump_target (keys_of k) bs with Some b => link c b (add_statement c (Whole n) st) | None => add_statement c (Whole n) st end).
  { destruct (jump_target (keys_of k) bs); [|apply quiet_refl]. apply add_edge_quiet. rewrite add_statement_locs. intros Q. apply app_eq_nil in Q. destruct Q; discriminate. }
  set (s2 := match jump_target (keys_of k) bs with Some b => link c b (add_statement c (Whole n) st) | None => add_statement c (Whole n) st end) in *.
  assert (t = fst (new_block g s2) /\ c' = blocks s2) as [-> ->] by (split; [assert (X : new_block g s2 = (t, c')) by congruence; rewrite X; reflexivity | assert (X : new_block g s2 = (t, c')) by congruence; assert (Y : snd (new_block g s2) = c') by (rewrite X; reflexivity); symmetry; exact Y]).
  pose proof (then_quiet _ _ _ _ _ T1 Q) as T2. pose proof (then_new _ _ _ _ g T2) as T3. constructor.
  - exact T3.
  - unfold new_block. cbn. lia.
  - right. exact (t_blocks _ _ _ _ T2).
  - constructor.
Qed.

Lemma with_tidy : forall n items body, list_tidy body -> stmt_tidy (With n items body).
Proof.
  intros n items body HB g bs st c t c' E ND CL C L FR. rewrite visit_with in E. cbn [numbers] in *. inversion ND as [|n' l' NI ND']; subst.
  assert (T1 : tidy [n] (fun _ => False) st (with_place st (Whole n) (c, List.length (locs st c)))).
  { apply (with_place_tidy (Whole n)); auto. apply (fresh_not _ st _ FR). left. reflexivity. }
  assert (T2 : forall i s, tidy [n] (eq c) st s -> (forall j x b k, i <= j -> (x = Context j \/ x = ContextName j) -> nth_error (locs s b) k <> Some (Part n x)) ->
    tidy [n] (eq c) st (fold_left (fun s m => add_statement c m s) (with_items n i items) s)).
  { clear E. induction items as [|named items IH]; intros i s T A; [exact T|]. cbn [with_items fold_left]. rewrite fold_left_app.
    assert (ADD : forall x s', tidy [n] (eq c) st s' -> (forall b k, nth_error (locs s' b) k <> Some (Part n x)) -> tidy [n] (eq c) st (add_statement c (Part n x) s') /\
      forall y b k, y <> x -> nth_error (locs s' b) k <> Some (Part n y) -> nth_error (locs (add_statement c (Part n x) s') b) k <> Some (Part n y)).
    { intros x s' T' A'. pose proof (t_blocks _ _ _ _ T') as BL.
      pose proof (add_statement_tidy c (Part n x) s' ltac:(lia) (t_clean _ _ _ _ T') (t_located _ _ _ _ T') A') as TA. split; [exact (then_tidy _ _ _ _ _ _ _ T' TA (fun m I => I) (fun b _ Q => Q))|].
      intros y b k D NN C'. destruct (Nat.eq_dec b c) as [->|DB].
      - rewrite add_statement_locs in C'. destruct (lt_dec k (List.length (locs s' c))) as [LK|LK]; [rewrite nth_error_app1 in C' by exact LK; exact (NN C')|].
        rewrite nth_error_app2 in C' by lia. destruct (k - List.length (locs s' c)) as [|k']; cbn [nth_error] in C'; [congruence | destruct k'; discriminate].
      - unfold add_statement, with_place, with_locs in C'. cbn [is_jump locs] in C'. rewrite set_other in C' by exact DB. exact (NN C'). }
    destruct (ADD (Context i) s T) as [TA NA]; [intros b k; apply (A i); auto|].
    assert (TB : exists s2, fold_left (fun s m => add_statement c m s) (if named then [Part n (ContextName i)] else []) (add_statement c (Part n (Context i)) s) = s2 /\ tidy [n] (eq c) st s2 /\
      forall j x b k, S i <= j -> (x = Context j \/ x = ContextName j) -> nth_error (locs s2 b) k <> Some (Part n x)).
    { destruct named; cbn [fold_left].
      - destruct (ADD (ContextName i) (add_statement c (Part n (Context i)) s) TA) as [TB NB]; [intros b k; apply NA; [discriminate | apply (A i); auto]|].
        eexists. split; [reflexivity|]. split; [exact TB|]. intros j x b k LJ X. apply NB; [destruct X as [-> | ->]; intros Q; [discriminate | injection Q; lia]|].
        apply NA; [destruct X as [-> | ->]; intros Q; [injection Q; lia | discriminate] | apply (A j); [lia | exact X]].
      - eexists. split; [reflexivity|]. split; [exact TA|]. intros j x b k LJ X. apply NA; [destruct X as [-> | ->]; intros Q; [injection Q; lia | discriminate] | apply (A j); [lia | exact X]]. }
    destruct TB as (s2 & -> & TB & AB). exact (IH (S i) s2 TB AB). }
  specialize (T2 0 (with_place st (Whole n) (c, List.length (locs st c)))).
  assert (T3 : tidy [n] (eq c) st (fold_left (fun s m => add_statement c m s) (with_items n 0 items) (with_place st (Whole n) (c, List.length (locs st c))))).
  { apply T2; [apply (tidy_weaken [n] _ (fun _ => False)); auto; tauto|]. intros j x b k _ X. apply (fresh_not (n :: flat_map numbers body) st _ FR). left. reflexivity. }
  set (s2 := fold_left (fun s m => add_statement c m s) (with_items n 0 items) (with_place st (Whole n) (c, List.length (locs st c)))) in *. clearbody s2. clear T2.
  pose proof (t_blocks _ _ _ _ T3) as BL. destruct (HB g bs s2 c t c' E ND' ltac:(lia) (t_clean _ _ _ _ T3) (t_located _ _ _ _ T3)) as [T4 B4 W4 L4].
  { apply (tidy_fresh _ _ _ _ _ T3); [apply (fresh_less (n :: flat_map numbers body)); [intros m I; right; exact I | exact FR]|]. intros m [<-|[]]. exact NI. }
  constructor.
  - apply (tidy_weaken ([n] ++ flat_map numbers body) _ (fun b => c = b \/ c = b)); [auto | tauto | exact (tidy_trans _ _ _ _ _ _ _ T3 T4)].
  - exact B4.
  - destruct W4; [auto | right; lia].
  - exact L4.
Qed.

Lemma if_tidy : forall n body orelse, list_tidy body -> list_tidy orelse -> stmt_tidy (If n body orelse).
Proof.
  intros n body orelse HB HE g bs st c t c' E ND CL C L FR. rewrite visit_if in E. cbn [numbers] in *. inversion ND as [|n' l' NI ND']; subst.
  destruct (NoDup_app_l _ _ ND') as (N1 & N2 & D). set (ns := n :: flat_map numbers body ++ flat_map numbers orelse) in *.
  pose proof (add_tidy c (Part n Test) st ns CL C L FR (or_introl eq_refl)) as T1. cbn [number] in T1.
  apply bound in E. destruct E as (s2 & E2 & E). apply add_CF_place in E2. destruct E2 as (i & _ & ->).
  assert (T2 : tidy [n] (eq c) st (with_place (add_statement c (Part n Test) st) (Whole n) (c, i))).
  { apply (then_tidy [n] [n] (eq c) (fun _ => False) st _ _ T1); [|auto | tauto]. apply (with_place_tidy (Whole n)); [exact (t_clean _ _ _ _ T1) | exact (t_located _ _ _ _ T1)|].
    intros b k H. destruct (Nat.eq_dec b c) as [->|DB].
    - rewrite add_statement_locs in H. destruct (lt_dec k (List.length (locs st c))) as [LK|LK]; [rewrite nth_error_app1 in H by exact LK; exact (FR _ _ _ H (or_introl eq_refl))|].
      rewrite nth_error_app2 in H by lia. destruct (k - List.length (locs st c)) as [|k']; cbn [nth_error] in H; [congruence | destruct k'; discriminate].
    - unfold add_statement, with_place, with_locs in H. cbn [is_jump locs] in H. rewrite set_other in H by exact DB. exact (FR _ _ _ H (or_introl eq_refl)). }
  set (s2 := with_place (add_statement c (Part n Test) st) (Whole n) (c, i)) in *. clearbody s2. clear T1.
  apply bound in E. destruct E as ([s3 b3] & E3 & E). destruct (block_after_tidy _ _ _ _ _ E3 (t_clean _ _ _ _ T2) (t_located _ _ _ _ T2)) as (T3 & -> & B3). clear E3.
  apply bound in E. destruct E as ([s4 e1] & E4 & E). cbn [fst snd] in E. pose proof (t_blocks _ _ _ _ T2) as BL2.
  assert (FB : fresh (flat_map numbers body ++ flat_map numbers orelse) s3).
  { apply (tidy_fresh _ _ _ _ _ T3); [|intros m []]. apply (tidy_fresh _ _ _ _ _ T2); [apply (fresh_less ns); [intros m I; right; exact I | exact FR]|]. intros m [<-|[]]. exact NI. }
  destruct (HB _ _ _ _ _ _ E4 N1 ltac:(lia) (t_clean _ _ _ _ T3) (t_located _ _ _ _ T3)) as [T4 B4 W4 L4].
  { eapply fresh_less; [|exact FB]. intros m I. apply in_or_app. auto. }
  assert (F4 : fresh (flat_map numbers orelse) s4).
  { apply (tidy_fresh _ _ _ _ _ T4); [|exact D]. eapply fresh_less; [|exact FB]. intros m I. apply in_or_app. auto. }
  assert (T04 : tidy ns (eq c) st s4).
  { apply (then_tidy ns (flat_map numbers body) (eq c) (eq (blocks s2)) st s3 s4); [|exact T4 | intros m I; right; apply in_or_app; auto | intros b LB Q; lia].
    apply (then_tidy ns [] (eq c) (fun _ => False) st s2 s3); [|exact T3 | intros m [] | tauto].
    apply (tidy_weaken [n] ns (eq c) (eq c)); [intros m [<-|[]]; left; reflexivity | auto | exact T2]. }
  pose proof (t_blocks _ _ _ _ T3) as BL3. pose proof (t_blocks _ _ _ _ T4) as BL4.
  apply bound in E. destruct E as ([s5 e2] & E5 & E).
  assert (X : done (flat_map numbers orelse) (flat_map loops orelse) s4 c s5 e2 \/ done (flat_map numbers orelse) (flat_map loops orelse) s4 (blocks s4) s5 e2).
  { destruct orelse as [|f l].
    - left. assert (s5 = s4 /\ e2 = c) as [-> ->] by (split; congruence). constructor; [exact (tidy_refl _ _ s4 (t_clean _ _ _ _ T4) (t_located _ _ _ _ T4)) | lia | auto | constructor].
    - right. apply bound in E5. destruct E5 as ([s4' b4] & E4' & E5). destruct (block_after_tidy _ _ _ _ _ E4' (t_clean _ _ _ _ T4) (t_located _ _ _ _ T4)) as (T4' & -> & B4').
      destruct (HE _ _ _ _ _ _ E5 N2 ltac:(lia) (t_clean _ _ _ _ T4') (t_located _ _ _ _ T4') (tidy_fresh _ _ _ _ _ T4' F4 (fun m I => match I with end))) as [T5 B5 W5 L5].
      constructor.
      + apply (tidy_weaken ([] ++ flat_map numbers (f :: l)) _ (fun b => False \/ blocks s4 = b)); [auto | tauto | exact (tidy_trans _ _ _ _ _ _ _ T4' T5)].
      + exact B5.
      + destruct W5; [auto | right; lia].
      + exact L5. }
  cbn [fst snd] in E. assert (X' : exists c0, (c0 = c \/ blocks st <= c0) /\ done (flat_map numbers orelse) (flat_map loops orelse) s4 c0 s5 e2) by (destruct X; [exists c; auto | exists (blocks s4); split; [right; lia | assumption]]).
  destruct X' as (c0 & C0 & [T5 B5 W5 L5]). clear X. pose proof (t_blocks _ _ _ _ T5) as BL5.
  replace (new_block g s5) with (fst (new_block g s5), blocks s5) in E by reflexivity.
  pose proof (new_block_tidy g s5 (t_clean _ _ _ _ T5) (t_located _ _ _ _ T5)) as T6.
  assert (B6 : blocks (fst (new_block g s5)) = S (blocks s5)) by reflexivity. set (s6 := fst (new_block g s5)) in *. clearbody s6.
  apply bound in E. destruct E as (s7 & E7 & E). apply link_or_merge_quiet in E7. apply bound in E. destruct E as (s8 & E8 & E). apply link_or_merge_quiet in E8.
  assert (t = s8 /\ c' = blocks s5) as [-> ->] by (split; congruence).
  assert (T58 : tidy [] (fun _ => False) s5 s8) by exact (then_quiet _ _ _ _ _ (then_quiet _ _ _ _ _ T6 E7) E8).
  assert (T48 : tidy (flat_map numbers orelse) (eq c0) s4 s8).
  { apply (then_tidy _ [] _ (fun _ => False) s4 s5 s8 T5 T58); [intros m [] | tauto]. }
  constructor.
  - apply (then_tidy ns (flat_map numbers orelse) (eq c) (eq c0) st s4 s8 T04 T48); [intros m I; right; apply in_or_app; auto | intros b LB Q; destruct C0; lia].
  - destruct E8 as (X8 & _), E7 as (X7 & _). lia.
  - right. lia.
  - cbn [loops]. apply Forall_app. split.
    + apply (loops_ok_later _ _ _ _ _ T48 L4). intros x m I J. apply D. exact (loops_numbers_all body x m I J).
    + apply (loops_ok_later _ _ _ _ _ T58 L5). intros x m I J [].
Qed.

(** The part that both loops share. *)
Lemma loop_tidy : forall (is_for : bool) (n : nat) (body orelse : list stmt) (s0 : state) (test : nat) (t : state) (g : nat) (bs : boundaries) (c' : nat), list_tidy body -> list_tidy orelse ->
  test < blocks s0 -> locs s0 test = [Part n (if is_for then Target else Test)] -> place_of (loop_start (mk_loop is_for n body orelse)) s0 = Ok (test, 0) ->
  clean s0 -> located s0 -> ~ List.In n (flat_map numbers body ++ flat_map numbers orelse) -> NoDup (flat_map numbers body ++ flat_map numbers orelse) ->
  fresh (flat_map numbers body ++ flat_map numbers orelse) s0 -> visit_loop g bs test body orelse s0 = Ok (t, c') ->
  c' = blocks s0 /\ c' < blocks t /\ tidy (flat_map numbers body ++ flat_map numbers orelse) (fun _ => False) s0 t /\
    Forall (loop_ok t) (mk_loop is_for n body orelse :: flat_map loops body ++ flat_map loops orelse).
Proof.
  intros is_for n body orelse s0 test t g bs c' HB HE TL LT PT C L NI ND FR E. destruct (NoDup_app_l _ _ ND) as (N1 & N2 & D).
  unfold visit_loop in E. replace (new_block g s0) with (fst (new_block g s0), blocks s0) in E by reflexivity.
  pose proof (new_block_tidy g s0 C L) as T0. assert (B0 : blocks (fst (new_block g s0)) = S (blocks s0)) by reflexivity.
  set (s := fst (new_block g s0)) in *. clearbody s.
  assert (LTs : locs s test = [Part n (if is_for then Target else Test)]) by (rewrite (t_frame _ _ _ _ T0 test TL (fun x => x)); exact LT).
  rewrite <- (t_place _ _ _ _ T0 _ (fun x => x)) in PT. apply (fun F => tidy_fresh _ _ _ _ _ T0 F (fun m (I : List.In m []) => match I with end)) in FR.
  pose proof (t_blocks _ _ _ _ T0) as BL0. clear C L LT. pose proof (t_clean _ _ _ _ T0) as C. pose proof (t_located _ _ _ _ T0) as L. rename LTs into LT.
  assert (TLs : test < blocks s) by lia. set (after := blocks s0) in *. assert (AL : after < blocks s) by lia. clear TL. rename TLs into TL. clearbody after.
  cut (c' = after /\ c' < blocks t /\ tidy (flat_map numbers body ++ flat_map numbers orelse) (fun _ => False) s t /\
       Forall (loop_ok t) (mk_loop is_for n body orelse :: flat_map loops body ++ flat_map loops orelse)).
  { intros (A1 & A2 & A3 & A4). split; [exact A1|]. split; [exact A2|]. split; [|exact A4].
    apply (tidy_weaken ([] ++ (flat_map numbers body ++ flat_map numbers orelse)) _ (fun b => False \/ False)); [auto | tauto | exact (tidy_trans _ _ _ _ _ _ _ T0 A3)]. }
  apply bound in E. destruct E as ([s1 b1] & E1 & E). destruct (block_after_tidy _ _ _ _ _ E1 C L) as (T1 & -> & B1). clear E1.
  apply bound in E. destruct E as ([s2 e1] & E2 & E). cbn [fst snd] in E.
  pose proof (tidy_fresh _ _ _ _ _ T1 FR (fun m (I : List.In m []) => match I with end)) as FR1.
  destruct (HB _ _ _ _ _ _ E2 N1 ltac:(lia) (t_clean _ _ _ _ T1) (t_located _ _ _ _ T1)) as [T2 B2 W2 L2]; [eapply fresh_less; [|exact FR1]; intros m I; apply in_or_app; auto|].
  assert (F2 : fresh (flat_map numbers orelse) s2).
  { apply (tidy_fresh _ _ _ _ _ T2); [|exact D]. eapply fresh_less; [|exact FR1]. intros m I. apply in_or_app. auto. }
  apply bound in E. destruct E as (s3 & E3 & E). apply link_or_merge_quiet in E3.
  pose proof (quiet_tidy _ _ (t_clean _ _ _ _ T2) (t_located _ _ _ _ T2) E3) as T3.
  apply bound in E. destruct E as ([s4 b4] & E4 & E). destruct (block_after_tidy _ _ _ _ _ E4 (t_clean _ _ _ _ T3) (t_located _ _ _ _ T3)) as (T4 & -> & B4). clear E4.
  apply bound in E. destruct E as ([s5 e2] & E5 & E). cbn [fst snd] in E.
  pose proof (tidy_fresh _ _ _ _ _ T4 (quiet_fresh _ _ _ E3 F2) (fun m (I : List.In m []) => match I with end)) as F4.
  destruct (HE _ _ _ _ _ _ E5 N2 ltac:(lia) (t_clean _ _ _ _ T4) (t_located _ _ _ _ T4) F4) as [T5 B5 W5 L5].
  apply bound in E. destruct E as (s6 & E6 & E). apply link_or_merge_quiet in E6. assert (t = s6 /\ c' = after) as [-> ->] by (split; congruence).
  pose proof (quiet_tidy _ _ (t_clean _ _ _ _ T5) (t_located _ _ _ _ T5) E6) as T6.
  pose proof (t_blocks _ _ _ _ T1) as BL1. pose proof (t_blocks _ _ _ _ T2) as BL2. pose proof (t_blocks _ _ _ _ T3) as BL3.
  assert (T26 : tidy (flat_map numbers orelse) (eq (blocks s3)) s2 s6).
  { apply (then_tidy _ [] _ (fun _ => False) s2 s5 s6); [|exact T6 | intros m [] | tauto].
    apply (then_tidy _ (flat_map numbers orelse) _ (eq (blocks s3)) s2 s4 s5); [|exact T5 | auto | auto].
    apply (tidy_weaken ([] ++ []) _ (fun b => False \/ False)); [intros m [] | tauto | exact (tidy_trans _ _ _ _ _ _ _ T3 T4)]. }
  split; [reflexivity|]. split; [pose proof (t_blocks _ _ _ _ T26); lia|]. split.
  - apply (then_tidy _ (flat_map numbers orelse) _ (eq (blocks s3)) s s2 s6); [|exact T26 | intros m I; apply in_or_app; auto | intros b LB Q; lia].
    apply (then_tidy _ (flat_map numbers body) _ (eq (blocks s)) s s1 s2); [|exact T2 | intros m I; apply in_or_app; auto | intros b LB Q; lia].
    apply (tidy_weaken [] _ (fun _ => False)); [intros m [] | tauto | exact T1].
  - constructor; [|apply Forall_app; split].
    + apply (loop_ok_later _ _ _ _ _ T26).
      * exists test. cbn [loop_body]. split; [|split].
        -- rewrite (t_place _ _ _ _ T2); [rewrite (t_place _ _ _ _ T1); [exact PT | intros []]|]. intros I. apply NI. apply in_or_app. left.
           replace (number (loop_start (mk_loop is_for n body orelse))) with n in I by (destruct is_for; reflexivity). exact I.
        -- apply (tidy_nth _ _ _ _ _ _ _ T2). apply (tidy_nth _ _ _ _ _ _ _ T1). rewrite LT. reflexivity.
        -- intros b i x H I. assert (E0 : locs s1 b = [] \/ nth_error (locs s1 b) i = Some x).
           { destruct (lt_dec b (blocks s)) as [LB|LB].
             - right. rewrite <- (t_frame _ _ _ _ T2 b); [exact H | lia | lia].
             - left. destruct (Nat.eq_dec b (blocks s)) as [->|DB].
               + destruct (t_more _ _ _ _ T1 (blocks s)) as [l EL]. destruct (locs s1 (blocks s)) as [|y l'] eqn:E0; [reflexivity|]. exfalso.
                 assert (N0 : nth_error (locs s1 (blocks s)) 0 = Some y) by (rewrite E0; reflexivity).
                 destruct (t_grew _ _ _ _ T1 _ _ _ N0) as [N0'|[]]. rewrite (proj1 C (blocks s) (le_n _)) in N0'. discriminate.
               + apply (t_clean _ _ _ _ T1). lia. }
           destruct E0 as [E0|E0].
           ++ destruct (locs s2 b) as [|y l] eqn:EL; [destruct i; discriminate|]. exists y. split; [reflexivity|].
              assert (N0 : nth_error (locs s2 b) 0 = Some y) by (rewrite EL; reflexivity).
              destruct (t_grew _ _ _ _ T2 _ _ _ N0) as [N0'|N0']; [rewrite E0 in N0'; discriminate | exact N0'].
           ++ exfalso. apply (FR1 _ _ _ E0). apply in_or_app. left. exact I.
      * intros m [<-|I] J; [apply NI; apply in_or_app; right; exact J | exact (D m I J)].
    + apply (loops_ok_later _ _ _ _ _ T26 L2). intros x m I J. apply D. exact (loops_numbers_all body x m I J).
    + apply (loops_ok_later _ _ _ _ _ T6 L5). intros x m I J [].
Qed.

Lemma nth_add : forall c y s b k x, nth_error (locs (add_statement c y s) b) k = Some x -> nth_error (locs s b) k = Some x \/ x = y.
Proof.
  intros c y s b k x H. destruct (Nat.eq_dec b c) as [->|DB].
  - rewrite add_statement_locs in H. destruct (lt_dec k (List.length (locs s c))) as [LK|LK]; [rewrite nth_error_app1 in H by exact LK; auto|].
    rewrite nth_error_app2 in H by lia. destruct (k - List.length (locs s c)) as [|k']; cbn [nth_error] in H; [right; congruence | destruct k'; discriminate].
  - unfold add_statement, with_place, with_locs in H. cbn [is_jump locs] in H. rewrite set_other in H by exact DB. auto.
Qed.

Lemma while_tidy : forall n body orelse, list_tidy body -> list_tidy orelse -> stmt_tidy (While n body orelse).
Proof.
  intros n body orelse HB HE g bs st c t c' E ND CL C L FR. rewrite visit_while in E. cbn [numbers] in *. inversion ND as [|n' l' NI ND']; subst.
  set (ns := n :: flat_map numbers body ++ flat_map numbers orelse) in *. cbv zeta in E.
  pose proof (new_block_tidy g st C L) as T1. assert (B1 : blocks (fst (new_block g st)) = S (blocks st)) by reflexivity.
  destruct (new_block_empty g st) as [L1 _]. set (s1 := fst (new_block g st)) in *. clearbody s1.
  pose proof (tidy_fresh _ _ _ _ _ T1 FR (fun m (I : List.In m []) => match I with end)) as FR1.
  pose proof (add_tidy (blocks st) (Part n Test) s1 ns ltac:(lia) (t_clean _ _ _ _ T1) (t_located _ _ _ _ T1) FR1 (or_introl eq_refl)) as T2. cbn [number] in T2.
  assert (L2 : locs (add_statement (blocks st) (Part n Test) s1) (blocks st) = [Part n Test]) by (rewrite add_statement_locs, L1; reflexivity).
  assert (FW : forall b k, nth_error (locs (add_statement (blocks st) (Part n Test) s1) b) k <> Some (Whole n)).
  { intros b k H. apply nth_add in H. destruct H as [H|H]; [exact (FR1 _ _ _ H (or_introl eq_refl)) | discriminate]. }
  apply bound in E. destruct E as (s3 & E3 & E). apply add_CF_place in E3. destruct E3 as (i & PO & ->).
  assert (i = 0) as ->. { unfold position_of in PO. rewrite L2 in PO. destruct (existsb _ _); congruence. }
  set (s2 := add_statement (blocks st) (Part n Test) s1) in *. clearbody s2.
  pose proof (with_place_tidy (Whole n) (blocks st, 0) s2 (t_clean _ _ _ _ T2) (t_located _ _ _ _ T2) FW) as T3. cbn [number] in T3.
  assert (P3 : place_of (Whole n) (with_place s2 (Whole n) (blocks st, 0)) = Ok (blocks st, 0)) by apply place_with_same.
  assert (L3 : locs (with_place s2 (Whole n) (blocks st, 0)) (blocks st) = [Part n Test]) by exact L2.
  set (s3 := with_place s2 (Whole n) (blocks st, 0)) in *. clearbody s3.
  apply bound in E. destruct E as (s4 & E4 & E). apply link_or_merge_quiet in E4. pose proof (quiet_tidy _ _ (t_clean _ _ _ _ T3) (t_located _ _ _ _ T3) E4) as T4.
  assert (T04 : tidy [n] (fun _ => False) st s4).
  { apply (then_tidy _ [] _ (fun _ => False) st s3 s4); [|exact T4 | intros m [] | tauto]. apply (then_tidy _ [n] _ (fun _ => False) st s2 s3); [|exact T3 | auto | tauto].
    apply (then_tidy _ [n] _ (eq (blocks st)) st s1 s2); [|exact T2 | auto | intros b LB Q; lia]. apply (tidy_weaken [] _ (fun _ => False)); [intros m [] | tauto | exact T1]. }
  pose proof (t_blocks _ _ _ _ T04) as BL4. pose proof (t_blocks _ _ _ _ T2) as BL2. pose proof (t_blocks _ _ _ _ T3) as BL3. destruct E4 as (Q1 & Q2 & Q3 & _).
  destruct (loop_tidy false n body orelse s4 (blocks st) t g bs c' HB HE) as (-> & B5 & T5 & L5); auto.
  - lia.
  - rewrite Q2. exact L3.
  - cbn [loop_start loop_for loop_number]. unfold loop_start. cbn [loop_for loop_number]. unfold place_of. rewrite Q3. exact P3.
  - exact (t_clean _ _ _ _ T4).
  - exact (t_located _ _ _ _ T4).
  - apply (tidy_fresh _ _ _ _ _ T04); [apply (fresh_less ns); [intros m I; right; exact I | exact FR]|]. intros m [<-|[]]. exact NI.
  - constructor.
    + apply (tidy_weaken ([n] ++ (flat_map numbers body ++ flat_map numbers orelse)) _ (fun b => False \/ False)); [auto | tauto | exact (tidy_trans _ _ _ _ _ _ _ T04 T5)].
    + exact B5.
    + right. exact BL4.
    + exact L5.
Qed.

Lemma for_tidy : forall n body orelse, list_tidy body -> list_tidy orelse -> stmt_tidy (For n body orelse).
Proof.
  intros n body orelse HB HE g bs st c t c' E ND CL C L FR. rewrite visit_for in E. cbn [numbers] in *. inversion ND as [|n' l' NI ND']; subst.
  set (ns := n :: flat_map numbers body ++ flat_map numbers orelse) in *.
  pose proof (add_tidy c (Part n Iter) st ns CL C L FR (or_introl eq_refl)) as T1. cbn [number] in T1.
  assert (F1 : forall x b k, number x = n -> x <> Part n Iter -> nth_error (locs (add_statement c (Part n Iter) st) b) k <> Some x).
  { intros x b k NX D H. apply nth_add in H. destruct H as [H|H]; [apply (FR _ _ _ H); left; congruence | contradiction]. }
  set (s1 := add_statement c (Part n Iter) st) in *. clearbody s1.
  apply bound in E. destruct E as (s2 & E2 & E). apply add_CF_place in E2. destruct E2 as (i & _ & ->).
  pose proof (with_place_tidy (Whole n) (c, i) s1 (t_clean _ _ _ _ T1) (t_located _ _ _ _ T1) (fun b k => F1 (Whole n) b k eq_refl ltac:(discriminate))) as T2. cbn [number] in T2.
  assert (F2 : forall b k, nth_error (locs (with_place s1 (Whole n) (c, i)) b) k <> Some (Part n Target)) by (intros b k; apply F1; [reflexivity | discriminate]).
  set (s2 := with_place s1 (Whole n) (c, i)) in *. clearbody s2. cbv zeta in E.
  pose proof (new_block_tidy g s2 (t_clean _ _ _ _ T2) (t_located _ _ _ _ T2)) as T3. assert (B3 : blocks (fst (new_block g s2)) = S (blocks s2)) by reflexivity.
  destruct (new_block_empty g s2) as [L3 _]. set (s3 := fst (new_block g s2)) in *. clearbody s3.
  assert (F3 : forall b k, nth_error (locs s3 b) k <> Some (Part n Target)) by (intros b k H; destruct (t_grew _ _ _ _ T3 b k _ H) as [H'|[]]; exact (F2 b k H')).
  pose proof (add_statement_tidy (blocks s2) (Part n Target) s3 ltac:(lia) (t_clean _ _ _ _ T3) (t_located _ _ _ _ T3) F3) as T4. cbn [number] in T4.
  assert (L4 : locs (add_statement (blocks s2) (Part n Target) s3) (blocks s2) = [Part n Target]) by (rewrite add_statement_locs, L3; reflexivity).
  set (s4 := add_statement (blocks s2) (Part n Target) s3) in *. clearbody s4.
  apply bound in E. destruct E as (s5 & E5 & E). apply link_or_merge_quiet in E5. pose proof (quiet_tidy _ _ (t_clean _ _ _ _ T4) (t_located _ _ _ _ T4) E5) as T5.
  pose proof (t_blocks _ _ _ _ T1) as BL1. pose proof (t_blocks _ _ _ _ T2) as BL2. pose proof (t_blocks _ _ _ _ T3) as BL3. pose proof (t_blocks _ _ _ _ T4) as BL4.
  assert (T05 : tidy [n] (eq c) st s5).
  { apply (then_tidy _ [] _ (fun _ => False) st s4 s5); [|exact T5 | intros m [] | tauto]. apply (then_tidy _ [n] _ (eq (blocks s2)) st s3 s4); [|exact T4 | auto | intros b LB Q; lia].
    apply (then_tidy _ [] _ (fun _ => False) st s2 s3); [|exact T3 | intros m [] | tauto]. apply (then_tidy _ [n] _ (fun _ => False) st s1 s2); [exact T1 | exact T2 | auto | tauto]. }
  pose proof (t_blocks _ _ _ _ T05) as BL5. destruct E5 as (Q1 & Q2 & Q3 & _).
  destruct (loop_tidy true n body orelse s5 (blocks s2) t g bs c' HB HE) as (-> & B6 & T6 & L6); auto.
  - lia.
  - rewrite Q2. exact L4.
  - unfold loop_start. cbn [loop_for loop_number]. apply (t_located _ _ _ _ T5). rewrite Q2, L4. reflexivity.
  - exact (t_clean _ _ _ _ T5).
  - exact (t_located _ _ _ _ T5).
  - apply (tidy_fresh _ _ _ _ _ T05); [apply (fresh_less ns); [intros m I; right; exact I | exact FR]|]. intros m [<-|[]]. exact NI.
  - constructor.
    + apply (tidy_weaken ([n] ++ (flat_map numbers body ++ flat_map numbers orelse)) _ (fun b => c = b \/ False)); [auto | tauto | exact (tidy_trans _ _ _ _ _ _ _ T05 T6)].
    + exact B6.
    + right. exact BL5.
    + exact L6.
Qed.

Lemma function_tidy : forall n body, list_tidy body -> stmt_tidy (Function n body).
Proof.
  intros n body HB g bs st c t c' E ND CL C L FR. rewrite visit_function in E. cbn [numbers] in *. inversion ND as [|n' l' NI ND']; subst.
  pose proof (add_tidy c (Whole n) st _ CL C L FR (or_introl eq_refl)) as T1. cbn [number] in T1.
  assert (F1 : forall b k, nth_error (locs (add_statement c (Whole n) st) b) k <> Some (Part n Args)).
  { intros b k H. apply nth_add in H. destruct H as [H|H]; [exact (FR _ _ _ H (or_introl eq_refl)) | discriminate]. }
  set (s1 := add_statement c (Whole n) st) in *. clearbody s1.
  destruct (new_graph_tidy (Whole n) s1 (t_clean _ _ _ _ T1) (t_located _ _ _ _ T1)) as (s2 & E2 & T2 & B2 & S2). rewrite E2 in E. clear E2. cbv zeta in E. rewrite S2 in E.
  assert (F2 : forall b k, nth_error (locs s2 b) k <> Some (Part n Args)) by (intros b k H; destruct (t_grew _ _ _ _ T2 b k _ H) as [H'|[]]; exact (F1 b k H')).
  pose proof (add_statement_tidy (blocks s1) (Part n Args) s2 ltac:(lia) (t_clean _ _ _ _ T2) (t_located _ _ _ _ T2) F2) as T3. cbn [number] in T3.
  set (s3 := add_statement (blocks s1) (Part n Args) s2) in *. clearbody s3.
  apply bound in E. destruct E as ([s4 b4] & E4 & E). destruct (block_after_tidy _ _ _ _ _ E4 (t_clean _ _ _ _ T3) (t_located _ _ _ _ T3)) as (T4 & -> & B4). clear E4.
  pose proof (t_blocks _ _ _ _ T1) as BL1. pose proof (t_blocks _ _ _ _ T2) as BL2. pose proof (t_blocks _ _ _ _ T3) as BL3.
  assert (T04 : tidy [n] (eq c) st s4).
  { apply (then_tidy _ [] _ (fun _ => False) st s3 s4); [|exact T4 | intros m [] | tauto]. apply (then_tidy _ [n] _ (eq (blocks s1)) st s2 s3); [|exact T3 | auto | intros b LB Q; lia].
    apply (then_tidy _ [] _ (fun _ => False) st s1 s2); [exact T1 | exact T2 | intros m [] | tauto]. }
  apply bound in E. destruct E as ([s5 e] & E5 & E). cbn [fst snd] in E.
  destruct (HB _ _ _ _ _ _ E5 ND' ltac:(lia) (t_clean _ _ _ _ T4) (t_located _ _ _ _ T4)) as [T5 B5 W5 L5].
  { apply (tidy_fresh _ _ _ _ _ T04); [apply (fresh_less (n :: flat_map numbers body)); [intros m I; right; exact I | exact FR]|]. intros m [<-|[]]. exact NI. }
  apply bound in E. destruct E as (s6 & E6 & E). apply link_or_merge_quiet in E6. apply bound in E. destruct E as (s7 & E7 & E). apply update_quiet in E7.
  assert (t = s7 /\ c' = c) as [-> ->] by (split; congruence).
  pose proof (quiet_tidy _ _ (t_clean _ _ _ _ T5) (t_located _ _ _ _ T5) (quiet_trans _ _ _ E6 E7)) as T57. constructor.
  - apply (then_tidy _ [] _ (fun _ => False) st s5 s7); [|exact T57 | intros m [] | tauto].
    apply (tidy_weaken ([n] ++ flat_map numbers body) _ (fun b => c = b \/ blocks s3 = b)); [auto | intros b LB [Q|Q]; lia | exact (tidy_trans _ _ _ _ _ _ _ T04 T5)].
  - pose proof (t_blocks _ _ _ _ T5) as BL5. pose proof (t_blocks _ _ _ _ T57) as BL57. pose proof (t_blocks _ _ _ _ T4) as BL4. lia.
  - auto.
  - apply (loops_ok_later _ _ _ _ _ T57 L5). intros x m I J [].
Qed.

Lemma class_tidy : forall n body, list_tidy body -> stmt_tidy (Class n body).
Proof.
  intros n body HB g bs st c t c' E ND CL C L FR. rewrite visit_class in E. cbn [numbers] in *. inversion ND as [|n' l' NI ND']; subst.
  pose proof (add_tidy c (Whole n) st _ CL C L FR (or_introl eq_refl)) as T1. cbn [number] in T1.
  set (s1 := add_statement c (Whole n) st) in *. clearbody s1.
  destruct (new_graph_tidy (Whole n) s1 (t_clean _ _ _ _ T1) (t_located _ _ _ _ T1)) as (s2 & E2 & T2 & B2 & S2). rewrite E2 in E. clear E2. cbv zeta in E.
  replace (new_block (graphs s1) s2) with (fst (new_block (graphs s1) s2), blocks s2) in E by reflexivity.
  pose proof (new_block_tidy (graphs s1) s2 (t_clean _ _ _ _ T2) (t_located _ _ _ _ T2)) as T4. assert (B4 : blocks (fst (new_block (graphs s1) s2)) = S (blocks s2)) by reflexivity.
  set (s4 := fst (new_block (graphs s1) s2)) in *. clearbody s4.
  pose proof (t_blocks _ _ _ _ T1) as BL1. pose proof (t_blocks _ _ _ _ T2) as BL2.
  assert (T04 : tidy [n] (eq c) st s4).
  { apply (then_tidy _ [] _ (fun _ => False) st s2 s4); [|exact T4 | intros m [] | tauto].
    apply (then_tidy _ [] _ (fun _ => False) st s1 s2); [exact T1 | exact T2 | intros m [] | tauto]. }
  apply bound in E. destruct E as ([s5 e] & E5 & E). cbn [fst snd] in E.
  destruct (HB _ _ _ _ _ _ E5 ND' ltac:(lia) (t_clean _ _ _ _ T4) (t_located _ _ _ _ T4)) as [T5 B5 W5 L5].
  { apply (tidy_fresh _ _ _ _ _ T04); [apply (fresh_less (n :: flat_map numbers body)); [intros m I; right; exact I | exact FR]|]. intros m [<-|[]]. exact NI. }
  apply bound in E. destruct E as (s6 & E6 & E). apply link_or_merge_quiet in E6. apply bound in E. destruct E as (s7 & E7 & E). apply update_quiet in E7.
  assert (t = s7 /\ c' = c) as [-> ->] by (split; congruence).
  pose proof (quiet_tidy _ _ (t_clean _ _ _ _ T5) (t_located _ _ _ _ T5) (quiet_trans _ _ _ E6 E7)) as T57. constructor.
  - apply (then_tidy _ [] _ (fun _ => False) st s5 s7); [|exact T57 | intros m [] | tauto].
    apply (tidy_weaken ([n] ++ flat_map numbers body) _ (fun b => c = b \/ blocks s2 = b)); [auto | intros b LB [Q|Q]; lia | exact (tidy_trans _ _ _ _ _ _ _ T04 T5)].
  - pose proof (t_blocks _ _ _ _ T5) as BL5. pose proof (t_blocks _ _ _ _ T57) as BL57. lia.
  - auto.
  - apply (loops_ok_later _ _ _ _ _ T57 L5). intros x m I J [].
Qed.

Definition all_loops (hs : list (list string * bool * list stmt)) : list loop_stmt := flat_map (fun h => flat_map loops (snd h)) hs.
Definition names_only (n i : nat) (s : state) : Prop :=
  forall b k x, nth_error (locs s b) k = Some x -> number x = n -> exists j, i <= j /\ x = Part n (HandlerName j).

Lemma all_loops_numbers : forall hs l m, List.In l (all_loops hs) -> List.In m (loop_numbers l) -> List.In m (all_numbers hs).
Proof.
  intros hs l m I J. unfold all_loops, all_numbers in *. apply in_flat_map in I. destruct I as (h & I & L). apply in_flat_map. exists h. split; [exact I|].
  exact (loops_numbers_all _ l m L J).
Qed.
Lemma names_only_tidy : forall ks K n i s t, tidy ks K s t -> ~ List.In n ks -> names_only n i s -> names_only n i t.
Proof.
  intros ks K n i s t T NI N b k x H E. destruct (t_grew _ _ _ _ T b k x H) as [H'|H']; [exact (N b k x H' E)|]. subst n. contradiction.
Qed.

Lemma handlers_tidy : forall g n fin hs, Forall (fun h => list_tidy (snd h)) hs -> forall i bs s t bs' hb,
  visit_handlers g n fin i hs bs s = Ok (t, bs', hb) -> NoDup (all_numbers hs) -> ~ List.In n (all_numbers hs) -> clean s -> located s -> fresh (all_numbers hs) s -> fresh [n] s ->
  tidy (n :: all_numbers hs) (fun _ => False) s t /\ Forall (loop_ok t) (all_loops hs) /\ names_only n i t.
Proof.
  intros g n fin hs F. induction F as [|[[types named] hbody] hs HB F IH]; intros i bs s t bs' hb E ND NI C L FR FN.
  - assert (t = s) as -> by (change (Ok (s, bs, @nil nat) = Ok (t, bs', hb)) in E; congruence). split; [exact (tidy_refl _ _ s C L)|]. split; [constructor|].
    intros b k x H EN. exfalso. apply (FN b k x H). left. congruence.
  - cbn [snd] in HB. rewrite visit_handlers_cons in E. unfold all_numbers in ND, NI, FR |- *. cbn [flat_map snd] in ND, NI, FR |- *. fold (all_numbers hs) in ND, NI, FR |- *.
    destruct (NoDup_app_l _ _ ND) as (N1 & N2 & D). apply bound in E. destruct E as ([[s1 bs1] hb1] & E1 & E).
    assert (NI1 : ~ List.In n (flat_map numbers hbody) /\ ~ List.In n (all_numbers hs)) by (split; intros Q; apply NI; apply in_or_app; auto).
    destruct (IH (S i) bs s s1 bs1 hb1 E1 N2 (proj2 NI1) C L) as (T1 & L1 & NO1); [eapply fresh_less; [|exact FR]; intros m I; apply in_or_app; auto | exact FN |]. clear E1.
    assert (F1 : fresh (flat_map numbers hbody) s1).
    { apply (tidy_fresh _ _ _ _ _ T1); [eapply fresh_less; [|exact FR]; intros m I; apply in_or_app; auto|]. intros m [<-|I] J; [exact (proj1 NI1 J) | exact (D m J I)]. }
    replace (new_block g s1) with (fst (new_block g s1), blocks s1) in E by reflexivity. cbv zeta in E.
    pose proof (new_block_tidy g s1 (t_clean _ _ _ _ T1) (t_located _ _ _ _ T1)) as T2. assert (B2 : blocks (fst (new_block g s1)) = S (blocks s1)) by reflexivity.
    set (s2 := fst (new_block g s1)) in *. clearbody s2.
    pose proof (names_only_tidy _ _ n (S i) _ _ T2 (fun x => x) NO1) as NO2.
    assert (X : exists s3, (if named then add_statement (blocks s1) (Part n (HandlerName i)) s2 else s2) = s3 /\ tidy [n] (eq (blocks s1)) s2 s3 /\ names_only n i s3).
    { destruct named.
      - eexists. split; [reflexivity|]. split.
        + apply (add_statement_tidy (blocks s1) (Part n (HandlerName i)) s2); [lia | exact (t_clean _ _ _ _ T2) | exact (t_located _ _ _ _ T2)|].
          intros b k H. destruct (NO2 b k _ H eq_refl) as (j & LJ & EJ). injection EJ as EJ. lia.
        + intros b k x H EN. apply nth_add in H. destruct H as [H | ->]; [destruct (NO2 b k x H EN) as (j & LJ & EJ); exists j; split; [lia | exact EJ] | exists i; auto].
      - exists s2. split; [reflexivity|]. split; [apply tidy_refl; [exact (t_clean _ _ _ _ T2) | exact (t_located _ _ _ _ T2)]|].
        intros b k x H EN. destruct (NO2 b k x H EN) as (j & LJ & EJ). exists j. split; [lia | exact EJ]. }
    destruct X as (s3 & E3 & T3 & NO3). rewrite E3 in E. clear E3. pose proof (t_blocks _ _ _ _ T3) as BL3.
    apply bound in E. destruct E as ([s4 e] & E4 & E).
    destruct (HB _ _ _ _ _ _ E4 N1 ltac:(lia) (t_clean _ _ _ _ T3) (t_located _ _ _ _ T3)) as [T4 B4 W4 L4].
    { apply (tidy_fresh _ _ _ _ _ T3); [apply (tidy_fresh _ _ _ _ _ T2 F1 (fun m (I : List.In m []) => match I with end))|]. intros m [<-|[]]. exact (proj1 NI1). }
    pose proof (names_only_tidy _ _ n i _ _ T4 (proj1 NI1) NO3) as NO4. clear E4.
    apply bound in E. destruct E as (s5 & E5 & E).
    assert (X : exists b k, s5 = with_place s4 (Part n (Handler i)) (b, k)).
    { destruct (locs s4 (blocks s1)); (destruct hbody; [discriminate|]); apply bound in E5; destruct E5 as (p & _ & E5); apply bound in E5; destruct E5 as (m & _ & E5);
        apply add_CF_place in E5; destruct E5 as (k & _ & E5); [exists (fst p), k | exists (blocks s1), k]; exact E5. }
    destruct X as (b5 & k5 & ->). clear E5.
    assert (T5 : tidy [n] (fun _ => False) s4 (with_place s4 (Part n (Handler i)) (b5, k5))).
    { apply (with_place_tidy (Part n (Handler i))); [exact (t_clean _ _ _ _ T4) | exact (t_located _ _ _ _ T4)|]. intros b k H.
      destruct (NO4 b k _ H eq_refl) as (j & _ & EJ). discriminate. }
    assert (NO5 : names_only n i (with_place s4 (Part n (Handler i)) (b5, k5))) by exact NO4.
    set (s5 := with_place s4 (Part n (Handler i)) (b5, k5)) in *. clearbody s5.
    apply bound in E. destruct E as (s6 & E6 & E). apply link_or_merge_quiet in E6. assert (t = s6) as -> by congruence.
    pose proof (quiet_tidy _ _ (t_clean _ _ _ _ T5) (t_located _ _ _ _ T5) E6) as T6.
    pose proof (t_blocks _ _ _ _ T1) as BL1. pose proof (t_blocks _ _ _ _ T2) as BL2.
    assert (T46 : tidy [n] (fun _ => False) s4 s6) by exact (then_quiet _ _ _ _ _ T5 E6).
    assert (T16 : tidy (n :: flat_map numbers hbody) (fun _ => False) s1 s6).
    { apply (then_tidy _ [n] _ (fun _ => False) s1 s4 s6); [|exact T46 | intros m [<-|[]]; left; reflexivity | tauto].
      apply (then_tidy _ (flat_map numbers hbody) _ (eq (blocks s1)) s1 s3 s4); [|exact T4 | intros m I; right; exact I | intros b LB Q; lia].
      apply (then_tidy _ [n] _ (eq (blocks s1)) s1 s2 s3); [|exact T3 | intros m [<-|[]]; left; reflexivity | intros b LB Q; lia].
      apply (tidy_weaken [] _ (fun _ => False)); [intros m [] | tauto | exact T2]. }
    split; [|split].
    + apply (then_tidy _ (n :: flat_map numbers hbody) _ (fun _ => False) s s1 s6); [|exact T16 | intros m [<-|I]; [left; reflexivity | right; apply in_or_app; auto] | tauto].
      apply (tidy_weaken (n :: all_numbers hs) _ (fun _ => False)); [intros m [<-|I]; [left; reflexivity | right; apply in_or_app; auto] | tauto | exact T1].
    + unfold all_loops. cbn [flat_map snd]. fold (all_loops hs). apply Forall_app. split.
      * apply (loops_ok_later _ _ _ _ _ T46 L4). intros x m I J [<-|[]]. apply (proj1 NI1). exact (loops_numbers_all _ x n I J).
      * apply (loops_ok_later _ _ _ _ _ T16 L1). intros x m I J K. pose proof (all_loops_numbers hs x m I J) as Q. destruct K as [<-|K]; [exact (proj2 NI1 Q) | exact (D m K Q)].
    + exact (names_only_tidy _ _ n i _ _ T6 (fun x => x) NO5).
Qed.

Lemma try_tidy : forall n body handlers orelse fin_body, list_tidy body -> Forall (fun h => list_tidy (snd h)) handlers -> list_tidy orelse ->
  stmt_tidy (Try n body handlers orelse fin_body).
Proof.
  intros n body handlers orelse fin_body HB HH HE g bs st c t c' E ND CL C L FR. rewrite visit_try in E. cbn [numbers] in *. fold (all_numbers handlers) in *.
  inversion ND as [|n' l' NI ND']; subst. destruct (NoDup_app_l _ _ ND') as (N1 & ND2 & D1). destruct (NoDup_app_l _ _ ND2) as (N2 & ND3 & D2). destruct (NoDup_app_l _ _ ND3) as (N3 & N4 & D3).
  rewrite !in_app_iff in NI. set (ns := n :: flat_map numbers body ++ all_numbers handlers ++ flat_map numbers orelse ++ flat_map numbers fin_body) in *.
  apply bound in E. destruct E as ([s1 nb] & E1 & E).
  assert (X : tidy [] (fun _ => False) st s1 /\ nb < blocks s1 /\ (nb = c \/ blocks st <= nb)).
  { destruct (locs st c).
    - assert (s1 = st /\ nb = c) as [-> ->] by (split; congruence). split; [exact (tidy_refl _ _ st C L) | auto].
    - destruct (block_after_tidy _ _ _ _ _ E1 C L) as (T1 & -> & B1). split; [exact T1|]. split; [lia | right; lia]. }
  destruct X as (T1 & NB1 & WH1). clear E1. cbv zeta in E. pose proof (t_blocks _ _ _ _ T1) as BL1.
  assert (B2 : blocks (fst (new_block g s1)) = S (blocks s1)) by reflexivity. assert (B3 : blocks (fst (new_block g (fst (new_block g s1)))) = S (S (blocks s1))) by reflexivity.
  assert (B4 : blocks (fst (new_block g (fst (new_block g (fst (new_block g s1)))))) = S (S (S (blocks s1)))) by reflexivity.
  rewrite B2, B3 in E. assert (T4 : tidy [] (fun _ => False) st (fst (new_block g (fst (new_block g (fst (new_block g s1))))))) by (apply then_new, then_new, then_new; exact T1).
  set (s4 := fst (new_block g (fst (new_block g (fst (new_block g s1)))))) in *. clearbody s4. clear B2 B3.
  pose proof (tidy_fresh _ _ _ _ _ T4 FR (fun m (I : List.In m []) => match I with end)) as FR4.
  apply bound in E. destruct E as ([[s5 bs5] hb] & E5 & E).
  destruct (handlers_tidy _ _ _ _ HH _ _ _ _ _ _ E5 N2 ltac:(tauto) (t_clean _ _ _ _ T4) (t_located _ _ _ _ T4)) as (T5 & L5 & NO5).
  { eapply fresh_less; [|exact FR4]. intros m I. right. rewrite !in_app_iff. tauto. }
  { eapply fresh_less; [|exact FR4]. intros m [<-|[]]. left. reflexivity. }
  clear E5. pose proof (t_blocks _ _ _ _ T5) as BL5.
  assert (F5 : fresh (flat_map numbers orelse) s5).
  { apply (tidy_fresh _ _ _ _ _ T5); [eapply fresh_less; [|exact FR4]; intros m I; right; rewrite !in_app_iff; tauto|]. intros m [<-|I] J; [tauto|]. apply (D2 m I). apply in_or_app. auto. }
  assert (G5 : fresh (flat_map numbers body) s5).
  { apply (tidy_fresh _ _ _ _ _ T5); [eapply fresh_less; [|exact FR4]; intros m I; right; rewrite !in_app_iff; tauto|]. intros m [<-|I] J; [tauto|]. apply (D1 m J). apply in_or_app. auto. }
  apply bound in E. destruct E as ([s6 ab] & E6 & E).
  assert (X : tidy (flat_map numbers orelse) (fun _ => False) s5 s6 /\ Forall (loop_ok s6) (flat_map loops orelse)).
  { destruct orelse as [|f l].
    - assert (s6 = s5) as -> by congruence. split; [apply tidy_refl; [exact (t_clean _ _ _ _ T5) | exact (t_located _ _ _ _ T5)] | constructor].
    - replace (new_block g s5) with (fst (new_block g s5), blocks s5) in E6 by reflexivity.
      pose proof (new_block_tidy g s5 (t_clean _ _ _ _ T5) (t_located _ _ _ _ T5)) as T5'. assert (B5' : blocks (fst (new_block g s5)) = S (blocks s5)) by reflexivity.
      set (s5' := fst (new_block g s5)) in *. clearbody s5'. apply bound in E6. destruct E6 as ([s5'' e] & E6' & E6). cbn [fst snd] in E6.
      destruct (HE _ _ _ _ _ _ E6' N3 ltac:(lia) (t_clean _ _ _ _ T5') (t_located _ _ _ _ T5') (tidy_fresh _ _ _ _ _ T5' F5 (fun m (I : List.In m []) => match I with end))) as [T6 B6 W6 L6].
      apply bound in E6. destruct E6 as (s6' & E6 & EE). apply link_or_merge_quiet in E6. assert (s6 = s6') as -> by congruence.
      pose proof (quiet_tidy _ _ (t_clean _ _ _ _ T6) (t_located _ _ _ _ T6) E6) as T6'. split.
      + apply (then_quiet _ _ _ _ _) with (2 := E6). apply (then_tidy _ (flat_map numbers (f :: l)) _ (eq (blocks s5)) s5 s5' s5''); [|exact T6 | auto | intros b LB Q; lia].
        apply (tidy_weaken [] _ (fun _ => False)); [intros m [] | tauto | exact T5'].
      + apply (loops_ok_later _ _ _ _ _ T6' L6). intros x m I J []. }
  destruct X as (T6 & L6). clear E6. pose proof (t_blocks _ _ _ _ T6) as BL6.
  apply bound in E. destruct E as ([s7 eb] & E7 & E).
  destruct (HB _ _ _ _ _ _ E7 N1 ltac:(lia) (t_clean _ _ _ _ T6) (t_located _ _ _ _ T6)) as [T7 B7 W7 L7].
  { apply (tidy_fresh _ _ _ _ _ T6 G5). intros m I J. apply (D1 m J). rewrite !in_app_iff. auto. }
  clear E7. pose proof (names_only_tidy _ _ n 0 _ _ T6 ltac:(tauto) NO5) as NO6. pose proof (names_only_tidy _ _ n 0 _ _ T7 ltac:(tauto) NO6) as NO7.
  apply bound in E. destruct E as (s8 & E8 & E).
  assert (X : exists p, s8 = with_place s7 (Whole n) p).
  { destruct body; [discriminate|]. apply bound in E8. destruct E8 as (p & _ & E8). apply bound in E8. destruct E8 as (m & _ & E8). apply add_CF_place in E8. destruct E8 as (k & _ & E8).
    exists (fst p, k). exact E8. }
  destruct X as (p8 & ->). clear E8.
  assert (T8 : tidy [n] (fun _ => False) s7 (with_place s7 (Whole n) p8)).
  { apply (with_place_tidy (Whole n)); [exact (t_clean _ _ _ _ T7) | exact (t_located _ _ _ _ T7)|]. intros b k H. destruct (NO7 b k _ H eq_refl) as (j & _ & EJ). discriminate. }
  set (s8 := with_place s7 (Whole n) p8) in *. clearbody s8.
  apply bound in E. destruct E as (s9 & E9 & E). apply link_or_merge_quiet in E9. apply bound in E. destruct E as (s10 & E10 & E). apply multiple_quiet in E10.
  apply bound in E. destruct E as (s11 & E11 & E). apply link_or_merge_quiet in E11. assert (t = s11 /\ c' = S (S (blocks s1))) as [-> ->] by (split; congruence).
  assert (T7t : tidy [n] (fun _ => False) s7 s11) by exact (then_quiet _ _ _ _ _ (then_quiet _ _ _ _ _ (then_quiet _ _ _ _ _ T8 E9) E10) E11).
  pose proof (t_blocks _ _ _ _ T7) as BL7. pose proof (t_blocks _ _ _ _ T7t) as BLt.
  assert (T6t : tidy (n :: flat_map numbers body) (eq nb) s6 s11).
  { apply (then_tidy _ [n] _ (fun _ => False) s6 s7 s11); [|exact T7t | intros m [<-|[]]; left; reflexivity | tauto].
    apply (tidy_weaken (flat_map numbers body) _ (eq nb)); [intros m I; right; exact I | auto | exact T7]. }
  assert (T5t : tidy (n :: flat_map numbers body ++ flat_map numbers orelse) (eq nb) s5 s11).
  { apply (then_tidy _ (n :: flat_map numbers body) _ (eq nb) s5 s6 s11); [|exact T6t | intros m [<-|I]; [left; reflexivity | right; apply in_or_app; auto] | auto].
    apply (tidy_weaken (flat_map numbers orelse) _ (fun _ => False)); [intros m I; right; apply in_or_app; auto | tauto | exact T6]. }
  constructor.
  - apply (then_tidy _ (n :: flat_map numbers body ++ flat_map numbers orelse) _ (eq nb) st s5 s11); [|exact T5t | | intros b LB Q; destruct WH1; lia].
    + apply (then_tidy _ (n :: all_numbers handlers) _ (fun _ => False) st s4 s5); [|exact T5 | intros m [<-|I]; [left; reflexivity | right; rewrite !in_app_iff; tauto] | tauto].
      apply (tidy_weaken [] _ (fun _ => False)); [intros m [] | tauto | exact T4].
    + intros m [<-|I]; [left; reflexivity|]. right. rewrite !in_app_iff in *. tauto.
  - lia.
  - right. lia.
  - cbn [loops]. fold (all_loops handlers). apply Forall_app. split; [|apply Forall_app; split].
    + apply (loops_ok_later _ _ _ _ _ T7t L7). intros x m I J [<-|[]]. pose proof (loops_numbers_all _ x n I J). tauto.
    + apply (loops_ok_later _ _ _ _ _ T5t L5). intros x m I J K. pose proof (all_loops_numbers _ x m I J) as Q. destruct K as [<-|K]; [tauto|]. apply in_app_or in K.
      destruct K as [K|K]; [apply (D1 m K); rewrite !in_app_iff; auto | apply (D2 m Q); rewrite !in_app_iff; auto].
    + apply (loops_ok_later _ _ _ _ _ T6t L6). intros x m I J K. pose proof (loops_numbers_all _ x m I J) as Q. destruct K as [<-|K]; [tauto|]. apply (D1 m K). rewrite !in_app_iff. auto.
Qed.

Fixpoint every_stmt_tidy (s : stmt) : stmt_tidy s :=
  let all := fix all (l : list stmt) : Forall stmt_tidy l :=
    match l with [] => Forall_nil _ | s :: l => Forall_cons s (every_stmt_tidy s) (all l) end in
  match s with
  | Simple n => simple_tidy n
  | Opaque n b => opaque_tidy n b
  | Jump n k => jump_tidy n k
  | Function n b => function_tidy n b (list_tidy_of b (all b))
  | Class n b => class_tidy n b (list_tidy_of b (all b))
  | If n b e => if_tidy n b e (list_tidy_of b (all b)) (list_tidy_of e (all e))
  | While n b e => while_tidy n b e (list_tidy_of b (all b)) (list_tidy_of e (all e))
  | For n b e => for_tidy n b e (list_tidy_of b (all b)) (list_tidy_of e (all e))
  | With n items b => with_tidy n items b (list_tidy_of b (all b))
  | Try n b hs e f =>
      try_tidy n b hs e f (list_tidy_of b (all b))
        ((fix each (hs : list (list string * bool * list stmt)) : Forall (fun h => list_tidy (snd h)) hs :=
            match hs with
            | [] => Forall_nil _
            | h :: hs => Forall_cons h (list_tidy_of (snd h) (all (snd h))) (each hs)
            end) hs)
        (list_tidy_of e (all e))
  end.
Lemma every_list_tidy : forall l, list_tidy l.
Proof. intros l. apply list_tidy_of. rewrite Forall_forall. intros s _. exact (every_stmt_tidy s). Qed.

Lemma module_tidy : forall body t, visit_module body = Ok t -> NoDup (0 :: flat_map numbers body) -> located t /\ sourced t /\ Forall (loop_ok t) (flat_map loops body).
Proof.
  intros body t E ND0. inversion ND0 as [|n' l' NI ND]; subst. unfold visit_module in E.
  assert (C0 : clean nothing) by (split; [intros b _; reflexivity|]; split; [intros e H; inversion H | intros b e []]). assert (L0 : located nothing) by (intros b i x H; destruct i; discriminate).
  destruct (new_graph_tidy (Part 0 WholeModule) nothing C0 L0) as (s1 & E1 & T1 & B1 & S1). rewrite E1 in E. cbn [nothing graphs blocks] in *. rewrite S1 in E.
  apply bound in E. destruct E as ([s2 c] & E2 & E).
  assert (F1 : forall b i, nth_error (locs s1 b) i = None).
  { intros b i. destruct (nth_error (locs s1 b) i) as [x|] eqn:H; [|reflexivity]. destruct (t_grew _ _ _ _ T1 b i x H) as [H'|[]]. destruct i; discriminate. }
  destruct (every_list_tidy body 0 [] s1 0 s2 c E2 ND ltac:(lia) (t_clean _ _ _ _ T1) (t_located _ _ _ _ T1)) as [T2 B2 W2 L2]; [intros b i x H; rewrite F1 in H; discriminate|].
  apply bound in E. destruct E as (s3 & E3 & E). apply add_CF_place in E3. destruct E3 as (i & _ & ->).
  apply bound in E. destruct E as (s4 & E4 & E). apply link_or_merge_quiet in E4. apply update_quiet in E.
  assert (T3 : tidy [0] (fun _ => False) s2 (with_place s2 (Part 0 WholeModule) (start (graph s2 0), i))).
  { apply (with_place_tidy (Part 0 WholeModule)); [exact (t_clean _ _ _ _ T2) | exact (t_located _ _ _ _ T2)|]. intros b k H.
    destruct (t_grew _ _ _ _ T2 b k _ H) as [H'|H']; [rewrite F1 in H'; discriminate | exact (NI H')]. }
  pose proof (then_quiet _ _ _ _ _ (then_quiet _ _ _ _ _ T3 E4) E) as T. split; [exact (t_located _ _ _ _ T)|]. split; [exact (proj2 (t_clean _ _ _ _ T))|].
  apply (loops_ok_later _ _ _ _ _ T L2). intros x m I J [<-|[]]. apply NI. exact (loops_numbers_all _ x 0 I J).
Qed.
