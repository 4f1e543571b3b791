(** Proofs about building control flow graphs: visiting statements. *)
From Coq Require Import String List Bool Arith Lia.
From Verif Require Import Base CfgModel CfgSpec CfgBlockProofs CfgWfProofs CfgOpProofs.
Import ListNotations.
Local Open Scope list_scope.
Local Open Scope nat_scope.

(** ** Going from one state to another *)

Definition go (M : nat -> Prop) (s t : state) : Prop := wf s /\ wf t /\ Ext (graphs s) M s t.

Lemma go_trans : forall M N s t u, go M s t -> go N t u -> go (fun b => M b \/ N b) s u.
Proof.
  intros M N s t u (W & W1 & E) (_ & W2 & F). split; [exact W|]. split; [exact W2|].
  pose proof (x_graphs _ _ _ _ E).
  apply (ext_trans _ _ (graphs s) (fun b => M b \/ N b) N s t u W W1 (le_n _)).
  - apply (ext_blocks_weaken _ _ M _ _ _ W (le_n _)); [auto | exact E].
  - apply (ext_weaken _ (graphs t)); [lia | exact F].
  - auto.
Qed.
Lemma go_weaken : forall (M N : nat -> Prop) s t, (forall b, b < blocks s -> M b -> N b) -> go M s t -> go N s t.
Proof. intros M N s t S (W & W1 & E). split; [exact W|]. split; [exact W1|]. exact (ext_blocks_weaken _ _ M N _ _ W (le_n _) S E). Qed.
Lemma go_refl : forall M s, wf s -> go M s s.
Proof. intros M s W. split; [exact W|]. split; [exact W | apply ext_refl]. Qed.
Lemma go_blocks : forall M s t, go M s t -> blocks s <= blocks t.
Proof. intros M s t (_ & _ & E). exact (x_blocks _ _ _ _ E). Qed.
Lemma go_graphs : forall M s t, go M s t -> graphs s <= graphs t.
Proof. intros M s t (_ & _ & E). exact (x_graphs _ _ _ _ E). Qed.
Lemma go_locs : forall M s t b, go M s t -> b < blocks s -> ~ M b -> locs t b = locs s b.
Proof. intros M s t b (_ & _ & E) L N. exact (proj1 (x_same _ _ _ _ E b L N)). Qed.
Lemma go_open : forall M s t b, go M s t -> b < blocks s -> ~ M b -> succs s b = [] -> succs t b = [].
Proof. intros M s t b (_ & _ & E) L N. exact (proj2 (x_same _ _ _ _ E b L N)). Qed.
Lemma go_unr : forall M s t g b, go M s t -> g < graphs s -> List.In b (unreachable (graph s g)) -> ~ M b -> List.In b (unreachable (graph t g)).
Proof. intros M s t g b (_ & _ & E) L I N. exact (x_unr _ _ _ _ E g b L I N). Qed.
Lemma go_nonempty : forall M s t b, go M s t -> b < blocks s -> locs s b <> [] -> locs t b <> [].
Proof. intros M s t b (_ & _ & E). exact (nonempty_ext _ _ s t b E). Qed.
Lemma go_into : forall M s t p b, go M s t -> ~ M b \/ locs s b <> [] -> into s p b -> into t p b.
Proof. intros M s t p b (W & _ & E). exact (into_ext _ _ _ s t p b W E). Qed.
Lemma go_arrives : forall M s t g b p, go M s t -> g < graphs s -> ~ M b \/ locs s b <> [] -> arrives s g b p -> arrives t g b p.
Proof. intros M s t g b p (W & _ & E). exact (arrives_ext _ _ _ s t g b p W E). Qed.
Lemma go_front : forall M s t g c p, go M s t -> g < graphs s -> c < blocks s -> ~ M c -> front s g c p -> front t g c p.
Proof. intros M s t g c p (W & _ & E). exact (front_ext _ _ _ s t g c p W E). Qed.
Lemma go_walk : forall M s t g p l q, go M s t -> g < graphs s -> walk s g p l q -> walk t g p l q.
Proof. intros M s t g p l q (W & _ & E). exact (walk_ext _ _ _ s t g p l q W E). Qed.
Lemma go_nth : forall M s t b i n, go M s t -> nth_error (locs s b) i = Some n -> nth_error (locs t b) i = Some n.
Proof.
  intros M s t b i n (W & _ & E) N.
  assert (L : b < blocks s). { destruct (lt_dec b (blocks s)) as [L|L]; [exact L|]. destruct (wf_new _ s W b ltac:(lia)) as [C _]. rewrite C in N. destruct i; discriminate. }
  destruct (x_more _ _ _ _ E b L) as [l ->]. rewrite nth_error_app1; [exact N|]. apply nth_error_Some. congruence.
Qed.

(** A new empty block is not the first one. *)
Lemma go_start : forall M s t g b, go M s t -> g < graphs s -> blocks s <= b -> locs t b = [] -> b <> start (graph t g).
Proof.
  intros M s t g b (W & _ & E) GL BL L C. destruct (x_graph _ _ _ _ E g GL) as (_ & _ & [Z|[_ [_ Z]]]).
  - destruct (wf_ends _ s W g GL). lia.
  - rewrite <- C in Z. contradiction.
Qed.


Lemma go_new_block : forall g s, wf s -> g < graphs s -> go (fun _ => False) s (fst (new_block g s)).
Proof. intros g s W GL. split; [exact W|]. split; [exact (new_block_wf _ g s W GL) | exact (new_block_ext _ _ _ g s W)]. Qed.
Lemma go_add_statement : forall c n s, wf s -> c < blocks s -> succs s c = [] -> go (eq c) s (add_statement c n s).
Proof. intros c n s W L O. split; [exact W|]. split; [exact (add_statement_wf _ c n s W L O) | exact (add_statement_ext _ c n s O)]. Qed.
Lemma go_place : forall n p s, wf s -> go (fun _ => False) s (with_place s n p).
Proof. intros n p s W. split; [exact W|]. split; [exact (with_place_wf _ n p s W) | apply with_place_ext]. Qed.

(** ** Places *)

Lemma node_eqb_refl : forall n, node_eqb n n = true.
Proof. intros [n|n p]; cbn [node_eqb]; rewrite Nat.eqb_refl; [reflexivity|]. destruct p; cbn; try reflexivity; apply Nat.eqb_refl. Qed.

Definition kept (s t : state) (ns : list nat) : Prop := forall m, ~ List.In m ns -> place_of (Whole m) t = place_of (Whole m) s.
Lemma kept_refl : forall s t ns, places s = places t -> kept s t ns.
Proof. intros s t ns E m _. unfold place_of. rewrite E. reflexivity. Qed.
Lemma kept_trans : forall s t u ns ms, kept s t ns -> kept t u ms -> kept s u (ns ++ ms).
Proof. intros s t u ns ms A B m N. rewrite B, A; [reflexivity | | ]; intros C; apply N; apply in_or_app; auto. Qed.
Lemma kept_weaken : forall s t ns ms, (forall x, List.In x ns -> List.In x ms) -> kept s t ns -> kept s t ms.
Proof. intros s t ns ms S K m N. apply K. intros C. exact (N (S m C)). Qed.
Lemma place_part : forall s n p q m, place_of (Whole m) (with_place s (Part n p) q) = place_of (Whole m) s.
Proof. reflexivity. Qed.
Lemma place_whole_same : forall s n q, place_of (Whole n) (with_place s (Whole n) q) = Ok q.
Proof. intros. unfold place_of, with_place. cbn [places find fst node_eqb]. rewrite Nat.eqb_refl. reflexivity. Qed.
Lemma place_whole_other : forall s n q m, n <> m -> place_of (Whole m) (with_place s (Whole n) q) = place_of (Whole m) s.
Proof. intros s n q m D. unfold place_of, with_place. cbn [places find fst node_eqb]. apply Nat.eqb_neq in D. rewrite D. reflexivity. Qed.
Lemma place_with_locs : forall s b l n, place_of n (with_locs s b l) = place_of n s.
Proof. reflexivity. Qed.

(** The place of the statement with number [m], visited from block [c] in state [s]. *)
Definition placed (s : state) (c : nat) (t : state) (m : nat) : Prop :=
  exists p n, place_of (Whole m) t = Ok p /\ nth_error (locs t (fst p)) (snd p) = Some n /\
    (locs s c = [] -> snd p = 0 /\ (locs t c <> [] -> fst p = c)).

(** ** Outcomes *)

Definition exits (o : outcome) (bs : boundaries) : option nat :=
  match o with
  | Broke => jump_target [KBreak] bs
  | Continued => jump_target [KContinue] bs
  | Returned => jump_target [KReturn] bs
  | _ => None
  end.

Definition bounded (s : state) (c : nat) (bs : boundaries) : Prop :=
  Forall (Forall (fun x : exit_key * nat => snd x < blocks s)) bs /\ forall o t, exits o bs = Some t -> t <> c.

Lemma jump_target_in : forall (P : nat -> Prop) ks bs t, Forall (Forall (fun x : exit_key * nat => P (snd x))) bs -> jump_target ks bs = Some t -> P t.
Proof.
  intros P ks bs t F. induction F as [|ex bs FE F IH]; intros E; [discriminate|]. cbn [jump_target] in E.
  destruct (exit_for ks ex) as [b|] eqn:EX; [|exact (IH E)]. injection E as ->. clear IH F. revert EX.
  induction ks as [|k ks IHk]; intros EX; [discriminate|]. cbn [exit_for] in EX. unfold exit_of in EX.
  destruct (find (fun x => key_eqb k (fst x)) ex) as [x|] eqn:FI; [|exact (IHk EX)]. injection EX as <-.
  rewrite Forall_forall in FE. apply FE. exact (proj1 (find_some _ _ FI)).
Qed.
Lemma exits_block : forall s c bs o t, bounded s c bs -> exits o bs = Some t -> t < blocks s /\ t <> c.
Proof.
  intros s c bs o t [F N] E. split; [|exact (N o t E)].
  destruct o; cbn [exits] in E; try discriminate; exact (jump_target_in (fun t => t < blocks s) _ bs t F E).
Qed.
Lemma bounded_more : forall s t c c' bs, bounded s c bs -> blocks s <= blocks t -> c' = c \/ blocks s <= c' -> bounded t c' bs.
Proof.
  intros s t c c' bs B L D. split.
  - destruct B as [F _]. rewrite Forall_forall in *. intros ex I. specialize (F ex I). rewrite Forall_forall in *. intros x J. specialize (F x J). lia.
  - intros o u E. destruct (exits_block s c bs o u B E). destruct D; lia.
Qed.

(** ** What a visit does *)

Record result (NE : Prop) (g : nat) (s : state) (c : nat) (t : state) (c' : nat) : Prop := {
  r_go : go (eq c) s t;
  r_ready : ready t g c';
  r_where : (c' = c /\ (NE -> locs t c <> [])) \/ blocks s <= c' }.

Section Visiting.
  Variable swallows : nat -> bool.
  Notation run := (run swallows).
  Notation runs := (runs swallows).

  Definition covers (A : execution) (g : nat) (bs : boundaries) (s : state) (c : nat) (t : state) (c' : nat) : Prop :=
    forall p tr o, front s g c p -> A tr o ->
      exists q, walk t g p tr q /\ (o = Fell -> front t g c' q) /\ (forall b, exits o bs = Some b -> into t q b).

  Lemma covers_then : forall A B g bs s c s1 c1 t c', covers A g bs s c s1 c1 -> covers B g bs s1 c1 t c' -> go (eq c1) s1 t -> g < graphs s1 ->
    bounded s1 c1 bs -> covers (then_ A B) g bs s c t c'.
  Proof.
    intros A B g bs s c s1 c1 t c' CA CB G GL BO p tr o F [(t1 & u & -> & R1 & R2)|[R N]].
    - destruct (CA p t1 Fell F R1) as (q & Wq & Fq & _). destruct (CB q u o (Fq eq_refl) R2) as (r & Wr & Fr & Er).
      exists r. split; [|auto]. apply (walk_app t g p t1 q u r); [exact (go_walk _ s1 t g p t1 q G GL Wq) | exact Wr].
    - destruct (CA p tr o F R) as (q & Wq & _ & Eq). exists q. split; [exact (go_walk _ s1 t g p tr q G GL Wq)|].
      split; [congruence|]. intros b E. apply (go_into _ s1 t q b G); [|exact (Eq b E)]. left. destruct (exits_block s1 c1 bs o b BO E). congruence.
  Qed.

  (** Every execution of [body] is a walk from the beginning of the graph, after the nodes [pre], in blocks marked as reachable. *)
  Definition faithful (s : state) (g : nat) (pre : list node) (body : list stmt) : Prop :=
    forall tr o, runs body tr o ->
      (exists q, walk s g None (pre ++ tr) q) /\
      (forall x, List.In x (pre ++ tr) -> exists b i, nth_error (locs s b) i = Some x /\ reachable s b = true).

  Lemma faithful_go : forall M s t g pre body, go M s t -> g < graphs s -> faithful s g pre body -> faithful t g pre body.
  Proof.
    intros M s t g pre body G GL F tr o R. destruct (F tr o R) as [[q Wq] X]. split; [exists q; exact (go_walk _ s t g None _ q G GL Wq)|].
    intros x I. destruct (X x I) as (b & i & N & Re). exists b, i. split; [exact (go_nth _ s t b i x G N)|].
    destruct G as (W & _ & E). apply (x_reach _ _ _ _ E); [|exact Re].
    destruct (lt_dec b (blocks s)) as [L|L]; [exact L|]. destruct (wf_new _ s W b ltac:(lia)) as [C _]. rewrite C in N. destruct i; discriminate.
  Qed.

  (** The same for the functions in a program. *)
  Definition covered (fs : list (nat * list stmt)) (s : state) : Prop :=
    forall n b, List.In (n, b) fs -> forallb (plain swallows) b = true ->
      exists g, g < graphs s /\ owner (graph s g) = Whole n /\ faithful s g [Part n Args] b.
  Lemma covered_go : forall M fs s t, go M s t -> covered fs s -> covered fs t.
  Proof.
    intros M fs s t G C n b I P. destruct (C n b I P) as (g & GL & O & F). exists g. pose proof (go_graphs _ _ _ G). split; [lia|].
    split; [|exact (faithful_go M s t g _ b G GL F)]. destruct G as (_ & _ & E). destruct (x_graph _ _ _ _ E g GL) as (_ & O' & _). congruence.
  Qed.
  Lemma covered_app : forall fs gs s, covered fs s -> covered gs s -> covered (fs ++ gs) s.
  Proof. intros fs gs s A B n b I P. apply in_app_or in I. destruct I as [I|I]; [exact (A n b I P) | exact (B n b I P)]. Qed.
  Lemma covered_none : forall s, covered [] s.
  Proof. intros s n b []. Qed.

  (** The claim for one statement and for a list. *)
  Definition stmt_right (s : stmt) : Prop :=
    forall g bs st c, grammatical s = true -> NoDup (numbers s) -> wf st -> g < graphs st -> ready st g c -> bounded st c bs ->
      exists t c', visit g bs s (st, c) = Ok (t, c') /\ result True g st c t c' /\ kept st t (numbers s) /\ placed st c t (stmt_number s) /\
        covered (functions s) t /\ (plain swallows s = true -> covers (run s) g bs st c t c').
  Definition list_right (l : list stmt) : Prop :=
    forall g bs st c, forallb grammatical l = true -> NoDup (flat_map numbers l) -> wf st -> g < graphs st -> ready st g c -> bounded st c bs ->
      exists t c', visit_all g bs l (st, c) = Ok (t, c') /\ result (l <> []) g st c t c' /\ kept st t (flat_map numbers l) /\
        match l with [] => (t, c') = (st, c) | f :: _ => placed st c t (stmt_number f) end /\
        covered (flat_map functions l) t /\ (forallb (plain swallows) l = true -> covers (runs l) g bs st c t c').

  Lemma number_in : forall s, List.In (stmt_number s) (numbers s).
  Proof. destruct s; left; reflexivity. Qed.
  Lemma NoDup_app_l : forall (l m : list nat), NoDup (l ++ m) -> NoDup l /\ NoDup m /\ forall x, List.In x l -> ~ List.In x m.
  Proof.
    induction l as [|y l IH]; intros m N; [split; [constructor|]; split; [exact N | intros x []]|].
    inversion N as [|y' l' NI N']; subst. destruct (IH m N') as (A & B & C). split; [constructor; [intros X; apply NI; apply in_or_app; auto | exact A]|].
    split; [exact B|]. intros x [<-|I]; [intros X; apply NI; apply in_or_app; auto | exact (C x I)].
  Qed.

  Lemma result_bounded : forall NE g s c t c' bs, result NE g s c t c' -> bounded s c bs -> bounded t c' bs.
  Proof.
    intros NE g s c t c' bs [G R W] B. apply (bounded_more s t c c' bs B (go_blocks _ _ _ G)). destruct W as [[-> _]|W]; auto.
  Qed.

  Lemma list_right_of : forall l, Forall stmt_right l -> list_right l.
  Proof.
    intros l F. induction F as [|s l HS F IH]; intros g bs st c GR ND W GL R B.
    - exists st, c. split; [reflexivity|]. split; [constructor; [apply go_refl; exact W | exact R | left; split; [reflexivity | congruence]]|].
      split; [apply kept_refl; reflexivity|]. split; [reflexivity|]. split; [apply covered_none|]. intros _ p tr o FR [-> O].
      exists p. split; [constructor|]. split; [auto|]. intros b E. destruct O as [-> | ->]; discriminate.
    - cbn [forallb] in GR. apply andb_true_iff in GR. destruct GR as [GR1 GR2]. cbn [flat_map] in ND.
      destruct (NoDup_app_l _ _ ND) as (N1 & N2 & N3).
      destruct (HS g bs st c GR1 N1 W GL R B) as (t1 & c1 & E1 & R1 & K1 & P1 & C1 & V1).
      pose proof (result_bounded _ _ _ _ _ _ _ R1 B) as B1. destruct R1 as [G1 RD1 WH1].
      assert (GL1 : g < graphs t1) by (pose proof (go_graphs _ _ _ G1); lia).
      destruct (IH g bs t1 c1 GR2 N2 (proj1 (proj2 G1)) GL1 RD1 B1) as (t2 & c2 & E2 & R2 & K2 & P2 & C2 & V2). destruct R2 as [G2 RD2 WH2].
      exists t2, c2. cbn [visit_all]. rewrite E1. cbn [bind]. split; [exact E2|]. pose proof (go_blocks _ _ _ G1) as BL1. split; [|split; [|split; [|split]]].
      + constructor.
        * apply (go_weaken (fun b => c = b \/ c1 = b)); [|exact (go_trans _ _ _ _ _ G1 G2)]. intros b L [H|H]; [exact H|].
          destruct WH1 as [[H1 _]|H1]; [congruence | lia].
        * exact RD2.
        * destruct WH2 as [[-> _]|H2]; [|right; lia]. destruct WH1 as [[-> NE]|H1]; [|right; lia]. left. split; [reflexivity|]. intros _.
          exact (go_nonempty _ _ _ c G2 (ready_block _ _ _ RD1) (NE Logic.I)).
      + exact (kept_trans _ _ _ _ _ K1 K2).
      + destruct P1 as (p & n & PE & PN & PP). exists p, n. rewrite (K2 (stmt_number s) (N3 _ (number_in s))). split; [exact PE|].
        split; [exact (go_nth _ _ _ _ _ _ G2 PN)|]. intros LE. destruct (PP LE) as [P0 PC]. split; [exact P0|]. intros NE. apply PC. intros CE.
        apply NE. rewrite (go_locs _ _ _ c G2); [exact CE | pose proof (ready_block _ _ _ R); lia|]. intros ->. destruct WH1 as [[_ X]|X]; [exact (X Logic.I CE)|].
        pose proof (ready_block _ _ _ R). lia.
      + apply covered_app; [exact (covered_go _ _ _ _ G2 C1) | exact C2].
      + cbn [forallb]. intros PL. apply andb_true_iff in PL. destruct PL as [PL1 PL2]. cbn [CfgSpec.runs].
        exact (covers_then _ _ _ _ _ _ _ _ _ _ (V1 PL1) (V2 PL2) G2 GL1 B1).
  Qed.

  (** ** The operations again *)

  Lemma link_go : forall g a b s, wf s -> g < graphs s -> a < blocks s -> b < blocks s -> a <> b ->
    (locs s a = [] -> List.In a (unreachable (graph s g))) ->
    (locs s a = [] -> a = start (graph s g) -> locs s b <> []) ->
    exists t, link_or_merge g a b s = Ok t /\ go (eq a) s t /\ blocks t = blocks s /\ graphs t = graphs s /\ locs t = locs s /\
      (forall p, front s g a p -> arrives t g b p) /\ (forall x, x <> a -> succs t x = succs s x) /\ places t = places s.
  Proof.
    intros g a b s W GL AL BL AB UN ST.
    destruct (link_or_merge_right (graphs s) g a b s W (le_n _) GL AL BL AB UN ST) as (t & E & W1 & X & A1 & A2 & A3 & A4 & A5 & A6 & _).
    exists t. split; [exact E|]. split; [split; [exact W|]; split; [exact W1 | exact X]|]. auto 10.
  Qed.
  Lemma after_go : forall g a s, wf s -> g < graphs s -> a < blocks s -> locs s a <> [] ->
    exists t, block_after g a s = Ok (t, blocks s) /\ go (eq a) s t /\ blocks t = S (blocks s) /\ graphs t = graphs s /\
      ready t g (blocks s) /\ locs t (blocks s) = [] /\ (forall p, front s g a p -> front t g (blocks s) p) /\ places t = places s /\
      (forall x, x < blocks s -> locs t x = locs s x).
  Proof.
    intros g a s W GL AL NA.
    destruct (block_after_right (graphs s) g a s W (le_n _) GL AL NA) as (t & E & W1 & X & A1 & A2 & A3 & A4 & A5 & A6 & _ & A7 & _).
    exists t. split; [exact E|]. split; [split; [exact W|]; split; [exact W1 | exact X]|]. auto 10.
  Qed.

  (** Adding a node to the current block. *)
  Lemma add_statement_ready : forall g c n s, ready s g c -> ready (add_statement c n s) g c.
  Proof.
    intros g c n s [R1 R2 R3]. constructor.
    - exact R1.
    - exact R2.
    - rewrite add_statement_locs. intros C. apply app_eq_nil in C. destruct C. discriminate.
  Qed.
  Lemma add_statement_some : forall c n s, locs (add_statement c n s) c <> [].
  Proof. intros c n s. rewrite add_statement_locs. intros C. apply app_eq_nil in C. destruct C. discriminate. Qed.
  Lemma add_statement_covers : forall g bs c n s, wf s -> succs s c = [] -> covers (event n) g bs s c (add_statement c n s) c.
  Proof.
    intros g bs c n s W O p tr o F [[-> ->]|[-> OO]].
    - exists p. split; [constructor|]. split; discriminate.
    - exists (Some (c, List.length (locs s c))). split; [apply walk_one; exact (enter _ s g c n p W O F)|]. split.
      + intros _. apply add_statement_front.
      + intros b E. destruct OO as [-> | ->]; discriminate.
  Qed.
  Lemma add_statement_nth : forall c n s, nth_error (locs (add_statement c n s) c) (List.length (locs s c)) = Some n.
  Proof. intros. rewrite add_statement_locs, nth_error_app2, Nat.sub_diag by lia. reflexivity. Qed.
  Lemma add_statement_kept : forall c n s ns, kept s (add_statement c (Whole n) s) (n :: ns).
  Proof. intros c n s ns m N. unfold add_statement. cbn [is_jump]. rewrite place_whole_other; [reflexivity|]. intros ->. apply N. left. reflexivity. Qed.
  Lemma add_statement_kept_part : forall c n p s ns, kept s (add_statement c (Part n p) s) ns.
  Proof. intros c n p s ns m N. reflexivity. Qed.
  Lemma add_statement_placed : forall c n s, placed s c (add_statement c (Whole n) s) n.
  Proof.
    intros c n s. exists (c, List.length (locs s c)), (Whole n). split; [apply place_whole_same|]. split; [apply add_statement_nth|].
    intros ->. auto.
  Qed.

  Lemma simple_right : forall n, stmt_right (Simple n).
  Proof.
    intros n g bs st c _ _ W GL R B. exists (add_statement c (Whole n) st), c. split; [reflexivity|]. split; [|split; [|split; [|split]]].
    - constructor; [exact (go_add_statement c _ st W (ready_block _ _ _ R) (ready_open _ _ _ R)) | exact (add_statement_ready g c _ st R)|].
      left. split; [reflexivity|]. intros _. apply add_statement_some.
    - apply add_statement_kept.
    - apply add_statement_placed.
    - apply covered_none.
    - intros _. exact (add_statement_covers g bs c _ st W (ready_open _ _ _ R)).
  Qed.
  Lemma opaque_right : forall n b, stmt_right (Opaque n b).
  Proof.
    intros n b g bs st c _ _ W GL R B. exists (add_statement c (Whole n) st), c. split; [reflexivity|]. split; [|split; [|split; [|split]]].
    - constructor; [exact (go_add_statement c _ st W (ready_block _ _ _ R) (ready_open _ _ _ R)) | exact (add_statement_ready g c _ st R)|].
      left. split; [reflexivity|]. intros _. apply add_statement_some.
    - apply add_statement_kept.
    - apply add_statement_placed.
    - apply covered_none.
    - discriminate.
  Qed.

  Lemma jump_right : forall n k, stmt_right (Jump n k).
  Proof.
    intros n k g bs st c _ _ W GL R B. pose proof (ready_block _ _ _ R) as CL. pose proof (ready_open _ _ _ R) as CO.
    pose proof (go_add_statement c (Whole n) st W CL CO) as G1.
    set (s1 := add_statement c (Whole n) st) in *.
    assert (L1 : locs s1 c = locs st c ++ [Whole n]) by apply add_statement_locs.
    assert (NE1 : locs s1 c <> []) by apply add_statement_some.
    set (s2 := match jump_target (keys_of k) bs with Some b => link c b s1 | None => s1 end).
    assert (B2 : blocks s2 = blocks st) by (unfold s2; destruct (jump_target (keys_of k) bs); reflexivity).
    assert (GR2 : graphs s2 = graphs st) by (unfold s2; destruct (jump_target (keys_of k) bs); reflexivity).
    assert (L2 : locs s2 = locs s1) by (unfold s2; destruct (jump_target (keys_of k) bs); reflexivity).
    assert (P2 : places s2 = places s1) by (unfold s2; destruct (jump_target (keys_of k) bs); reflexivity).
    assert (G2 : go (eq c) s1 s2).
    { unfold s2. destruct (jump_target (keys_of k) bs) as [b|] eqn:E; [|apply go_refl; exact (proj1 (proj2 G1))].
      assert (BL : b < blocks st) by exact (jump_target_in (fun t => t < blocks st) _ bs b (proj1 B) E).
      assert (WS : wf s1) by exact (proj1 (proj2 G1)).
      split; [exact WS|]. split; [exact (add_edge_wf _ c b s1 WS CL BL NE1) | exact (add_edge_ext _ _ c b s1 WS)]. }
    assert (GL2 : g < graphs s2) by lia.
    pose proof (go_new_block g s2 (proj1 (proj2 G2)) GL2) as G3.
    exists (fst (new_block g s2)), (blocks s2). split; [reflexivity|].
    assert (G : go (eq c) st (fst (new_block g s2))).
    { apply (go_weaken (fun b => (c = b \/ c = b) \/ False)); [intros b _; tauto|]. exact (go_trans _ _ _ _ _ (go_trans _ _ _ _ _ G1 G2) G3). }
    split; [|split; [|split; [|split]]].
    - constructor; [exact G | exact (new_block_ready _ g s2 (proj1 (proj2 G2)) GL2) | right; lia].
    - intros m N. unfold place_of. rewrite new_block_places, P2. exact (add_statement_kept c n st [] m N).
    - destruct (add_statement_placed c n st) as (p & x & E1 & E2 & E3). exists p, x. fold s1 in E1, E2, E3.
      split; [unfold place_of; rewrite new_block_places, P2; exact E1|].
      split; [apply (go_nth _ s2 _ _ _ _ G3); rewrite L2; exact E2|]. intros LE. destruct (E3 LE) as [E4 E5]. split; [exact E4|]. intros _. exact (E5 NE1).
    - apply covered_none.
    - intros _ p tr o F [[-> ->]|[-> OO]].
      + exists p. split; [constructor|]. split; discriminate.
      + exists (Some (c, List.length (locs st c))). pose proof (enter _ st g c (Whole n) p W CO F) as ST. fold s1 in ST. split; [|split].
        * apply (go_walk _ s2 _ g p _ _ G3 GL2). apply (go_walk _ s1 _ g p _ _ G2 GL). apply walk_one. exact ST.
        * intros ->. destruct OO as [OO|OO]; [destruct k; discriminate | discriminate].
        * intros b E. assert (J : jump_target (keys_of k) bs = Some b).
          { destruct OO as [-> | ->]; [|discriminate]. destruct k; try exact E; discriminate. }
          apply (go_into _ s2 _ _ b G3); [left; tauto|]. unfold s2. rewrite J. exists c, (edges s1). unfold link. cbn [is_jump]. unfold add_edge.
          cbn [locs succs target]. rewrite !set_same, L1, app_length. cbn [List.length]. split; [f_equal; f_equal; lia|].
          split; [apply in_or_app; right; left; reflexivity | reflexivity].
  Qed.

  (** ** Branches *)

  Lemma visit_if : forall g bs n body orelse s0 c,
    visit g bs (If n body orelse) (s0, c) =
      do s2 <- add_CF_statement c (Whole n) (Last (Part n Test)) (add_statement c (Part n Test) s0);
      do x <- block_after g c s2;
      do x <- visit_all g bs body x;
      let end_if := snd x in
      do x <- match orelse with
              | [] => Ok (fst x, c)
              | _ => do x <- block_after g c (fst x); visit_all g bs orelse x
              end;
      let end_else := snd x in
      let (s3, after) := new_block g (fst x) in
      do s4 <- link_or_merge g end_if after s3;
      do s5 <- link_or_merge g end_else after s4;
      Ok (s5, after).
  Proof. reflexivity. Qed.
  Lemma run_if : forall n body orelse, run (If n body orelse) = then_ (event (Part n Test)) (either (runs body) (runs orelse)).
  Proof. reflexivity. Qed.

  (** The last node of the block gets the place of the statement. *)
  Lemma add_CF_last : forall c n p s, add_CF_statement c (Whole n) (Last (Part n p)) (add_statement c (Part n p) s) =
    Ok (with_place (add_statement c (Part n p) s) (Whole n) (c, List.length (locs s c))).
  Proof.
    intros c n p s. unfold add_CF_statement, position_of. rewrite add_statement_locs, rev_app_distr. cbn [rev app].
    rewrite node_eqb_refl. cbn [bind]. rewrite app_length. cbn [List.length]. repeat f_equal. lia.
  Qed.

  (** The visit of the else branch of an if statement. *)
  Lemma orelse_right : forall g bs c orelse s, list_right orelse -> forallb grammatical orelse = true -> NoDup (flat_map numbers orelse) ->
    wf s -> g < graphs s -> c < blocks s -> locs s c <> [] -> succs s c <> [] -> bounded s c bs ->
    exists t e, match orelse with [] => Ok (s, c) | _ => do x <- block_after g c s; visit_all g bs orelse x end = Ok (t, e) /\
      go (eq c) s t /\ kept s t (flat_map numbers orelse) /\ (e = c \/ blocks s <= e) /\ e < blocks t /\ locs t c = locs s c /\
      (locs t e = [] -> List.In e (unreachable (graph t g)) /\ e <> start (graph t g)) /\
      covered (flat_map functions orelse) t /\ (forallb (plain swallows) orelse = true -> covers (runs orelse) g bs s c t e).
  Proof.
    intros g bs c orelse s H GR ND W GL CL NE SN B. destruct orelse as [|f l].
    - exists s, c. split; [reflexivity|]. split; [apply go_refl; exact W|]. split; [apply kept_refl; reflexivity|]. split; [auto|].
      split; [exact CL|]. split; [reflexivity|]. split; [intros C; contradiction|]. split; [apply covered_none|]. intros _ p tr o F [-> O].
      exists p. split; [constructor|]. split; [auto|]. intros b E. destruct O as [-> | ->]; discriminate.
    - destruct (after_go g c s W GL CL NE) as (s1 & E1 & G1 & B1 & GR1 & R1 & L1 & F1 & P1 & O1).
      destruct (H g bs s1 (blocks s) GR ND (proj1 (proj2 G1)) ltac:(lia) R1) as (t & e & E2 & [G2 R2 WH2] & K2 & _ & C2 & V2).
      { apply (bounded_more s s1 c); auto. lia. }
      exists t, e. rewrite E1. cbn [bind]. split; [exact E2|].
      assert (G : go (eq c) s t).
      { apply (go_weaken (fun b => c = b \/ blocks s = b)); [intros b L [Q|Q]; [exact Q | lia]|]. exact (go_trans _ _ _ _ _ G1 G2). }
      split; [exact G|].
      split; [intros m N; rewrite (K2 m N); unfold place_of; rewrite P1; reflexivity|].
      assert (EB : blocks s <= e) by (destruct WH2 as [[-> _]|X]; lia).
      split; [right; exact EB|]. split; [exact (ready_block _ _ _ R2)|]. split.
      { rewrite (go_locs _ _ _ c G2); [apply O1; exact CL | lia | lia]. }
      split; [intros LE; split; [exact (ready_empty _ _ _ R2 LE) | exact (go_start _ _ _ g e G GL EB LE)]|].
      split; [exact C2|]. intros PL p tr o F R. exact (V2 PL p tr o (F1 p F) R).
  Qed.

  Lemma if_right : forall n body orelse, list_right body -> list_right orelse -> stmt_right (If n body orelse).
  Proof.
    intros n body orelse HB HE g bs st c GR ND W GL R B. pose proof (ready_block _ _ _ R) as CL. pose proof (ready_open _ _ _ R) as CO.
    cbn [grammatical] in GR. apply andb_true_iff in GR. destruct GR as [GR GR2]. apply andb_true_iff in GR. destruct GR as [GR0 GR1].
    cbn [numbers] in ND. inversion ND as [|n' l' NI ND']; subst. destruct (NoDup_app_l _ _ ND') as (N1 & N2 & N3).
    rewrite visit_if, add_CF_last. cbn [bind].
    pose proof (go_add_statement c (Part n Test) st W CL CO) as G1.
    set (s1 := add_statement c (Part n Test) st) in *.
    pose proof (go_place (Whole n) (c, List.length (locs st c)) s1 (proj1 (proj2 G1))) as G2.
    assert (L2 : locs (with_place s1 (Whole n) (c, List.length (locs st c))) c = locs st c ++ [Part n Test]) by (cbn; apply add_statement_locs).
    assert (F2 : forall q, q = Some (c, List.length (locs st c)) -> front (with_place s1 (Whole n) (c, List.length (locs st c))) g c q)
      by (intros q ->; exact (add_statement_front c (Part n Test) st g)).
    assert (K2 : kept st (with_place s1 (Whole n) (c, List.length (locs st c))) [n]).
    { intros m N. rewrite place_whole_other; [reflexivity|]. intros ->. apply N. left. reflexivity. }
    assert (PL2 : place_of (Whole n) (with_place s1 (Whole n) (c, List.length (locs st c))) = Ok (c, List.length (locs st c))) by apply place_whole_same.
    assert (G12 : go (eq c) st (with_place s1 (Whole n) (c, List.length (locs st c)))).
    { apply (go_weaken (fun b => c = b \/ False)); [tauto|]. exact (go_trans _ _ _ _ _ G1 G2). }
    assert (B2 : blocks (with_place s1 (Whole n) (c, List.length (locs st c))) = blocks st) by reflexivity.
    assert (GG2 : graphs (with_place s1 (Whole n) (c, List.length (locs st c))) = graphs st) by reflexivity.
    assert (WK : forall p, front st g c p -> walk (with_place s1 (Whole n) (c, List.length (locs st c))) g p [Part n Test] (Some (c, List.length (locs st c)))).
    { intros p F. apply (go_walk _ s1 _ g p _ _ G2 GL). apply walk_one. exact (enter _ st g c (Part n Test) p W CO F). }
    set (s2 := with_place s1 (Whole n) (c, List.length (locs st c))) in *. clearbody s2. clear G2 G1. clear s1.
    assert (NE2 : locs s2 c <> []) by (rewrite L2; intros C; apply app_eq_nil in C; destruct C; discriminate).
    destruct (after_go g c s2 (proj1 (proj2 G12)) ltac:(lia) ltac:(lia) NE2) as (s3 & E3 & G3 & B3 & GG3 & R3 & L3 & F3 & P3 & O3).
    rewrite E3. cbn [bind].
    destruct (HB g bs s3 (blocks s2) GR1 N1 (proj1 (proj2 G3)) ltac:(lia) R3) as (s4 & e1 & E4 & [G4 R4 WH4] & K4 & _ & C4 & V4).
    { apply (bounded_more st s3 c); auto; lia. }
    rewrite E4. cbn [bind fst snd].
    assert (EB1 : blocks st <= e1) by (destruct WH4 as [[-> _]|X]; lia).
    pose proof (go_blocks _ _ _ G4) as BL4. pose proof (go_graphs _ _ _ G4) as GG4.
    assert (L4 : locs s4 c = locs s2 c) by (rewrite (go_locs _ _ _ c G4) by lia; apply O3; lia).
    assert (SN4 : succs s4 c <> []).
    { destruct G4 as (_ & _ & X4). apply (proj2 (x_closed _ _ _ _ X4 c ltac:(lia)
        ltac:(intros C; destruct G3 as (W2' & W3' & X3); specialize (F3 _ (F2 _ eq_refl)); unfold front in F3; rewrite L3 in F3;
              destruct F3 as [[[x [e [PE [PI _]]]]|[C' _]] _]; [injection PE as -> _; rewrite C in PI; destruct PI | discriminate]))). }
    destruct (orelse_right g bs c orelse s4 HE GR2 N2 (proj1 (proj2 G4)) ltac:(lia) ltac:(lia) ltac:(congruence) SN4) as (s5 & e2 & E5 & G5 & K5 & WH5 & EL5 & L5 & U5 & C5 & V5).
    { apply (bounded_more st s4 c); auto; lia. }
    rewrite E5. cbn [bind fst snd].
    pose proof (go_blocks _ _ _ G5) as BL5. pose proof (go_graphs _ _ _ G5) as GG5.
    pose proof (ready_block _ _ _ R4) as EL4.
    assert (D12 : e1 <> e2) by (destruct WH5 as [-> | X]; lia).
    pose proof (go_new_block g s5 (proj1 (proj2 G5)) ltac:(lia)) as G6. destruct (new_block_empty g s5) as [L6 _].
    pose proof (new_block_ready _ g s5 (proj1 (proj2 G5)) ltac:(lia)) as R6.
    assert (O6 : forall x, x < blocks s5 -> locs (fst (new_block g s5)) x = locs s5 x) by (intros x XL; exact (proj1 (new_block_old _ g s5 x (proj1 (proj2 G5)) XL))).
    assert (B6 : blocks (fst (new_block g s5)) = S (blocks s5)) by reflexivity.
    assert (GG6 : graphs (fst (new_block g s5)) = graphs s5) by reflexivity.
    assert (P6 : places (fst (new_block g s5)) = places s5) by reflexivity.
    replace (new_block g s5) with (fst (new_block g s5), blocks s5) by reflexivity.
    set (s6 := fst (new_block g s5)) in *. clearbody s6.
    assert (L56 : locs s6 e1 = locs s4 e1) by (rewrite O6 by lia; apply (go_locs _ _ _ e1 G5); lia).
    assert (G46 : go (eq c) s4 s6) by (apply (go_weaken (fun b => c = b \/ False)); [tauto | exact (go_trans _ _ _ _ _ G5 G6)]).
    assert (G06 : go (eq c) st s6).
    { apply (go_weaken (fun b => ((c = b \/ c = b) \/ blocks s2 = b) \/ c = b)).
      - intros b L Q. destruct Q as [[[Q|Q]|Q]|Q]; auto. lia.
      - exact (go_trans _ _ _ _ _ (go_trans _ _ _ _ _ (go_trans _ _ _ _ _ G12 G3) G4) G46). }
    destruct (link_go g e1 (blocks s5) s6 (proj1 (proj2 G6)) ltac:(lia) ltac:(lia) ltac:(lia) ltac:(lia)) as (s7 & E7 & G7 & B7 & GG7 & L7 & A7 & S7 & P7).
    { rewrite L56. intros LE. apply (go_unr _ _ _ g e1 G46); [lia | exact (ready_empty _ _ _ R4 LE) | lia]. }
    { intros LE SE. exfalso. exact (go_start _ _ _ g e1 G06 GL EB1 LE SE). }
    rewrite E7. cbn [bind].
    assert (G07 : go (eq c) st s7) by (apply (go_weaken (fun b => c = b \/ e1 = b)); [intros b L [Q|Q]; [exact Q | lia] | exact (go_trans _ _ _ _ _ G06 G7)]).
    destruct (link_go g e2 (blocks s5) s7 (proj1 (proj2 G7)) ltac:(lia) ltac:(lia) ltac:(lia) ltac:(lia)) as (s8 & E8 & G8 & B8 & GG8 & L8 & A8 & S8 & P8).
    { rewrite L7, O6 by lia. intros LE. apply (go_unr _ _ _ g e2 G7); [lia | | lia]. apply (go_unr _ _ _ g e2 G6); [lia | exact (proj1 (U5 LE)) | tauto]. }
    { intros LE SE. exfalso. destruct WH5 as [-> | X5].
      - rewrite L7, O6, L5, L4 in LE by lia. contradiction.
      - exact (go_start _ _ _ g e2 G07 GL ltac:(lia) LE SE). }
    rewrite E8. cbn [bind]. exists s8, (blocks s5). split; [reflexivity|].
    assert (G08 : go (eq c) st s8).
    { apply (go_weaken (fun b => c = b \/ e2 = b)); [|exact (go_trans _ _ _ _ _ G07 G8)]. intros b L [Q|Q]; [exact Q|]. destruct WH5; lia. }
    assert (G68 : go (fun b => e1 = b \/ e2 = b) s6 s8) by exact (go_trans _ _ _ _ _ G7 G8).
    assert (G58 : go (fun b => False \/ (e1 = b \/ e2 = b)) s5 s8) by exact (go_trans _ _ _ _ _ G6 G68).
    assert (G48 : go (fun b => c = b \/ (e1 = b \/ e2 = b)) s4 s8) by exact (go_trans _ _ _ _ _ G46 G68).
    assert (LA : locs s8 (blocks s5) = []) by (rewrite (go_locs _ _ _ _ G68); [exact L6 | lia | lia]).
    assert (NS : blocks s5 <> start (graph s8 g)) by exact (go_start _ _ _ g (blocks s5) G08 GL ltac:(lia) LA).
    split; [|split; [|split; [|split]]].
    - constructor; [exact G08| |right; lia]. constructor.
      + lia.
      + apply (go_open _ _ _ _ G68); [lia | lia | exact (ready_open _ _ _ R6)].
      + intros _. apply (go_unr _ _ _ g _ G68); [lia | exact (ready_empty _ _ _ R6 L6) | lia].
    - intros m NM. cbn [List.In] in NM. assert (N' : ~ List.In m (flat_map numbers body) /\ ~ List.In m (flat_map numbers orelse)).
      { split; intros C; apply NM; cbn [numbers]; right; apply in_or_app; auto. }
      transitivity (place_of (Whole m) s4).
      + rewrite <- (K5 m (proj2 N')). unfold place_of. rewrite P8, P7, P6. reflexivity.
      + rewrite (K4 m (proj1 N')). rewrite <- (K2 m); [unfold place_of; rewrite P3; reflexivity|]. intros [C|[]]. apply NM. left. exact C.
    - exists (c, List.length (locs st c)), (Part n Test). cbn [fst snd stmt_number]. split; [|split].
      + assert (NB : ~ List.In n (flat_map numbers body) /\ ~ List.In n (flat_map numbers orelse)) by (split; intros C; apply NI; apply in_or_app; auto).
        rewrite <- PL2. transitivity (place_of (Whole n) s4).
        * rewrite <- (K5 n (proj2 NB)). unfold place_of. rewrite P8, P7, P6. reflexivity.
        * rewrite (K4 n (proj1 NB)). unfold place_of. rewrite P3. reflexivity.
      + apply (go_nth _ s4 s8 _ _ _ G48). rewrite L4, L2, nth_error_app2, Nat.sub_diag by lia. reflexivity.
      + intros ->. auto.
    - apply covered_app; [exact (covered_go _ _ _ _ G48 C4) | exact (covered_go _ _ _ _ G58 C5)].
    - cbn [plain]. intros PL. apply andb_true_iff in PL. destruct PL as [PLB PLE]. specialize (V4 PLB). specialize (V5 PLE). clear E3 E4 E5 E7 E8 HB HE.
      rewrite run_if. intros p tr o F RU.
      assert (NEX : forall o b, exits o bs = Some b -> b <> c /\ b <> e1 /\ b <> e2).
      { intros o' b E. destruct (exits_block st c bs o' b B E). split; [assumption|]. split; [lia|]. destruct WH5; lia. }
      assert (WN : forall q, q = Some (c, List.length (locs st c)) -> front s2 g c q) by exact F2.
      destruct RU as [(t1 & u & -> & RT & RB)|[RT NF]].
      + assert (t1 = [Part n Test]) as -> by (destruct RT as [[_ Q]|[Q _]]; [discriminate | exact Q]).
        specialize (WK p F). destruct RB as [RB|RB].
        * destruct (V4 _ u o (F3 _ (F2 _ eq_refl)) RB) as (q & Wq & Fq & Eq). exists q. split; [|split].
          -- apply (walk_app _ g p [Part n Test] (Some (c, List.length (locs st c))) u q).
             ++ apply (go_walk _ s4 s8 g _ _ _ G48 ltac:(lia)). apply (go_walk _ s3 s4 g _ _ _ G4 ltac:(lia)). exact (go_walk _ s2 s3 g _ _ _ G3 ltac:(lia) WK).
             ++ exact (go_walk _ s4 s8 g _ _ _ G48 ltac:(lia) Wq).
          -- intros OF. apply empty_front; [exact LA| | congruence]. apply (go_arrives _ s7 s8 g _ q G8); [lia | left; lia|]. apply A7.
             apply (go_front _ s4 s6 g e1 q G46); [lia | lia | lia | exact (Fq OF)].
          -- intros b E. destruct (NEX o b E) as (X1 & X2 & X3). apply (go_into _ s4 s8 q b G48); [left; lia | exact (Eq b E)].
        * assert (F4 : front s4 g c (Some (c, List.length (locs st c)))).
          { apply nonempty_front; [congruence|]. rewrite L4, L2, app_length. cbn [List.length]. f_equal. f_equal. lia. }
          destruct (V5 _ u o F4 RB) as (q & Wq & Fq & Eq). exists q. split; [|split].
          -- apply (walk_app _ g p [Part n Test] (Some (c, List.length (locs st c))) u q).
             ++ apply (go_walk _ s4 s8 g _ _ _ G48 ltac:(lia)). apply (go_walk _ s3 s4 g _ _ _ G4 ltac:(lia)). exact (go_walk _ s2 s3 g _ _ _ G3 ltac:(lia) WK).
             ++ exact (go_walk _ s5 s8 g _ _ _ G58 ltac:(lia) Wq).
          -- intros OF. apply empty_front; [exact LA| | congruence]. apply A8. apply (go_front _ s6 s7 g e2 q G7); [lia | lia | lia|].
             apply (go_front _ s5 s6 g e2 q G6); [lia | lia | tauto | exact (Fq OF)].
          -- intros b E. destruct (NEX o b E) as (X1 & X2 & X3). apply (go_into _ s5 s8 q b G58); [left; lia | exact (Eq b E)].
      + destruct RT as [[-> ->]|[-> OO]].
        * exists p. split; [constructor|]. split; discriminate.
        * exists (Some (c, List.length (locs st c))). split; [|split].
          -- apply (go_walk _ s4 s8 g _ _ _ G48 ltac:(lia)). apply (go_walk _ s3 s4 g _ _ _ G4 ltac:(lia)). exact (go_walk _ s2 s3 g _ _ _ G3 ltac:(lia) (WK p F)).
          -- congruence.
          -- intros b E. destruct OO as [-> | ->]; discriminate.
  Qed.

  Ltac weak G :=
    eapply go_weaken; [|exact G]; cbv beta;
    let b := fresh "b" in let L := fresh "L" in let Q := fresh "Q" in intros b L Q;
    repeat match goal with H : _ \/ _ |- _ => destruct H | H : False |- _ => destruct H end; first [assumption | lia].

  (** ** Loops *)

  Definition visit_loop (g : nat) (bs : boundaries) (test : nat) (body orelse : list stmt) (s : state) : res (state * nat) :=
    let (s5, after) := new_block g s in
    do x <- block_after g test s5;
    do x <- visit_all g ([(KBreak, after); (KContinue, test)] :: bs) body x;
    do s6 <- link_or_merge g (snd x) test (fst x);
    do x <- block_after g test s6;
    do x <- visit_all g bs orelse x;
    do s7 <- link_or_merge g (snd x) after (fst x);
    Ok (s7, after).

  Lemma loop_exits : forall o after test bs,
    exits o ([(KBreak, after); (KContinue, test)] :: bs) = match o with Broke => Some after | Continued => Some test | _ => exits o bs end.
  Proof. destruct o; reflexivity. Qed.

  Lemma loop_right : forall g bs test body orelse s N, list_right body -> list_right orelse -> body <> [] ->
    forallb grammatical body = true -> forallb grammatical orelse = true -> NoDup (flat_map numbers body) -> NoDup (flat_map numbers orelse) ->
    wf s -> g < graphs s -> test < blocks s -> locs s test = [N] -> succs s test = [] -> bounded s test bs ->
    exists t, visit_loop g bs test body orelse s = Ok (t, blocks s) /\ go (eq test) s t /\ ready t g (blocks s) /\ locs t (blocks s) = [] /\ locs t test = [N] /\
      kept s t (flat_map numbers body ++ flat_map numbers orelse) /\ covered (flat_map functions body ++ flat_map functions orelse) t /\
      (forallb (plain swallows) body = true -> forallb (plain swallows) orelse = true -> forall p tr o, arrives s g test p ->
         loop (event N) (runs body) (runs orelse) tr o ->
         exists q, walk t g p tr q /\ (o = Fell -> front t g (blocks s) q) /\ (forall b, exits o bs = Some b -> into t q b)).
  Proof.
    intros g bs test body orelse s N HB HE NB GB GE DB DE W GL TL LT ST B. unfold visit_loop.
    pose proof (go_new_block g s W GL) as G5. destruct (new_block_empty g s) as [L5 _].
    pose proof (new_block_ready _ g s W GL) as R5. destruct (new_block_old _ g s test W TL) as (LT5 & ST5 & _).
    assert (B5 : blocks (fst (new_block g s)) = S (blocks s)) by reflexivity.
    assert (GG5 : graphs (fst (new_block g s)) = graphs s) by reflexivity.
    assert (P5 : places (fst (new_block g s)) = places s) by reflexivity.
    replace (new_block g s) with (fst (new_block g s), blocks s) by reflexivity.
    set (s5 := fst (new_block g s)) in *. clearbody s5. rewrite LT in LT5. rewrite ST in ST5.
    destruct (after_go g test s5 (proj1 (proj2 G5)) ltac:(lia) ltac:(lia) ltac:(congruence)) as (s6 & E6 & G6 & B6 & GG6 & R6 & L6 & F6 & P6 & O6).
    rewrite E6. cbn [bind].
    set (bs' := [(KBreak, blocks s); (KContinue, test)] :: bs).
    assert (BO6 : bounded s6 (blocks s5) bs').
    { destruct (bounded_more s s6 test (blocks s5) bs B ltac:(lia) ltac:(lia)) as [BF BE]. split.
      - constructor; [|exact BF]. constructor; [cbn [snd]; lia|]. constructor; [cbn [snd]; lia | constructor].
      - intros o b. unfold bs'. rewrite loop_exits. intros E. destruct o; try discriminate; try (injection E as <-; lia). exact (BE Returned b E). }
    destruct (HB g bs' s6 (blocks s5) GB DB (proj1 (proj2 G6)) ltac:(lia) R6 BO6) as (s7 & e1 & E7 & [G7 R7 WH7] & K7 & _ & C7 & V7).
    rewrite E7. cbn [bind fst snd].
    assert (EB1 : blocks s5 <= e1) by (destruct WH7 as [[-> _]|X]; lia).
    pose proof (go_blocks _ _ _ G7) as BL7. pose proof (go_graphs _ _ _ G7) as GG7. pose proof (ready_block _ _ _ R7) as EL1.
    assert (LT7 : locs s7 test = [N]) by (rewrite (go_locs _ _ _ test G7) by lia; rewrite O6 by lia; exact LT5).
    assert (G57 : go (fun b => test = b \/ blocks s5 = b) s5 s7) by exact (go_trans _ _ _ _ _ G6 G7).
    destruct (link_go g e1 test s7 (proj1 (proj2 G7)) ltac:(lia) ltac:(lia) ltac:(lia) ltac:(lia)) as (s8 & E8 & G8 & B8 & GG8 & L8 & A8 & S8 & P8).
    { exact (ready_empty _ _ _ R7). }
    { intros LE SE. exfalso. exact (go_start _ _ _ g e1 G57 ltac:(lia) EB1 LE SE). }
    rewrite E8. cbn [bind].
    assert (LT8 : locs s8 test = [N]) by (rewrite L8; exact LT7).
    destruct (after_go g test s8 (proj1 (proj2 G8)) ltac:(lia) ltac:(lia) ltac:(congruence)) as (s9 & E9 & G9 & B9 & GG9 & R9 & L9 & F9 & P9 & O9).
    rewrite E9. cbn [bind].
    destruct (HE g bs s9 (blocks s8) GE DE (proj1 (proj2 G9)) ltac:(lia) R9) as (s10 & e2 & E10 & [G10 R10 WH10] & K10 & _ & C10 & V10).
    { apply (bounded_more s s9 test); auto; lia. }
    rewrite E10. cbn [bind fst snd].
    assert (EB2 : blocks s8 <= e2) by (destruct WH10 as [[-> _]|X]; lia).
    pose proof (go_blocks _ _ _ G10) as BL10. pose proof (go_graphs _ _ _ G10) as GG10. pose proof (ready_block _ _ _ R10) as EL2.
    assert (G8t10 : go (fun b => test = b \/ blocks s8 = b) s8 s10) by exact (go_trans _ _ _ _ _ G9 G10).
    destruct (link_go g e2 (blocks s) s10 (proj1 (proj2 G10)) ltac:(lia) ltac:(lia) ltac:(lia) ltac:(lia)) as (t & E11 & G11 & B11 & GG11 & L11 & A11 & S11 & P11).
    { exact (ready_empty _ _ _ R10). }
    { intros LE SE. exfalso. exact (go_start _ _ _ g e2 G8t10 ltac:(lia) EB2 LE SE). }
    rewrite E11. cbn [bind]. exists t. split; [reflexivity|].
    pose proof (go_trans _ _ _ _ _ G8t10 G11) as G8t. cbv beta in G8t.
    pose proof (go_trans _ _ _ _ _ G8 G8t) as G7t. cbv beta in G7t.
    pose proof (go_trans _ _ _ _ _ G57 G7t) as G5t. cbv beta in G5t.
    pose proof (go_trans _ _ _ _ _ G5 G5t) as G0t. cbv beta in G0t.
    assert (G : go (eq test) s t) by (weak G0t).
    assert (LA : locs t (blocks s) = []) by (rewrite (go_locs _ _ _ (blocks s) G5t); [exact L5 | lia | lia]).
    assert (LTt : locs t test = [N]).
    { rewrite L11. rewrite (go_locs _ _ _ test G10) by lia. rewrite O9 by lia. exact LT8. }
    assert (GLt : g < graphs t) by lia.
    assert (NS : blocks s <> start (graph t g)) by exact (go_start _ _ _ g (blocks s) G GL ltac:(lia) LA).
    split; [exact G|]. split; [|split; [exact LA|split; [exact LTt|split; [|split]]]].
    - constructor.
      + lia.
      + apply (go_open _ _ _ _ G5t); [lia | lia | exact (ready_open _ _ _ R5)].
      + intros _. apply (go_unr _ _ _ g _ G5t); [lia | exact (ready_empty _ _ _ R5 L5) | lia].
    - intros m NM. assert (N' : ~ List.In m (flat_map numbers body) /\ ~ List.In m (flat_map numbers orelse)) by (split; intros C; apply NM; apply in_or_app; auto).
      transitivity (place_of (Whole m) s9); [|transitivity (place_of (Whole m) s7)].
      + rewrite <- (K10 m (proj2 N')). unfold place_of. rewrite P11. reflexivity.
      + unfold place_of. rewrite P9, P8. reflexivity.
      + rewrite (K7 m (proj1 N')). unfold place_of. rewrite P6, P5. reflexivity.
    - apply covered_app; [exact (covered_go _ _ _ _ G7t C7) | exact (covered_go _ _ _ _ G11 C10)].
    - intros PB PE. specialize (V7 PB). specialize (V10 PE). clear E6 E7 E8 E9 E10 E11 HB HE.
      set (q0 := Some (test, 0)).
      assert (TEST : forall p, arrives t g test p -> walk t g p [N] q0).
      { intros p A. apply walk_one. exact (arrives_step _ t g test p N [] (proj1 (proj2 G)) LTt A). }
      assert (BODY : forall tr o, runs body tr o -> exists q, walk t g q0 tr q /\ (o = Fell \/ o = Continued -> arrives t g test q) /\
        (o = Broke -> front t g (blocks s) q) /\ (forall b, exits o bs = Some b -> o = Returned -> into t q b)).
      { intros tr o RB. assert (F5 : front s5 g test q0) by (apply nonempty_front; [congruence | rewrite LT5; reflexivity]).
        destruct (V7 q0 tr o (F6 _ F5) RB) as (q & Wq & Fq & Eq). exists q. split; [exact (go_walk _ s7 t g _ _ _ G7t ltac:(lia) Wq)|]. split; [|split].
        - intros [-> | ->].
          + apply (go_arrives _ s8 t g test q G8t); [lia | right; congruence|]. apply A8. exact (Fq eq_refl).
          + left. apply (go_into _ s7 t q test G7t); [right; congruence | apply Eq; reflexivity].
        - intros ->. apply empty_front; [exact LA| | congruence]. left. apply (go_into _ s7 t q (blocks s) G7t); [left; lia | apply Eq; reflexivity].
        - intros b E ->. destruct (exits_block s test bs _ b B E). apply (go_into _ s7 t q b G7t); [left; lia | apply Eq; exact E]. }
      assert (ELSE : forall tr o, runs orelse tr o -> exists q, walk t g q0 tr q /\ (o = Fell -> front t g (blocks s) q) /\ (forall b, exits o bs = Some b -> into t q b)).
      { intros tr o RE. assert (F8 : front s8 g test q0) by (apply nonempty_front; [congruence | rewrite LT8; reflexivity]).
        destruct (V10 q0 tr o (F9 _ F8) RE) as (q & Wq & Fq & Eq). exists q. split; [exact (go_walk _ s10 t g _ _ _ G11 ltac:(lia) Wq)|]. split.
        - intros ->. apply empty_front; [exact LA| | congruence]. apply A11. exact (Fq eq_refl).
        - intros b E. destruct (exits_block s test bs _ b B E). apply (go_into _ s10 t q b G11); [left; lia | exact (Eq b E)]. }
      intros p tr o A0 LO. assert (A : arrives t g test p) by (apply (go_arrives _ s t g test p G); [lia | right; congruence | exact A0]). clear A0.
      assert (TN : forall u, event N u Fell -> u = [N]) by (intros u [[_ Q]|[Q _]]; [discriminate | exact Q]).
      revert p A. induction LO as [tr o T NF | u tr o T RE | u tr T RB | u tr o T RB O | u tr o tr' o' T RB O LO IH]; intros p A.
      + destruct T as [[-> ->]|[-> O]].
        * exists p. split; [constructor|]. split; discriminate.
        * exists q0. split; [exact (TEST p A)|]. split; [congruence|]. intros b E. destruct O as [-> | ->]; discriminate.
      + rewrite (TN u T). destruct (ELSE tr o RE) as (q & Wq & Fq & Eq). exists q. split; [exact (walk_app _ _ _ _ _ _ _ (TEST p A) Wq) | auto].
      + rewrite (TN u T). destruct (BODY tr Broke RB) as (q & Wq & _ & Fq & _). exists q. split; [exact (walk_app _ _ _ _ _ _ _ (TEST p A) Wq)|].
        split; [intros _; exact (Fq eq_refl) | discriminate].
      + rewrite (TN u T). destruct (BODY tr o RB) as (q & Wq & _ & _ & Eq). exists q. split; [exact (walk_app _ _ _ _ _ _ _ (TEST p A) Wq)|].
        split; [intros ->; destruct O as [O|[O|O]]; discriminate|]. intros b E. apply (Eq b E). destruct O as [O|[O|O]]; [exact O | subst o; discriminate | subst o; discriminate].
      + rewrite (TN u T). destruct (BODY tr o RB) as (q & Wq & Aq & _ & _). destruct (IH q (Aq O)) as (r & Wr & Fr). exists r.
        split; [|exact Fr]. apply (walk_app _ _ _ _ _ _ _ (TEST p A)). exact (walk_app _ _ _ _ _ _ _ Wq Wr).
  Qed.

  Lemma visit_while : forall g bs n body orelse s0 c,
    visit g bs (While n body orelse) (s0, c) =
      let s1 := fst (new_block g s0) in
      do s3 <- add_CF_statement (blocks s0) (Whole n) (First [Part n Test]) (add_statement (blocks s0) (Part n Test) s1);
      do s4 <- link_or_merge g c (blocks s0) s3;
      visit_loop g bs (blocks s0) body orelse s4.
  Proof. reflexivity. Qed.
  Lemma run_while : forall n body orelse, run (While n body orelse) = loop (event (Part n Test)) (runs body) (runs orelse).
  Proof. reflexivity. Qed.
  Lemma visit_for : forall g bs n body orelse s0 c,
    visit g bs (For n body orelse) (s0, c) =
      do s2 <- add_CF_statement c (Whole n) (Last (Part n Iter)) (add_statement c (Part n Iter) s0);
      let s3 := fst (new_block g s2) in
      let s4 := add_statement (blocks s2) (Part n Target) s3 in
      do s5 <- link_or_merge g c (blocks s2) s4;
      visit_loop g bs (blocks s2) body orelse s5.
  Proof. reflexivity. Qed.
  Lemma run_for : forall n body orelse, run (For n body orelse) = then_ (event (Part n Iter)) (loop (event (Part n Target)) (runs body) (runs orelse)).
  Proof. reflexivity. Qed.

  (** A new block with one node, after the current one. *)
  Lemma head_right : forall g c N s, wf s -> g < graphs s -> ready s g c ->
    let test := blocks s in
    let s2 := add_statement test N (fst (new_block g s)) in
    go (fun _ => False) s s2 /\ locs s2 test = [N] /\ blocks s2 = S (blocks s) /\ graphs s2 = graphs s /\
    (forall x, x < blocks s -> locs s2 x = locs s x) /\
    forall s3, go (fun _ => False) s2 s3 -> blocks s3 = blocks s2 -> graphs s3 = graphs s2 -> locs s3 = locs s2 -> graph s3 = graph s2 -> preds s3 = preds s2 -> succs s3 = succs s2 ->
    exists s4, link_or_merge g c test s3 = Ok s4 /\ go (eq c) s3 s4 /\ blocks s4 = S (blocks s) /\ graphs s4 = graphs s /\ locs s4 = locs s3 /\ places s4 = places s3 /\
      succs s4 test = [] /\ (forall p, front s g c p -> arrives s4 g test p).
  Proof.
    intros g c N s W GL R test s2. pose proof (ready_block _ _ _ R) as CL.
    pose proof (go_new_block g s W GL) as G1. destruct (new_block_empty g s) as [L1 _].
    pose proof (new_block_ready _ g s W GL) as R1.
    assert (G2 : go (eq test) (fst (new_block g s)) s2) by exact (go_add_statement test N _ (proj1 (proj2 G1)) (ready_block _ _ _ R1) (ready_open _ _ _ R1)).
    assert (G02 : go (fun _ => False) s s2).
    { apply (go_weaken (fun b => False \/ test = b)); [intros b L [[]|Q]; unfold test in Q; lia|]. exact (go_trans _ _ _ _ _ G1 G2). }
    assert (L2 : locs s2 test = [N]) by (unfold s2; rewrite add_statement_locs; unfold test; rewrite L1; reflexivity).
    split; [exact G02|]. split; [exact L2|]. split; [reflexivity|]. split; [reflexivity|]. split; [intros x XL; exact (go_locs _ _ _ x G02 XL (fun C => C))|].
    intros s3 G3 B3 GG3 L3 GR3 P3 S3. assert (CD : c <> test) by (unfold test; lia).
    assert (BS : blocks s2 = S (blocks s)) by reflexivity. assert (GS : graphs s2 = graphs s) by reflexivity.
    destruct (new_block_old _ g s c W CL) as (LC & _ & PC).
    assert (LC3 : locs s3 c = locs s c) by (rewrite L3; exact (go_locs _ _ _ c G02 CL (fun C => C))).
    destruct (link_go g c test s3 (proj1 (proj2 G3)) ltac:(lia) ltac:(lia) ltac:(unfold test; lia) CD) as (s4 & E & G4 & B4 & GG4 & L4 & A4 & S4 & P4).
    { rewrite LC3. intros LE. apply (go_unr _ _ _ g c G3); [lia | | tauto]. apply (go_unr _ _ _ g c G02); [lia | exact (ready_empty _ _ _ R LE) | tauto]. }
    { rewrite L3. intros _ _. congruence. }
    exists s4. split; [exact E|]. split; [exact G4|]. split; [lia|]. split; [lia|]. split; [exact L4|]. split; [exact P4|]. split.
    - rewrite S4 by congruence. rewrite S3. exact (ready_open _ _ _ R1).
    - intros p F. apply A4. apply (go_front _ s2 s3 g c p G3); [lia | lia | tauto|]. exact (go_front _ s s2 g c p G02 GL CL (fun C => C) F).
  Qed.

  Lemma while_right : forall n body orelse, list_right body -> list_right orelse -> stmt_right (While n body orelse).
  Proof.
    intros n body orelse HB HE g bs st c GR ND W GL R B. pose proof (ready_block _ _ _ R) as CL.
    cbn [grammatical] in GR. apply andb_true_iff in GR. destruct GR as [GR GR2]. apply andb_true_iff in GR. destruct GR as [GR0 GR1].
    cbn [numbers] in ND. inversion ND as [|n' l' NI ND']; subst. destruct (NoDup_app_l _ _ ND') as (N1 & N2 & _).
    assert (NB : body <> []) by (intros ->; discriminate).
    rewrite visit_while. cbv zeta.
    destruct (head_right g c (Part n Test) st W GL R) as (G2 & L2 & B2 & GG2 & O2 & H). set (s2 := add_statement (blocks st) (Part n Test) (fst (new_block g st))) in *.
    unfold add_CF_statement, position_of. rewrite L2. cbn [existsb]. rewrite node_eqb_refl. cbn [orb bind].
    pose proof (go_place (Whole n) (blocks st, 0) s2 (proj1 (proj2 G2))) as G3.
    destruct (H _ G3 eq_refl eq_refl eq_refl eq_refl eq_refl eq_refl) as (s4 & E4 & G4 & B4 & GG4 & L4 & P4 & S4 & A4).
    rewrite E4. cbn [bind]. cbn [locs] in L4.
    assert (LT4 : locs s4 (blocks st) = [Part n Test]) by (rewrite L4; exact L2).
    destruct (loop_right g bs (blocks st) body orelse s4 (Part n Test) HB HE NB GR1 GR2 N1 N2 (proj1 (proj2 G4)) ltac:(lia) ltac:(lia) LT4 S4) as
      (t & E5 & G5 & R5 & L5 & LT5 & K5 & C5 & V5).
    { apply (bounded_more st s4 c); auto; lia. }
    rewrite E5. exists t, (blocks s4). split; [reflexivity|].
    assert (G04 : go (eq c) st s4) by (weak (go_trans _ _ _ _ _ (go_trans _ _ _ _ _ G2 G3) G4)).
    assert (G : go (eq c) st t) by (apply (go_weaken (fun b => c = b \/ blocks st = b)); [intros b L [Q|Q]; [exact Q | lia] | exact (go_trans _ _ _ _ _ G04 G5)]).
    split; [|split; [|split; [|split]]].
    - constructor; [exact G | exact R5 | right; lia].
    - intros m NM. cbn [numbers List.In] in NM. rewrite (K5 m); [|intros C; apply NM; right; exact C]. transitivity (place_of (Whole m) st); [|reflexivity].
      unfold place_of. rewrite P4. change (place_of (Whole m) (with_place s2 (Whole n) (blocks st, 0)) = place_of (Whole m) st). rewrite place_whole_other; [reflexivity|]. tauto.
    - exists (blocks st, 0), (Part n Test). cbn [fst snd stmt_number]. split; [|split].
      + rewrite (K5 n NI). unfold place_of. rewrite P4. apply place_whole_same.
      + rewrite LT5. reflexivity.
      + intros LE. split; [reflexivity|]. intros C. exfalso. apply C. rewrite (go_locs _ _ _ c G5) by lia. rewrite L4. cbn [with_place locs]. rewrite O2 by exact CL. exact LE.
    - exact C5.
    - cbn [plain]. intros PL. apply andb_true_iff in PL. destruct PL as [PLB PLE]. rewrite run_while. intros p tr o F RU. exact (V5 PLB PLE p tr o (A4 p F) RU).
  Qed.

  Lemma for_right : forall n body orelse, list_right body -> list_right orelse -> stmt_right (For n body orelse).
  Proof.
    intros n body orelse HB HE g bs st c GR ND W GL R B. pose proof (ready_block _ _ _ R) as CL. pose proof (ready_open _ _ _ R) as CO.
    cbn [grammatical] in GR. apply andb_true_iff in GR. destruct GR as [GR GR2]. apply andb_true_iff in GR. destruct GR as [GR0 GR1].
    cbn [numbers] in ND. inversion ND as [|n' l' NI ND']; subst. destruct (NoDup_app_l _ _ ND') as (N1 & N2 & _).
    assert (NB : body <> []) by (intros ->; discriminate).
    rewrite visit_for, add_CF_last. cbn [bind]. cbv zeta.
    pose proof (go_add_statement c (Part n Iter) st W CL CO) as G1.
    pose proof (go_place (Whole n) (c, List.length (locs st c)) _ (proj1 (proj2 G1))) as G2.
    assert (R2 : ready (with_place (add_statement c (Part n Iter) st) (Whole n) (c, List.length (locs st c))) g c).
    { destruct (add_statement_ready g c (Part n Iter) st R) as [R1 R2 R3]. constructor; assumption. }
    assert (L1 : locs (with_place (add_statement c (Part n Iter) st) (Whole n) (c, List.length (locs st c))) c = locs st c ++ [Part n Iter]) by (cbn [with_place locs]; apply add_statement_locs).
    assert (NE1 : locs (with_place (add_statement c (Part n Iter) st) (Whole n) (c, List.length (locs st c))) c <> []) by (rewrite L1; intros C; apply app_eq_nil in C; destruct C; discriminate).
    assert (V1 : covers (event (Part n Iter)) g bs st c (with_place (add_statement c (Part n Iter) st) (Whole n) (c, List.length (locs st c))) c).
    { intros p tr o F RU. destruct (add_statement_covers g bs c (Part n Iter) st W CO p tr o F RU) as (q & Wq & Fq & Eq).
      exists q. split; [exact (go_walk _ _ _ g p tr q G2 GL Wq)|]. split; [intros OF; exact (Fq OF) | intros b E; exact (Eq b E)]. }
    assert (P1 : place_of (Whole n) (with_place (add_statement c (Part n Iter) st) (Whole n) (c, List.length (locs st c))) = Ok (c, List.length (locs st c))) by apply place_whole_same.
    assert (K1 : kept st (with_place (add_statement c (Part n Iter) st) (Whole n) (c, List.length (locs st c))) [n]).
    { intros m NM. rewrite place_whole_other; [reflexivity|]. intros ->. apply NM. left. reflexivity. }
    assert (G02 : go (eq c) st (with_place (add_statement c (Part n Iter) st) (Whole n) (c, List.length (locs st c)))).
    { apply (go_weaken (fun b => c = b \/ False)); [tauto | exact (go_trans _ _ _ _ _ G1 G2)]. }
    assert (B1 : blocks (with_place (add_statement c (Part n Iter) st) (Whole n) (c, List.length (locs st c))) = blocks st) by reflexivity.
    assert (GG1 : graphs (with_place (add_statement c (Part n Iter) st) (Whole n) (c, List.length (locs st c))) = graphs st) by reflexivity.
    set (s2 := with_place (add_statement c (Part n Iter) st) (Whole n) (c, List.length (locs st c))) in *. clearbody s2. clear G1 G2.
    destruct (head_right g c (Part n Target) s2 (proj1 (proj2 G02)) ltac:(lia) R2) as (G3 & L3 & B3 & GG3 & O3 & H).
    set (s3 := add_statement (blocks s2) (Part n Target) (fst (new_block g s2))) in *.
    assert (P3 : forall m, place_of (Whole m) s3 = place_of (Whole m) s2) by reflexivity.
    destruct (H s3 (go_refl _ s3 (proj1 (proj2 G3))) eq_refl eq_refl eq_refl eq_refl eq_refl eq_refl) as (s4 & E4 & G4 & B4 & GG4 & L4 & P4 & S4 & A4).
    clear H. clearbody s3. rewrite E4. cbn [bind].
    assert (LT4 : locs s4 (blocks s2) = [Part n Target]) by (rewrite L4; exact L3).
    destruct (loop_right g bs (blocks s2) body orelse s4 (Part n Target) HB HE NB GR1 GR2 N1 N2 (proj1 (proj2 G4)) ltac:(lia) ltac:(lia) LT4 S4) as
      (t & E5 & G5 & R5 & L5 & LT5 & K5 & C5 & V5).
    { apply (bounded_more st s4 c); auto; lia. }
    rewrite E5. exists t, (blocks s4). split; [reflexivity|].
    assert (G24 : go (eq c) s2 s4) by (weak (go_trans _ _ _ _ _ G3 G4)).
    assert (G2t : go (eq c) s2 t) by (apply (go_weaken (fun b => c = b \/ blocks s2 = b)); [intros b L [Q|Q]; [exact Q | lia] | exact (go_trans _ _ _ _ _ G24 G5)]).
    assert (G : go (eq c) st t) by (weak (go_trans _ _ _ _ _ G02 G2t)).
    split; [|split; [|split; [|split]]].
    - constructor; [exact G | exact R5 | right; lia].
    - intros m NM. cbn [numbers List.In] in NM. rewrite (K5 m); [|intros C; apply NM; right; exact C]. transitivity (place_of (Whole m) s3); [unfold place_of; rewrite P4; reflexivity|].
      rewrite P3. apply K1. intros [C|[]]. apply NM. left. exact C.
    - exists (c, List.length (locs st c)), (Part n Iter). cbn [fst snd stmt_number]. split; [|split].
      + rewrite (K5 n NI). rewrite <- P1, <- P3. unfold place_of. rewrite P4. reflexivity.
      + apply (go_nth _ s2 t _ _ _ G2t). rewrite L1, nth_error_app2, Nat.sub_diag by lia. reflexivity.
      + intros ->. auto.
    - exact C5.
    - cbn [plain]. intros PL. apply andb_true_iff in PL. destruct PL as [PLB PLE]. rewrite run_for.
      apply (covers_then _ _ g bs st c s2 c t (blocks s4) V1); [| exact G2t | lia | apply (bounded_more st s2 c); auto; lia].
      intros p tr o F RU. exact (V5 PLB PLE p tr o (A4 p F) RU).
  Qed.

  (** ** With statements *)

  Lemma add_statements_right : forall g bs c l s, wf s -> g < graphs s -> ready s g c -> bounded s c bs ->
    let t := fold_left (fun s m => add_statement c m s) l s in
    go (eq c) s t /\ ready t g c /\ locs t c = locs s c ++ l /\ blocks t = blocks s /\ graphs t = graphs s /\
    (Forall (fun m => match m with Part _ _ => True | _ => False end) l -> forall m, place_of (Whole m) t = place_of (Whole m) s) /\
    covers (events l) g bs s c t c.
  Proof.
    intros g bs c l. induction l as [|m l IH]; intros s W GL R B t.
    - subst t. cbn [fold_left]. rewrite app_nil_r. split; [apply go_refl; exact W|]. split; [exact R|]. do 3 (split; [reflexivity|]). split; [reflexivity|].
      intros p tr o F [-> ->]. exists p. split; [constructor|]. split; [auto | discriminate].
    - subst t. cbn [fold_left]. pose proof (go_add_statement c m s W (ready_block _ _ _ R) (ready_open _ _ _ R)) as G1.
      pose proof (add_statement_ready g c m s R) as R1. pose proof (add_statement_covers g bs c m s W (ready_open _ _ _ R)) as V1.
      assert (L1 : locs (add_statement c m s) c = locs s c ++ [m]) by apply add_statement_locs.
      assert (P1 : (match m with Part _ _ => True | _ => False end) -> forall k, place_of (Whole k) (add_statement c m s) = place_of (Whole k) s) by (destruct m; [intros [] | reflexivity]).
      assert (B1 : blocks (add_statement c m s) = blocks s) by reflexivity. assert (GG1 : graphs (add_statement c m s) = graphs s) by reflexivity.
      set (s1 := add_statement c m s) in *. clearbody s1.
      assert (BO1 : bounded s1 c bs) by (apply (bounded_more s s1 c); auto; lia).
      destruct (IH s1 (proj1 (proj2 G1)) ltac:(lia) R1 BO1) as (G2 & R2 & L2 & B2 & GG2 & P2 & V2).
      split; [weak (go_trans _ _ _ _ _ G1 G2)|]. split; [exact R2|]. split; [rewrite L2, L1, <- app_assoc; reflexivity|]. split; [lia|]. split; [lia|]. split.
      + intros F k. inversion F as [|m' l' F1 F2]; subst. rewrite (P2 F2 k). exact (P1 F1 k).
      + cbn [events]. exact (covers_then _ _ g bs s c s1 c _ c V1 V2 G2 ltac:(lia) BO1).
  Qed.
  Lemma with_items_parts : forall n items i, Forall (fun m => match m with Part _ _ => True | _ => False end) (with_items n i items).
  Proof.
    intros n items. induction items as [|named items IH]; intros i; cbn [with_items]; [constructor|]. constructor; [exact Logic.I|].
    apply Forall_app. split; [destruct named; [apply Forall_cons; [exact Logic.I | apply Forall_nil] | apply Forall_nil] | apply IH].
  Qed.

  Lemma visit_with : forall g bs n items body s0 c,
    visit g bs (With n items body) (s0, c) =
      visit_all g bs body (fold_left (fun s m => add_statement c m s) (with_items n 0 items) (with_place s0 (Whole n) (c, List.length (locs s0 c))), c).
  Proof. reflexivity. Qed.
  Lemma run_with : forall n items body, run (With n items body) = fun tr o =>
    then_ (events (with_items n 0 items)) (runs body) tr o \/ (swallows n = true /\ o = Fell /\ then_ (events (with_items n 0 items)) (runs body) tr Raised).
  Proof. reflexivity. Qed.

  Lemma with_right : forall n items body, list_right body -> stmt_right (With n items body).
  Proof.
    intros n items body HB g bs st c GR ND W GL R B.
    cbn [grammatical] in GR. apply andb_true_iff in GR. destruct GR as [GR GR2]. apply andb_true_iff in GR. destruct GR as [GR0 GR1].
    cbn [numbers] in ND. inversion ND as [|n' l' NI ND']; subst. rewrite visit_with.
    pose proof (go_place (Whole n) (c, List.length (locs st c)) st W) as G1.
    assert (R1 : ready (with_place st (Whole n) (c, List.length (locs st c))) g c) by (destruct R as [R1 R2 R3]; constructor; assumption).
    assert (P1 : place_of (Whole n) (with_place st (Whole n) (c, List.length (locs st c))) = Ok (c, List.length (locs st c))) by apply place_whole_same.
    assert (F1 : forall p, front st g c p -> front (with_place st (Whole n) (c, List.length (locs st c))) g c p) by (intros p F; exact F).
    assert (K1 : kept st (with_place st (Whole n) (c, List.length (locs st c))) [n]) by (intros m NM; apply place_whole_other; intros ->; apply NM; left; reflexivity).
    assert (L1 : locs (with_place st (Whole n) (c, List.length (locs st c))) c = locs st c) by reflexivity.
    assert (B1 : blocks (with_place st (Whole n) (c, List.length (locs st c))) = blocks st) by reflexivity.
    assert (GG1 : graphs (with_place st (Whole n) (c, List.length (locs st c))) = graphs st) by reflexivity.
    set (s1 := with_place st (Whole n) (c, List.length (locs st c))) in *. clearbody s1.
    assert (BO1 : bounded s1 c bs) by (apply (bounded_more st s1 c); auto; lia).
    destruct (add_statements_right g bs c (with_items n 0 items) s1 (proj1 (proj2 G1)) ltac:(lia) R1 BO1) as (G2 & R2 & L2 & B2 & GG2 & P2 & V2).
    set (s2 := fold_left (fun s m => add_statement c m s) (with_items n 0 items) s1) in *. clearbody s2. specialize (P2 (with_items_parts n items 0)).
    assert (BO2 : bounded s2 c bs) by (apply (bounded_more s1 s2 c); auto; lia).
    destruct (HB g bs s2 c GR2 ND' (proj1 (proj2 G2)) ltac:(lia) R2 BO2) as (t & c' & E3 & [G3 R3 WH3] & K3 & _ & C3 & V3).
    exists t, c'. split; [exact E3|]. split; [|split; [|split; [|split]]].
    - constructor.
      + weak (go_trans _ _ _ _ _ (go_trans _ _ _ _ _ G1 G2) G3).
      + exact R3.
      + destruct WH3 as [[-> X]|X]; [|right; lia]. left. split; [reflexivity|]. intros _. apply X. intros ->. discriminate.
    - intros m NM. cbn [numbers List.In] in NM. rewrite (K3 m), P2 by tauto. apply K1. intros [C|[]]. tauto.
    - exists (c, List.length (locs st c)), (Part n (Context 0)). cbn [fst snd stmt_number]. split; [|split].
      + rewrite (K3 n NI), P2. exact P1.
      + apply (go_nth _ s2 t _ _ _ G3). rewrite L2, L1, nth_error_app2, Nat.sub_diag by lia. destruct items; [discriminate | reflexivity].
      + intros ->. auto.
    - exact C3.
    - cbn [plain]. intros PL. apply andb_true_iff in PL. destruct PL as [PLS PLB]. rewrite run_with. intros p tr o F RU.
      destruct RU as [RU|[C _]]; [|rewrite C in PLS; discriminate].
      exact (covers_then _ _ g bs s1 c s2 c t c' V2 (V3 PLB) G3 ltac:(lia) BO2 p tr o (F1 p F) RU).
  Qed.

  (** ** The end of a graph *)

  Lemma walk_same : forall s t g p l q, locs t = locs s -> succs t = succs s -> target t = target s -> start (graph t g) = start (graph s g) ->
    walk s g p l q -> walk t g p l q.
  Proof.
    intros s t g p l q L S T ST H. induction H as [p | p q n l r SP H IH]; [constructor|]. apply (walk_on t g p q n l r); [|exact IH].
    destruct SP as [N P]. split; [rewrite L; exact N|]. rewrite L, S, T, ST. exact P.
  Qed.
  Lemma walk_reached : forall s g p l q, walk s g p l q -> (match p with None => True | Some (b, _) => path (next_blocks s) (start (graph s g)) b end) ->
    forall x, List.In x l -> exists b i, nth_error (locs s b) i = Some x /\ path (next_blocks s) (start (graph s g)) b.
  Proof.
    intros s g p l q H. induction H as [p | p q n l r [N P] H IH]; intros PP x I; [destruct I|].
    assert (PQ : path (next_blocks s) (start (graph s g)) (fst q)).
    { destruct p as [[b i]|].
      - destruct P as [[-> _]|(_ & _ & e & IE & TE)]; [exact PP|].
        assert (PT : forall a, path (next_blocks s) a b -> path (next_blocks s) a (fst q)).
        { intros a A. induction A as [a | a b' c' A1 A2 IHA].
          - apply (path_on _ _ (fst q)); [|constructor]. unfold next_blocks. rewrite <- TE. apply in_map. exact IE.
          - exact (path_on _ _ b' _ A1 (IHA IE PP)). }
        exact (PT _ PP).
      - subst q. constructor. }
    destruct I as [<-|I].
    - exists (fst q), (snd q). auto.
    - destruct q as [b i]. exact (IH PQ x I).
  Qed.

  Lemma finish_right : forall M g e f s0 s, go M s0 s -> g < graphs s0 -> blocks s0 <= e -> ready s g e -> f < blocks s -> e <> f ->
    exists u t, link_or_merge g e f s = Ok u /\ update_block_reachability g u = Ok t /\ wf t /\ (forall G, G <= g -> Ext G (eq e) s t) /\
      blocks t = blocks s /\ graphs t = graphs s /\ locs t = locs s /\ places t = places s /\ (forall x, x <> e -> succs t x = succs s x) /\
      (forall fs, covered fs s -> covered fs t) /\ (forall h, h < graphs s -> owner (graph t h) = owner (graph s h)) /\
      (forall tr q, walk s g None tr q -> walk t g None tr q /\ forall x, List.In x tr -> exists b i, nth_error (locs t b) i = Some x /\ reachable t b = true).
  Proof.
    intros M g e f s0 s G0 GL0 EB R FL EF. pose proof (go_graphs _ _ _ G0) as GG0.
    destruct (link_go g e f s (proj1 (proj2 G0)) ltac:(lia) (ready_block _ _ _ R) FL EF (ready_empty _ _ _ R)) as (u & E1 & G1 & B1 & GG1 & L1 & A1 & S1 & P1).
    { intros LE SE. exfalso. exact (go_start _ _ _ g e G0 GL0 EB LE SE). }
    destruct (update_right g u (proj1 (proj2 G1)) ltac:(lia)) as (t & E2 & W2 & B2 & GG2 & L2 & S2 & T2 & P2 & ST2 & X2 & RE2 & O2).
    exists u, t. split; [exact E1|]. split; [exact E2|]. split; [exact W2|]. split.
    { intros G GG. apply (ext_trans _ _ G (eq e) (fun _ => False) s u t (proj1 G1) (proj1 (proj2 G1))); [lia | | exact (X2 G GG) | tauto].
      apply (ext_weaken _ (graphs s)); [lia | exact (proj2 (proj2 G1))]. }
    split; [lia|]. split; [lia|]. split; [congruence|]. split; [congruence|]. split; [intros x D; rewrite S2; exact (S1 x D)|]. split; [|split].
    - intros fs C. pose proof (covered_go _ _ _ _ G1 C) as C1. intros n b I PL. destruct (C1 n b I PL) as (h & HL & O & F). exists h.
      split; [lia|]. split; [rewrite (proj2 (O2 h)); exact O|]. intros tr o RU. destruct (F tr o RU) as [[q Wq] X]. split.
      + exists q. exact (walk_same u t h None _ q L2 S2 T2 (proj1 (O2 h)) Wq).
      + intros x IX. destruct (X x IX) as (b' & i & N & RE). exists b', i. rewrite L2. split; [exact N|]. apply RE2. right. exact RE.
    - intros h HL. rewrite (proj2 (O2 h)). exact (proj1 (proj2 (x_graph _ _ _ _ (proj2 (proj2 G1)) h HL))).
    - intros tr q Wq. pose proof (go_walk _ s u g None tr q G1 ltac:(lia) Wq) as Wu. split; [exact (walk_same u t g None _ q L2 S2 T2 ST2 Wu)|].
      intros x I. destruct (walk_reached u g None tr q Wu Logic.I x I) as (b & i & N & PA). exists b, i. rewrite L2. split; [exact N|]. apply RE2. left. exact PA.
  Qed.

  (** ** Definitions *)

  Lemma visit_function : forall g bs n body s0 c,
    visit g bs (Function n body) (s0, c) =
      let (s2, g') := new_graph (Whole n) (add_statement c (Whole n) s0) in
      let bs := [(KReturn, final (graph s2 g')); (KRaise None, final (graph s2 g'))] :: bs in
      let s3 := add_statement (start (graph s2 g')) (Part n Args) s2 in
      do x <- block_after g' (start (graph s3 g')) s3;
      do x <- visit_all g' bs body x;
      do s4 <- link_or_merge g' (snd x) (final (graph (fst x) g')) (fst x);
      do s5 <- update_block_reachability g' s4;
      Ok (s5, c).
  Proof. reflexivity. Qed.
  Lemma run_function : forall n body, run (Function n body) = event (Whole n).
  Proof. reflexivity. Qed.
  Lemma function_exits : forall o f bs, exits o ([(KReturn, f); (KRaise None, f)] :: bs) = match o with Returned => Some f | _ => exits o bs end.
  Proof. destruct o; reflexivity. Qed.

  Lemma function_right : forall n body, list_right body -> stmt_right (Function n body).
  Proof.
    intros n body HB g bs st c GR ND W GL R B. pose proof (ready_block _ _ _ R) as CL. pose proof (ready_open _ _ _ R) as CO.
    cbn [grammatical] in GR. apply andb_true_iff in GR. destruct GR as [GR0 GR1].
    cbn [numbers] in ND. inversion ND as [|n' l' NI ND']; subst. rewrite visit_function.
    pose proof (go_add_statement c (Whole n) st W CL CO) as G1. pose proof (add_statement_some c (Whole n) st) as NE1.
    pose proof (add_statement_kept c n st []) as K1. pose proof (add_statement_placed c n st) as PL1.
    pose proof (add_statement_covers g bs c (Whole n) st W CO) as V1.
    assert (F1 : front (add_statement c (Whole n) st) g c (Some (c, List.length (locs st c)))) by apply add_statement_front.
    assert (S1 : succs (add_statement c (Whole n) st) c = []) by exact CO.
    assert (B1 : blocks (add_statement c (Whole n) st) = blocks st) by reflexivity.
    assert (GG1 : graphs (add_statement c (Whole n) st) = graphs st) by reflexivity.
    set (s1 := add_statement c (Whole n) st) in *. clearbody s1.
    destruct (new_graph_right (Whole n) s1 (proj1 (proj2 G1))) as (s2 & E2 & W2 & X2 & B2 & GG2 & ST2 & FI2 & OW2 & R2 & RF2 & L2 & LF2 & P2 & PF2 & PL2 & O2).
    rewrite E2. cbv zeta. rewrite ST2, FI2. set (g' := graphs s1) in *. set (a := blocks s1) in *.
    assert (G2 : go (fun _ => False) s1 s2) by (split; [exact (proj1 (proj2 G1))|]; split; [exact W2 | exact X2]).
    pose proof (go_add_statement a (Part n Args) s2 W2 (ready_block _ _ _ R2) (ready_open _ _ _ R2)) as G3.
    pose proof (add_statement_some a (Part n Args) s2) as NE3.
    assert (ST3 : start (graph (add_statement a (Part n Args) s2) g') = a) by exact ST2.
    assert (F3 : front (add_statement a (Part n Args) s2) g' a (Some (a, List.length (locs s2 a)))) by apply add_statement_front.
    assert (EN3 : step (add_statement a (Part n Args) s2) g' None (a, List.length (locs s2 a)) (Part n Args)).
    { apply (enter (fun _ => False)); [exact W2 | exact (ready_open _ _ _ R2)|]. apply empty_front; [exact L2| | reflexivity]. right. auto. }
    assert (B3 : blocks (add_statement a (Part n Args) s2) = blocks s2) by reflexivity.
    assert (GG3 : graphs (add_statement a (Part n Args) s2) = graphs s2) by reflexivity.
    assert (PL3 : forall m, place_of (Whole m) (add_statement a (Part n Args) s2) = place_of (Whole m) s2) by reflexivity.
    rewrite ST3. set (s3 := add_statement a (Part n Args) s2) in *. clearbody s3.
    destruct (after_go g' a s3 (proj1 (proj2 G3)) ltac:(lia) ltac:(lia) NE3) as (s4 & E4 & G4 & B4 & GG4 & R4 & L4 & F4 & P4 & O4).
    rewrite E4. cbn [bind].
    set (bs' := [(KReturn, S a); (KRaise None, S a)] :: bs).
    assert (BO4 : bounded s4 (blocks s3) bs').
    { destruct (bounded_more st s4 c (blocks s3) bs B ltac:(lia) ltac:(lia)) as [BF BE]. split.
      - constructor; [|exact BF]. constructor; [cbn [snd]; lia|]. constructor; [cbn [snd]; lia | constructor].
      - intros o b. unfold bs'. rewrite function_exits. intros E. destruct o; try discriminate; try (injection E as <-; lia); [exact (BE Broke b E) | exact (BE Continued b E)]. }
    destruct (HB g' bs' s4 (blocks s3) GR1 ND' (proj1 (proj2 G4)) ltac:(lia) R4 BO4) as (s5 & e & E5 & [G5 R5 WH5] & K5 & _ & C5 & V5).
    rewrite E5. cbn [bind fst snd]. pose proof (go_blocks _ _ _ G5) as BL5. pose proof (go_graphs _ _ _ G5) as GG5.
    assert (EB : blocks s3 <= e) by (destruct WH5 as [[-> _]|X]; lia).
    assert (G35 : go (fun b => a = b \/ blocks s3 = b) s3 s5) by exact (go_trans _ _ _ _ _ G4 G5).
    assert (G25 : go (fun b => a = b \/ (a = b \/ blocks s3 = b)) s2 s5) by exact (go_trans _ _ _ _ _ G3 G35).
    assert (FO5 : final (graph s5 g') = S a /\ owner (graph s5 g') = Whole n).
    { destruct (x_graph _ _ _ _ (proj2 (proj2 G25)) g' ltac:(lia)) as (X & Y & _). rewrite X, Y. auto. }
    destruct FO5 as [FI5 OW5]. rewrite FI5.
    destruct (finish_right _ g' e (S a) s3 s5 G35 ltac:(lia) EB R5 ltac:(lia) ltac:(lia)) as (s6 & t & E6 & E7 & W7 & X7 & B7 & GG7 & L7 & P7 & S7 & C7 & O7 & H7).
    rewrite E6. cbn [bind]. rewrite E7. cbn [bind]. exists t, c. split; [reflexivity|].
    assert (G15 : go (fun _ => False) s1 s5) by (weak (go_trans _ _ _ _ _ G2 G25)).
    assert (G05 : go (eq c) st s5) by (weak (go_trans _ _ _ _ _ G1 G15)).
    assert (X17 : Ext (graphs s1) (fun _ => False) s1 t).
    { apply (ext_trans _ _ (graphs s1) (fun _ => False) (eq e) s1 s5 t (proj1 G15) (proj1 (proj2 G15)) (le_n _) (proj2 (proj2 G15)) (X7 (graphs s1) (le_n _))).
      intros b L Q. lia. }
    assert (G17 : go (fun _ => False) s1 t) by (split; [exact (proj1 G15)|]; split; [exact W7 | exact X17]).
    assert (G07 : go (eq c) st t) by (weak (go_trans _ _ _ _ _ G1 G17)).
    assert (CL1 : c < blocks s1) by lia.
    assert (LC : locs t c = locs s1 c) by exact (go_locs _ _ _ c G17 CL1 (fun C => C)).
    split; [|split; [|split; [|split]]].
    - constructor; [exact G07 | | left; split; [reflexivity | rewrite LC; auto]]. constructor.
      + lia.
      + exact (go_open _ _ _ c G17 CL1 (fun C => C) S1).
      + rewrite LC. intros C. contradiction.
    - intros m NM. cbn [numbers List.In] in NM. transitivity (place_of (Whole m) s5); [unfold place_of; rewrite P7; reflexivity|]. rewrite (K5 m) by tauto.
      transitivity (place_of (Whole m) s3); [unfold place_of; rewrite P4; reflexivity|]. rewrite PL3. transitivity (place_of (Whole m) s1); [unfold place_of; rewrite PL2; reflexivity|].
      apply K1. intros [C|[]]. tauto.
    - destruct PL1 as (p & x & Q1 & Q2 & Q3). exists p, x. cbn [stmt_number]. split; [|split].
      + rewrite <- Q1. transitivity (place_of (Whole n) s5); [unfold place_of; rewrite P7; reflexivity|]. rewrite (K5 n) by exact NI.
        transitivity (place_of (Whole n) s3); [unfold place_of; rewrite P4; reflexivity|]. rewrite PL3. unfold place_of. rewrite PL2. reflexivity.
      + exact (go_nth _ s1 t _ _ _ G17 Q2).
      + rewrite LC. exact Q3.
    - intros m b I PLB. cbn [functions] in I. destruct I as [I|I]; [|exact (C7 _ C5 m b I PLB)].
      assert (m = n /\ b = body) as [-> ->] by (split; congruence). clear I. exists g'. split; [lia|]. split; [rewrite O7 by lia; exact OW5|].
      intros tr o RU. destruct (V5 PLB _ tr o (F4 _ F3) RU) as (q & Wq & _).
      assert (Wa : walk s5 g' None ([Part n Args] ++ tr) q).
      { apply (walk_app _ _ _ _ (Some (a, List.length (locs s2 a)))); [|exact Wq]. apply (go_walk _ s3 s5 g' _ _ _ G35 ltac:(lia)). apply walk_one. exact EN3. }
      destruct (H7 _ q Wa) as [Wt X]. split; [exists q; exact Wt | exact X].
    - intros _. rewrite run_function. intros p tr o F RU. destruct (V1 p tr o F RU) as (q & Wq & Fq & Eq). exists q.
      split; [exact (go_walk _ s1 t g p tr q G17 ltac:(lia) Wq)|]. split.
      + intros OF. exact (go_front _ s1 t g c q G17 ltac:(lia) CL1 (fun C => C) (Fq OF)).
      + intros b E. destruct RU as [[_ ->]|[_ [-> | ->]]]; discriminate.
  Qed.

  Lemma visit_class : forall g bs n body s0 c,
    visit g bs (Class n body) (s0, c) =
      let (s2, g') := new_graph (Whole n) (add_statement c (Whole n) s0) in
      do x <- visit_all g' bs body (new_block g' s2);
      do s4 <- link_or_merge g' (snd x) (final (graph (fst x) g')) (fst x);
      do s5 <- update_block_reachability g' s4;
      Ok (s5, c).
  Proof. reflexivity. Qed.

  Lemma class_right : forall n body, list_right body -> stmt_right (Class n body).
  Proof.
    intros n body HB g bs st c GR ND W GL R B. pose proof (ready_block _ _ _ R) as CL. pose proof (ready_open _ _ _ R) as CO.
    cbn [grammatical] in GR. apply andb_true_iff in GR. destruct GR as [GR0 GR1].
    cbn [numbers] in ND. inversion ND as [|n' l' NI ND']; subst. rewrite visit_class.
    pose proof (go_add_statement c (Whole n) st W CL CO) as G1. pose proof (add_statement_some c (Whole n) st) as NE1.
    pose proof (add_statement_kept c n st []) as K1. pose proof (add_statement_placed c n st) as PL1.
    assert (S1 : succs (add_statement c (Whole n) st) c = []) by exact CO.
    assert (B1 : blocks (add_statement c (Whole n) st) = blocks st) by reflexivity.
    assert (GG1 : graphs (add_statement c (Whole n) st) = graphs st) by reflexivity.
    set (s1 := add_statement c (Whole n) st) in *. clearbody s1.
    destruct (new_graph_right (Whole n) s1 (proj1 (proj2 G1))) as (s2 & E2 & W2 & X2 & B2 & GG2 & ST2 & FI2 & OW2 & R2 & RF2 & L2 & LF2 & P2 & PF2 & PL2 & O2).
    rewrite E2. cbv zeta. set (g' := graphs s1) in *. set (a := blocks s1) in *.
    assert (G2 : go (fun _ => False) s1 s2) by (split; [exact (proj1 (proj2 G1))|]; split; [exact W2 | exact X2]).
    assert (GL2 : g' < graphs s2) by lia.
    pose proof (go_new_block g' s2 W2 GL2) as G4. pose proof (new_block_ready _ g' s2 W2 GL2) as R4.
    assert (B4 : blocks (fst (new_block g' s2)) = S (blocks s2)) by reflexivity.
    assert (GG4 : graphs (fst (new_block g' s2)) = graphs s2) by reflexivity.
    assert (P4 : places (fst (new_block g' s2)) = places s2) by reflexivity.
    replace (new_block g' s2) with (fst (new_block g' s2), blocks s2) by reflexivity.
    set (s4 := fst (new_block g' s2)) in *. clearbody s4.
    assert (BO4 : bounded s4 (blocks s2) bs) by (apply (bounded_more st s4 c); auto; lia).
    destruct (HB g' bs s4 (blocks s2) GR1 ND' (proj1 (proj2 G4)) ltac:(lia) R4 BO4) as (s5 & e & E5 & [G5 R5 WH5] & K5 & _ & C5 & V5).
    rewrite E5. cbn [bind fst snd]. pose proof (go_blocks _ _ _ G5) as BL5. pose proof (go_graphs _ _ _ G5) as GG5.
    assert (EB : blocks s2 <= e) by (destruct WH5 as [[-> _]|X]; lia).
    assert (G25 : go (fun b => False \/ blocks s2 = b) s2 s5) by exact (go_trans _ _ _ _ _ G4 G5).
    assert (FI5 : final (graph s5 g') = S a).
    { destruct (x_graph _ _ _ _ (proj2 (proj2 G25)) g' ltac:(lia)) as (X & Y & _). rewrite X. exact FI2. }
    rewrite FI5.
    destruct (finish_right _ g' e (S a) s2 s5 G25 ltac:(lia) EB R5 ltac:(lia) ltac:(lia)) as (s6 & t & E6 & E7 & W7 & X7 & B7 & GG7 & L7 & P7 & S7 & C7 & O7 & H7).
    rewrite E6. cbn [bind]. rewrite E7. cbn [bind]. exists t, c. split; [reflexivity|].
    assert (G15 : go (fun _ => False) s1 s5) by (weak (go_trans _ _ _ _ _ G2 G25)).
    assert (X17 : Ext (graphs s1) (fun _ => False) s1 t).
    { apply (ext_trans _ _ (graphs s1) (fun _ => False) (eq e) s1 s5 t (proj1 G15) (proj1 (proj2 G15)) (le_n _) (proj2 (proj2 G15)) (X7 (graphs s1) (le_n _))).
      intros b L Q. lia. }
    assert (G17 : go (fun _ => False) s1 t) by (split; [exact (proj1 G15)|]; split; [exact W7 | exact X17]).
    assert (G07 : go (eq c) st t) by (weak (go_trans _ _ _ _ _ G1 G17)).
    assert (CL1 : c < blocks s1) by lia.
    assert (LC : locs t c = locs s1 c) by exact (go_locs _ _ _ c G17 CL1 (fun C => C)).
    split; [|split; [|split; [|split]]].
    - constructor; [exact G07 | | left; split; [reflexivity | rewrite LC; auto]]. constructor.
      + lia.
      + exact (go_open _ _ _ c G17 CL1 (fun C => C) S1).
      + rewrite LC. intros C. contradiction.
    - intros m NM. cbn [numbers List.In] in NM. transitivity (place_of (Whole m) s5); [unfold place_of; rewrite P7; reflexivity|]. rewrite (K5 m) by tauto.
      transitivity (place_of (Whole m) s1); [unfold place_of; rewrite P4, PL2; reflexivity|].
      apply K1. intros [C|[]]. tauto.
    - destruct PL1 as (p & x & Q1 & Q2 & Q3). exists p, x. cbn [stmt_number]. split; [|split].
      + rewrite <- Q1. transitivity (place_of (Whole n) s5); [unfold place_of; rewrite P7; reflexivity|]. rewrite (K5 n) by exact NI.
        unfold place_of. rewrite P4, PL2. reflexivity.
      + exact (go_nth _ s1 t _ _ _ G17 Q2).
      + rewrite LC. exact Q3.
    - exact (C7 _ C5).
    - discriminate.
  Qed.

  (** ** Try statements *)

  Definition visit_handlers (g n fin : nat) := fix visit_handlers (i : nat) (hs : list (list string * bool * list stmt)) (bs : boundaries) (s : state) {struct hs}
    : res (state * boundaries * list nat) :=
    match hs with
    | [] => Ok (s, bs, [])
    | (types, named, hbody) :: hs =>
        do y <- visit_handlers (S i) hs bs s;
        let '(s, bs, after_body) := (y : state * boundaries * list nat) in
        let (s, h) := new_block g s in
        let bs := handler_boundaries types h ++ bs in
        let s := if named then add_statement h (Part n (HandlerName i)) s else s in
        do x <- visit_all g bs hbody (s, h);
        let (s, end_handler) := (x : state * nat) in
        do s <- match locs s h with
                | [] =>
                    match hbody with
                    | [] => Raise AssertionError
                    | f :: _ =>
                        do p <- place_of (Whole (stmt_number f)) s;
                        do m <- node_at p s;
                        add_CF_statement (fst p) (Part n (Handler i)) (First [m]) s
                    end
                | _ =>
                    match hbody with
                    | [] => Raise IndexError
                    | f :: _ =>
                        do p <- place_of (Whole (stmt_number f)) s;
                        do m <- node_at p s;
                        add_CF_statement h (Part n (Handler i)) (First ((if named then [Part n (HandlerName i)] else []) ++ [m])) s
                    end
                end;
        do s <- link_or_merge g end_handler fin s;
        Ok (s, bs, after_body ++ [h])
    end.

  Lemma visit_handlers_cons : forall g n fin i types named hbody hs bs s, visit_handlers g n fin i ((types, named, hbody) :: hs) bs s =
        do y <- visit_handlers g n fin (S i) hs bs s;
        let '(s, bs, after_body) := (y : state * boundaries * list nat) in
        let (s, h) := new_block g s in
        let bs := handler_boundaries types h ++ bs in
        let s := if named then add_statement h (Part n (HandlerName i)) s else s in
        do x <- visit_all g bs hbody (s, h);
        let (s, end_handler) := (x : state * nat) in
        do s <- match locs s h with
                | [] =>
                    match hbody with
                    | [] => Raise AssertionError
                    | f :: _ =>
                        do p <- place_of (Whole (stmt_number f)) s;
                        do m <- node_at p s;
                        add_CF_statement (fst p) (Part n (Handler i)) (First [m]) s
                    end
                | _ =>
                    match hbody with
                    | [] => Raise IndexError
                    | f :: _ =>
                        do p <- place_of (Whole (stmt_number f)) s;
                        do m <- node_at p s;
                        add_CF_statement h (Part n (Handler i)) (First ((if named then [Part n (HandlerName i)] else []) ++ [m])) s
                    end
                end;
        do s <- link_or_merge g end_handler fin s;
        Ok (s, bs, after_body ++ [h]).
  Proof. reflexivity. Qed.

  Definition raises (exs : list (exit_key * nat)) : Prop := Forall (fun x => match fst x with KRaise _ => True | _ => False end) exs.
  Lemma raises_exits : forall o hb bs, Forall raises hb -> exits o (hb ++ bs) = exits o bs.
  Proof.
    intros o hb bs F. induction F as [|ex hb R F IH]; [reflexivity|]. rewrite <- IH. cbn [app].
    assert (NO : forall k, (match k with KRaise _ => False | _ => True end) -> exit_for [k] ex = None).
    { intros k K. cbn [exit_for]. unfold exit_of. destruct (find (fun x => key_eqb k (fst x)) ex) as [x|] eqn:E; [|reflexivity]. exfalso.
      apply find_some in E. destruct E as [I Q]. unfold raises in R. rewrite Forall_forall in R. specialize (R x I).
      destruct (fst x) as [| | |e]; try contradiction. destruct k; try contradiction; discriminate. }
    destruct o; cbn [exits jump_target]; try reflexivity; rewrite NO by exact Logic.I; reflexivity.
  Qed.
  Lemma handler_boundaries_raises : forall types h, Forall raises (handler_boundaries types h).
  Proof.
    intros types h. unfold handler_boundaries. destruct types as [|t types].
    - constructor; [|constructor]. constructor; [exact Logic.I | constructor].
    - apply Forall_rev. rewrite Forall_forall. intros ex I. apply in_map_iff in I. destruct I as (x & <- & _). constructor; [exact Logic.I | constructor].
  Qed.
  Lemma handler_boundaries_block : forall (P : nat -> Prop) types h, P h -> Forall (Forall (fun x : exit_key * nat => P (snd x))) (handler_boundaries types h).
  Proof.
    intros P types h PH. unfold handler_boundaries. destruct types as [|t types].
    - constructor; [|constructor]. constructor; [exact PH | constructor].
    - apply Forall_rev. rewrite Forall_forall. intros ex I. apply in_map_iff in I. destruct I as (x & <- & _). constructor; [exact PH | constructor].
  Qed.
  Lemma targets_more : forall s t (bs : boundaries), blocks s <= blocks t ->
    Forall (Forall (fun x : exit_key * nat => snd x < blocks s)) bs -> Forall (Forall (fun x : exit_key * nat => snd x < blocks t)) bs.
  Proof.
    intros s t bs L F. rewrite Forall_forall in *. intros ex I. specialize (F ex I). rewrite Forall_forall in *. intros x J. specialize (F x J). lia.
  Qed.

  (** The place of the first statement of a list that was visited from an empty block. *)
  Lemma first_place : forall s c t f n, placed s c t f -> locs s c = [] ->
    exists p m, place_of (Whole f) t = Ok p /\ node_at p t = Ok m /\ add_CF_statement (fst p) n (First [m]) t = Ok (with_place t n (fst p, 0)) /\
      nth_error (locs t (fst p)) 0 = Some m /\ (locs t c <> [] -> fst p = c).
  Proof.
    intros s c t f n (p & m & E & N & H) L. destruct (H L) as [Z C]. exists p, m. rewrite Z in N. split; [exact E|].
    split; [unfold node_at; rewrite Z, N; reflexivity|]. split; [|auto].
    unfold add_CF_statement, position_of. destruct (locs t (fst p)) as [|m' l]; [discriminate|]. cbn [nth_error] in N. injection N as ->.
    cbn [existsb]. rewrite node_eqb_refl. reflexivity.
  Qed.

  Definition all_numbers (hs : list (list string * bool * list stmt)) : list nat := flat_map (fun h => flat_map numbers (snd h)) hs.
  Definition all_functions (hs : list (list string * bool * list stmt)) : list (nat * list stmt) := flat_map (fun h => flat_map functions (snd h)) hs.

  Lemma handlers_right : forall g n fin hs, Forall (fun h => list_right (snd h)) hs ->
    forallb (fun h => match snd h with [] => false | _ => true end && forallb grammatical (snd h)) hs = true ->
    NoDup (all_numbers hs) -> forall i bs s, wf s -> g < graphs s -> fin < blocks s ->
    Forall (Forall (fun x : exit_key * nat => snd x < blocks s)) bs ->
    exists t bs' hb, visit_handlers g n fin i hs bs s = Ok (t, bs', hb) /\ go (fun _ => False) s t /\ Forall (fun h => blocks s <= h < blocks t) hb /\
      Forall (Forall (fun x : exit_key * nat => snd x < blocks t)) bs' /\ (forall o, exits o bs' = exits o bs) /\
      kept s t (all_numbers hs) /\ covered (all_functions hs) t.
  Proof.
    intros g n fin hs FH. induction FH as [|h hs HB FH IH]; intros GR ND i bs s W GL FL BO.
    - exists s, bs, []. split; [reflexivity|]. split; [apply go_refl; exact W|]. split; [constructor|]. split; [exact BO|]. split; [reflexivity|].
      split; [apply kept_refl; reflexivity | apply covered_none].
    - destruct h as [[types named] hbody]. cbn [snd] in HB. cbn [forallb snd] in GR. apply andb_true_iff in GR. destruct GR as [GR GR2].
      apply andb_true_iff in GR. destruct GR as [GR0 GR1].
      unfold all_numbers in ND. cbn [flat_map snd] in ND. fold (all_numbers hs) in ND. destruct (NoDup_app_l _ _ ND) as (N1 & N2 & N3).
      destruct (IH GR2 N2 (S i) bs s W GL FL BO) as (s1 & bs1 & hb1 & E1 & G1 & FB1 & BO1 & EX1 & K1 & C1). clear IH.
      rewrite visit_handlers_cons, E1. cbn [bind]. clear E1.
      pose proof (go_blocks _ _ _ G1) as BL1. pose proof (go_graphs _ _ _ G1) as GG1.
      pose proof (go_new_block g s1 (proj1 (proj2 G1)) ltac:(lia)) as G2. pose proof (new_block_ready _ g s1 (proj1 (proj2 G1)) ltac:(lia)) as R2.
      destruct (new_block_empty g s1) as [L2 _].
      assert (B2 : blocks (fst (new_block g s1)) = S (blocks s1)) by reflexivity.
      assert (GG2 : graphs (fst (new_block g s1)) = graphs s1) by reflexivity.
      assert (P2 : places (fst (new_block g s1)) = places s1) by reflexivity.
      replace (new_block g s1) with (fst (new_block g s1), blocks s1) by reflexivity.
      set (s2 := fst (new_block g s1)) in *. clearbody s2. set (h := blocks s1) in *.
      set (bs2 := handler_boundaries types h ++ bs1).
      set (s3 := if named then add_statement h (Part n (HandlerName i)) s2 else s2).
      assert (G3 : go (eq h) s2 s3).
      { unfold s3. destruct named; [|apply go_refl; exact (proj1 (proj2 G2))]. exact (go_add_statement h _ s2 (proj1 (proj2 G2)) (ready_block _ _ _ R2) (ready_open _ _ _ R2)). }
      assert (R3 : ready s3 g h) by (unfold s3; destruct named; [exact (add_statement_ready g h _ s2 R2) | exact R2]).
      assert (L3 : locs s3 h = if named then [Part n (HandlerName i)] else []).
      { unfold s3. destruct named; [rewrite add_statement_locs, L2; reflexivity | exact L2]. }
      assert (B3 : blocks s3 = blocks s2) by (unfold s3; destruct named; reflexivity).
      assert (GG3 : graphs s3 = graphs s2) by (unfold s3; destruct named; reflexivity).
      assert (P3 : forall m, place_of (Whole m) s3 = place_of (Whole m) s2) by (unfold s3; destruct named; reflexivity).
      clearbody s3. cbv zeta.
      assert (BO2 : Forall (Forall (fun x : exit_key * nat => snd x < blocks s3)) bs2).
      { unfold bs2. apply Forall_app. split; [apply (handler_boundaries_block (fun x => x < blocks s3)); lia | apply (targets_more s1); [lia | exact BO1]]. }
      assert (EX2 : forall o, exits o bs2 = exits o bs) by (intros o; unfold bs2; rewrite raises_exits by apply handler_boundaries_raises; apply EX1).
      assert (BD : bounded s3 h bs2).
      { split; [exact BO2|]. intros o u E. rewrite EX2 in E. assert (U : u < blocks s).
        { destruct o; cbn [exits] in E; try discriminate; exact (jump_target_in (fun t => t < blocks s) _ bs u BO E). }
        lia. }
      destruct (HB g bs2 s3 h GR1 N1 (proj1 (proj2 G3)) ltac:(lia) R3 BD) as (s4 & e & E4 & [G4 R4 WH4] & K4 & PL4 & C4 & _).
      rewrite E4. cbn [bind].
      pose proof (go_blocks _ _ _ G4) as BL4. pose proof (go_graphs _ _ _ G4) as GG4.
      assert (EB : h <= e) by (destruct WH4 as [[-> _]|X]; lia).
      destruct hbody as [|f l]; [discriminate|].
      assert (E5 : exists q,
        match locs s4 h with
        | [] => do p <- place_of (Whole (stmt_number f)) s4; do m <- node_at p s4; add_CF_statement (fst p) (Part n (Handler i)) (First [m]) s4
        | _ => do p <- place_of (Whole (stmt_number f)) s4; do m <- node_at p s4;
               add_CF_statement h (Part n (Handler i)) (First ((if named then [Part n (HandlerName i)] else []) ++ [m])) s4
        end = Ok (with_place s4 (Part n (Handler i)) q)).
      { destruct named.
        - destruct (x_more _ _ _ _ (proj2 (proj2 G4)) h ltac:(lia)) as [l' L4]. rewrite L3 in L4. cbn [app] in L4. destruct PL4 as (p & m & PE & PN & _).
          exists (h, 0). rewrite L4 at 1. rewrite PE. cbn [bind]. unfold node_at. rewrite PN. cbn [bind]. unfold add_CF_statement, position_of. rewrite L4.
          cbn [existsb app]. rewrite node_eqb_refl. reflexivity.
        - destruct (first_place s3 h s4 (stmt_number f) (Part n (Handler i)) PL4 L3) as (p & m & Q1 & Q2 & Q3 & Q4 & Q5).
          exists (fst p, 0). rewrite Q1. cbn [bind]. rewrite Q2. cbn [bind app]. destruct (locs s4 h) as [|m' l'] eqn:LH; [exact Q3|].
          assert (FP : fst p = h) by (apply Q5; discriminate). rewrite FP in *. exact Q3. }
      destruct E5 as [q E5]. rewrite E5. cbn [bind]. clear E5.
      pose proof (go_place (Part n (Handler i)) q s4 (proj1 (proj2 G4))) as G5.
      assert (G15 : go (fun b => (((False \/ h = b) \/ h = b) \/ False)) s1 (with_place s4 (Part n (Handler i)) q)).
      { exact (go_trans _ _ _ _ _ (go_trans _ _ _ _ _ (go_trans _ _ _ _ _ G2 G3) G4) G5). }
      destruct (link_go g e fin (with_place s4 (Part n (Handler i)) q)) as (t & E6 & G6 & B6 & GG6 & L6 & A6 & S6 & P6).
      { exact (proj1 (proj2 G5)). }
      { cbn [with_place graphs]. lia. }
      { exact (ready_block _ _ _ R4). }
      { cbn [with_place blocks]. lia. }
      { lia. }
      { exact (ready_empty _ _ _ R4). }
      { intros LE SE. exfalso. exact (go_start _ _ _ g e G15 ltac:(lia) EB LE SE). }
      rewrite E6. cbn [bind]. exists t, bs2, (hb1 ++ [h]). split; [reflexivity|]. cbn [with_place blocks graphs] in B6, GG6.
      pose proof (go_trans _ _ _ _ _ G15 G6) as G1t. cbv beta in G1t.
      assert (G1t' : go (fun _ => False) s1 t) by (weak G1t).
      split; [weak (go_trans _ _ _ _ _ G1 G1t')|]. split; [|split; [|split; [|split]]].
      + apply Forall_app. split; [|constructor; [lia | constructor]]. eapply Forall_impl; [|exact FB1]. cbv beta. intros x X. lia.
      + apply (targets_more s3); [lia | exact BO2].
      + exact EX2.
      + unfold all_numbers. cbn [flat_map snd]. fold (all_numbers hs). intros m NM.
        assert (N' : ~ List.In m (flat_map numbers (f :: l)) /\ ~ List.In m (all_numbers hs)) by (split; intros C; apply NM; apply in_or_app; auto).
        transitivity (place_of (Whole m) s4); [unfold place_of; rewrite P6; reflexivity|]. rewrite (K4 m (proj1 N')), P3.
        transitivity (place_of (Whole m) s1); [unfold place_of; rewrite P2; reflexivity|]. exact (K1 m (proj2 N')).
      + unfold all_functions. cbn [flat_map snd]. fold (all_functions hs). apply covered_app.
        * exact (covered_go _ _ _ _ G6 (covered_go _ _ _ _ G5 C4)).
        * exact (covered_go _ _ _ _ G1t' C1).
  Qed.

  Lemma visit_try : forall g bs n body handlers orelse fin_body s0 c,
    visit g bs (Try n body handlers orelse fin_body) (s0, c) =
      do x <- match locs s0 c with [] => Ok (s0, c) | _ => block_after g c s0 end;
      let (s1, node_block) := (x : state * nat) in
      let s2 := fst (new_block g s1) in
      let s3 := fst (new_block g s2) in
      let s4 := fst (new_block g s3) in
      do y <- visit_handlers g n (blocks s2) 0 handlers ([(KRaise None, blocks s3)] :: bs) s4;
      let '(s5, bs', after_body) := (y : state * boundaries * list nat) in
      do y <- match orelse with
              | [] => Ok (s5, after_body ++ [blocks s2])
              | _ =>
                  let (s, e) := new_block g s5 in
                  do x <- visit_all g bs' orelse (s, e);
                  do s <- link_or_merge g (snd x) (blocks s2) (fst x);
                  Ok (s, after_body ++ [e])
              end;
      let (s6, after_body) := (y : state * list nat) in
      do x <- visit_all g bs' body (s6, node_block);
      let (s7, end_body) := (x : state * nat) in
      do s8 <- match body with
               | [] => Raise AssertionError
               | f :: _ =>
                   do p <- place_of (Whole (stmt_number f)) s7;
                   do m <- node_at p s7;
                   add_CF_statement (fst p) (Whole n) (First [m]) s7
               end;
      do s9 <- link_or_merge g (blocks s1) end_body s8;
      do s10 <- multiple_link_or_merge g end_body after_body s9;
      do s11 <- link_or_merge g (blocks s2) (blocks s3) s10;
      Ok (s11, blocks s3).
  Proof. reflexivity. Qed.
End Visiting.
