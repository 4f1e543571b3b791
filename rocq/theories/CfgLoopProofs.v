(** Proofs about the check for loops that end in their first iteration. *)
From Coq Require Import String List Bool Arith Lia.
From Verif Require Import Base CfgModel CfgSpec CfgWfProofs CfgOpProofs CfgVisitProofs CfgTryProofs CfgLoopModel CfgLoopSpec CfgTidyProofs.
Import ListNotations.
Local Open Scope list_scope.
Local Open Scope nat_scope.

Lemma checked : forall s l es, sourced s -> (forall e, List.In e es -> e < edges s) -> exists b, only_from_outside s l es = Ok b.
Proof.
  intros s l es [X _] H. induction es as [|e es IH]; [exists true; reflexivity|]. cbn [only_from_outside].
  pose proof (X e (H e (or_introl eq_refl))) as N. destruct (locs s (source s e)) as [|y r]; [contradiction|].
  assert (IH' := IH (fun e' I => H e' (or_intror I))). destruct (inside l y && reachable s (source s e)); [|exact IH'].
  destruct (loop_for l && node_eqb y (Part (loop_number l) Iter)); [exact IH' | exists false; reflexivity].
Qed.
Lemma check_returns : forall s l, sourced s -> exists b, check_one_iteration s l = Ok b.
Proof.
  intros s l SO. unfold check_one_iteration. destruct (place_of (loop_start l) s) as [p|e]; [|exists false; reflexivity].
  destruct (preds s (fst p)) as [|e es] eqn:P; [exists false; reflexivity|]. apply checked; [exact SO|]. intros e' I. destruct SO as [_ Y]. apply (Y (fst p)). rewrite P. exact I.
Qed.

Lemma found_inside : forall s l es e y r, List.In e es -> locs s (source s e) = y :: r -> List.In (number y) (flat_map numbers (loop_body l)) ->
  ~ List.In (loop_number l) (flat_map numbers (loop_body l)) -> reachable s (source s e) = true -> only_from_outside s l es <> Ok true.
Proof.
  intros s l es e y r I LY IN NI RE. induction es as [|d es IH]; [destruct I|]. cbn [only_from_outside]. destruct (locs s (source s d)) as [|z q] eqn:LZ; [discriminate|].
  destruct I as [->|I].
  - assert (z = y) as -> by congruence. assert (A : existsb (Nat.eqb (number y)) (flat_map numbers (loop_body l) ++ flat_map numbers (loop_else l)) = true).
    { apply existsb_exists. exists (number y). split; [apply in_or_app; auto | apply Nat.eqb_refl]. }
    assert (IY : inside l y = true) by (unfold inside; destruct y as [m|m p]; cbn [number] in A; rewrite A; [reflexivity | apply orb_true_r]).
    rewrite IY, RE. cbn [andb]. assert (NE : node_eqb y (Part (loop_number l) Iter) = false).
    { destruct (node_eqb y (Part (loop_number l) Iter)) eqn:Q; [|reflexivity]. apply node_eqb_ok in Q. subst y. contradiction. }
    rewrite NE, andb_false_r. discriminate.
  - destruct (inside l z && reachable s (source s d)); [|exact (IH I)]. destruct (loop_for l && node_eqb z (Part (loop_number l) Iter)); [exact (IH I) | discriminate].
Qed.

Lemma walk_app_inv : forall s g l m p q, walk s g p (l ++ m) q -> exists r, walk s g p l r /\ walk s g r m q.
Proof.
  intros s g l. induction l as [|x l IH]; intros m p q W; [exists p; split; [constructor | exact W]|]. cbn [app] in W. inversion W; subst.
  destruct (IH _ _ _ H4) as (r & A & B). exists r. split; [econstructor; eauto | exact B].
Qed.

Section Iterations.
  Variable swallows : nat -> bool.

  Lemma again_found : forall t g pre body l tr o, wf t -> located t -> loop_ok t l -> ~ List.In (loop_number l) (flat_map numbers (loop_body l)) ->
    faithful swallows t g pre body -> runs swallows body tr o -> another_iteration l (pre ++ tr) -> check_one_iteration t l <> Ok true.
  Proof.
    intros t g pre body l tr o W L (h & PH & HH & FIRST) NI F RU (a & x & c & EQ & IN). destruct (F tr o RU) as [[q Wq] RE]. rewrite EQ in Wq.
    apply walk_app_inv in Wq. destruct Wq as (r & _ & Wq). inversion Wq; subst. match goal with H : walk _ _ (Some _) _ _ |- _ => inversion H; subst end.
    match goal with A : step _ _ r ?u x, B : step _ _ (Some ?u) ?v (loop_head l) |- _ => rename u into u0; rename v into v0; rename A into SX; rename B into SH end.
    destruct SX as [NX _]. destruct SH as [NH SH]. destruct u0 as [b i]. destruct v0 as [b' i']. cbn [fst snd] in *.
    pose proof (L b i x NX) as PX. pose proof (L b' i' _ NH) as PH'. pose proof (L h 0 _ HH) as PH''. assert (E : b' = h /\ i' = 0) by (split; congruence). destruct E as [-> ->].
    destruct SH as [[_ SH]|(SI & _ & e & IE & TE)]; [discriminate|].
    destruct (wf_succ _ t W b e IE) as (_ & SE & PE & _). rewrite TE in PE.
    assert (IX : List.In x (pre ++ tr)) by (rewrite EQ; apply in_or_app; right; left; reflexivity).
    destruct (RE x IX) as (b2 & i2 & N2 & R2). pose proof (L b2 i2 x N2) as P2. assert (b2 = b) as -> by congruence.
    destruct (FIRST b i x NX IN) as (y & NY & IY). destruct (locs t b) as [|z rest] eqn:LB; [destruct i; discriminate|]. cbn [nth_error] in NY. assert (z = y) as -> by congruence.
    unfold check_one_iteration. rewrite PH. cbn [fst]. destruct (preds t h) as [|e0 es] eqn:PR; [destruct PE|].
    apply (found_inside t l (e0 :: es) e y rest PE); [rewrite SE; exact LB | exact IY | exact NI | rewrite SE; exact R2].
  Qed.
End Iterations.

(** ** The numbers of loops *)

Lemma NoDup_app_r : forall (A : Type) (l m : list A), NoDup (l ++ m) -> NoDup m.
Proof. intros A l m H. induction l as [|x l IH]; [exact H|]. inversion H; subst. auto. Qed.
Lemma NoDup_app_left : forall (A : Type) (l m : list A), NoDup (l ++ m) -> NoDup l.
Proof. intros A l m H. induction l as [|x l IH]; [constructor|]. inversion H; subst. constructor; [intros I; apply H2; apply in_or_app; auto | auto]. Qed.

Fixpoint loops_apart (s : stmt) : NoDup (numbers s) -> forall l, List.In l (loops s) -> ~ List.In (loop_number l) (flat_map numbers (loop_body l)).
Proof.
  assert (ALL : forall b, NoDup (flat_map numbers b) -> forall l, List.In l (flat_map loops b) -> ~ List.In (loop_number l) (flat_map numbers (loop_body l))).
  { induction b as [|s' b IH]; intros ND l I; [destruct I|]. cbn [flat_map] in *. apply in_app_or in I.
    destruct I as [I|I]; [exact (loops_apart s' (NoDup_app_left _ _ _ ND) l I) | exact (IH (NoDup_app_r _ _ _ ND) l I)]. }
  assert (HS : forall hs : list (list string * bool * list stmt), NoDup (flat_map (fun h => flat_map numbers (snd h)) hs) ->
    forall l, List.In l (flat_map (fun h => flat_map loops (snd h)) hs) -> ~ List.In (loop_number l) (flat_map numbers (loop_body l))).
  { induction hs as [|[[ty nm] b] hs IH]; intros ND l I; [destruct I|]. cbn [flat_map snd] in *. apply in_app_or in I.
    destruct I as [I|I]; [exact (ALL b (NoDup_app_left _ _ _ ND) l I) | exact (IH (NoDup_app_r _ _ _ ND) l I)]. }
  assert (BOTH : forall b e, NoDup (flat_map numbers b ++ flat_map numbers e) -> forall l, List.In l (flat_map loops b ++ flat_map loops e) -> ~ List.In (loop_number l) (flat_map numbers (loop_body l))).
  { intros b e ND l I. apply in_app_or in I. destruct I as [I|I]; [exact (ALL b (NoDup_app_left _ _ _ ND) l I) | exact (ALL e (NoDup_app_r _ _ _ ND) l I)]. }
  destruct s; intros ND l I; cbn [loops numbers] in *; try (destruct I; fail); inversion ND as [|m' r' NI ND']; subst.
  - exact (ALL _ ND' l I).
  - exact (ALL _ ND' l I).
  - exact (BOTH _ _ ND' l I).
  - destruct I as [<-|I]; [cbn [loop_number loop_body]; intros J; apply NI; apply in_or_app; auto | exact (BOTH _ _ ND' l I)].
  - destruct I as [<-|I]; [cbn [loop_number loop_body]; intros J; apply NI; apply in_or_app; auto | exact (BOTH _ _ ND' l I)].
  - apply in_app_or in I. destruct I as [I|I]; [exact (ALL _ (NoDup_app_left _ _ _ ND') l I)|]. apply NoDup_app_r in ND'.
    apply in_app_or in I. destruct I as [I|I]; [exact (HS _ (NoDup_app_left _ _ _ ND') l I)|]. apply NoDup_app_r in ND'. exact (ALL _ (NoDup_app_left _ _ _ ND') l I).
  - exact (ALL _ ND' l I).
Qed.
Lemma loops_apart_all : forall b, NoDup (flat_map numbers b) -> forall l, List.In l (flat_map loops b) -> ~ List.In (loop_number l) (flat_map numbers (loop_body l)).
Proof.
  induction b as [|s' b IH]; intros ND l I; [destruct I|]. cbn [flat_map] in *. apply in_app_or in I.
  destruct I as [I|I]; [exact (loops_apart s' (NoDup_app_left _ _ _ ND) l I) | exact (IH (NoDup_app_r _ _ _ ND) l I)].
Qed.

(** ** Whole programs *)

Lemma check_never_raises : forall body, forallb grammatical body = true -> NoDup (0 :: flat_map numbers body) ->
  exists t, visit_module body = Ok t /\ forall l, exists b, check_one_iteration t l = Ok b.
Proof.
  intros body GR ND. pose proof ND as ND0. inversion ND as [|m' r' NI ND']; subst. destruct (module_right (fun _ => false) body GR ND') as (t & E & _).
  exists t. split; [exact E|]. intros l. destruct (module_tidy body t E ND0) as (_ & SO & _). exact (check_returns t l SO).
Qed.

Lemma module_again : forall swallows body t l tr o, forallb grammatical body = true -> NoDup (0 :: flat_map numbers body) -> visit_module body = Ok t ->
  List.In l (flat_map loops body) -> forallb (plain swallows) body = true -> runs swallows body tr o -> another_iteration l tr -> check_one_iteration t l <> Ok true.
Proof.
  intros swallows body t l tr o GR ND E IL PL RU AN. pose proof ND as ND0. inversion ND as [|m' r' NI ND']; subst.
  destruct (module_right swallows body GR ND') as (t' & E' & W & _ & _ & F). assert (t' = t) as -> by congruence.
  destruct (module_tidy body t E ND0) as (L & SO & LO). rewrite Forall_forall in LO.
  exact (again_found swallows t 0 [] body l tr o W L (LO l IL) (loops_apart_all body ND' l IL) (F PL) RU AN).
Qed.
Lemma function_again : forall swallows body t n b l tr o, forallb grammatical body = true -> NoDup (0 :: flat_map numbers body) -> visit_module body = Ok t ->
  List.In l (flat_map loops body) -> List.In (n, b) (flat_map functions body) -> forallb (plain swallows) b = true -> runs swallows b tr o ->
  another_iteration l tr -> check_one_iteration t l <> Ok true.
Proof.
  intros swallows body t n b l tr o GR ND E IL IF PL RU AN. pose proof ND as ND0. inversion ND as [|m' r' NI ND']; subst.
  destruct (module_right swallows body GR ND') as (t' & E' & W & _ & CO & _). assert (t' = t) as -> by congruence.
  destruct (module_tidy body t E ND0) as (L & SO & LO). rewrite Forall_forall in LO. destruct (CO n b IF PL) as (g & _ & _ & F).
  apply (again_found swallows t g [Part n Args] b l tr o W L (LO l IL) (loops_apart_all body ND' l IL) F RU). destruct AN as (a & x & c & -> & IN). exists (Part n Args :: a), x, c. auto.
Qed.

(** ** What another iteration means *)

Section Meaning.
  Variable swallows : nat -> bool.
  Notation run := (run swallows).
  Notation runs := (runs swallows).

  Definition within (ns : list nat) (A : execution) : Prop := forall tr o x, A tr o -> List.In x tr -> List.In (number x) ns.
  Definition noticed (A : execution) : Prop := forall o, A [] o -> o = Cut.

  Lemma within_weaken : forall ns ms A, (forall m, List.In m ns -> List.In m ms) -> within ns A -> within ms A.
  Proof. intros ns ms A H W tr o x R I. exact (H _ (W tr o x R I)). Qed.
  Lemma event_within : forall ns x, List.In (number x) ns -> within ns (event x).
  Proof. intros ns x H tr o y [[-> _]|[-> _]] I; [destruct I | destruct I as [<-|[]]; exact H]. Qed.
  Lemma then_within : forall ns A B, within ns A -> within ns B -> within ns (then_ A B).
  Proof. intros ns A B HA HB tr o x [(t & u & -> & X & Y)|[X _]] I; [apply in_app_or in I; destruct I as [I|I]; [exact (HA _ _ _ X I) | exact (HB _ _ _ Y I)] | exact (HA _ _ _ X I)]. Qed.
  Lemma either_within : forall ns A B, within ns A -> within ns B -> within ns (either A B).
  Proof. intros ns A B HA HB tr o x [X|X] I; [exact (HA _ _ _ X I) | exact (HB _ _ _ X I)]. Qed.
  Lemma loop_within : forall ns T B E, within ns T -> within ns B -> within ns E -> within ns (loop T B E).
  Proof.
    intros ns T B E HT HB HE tr o x L. induction L as [tr o X _|t tr o X Y|t tr X Y|t tr o X Y _|t tr o tr' o' X Y _ L IH]; intros I.
    - exact (HT _ _ _ X I).
    - apply in_app_or in I. destruct I as [I|I]; [exact (HT _ _ _ X I) | exact (HE _ _ _ Y I)].
    - apply in_app_or in I. destruct I as [I|I]; [exact (HT _ _ _ X I) | exact (HB _ _ _ Y I)].
    - apply in_app_or in I. destruct I as [I|I]; [exact (HT _ _ _ X I) | exact (HB _ _ _ Y I)].
    - rewrite !in_app_iff in I. destruct I as [I|[I|I]]; [exact (HT _ _ _ X I) | exact (HB _ _ _ Y I) | exact (IH I)].
  Qed.
  Lemma finally_within : forall ns A F, within ns A -> within ns F -> within ns (finally A F).
  Proof. intros ns A F HA HF tr o x [[X _]|(t & u & o1 & o2 & -> & X & _ & Y & _)] I; [exact (HA _ _ _ X I) | apply in_app_or in I; destruct I as [I|I]; [exact (HA _ _ _ X I) | exact (HF _ _ _ Y I)]]. Qed.
  Lemma events_within : forall ns l, (forall x, List.In x l -> List.In (number x) ns) -> within ns (events l).
  Proof.
    intros ns l. induction l as [|x l IH]; intros H; [intros tr o y [-> _] []|]. cbn [events]. apply then_within; [apply event_within; apply H; left; reflexivity|].
    apply IH. intros y I. apply H. right. exact I.
  Qed.
  Lemma items_number : forall n items i x, List.In x (with_items n i items) -> number x = n.
  Proof.
    intros n items. induction items as [|nm items IH]; intros i x I; [destruct I|]. cbn [with_items] in I. destruct I as [<-|I]; [reflexivity|].
    destruct nm; cbn [app] in I; [destruct I as [<-|I]; [reflexivity | exact (IH _ _ I)] | exact (IH _ _ I)].
  Qed.

  Definition handled_by (n : nat) : nat -> list (list string * bool * list stmt) -> execution :=
    fix handled (i : nat) (hs : list (list string * bool * list stmt)) : execution :=
      match hs with
      | [] => fun _ _ => False
      | (types, named, hbody) :: hs => either (then_ (events (if named then [Part n (HandlerName i)] else [])) (runs hbody)) (handled (S i) hs)
      end.
  Lemma run_try : forall n body hs orelse fin_body,
    run (Try n body hs orelse fin_body) =
      finally (fun tr o => then_ (runs body) (runs orelse) tr o \/ exists t u, tr = t ++ u /\ runs body t Raised /\ handled_by n 0 hs u o) (runs fin_body).
  Proof. reflexivity. Qed.

  Fixpoint run_within (s : stmt) : within (numbers s) (run s).
  Proof.
    assert (ALL : forall b, within (flat_map numbers b) (runs b)).
    { induction b as [|s' b IH]; [intros tr o x [-> _] []|]. cbn [flat_map]. change (runs (s' :: b)) with (then_ (run s') (runs b)). apply then_within.
      - apply (within_weaken (numbers s')); [intros m I; apply in_or_app; auto | exact (run_within s')].
      - apply (within_weaken (flat_map numbers b)); [intros m I; apply in_or_app; auto | exact IH]. }
    assert (SUB : forall ns b, (forall m, List.In m (flat_map numbers b) -> List.In m ns) -> within ns (runs b)) by (intros ns b H; exact (within_weaken _ _ _ H (ALL b))).
    destruct s; cbn [numbers].
    - apply (event_within _ (Whole n)). left. reflexivity.
    - change (run (Opaque n body)) with (then_ (event (Whole n)) (runs body)). apply then_within; [apply (event_within _ (Whole n)); left; reflexivity | apply SUB; intros m I; right; exact I].
    - intros tr o x [[-> _]|[-> _]] I; [destruct I | destruct I as [<-|[]]; left; reflexivity].
    - apply (event_within _ (Whole n)). left. reflexivity.
    - change (run (Class n body)) with (then_ (event (Whole n)) (runs body)). apply then_within; [apply (event_within _ (Whole n)); left; reflexivity | apply SUB; intros m I; right; exact I].
    - change (run (If n body orelse)) with (then_ (event (Part n Test)) (either (runs body) (runs orelse))). apply then_within; [apply (event_within _ (Part n Test)); left; reflexivity|].
      apply either_within; apply SUB; intros m I; right; apply in_or_app; auto.
    - change (run (While n body orelse)) with (loop (event (Part n Test)) (runs body) (runs orelse)).
      apply loop_within; [apply (event_within _ (Part n Test)); left; reflexivity | |]; apply SUB; intros m I; right; apply in_or_app; auto.
    - change (run (For n body orelse)) with (then_ (event (Part n Iter)) (loop (event (Part n Target)) (runs body) (runs orelse))).
      apply then_within; [apply (event_within _ (Part n Iter)); left; reflexivity|].
      apply loop_within; [apply (event_within _ (Part n Target)); left; reflexivity | |]; apply SUB; intros m I; right; apply in_or_app; auto.
    - rewrite run_try. apply finally_within; [|apply SUB; intros m I; right; rewrite !in_app_iff; auto].
      assert (BO : within (n :: flat_map numbers body ++ flat_map (fun h => flat_map numbers (snd h)) handlers ++ flat_map numbers orelse ++ flat_map numbers final) (runs body)) by (apply SUB; intros m I; right; rewrite !in_app_iff; auto).
      assert (HS : forall ms (hs : list (list string * bool * list stmt)), List.In n ms -> (forall m, List.In m (flat_map (fun h => flat_map numbers (snd h)) hs) -> List.In m ms) -> forall i, within ms (handled_by n i hs)).
      { intros ms hs IN. induction hs as [|[[ty nm] hb] hs IH]; intros H i; [intros tr o x []|]. cbn [handled_by flat_map snd] in *. fold (handled_by n).
        apply either_within; [|apply IH; intros m I; apply H; apply in_or_app; auto]. apply then_within; [|apply SUB; intros m I; apply H; apply in_or_app; auto].
        apply events_within. intros x I. destruct nm; [destruct I as [<-|[]]; exact IN | destruct I]. }
      intros tr o x [R|(t & u & -> & R1 & R2)] I.
      + assert (OE : within (n :: flat_map numbers body ++ flat_map (fun h => flat_map numbers (snd h)) handlers ++ flat_map numbers orelse ++ flat_map numbers final) (runs orelse)) by (apply SUB; intros m J; right; rewrite !in_app_iff; auto).
        exact (then_within _ _ _ BO OE tr o x R I).
      + apply in_app_or in I. destruct I as [I|I]; [exact (BO _ _ _ R1 I)|]. refine (HS _ _ _ _ 0 u o x R2 I); [left; reflexivity | intros m J; right; rewrite !in_app_iff; auto].
    - assert (WI : within (n :: flat_map numbers body) (then_ (events (with_items n 0 items)) (runs body))).
      { apply then_within; [|apply SUB; intros m I; right; exact I]. apply events_within. intros x I. left. symmetry. exact (items_number _ _ _ _ I). }
      intros tr o x [R|(_ & _ & R)] I; exact (WI _ _ _ R I).
  Qed.
  Lemma runs_within : forall b, within (flat_map numbers b) (runs b).
  Proof.
    induction b as [|s' b IH]; [intros tr o x [-> _] []|]. cbn [flat_map]. change (runs (s' :: b)) with (then_ (run s') (runs b)). apply then_within.
    - apply (within_weaken (numbers s')); [intros m I; apply in_or_app; auto | exact (run_within s')].
    - apply (within_weaken (flat_map numbers b)); [intros m I; apply in_or_app; auto | exact IH].
  Qed.

  Lemma event_noticed : forall x, noticed (event x).
  Proof. intros x o [[_ H]|[H _]]; [exact H | discriminate]. Qed.
  Lemma then_noticed : forall A B, noticed A -> noticed (then_ A B).
  Proof. intros A B H o [(t & u & E & X & _)|[X _]]; [symmetry in E; apply app_eq_nil in E; destruct E as [-> _]; specialize (H _ X); discriminate | exact (H _ X)]. Qed.
  Lemma loop_noticed : forall T B E, noticed T -> noticed (loop T B E).
  Proof.
    intros T B E H o L. remember (@nil node) as tr eqn:EQ. destruct L as [tr o X _|t tr o X Y|t tr X Y|t tr o X Y _|t tr o tr' o' X Y _ L]; subst.
    - exact (H _ X).
    - apply app_eq_nil in EQ. destruct EQ as [-> _]. specialize (H _ X). discriminate.
    - apply app_eq_nil in EQ. destruct EQ as [-> _]. specialize (H _ X). discriminate.
    - apply app_eq_nil in EQ. destruct EQ as [-> _]. specialize (H _ X). discriminate.
    - apply app_eq_nil in EQ. destruct EQ as [-> _]. specialize (H _ X). discriminate.
  Qed.
  Fixpoint run_noticed (s : stmt) : grammatical s = true -> noticed (run s).
  Proof.
    destruct s; intros G.
    - apply event_noticed.
    - change (run (Opaque n body)) with (then_ (event (Whole n)) (runs body)). apply then_noticed, event_noticed.
    - intros o [[_ H]|[H _]]; [exact H | discriminate].
    - apply event_noticed.
    - change (run (Class n body)) with (then_ (event (Whole n)) (runs body)). apply then_noticed, event_noticed.
    - change (run (If n body orelse)) with (then_ (event (Part n Test)) (either (runs body) (runs orelse))). apply then_noticed, event_noticed.
    - change (run (While n body orelse)) with (loop (event (Part n Test)) (runs body) (runs orelse)). apply loop_noticed, event_noticed.
    - change (run (For n body orelse)) with (then_ (event (Part n Iter)) (loop (event (Part n Target)) (runs body) (runs orelse))). apply then_noticed, event_noticed.
    - rewrite run_try. cbn [grammatical] in G. rewrite !andb_true_iff in G. destruct G as [[[[[[G1 G2] _] _] _] _] _].
      assert (N : noticed (runs body)).
      { destruct body as [|f l]; [discriminate|]. change (runs (f :: l)) with (then_ (run f) (runs l)). apply then_noticed. apply run_noticed. cbn [forallb] in G2. apply andb_true_iff in G2. apply G2. }
      assert (A : noticed (fun tr o => then_ (runs body) (runs orelse) tr o \/ exists t u, tr = t ++ u /\ runs body t Raised /\ handled_by n 0 handlers u o)).
      { intros o [H|(t & u & E & R & _)]; [exact (then_noticed _ _ N o H) | symmetry in E; apply app_eq_nil in E; destruct E as [-> _]; specialize (N _ R); discriminate]. }
      intros o [[_ H]|(t & u & o1 & o2 & E & R & NC & _)]; [exact H|]. symmetry in E. apply app_eq_nil in E. destruct E as [-> _]. apply A in R. contradiction.
    - cbn [grammatical] in G. rewrite !andb_true_iff in G. destruct G as [[G1 _] _]. destruct items as [|nm items]; [discriminate|].
      assert (N : noticed (then_ (events (with_items n 0 (nm :: items))) (runs body))).
      { apply then_noticed. cbn [with_items events]. apply then_noticed, event_noticed. }
      intros o [H|(_ & _ & H)]; [exact (N o H) | apply N in H; discriminate].
  Qed.

  Lemma ends_inside : forall b tr o, forallb grammatical b = true -> b <> [] -> runs b tr o -> o <> Cut -> exists a x, tr = a ++ [x] /\ List.In (number x) (flat_map numbers b).
  Proof.
    intros b tr o G NE R NC. destruct tr as [|y tr] using rev_ind.
    - destruct b as [|f l]; [contradiction|]. cbn [forallb] in G. apply andb_true_iff in G. apply (then_noticed _ (runs l) (run_noticed f (proj1 G))) in R. contradiction.
    - exists tr, y. split; [reflexivity|]. apply (runs_within b _ o _ R). apply in_or_app. right. left. reflexivity.
  Qed.

  Lemma second_is_another : forall l pre first o c, forallb grammatical (loop_body l) = true -> loop_body l <> [] -> runs (loop_body l) first o -> o = Fell \/ o = Continued ->
    another_iteration l (pre ++ loop_head l :: first ++ loop_head l :: c).
  Proof.
    intros l pre first o c G NE R O. destruct (ends_inside _ _ _ G NE R) as (a & x & -> & I); [destruct O as [-> | ->]; discriminate|].
    exists (pre ++ loop_head l :: a), x, c. split; [|exact I]. rewrite <- !app_assoc. reflexivity.
  Qed.
End Meaning.

Lemma module_walks : forall swallows body, forallb grammatical body = true -> NoDup (flat_map numbers body) ->
  exists t, visit_module body = Ok t /\ (forallb (plain swallows) body = true -> forall tr o, runs swallows body tr o ->
    (exists q, walk t 0 None tr q) /\ forall x, List.In x tr -> exists b i, nth_error (locs t b) i = Some x /\ reachable t b = true).
Proof. intros swallows body G ND. destruct (module_right swallows body G ND) as (t & E & _ & _ & _ & F). exists t. split; [exact E|]. intros PL tr o R. exact (F PL tr o R). Qed.
Lemma function_walks : forall swallows body, forallb grammatical body = true -> NoDup (flat_map numbers body) ->
  exists t, visit_module body = Ok t /\ forall n b, List.In (n, b) (flat_map functions body) -> forallb (plain swallows) b = true ->
    exists g, g < graphs t /\ owner (graph t g) = Whole n /\ forall tr o, runs swallows b tr o ->
      (exists q, walk t g None (Part n Args :: tr) q) /\ forall x, List.In x tr -> exists b i, nth_error (locs t b) i = Some x /\ reachable t b = true.
Proof.
  intros swallows body G ND. destruct (module_right swallows body G ND) as (t & E & _ & _ & C & _). exists t. split; [exact E|]. intros n b I PL.
  destruct (C n b I PL) as (g & GL & O & F). exists g. refine (conj GL (conj O _)). intros tr o R. destruct (F tr o R) as [W X]. split; [exact W|]. intros x IX. apply X. right. exact IX.
Qed.
Lemma module_built : forall body, forallb grammatical body = true -> NoDup (flat_map numbers body) -> exists t, visit_module body = Ok t.
Proof. intros body G ND. destruct (module_right (fun _ => false) body G ND) as (t & E & _). exists t. exact E. Qed.
