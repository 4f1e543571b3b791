(** Try statements, and everything together: visiting a program never fails and what it builds is right. *)
From Coq Require Import String List Bool Arith Lia.
From Verif Require Import Base CfgModel CfgSpec CfgBlockProofs CfgWfProofs CfgOpProofs CfgVisitProofs.
Import ListNotations.
Local Open Scope list_scope.
Local Open Scope nat_scope.

Section Programs.
  Variable swallows : nat -> bool.
  Notation run := (run swallows).
  Notation runs := (runs swallows).
  Notation covers := (covers).
  Notation faithful := (faithful swallows).
  Notation covered := (covered swallows).
  Notation stmt_right := (stmt_right swallows).
  Notation list_right := (list_right swallows).
  Ltac weak G :=
    eapply go_weaken; [|exact G]; cbv beta;
    let b := fresh "b" in let L := fresh "L" in let Q := fresh "Q" in intros b L Q;
    repeat match goal with H : _ \/ _ |- _ => destruct H | H : False |- _ => destruct H end; first [assumption | lia].


  Lemma try_else_right : forall g bs fin orelse hb s, list_right orelse -> forallb grammatical orelse = true -> NoDup (flat_map numbers orelse) ->
    wf s -> g < graphs s -> fin < blocks s -> Forall (Forall (fun x : exit_key * nat => snd x < blocks s)) bs ->
    exists t last, match orelse with
                   | [] => Ok (s, hb ++ [fin])
                   | _ =>
                       let (s, e) := new_block g s in
                       do x <- visit_all g bs orelse (s, e);
                       do s <- link_or_merge g (snd x) fin (fst x);
                       Ok (s, hb ++ [e])
                   end = Ok (t, hb ++ [last]) /\ go (fun _ => False) s t /\ (last = fin \/ blocks s <= last < blocks t) /\
      kept s t (flat_map numbers orelse) /\ covered (flat_map functions orelse) t.
  Proof.
    intros g bs fin orelse hb s H GR ND W GL FL BO. destruct orelse as [|f l].
    - exists s, fin. split; [reflexivity|]. split; [apply go_refl; exact W|]. split; [auto|]. split; [apply kept_refl; reflexivity | apply covered_none].
    - pose proof (go_new_block g s W GL) as G2. pose proof (new_block_ready _ g s W GL) as R2.
      assert (B2 : blocks (fst (new_block g s)) = S (blocks s)) by reflexivity.
      assert (GG2 : graphs (fst (new_block g s)) = graphs s) by reflexivity.
      assert (P2 : places (fst (new_block g s)) = places s) by reflexivity.
      replace (new_block g s) with (fst (new_block g s), blocks s) by reflexivity.
      set (s2 := fst (new_block g s)) in *. clearbody s2.
      assert (BD : bounded s2 (blocks s) bs).
      { split; [apply (targets_more s); [lia | exact BO]|]. intros o u E. assert (U : u < blocks s).
        { destruct o; cbn [exits] in E; try discriminate; exact (jump_target_in (fun t => t < blocks s) _ bs u BO E). }
        lia. }
      destruct (H g bs s2 (blocks s) GR ND (proj1 (proj2 G2)) ltac:(lia) R2 BD) as (s3 & e & E3 & [G3 R3 WH3] & K3 & _ & C3 & _).
      rewrite E3. cbn [bind fst snd]. pose proof (go_blocks _ _ _ G3) as BL3. pose proof (go_graphs _ _ _ G3) as GG3.
      assert (EB : blocks s <= e) by (destruct WH3 as [[-> _]|X]; lia).
      assert (G03 : go (fun b => False \/ blocks s = b) s s3) by exact (go_trans _ _ _ _ _ G2 G3).
      destruct (link_go g e fin s3 (proj1 (proj2 G3)) ltac:(lia) (ready_block _ _ _ R3) ltac:(lia) ltac:(lia) (ready_empty _ _ _ R3)) as (t & E4 & G4 & B4 & GG4 & L4 & A4 & S4 & P4).
      { intros LE SE. exfalso. exact (go_start _ _ _ g e G03 GL EB LE SE). }
      rewrite E4. cbn [bind]. exists t, (blocks s). split; [reflexivity|]. split; [weak (go_trans _ _ _ _ _ G03 G4)|]. split; [right; lia|]. split.
      + intros m NM. transitivity (place_of (Whole m) s3); [unfold place_of; rewrite P4; reflexivity|]. rewrite (K3 m NM). unfold place_of. rewrite P2. reflexivity.
      + exact (covered_go _ _ _ _ _ G4 C3).
  Qed.

  Lemma try_right : forall n body handlers orelse fin_body, list_right body -> Forall (fun h => list_right (snd h)) handlers -> list_right orelse ->
    stmt_right (Try n body handlers orelse fin_body).
  Proof.
    intros n body handlers orelse fin_body HB HH HE g bs st c GR ND W GL R B. pose proof (ready_block _ _ _ R) as CL.
    cbn [grammatical] in GR. repeat (apply andb_true_iff in GR; destruct GR as [GR ?]). rename H into GR6, H0 into GR5, H1 into GR4, H2 into GR3, H3 into GR2, H4 into GR1.
    cbn [numbers] in ND. inversion ND as [|n' l' NI ND']; subst. destruct (NoDup_app_l _ _ ND') as (N1 & ND2 & D1).
    fold (all_numbers handlers) in *. destruct (NoDup_app_l _ _ ND2) as (N2 & ND3 & D2). destruct (NoDup_app_l _ _ ND3) as (N3 & N4 & D3).
    assert (NI' : ~ List.In n (flat_map numbers body) /\ ~ List.In n (all_numbers handlers) /\ ~ List.In n (flat_map numbers orelse)).
    { refine (conj _ (conj _ _)); intros C; apply NI; rewrite !in_app_iff; auto. }
    rewrite visit_try.
    assert (E1 : exists s1 nb, match locs st c with [] => Ok (st, c) | _ => block_after g c st end = Ok (s1, nb) /\ go (eq c) st s1 /\ ready s1 g nb /\ locs s1 nb = [] /\
      graphs s1 = graphs st /\ places s1 = places st /\ (nb = c /\ locs st c = [] \/ blocks st <= nb /\ locs st c <> [])).
    { destruct (locs st c) as [|m l] eqn:LC.
      - exists st, c. split; [reflexivity|]. split; [apply go_refl; exact W|]. auto 10.
      - assert (NE : locs st c <> []) by congruence. destruct (after_go g c st W GL CL NE) as (s1 & E1 & G1 & B1 & GG1 & R1 & L1 & F1 & P1 & O1).
        exists s1, (blocks st). split; [exact E1|]. split; [exact G1|]. split; [exact R1|]. split; [exact L1|]. split; [exact GG1|]. split; [exact P1|].
        right. split; [lia | congruence]. }
    destruct E1 as (s1 & nb & E1 & G1 & R1 & L1 & GG1 & P1 & WH1). rewrite E1. cbn [bind]. clear E1.
    pose proof (go_blocks _ _ _ G1) as BL1. pose proof (ready_block _ _ _ R1) as NBL. cbv zeta.
    pose proof (go_new_block g s1 (proj1 (proj2 G1)) ltac:(lia)) as G2. pose proof (new_block_ready _ g s1 (proj1 (proj2 G1)) ltac:(lia)) as R2.
    destruct (new_block_empty g s1) as [L2 _].
    assert (B2 : blocks (fst (new_block g s1)) = S (blocks s1)) by reflexivity.
    assert (GG2 : graphs (fst (new_block g s1)) = graphs s1) by reflexivity.
    assert (P2 : places (fst (new_block g s1)) = places s1) by reflexivity.
    set (s2 := fst (new_block g s1)) in *. clearbody s2.
    pose proof (go_new_block g s2 (proj1 (proj2 G2)) ltac:(lia)) as G3. pose proof (new_block_ready _ g s2 (proj1 (proj2 G2)) ltac:(lia)) as R3.
    destruct (new_block_empty g s2) as [L3 _].
    assert (B3 : blocks (fst (new_block g s2)) = S (blocks s2)) by reflexivity.
    assert (GG3 : graphs (fst (new_block g s2)) = graphs s2) by reflexivity.
    assert (P3 : places (fst (new_block g s2)) = places s2) by reflexivity.
    set (s3 := fst (new_block g s2)) in *. clearbody s3.
    pose proof (go_new_block g s3 (proj1 (proj2 G3)) ltac:(lia)) as G4. pose proof (new_block_ready _ g s3 (proj1 (proj2 G3)) ltac:(lia)) as R4.
    destruct (new_block_empty g s3) as [L4 _].
    assert (B4 : blocks (fst (new_block g s3)) = S (blocks s3)) by reflexivity.
    assert (GG4 : graphs (fst (new_block g s3)) = graphs s3) by reflexivity.
    assert (P4 : places (fst (new_block g s3)) = places s3) by reflexivity.
    set (s4 := fst (new_block g s3)) in *. clearbody s4.
    assert (BO4 : Forall (Forall (fun x : exit_key * nat => snd x < blocks s4)) ([(KRaise None, blocks s3)] :: bs)).
    { constructor; [constructor; [cbn [snd]; lia | constructor]|]. apply (targets_more st); [lia | exact (proj1 B)]. }
    destruct (handlers_right swallows g n (blocks s2) handlers HH GR2 N2 0 ([(KRaise None, blocks s3)] :: bs) s4 (proj1 (proj2 G4)) ltac:(lia) ltac:(lia) BO4)
      as (s5 & bs' & hb & E5 & G5 & FB5 & BO5 & EX5 & K5 & C5).
    rewrite E5. cbn [bind]. pose proof (go_blocks _ _ _ G5) as BL5. pose proof (go_graphs _ _ _ G5) as GG5.
    destruct (try_else_right g bs' (blocks s2) orelse hb s5 HE GR3 N3 (proj1 (proj2 G5)) ltac:(lia) ltac:(lia) BO5) as (s6 & lst & E6 & G6 & LST & K6 & C6).
    rewrite E6. cbn [bind]. clear E5 E6. pose proof (go_blocks _ _ _ G6) as BL6. pose proof (go_graphs _ _ _ G6) as GG6.
    assert (G34 : go (fun b => False \/ False) s2 s4) by exact (go_trans _ _ _ _ _ G3 G4).
    assert (G46 : go (fun b => False \/ False) s4 s6) by exact (go_trans _ _ _ _ _ G5 G6).
    assert (G26 : go (fun _ => False) s2 s6) by (weak (go_trans _ _ _ _ _ G34 G46)).
    assert (G36 : go (fun _ => False) s3 s6) by (weak (go_trans _ _ _ _ _ G4 G46)).
    assert (G16 : go (fun _ => False) s1 s6) by (weak (go_trans _ _ _ _ _ G2 G26)).
    assert (R6 : ready s6 g nb).
    { destruct R1 as [A1 A2 A3]. constructor.
      - lia.
      - exact (go_open _ _ _ nb G16 A1 (fun C => C) A2).
      - intros _. exact (go_unr _ _ _ g nb G16 ltac:(lia) (A3 L1) (fun C => C)). }
    assert (L6 : locs s6 nb = []) by (rewrite (go_locs _ _ _ nb G16 NBL (fun C => C)); exact L1).
    assert (BD6 : bounded s6 nb bs').
    { split; [apply (targets_more s5); [lia | exact BO5]|]. intros o u E. rewrite EX5 in E.
      assert (E' : exits o bs = Some u) by (rewrite <- E; symmetry; apply (raises_exits o [[(KRaise None, blocks s3)]] bs); constructor; [constructor; [exact Logic.I | constructor] | constructor]).
      destruct (exits_block st c bs o u B E'). destruct WH1 as [[-> _]|[X _]]; lia. }
    destruct (HB g bs' s6 nb GR1 N1 (proj1 (proj2 G6)) ltac:(lia) R6 BD6) as (s7 & eb & E7 & [G7 R7 WH7] & K7 & PL7 & C7 & _).
    rewrite E7. cbn [bind]. clear E7. destruct body as [|f body']; [discriminate|]. pose proof (go_blocks _ _ _ G7) as BL7. pose proof (go_graphs _ _ _ G7) as GG7.
    destruct (first_place s6 nb s7 (stmt_number f) (Whole n) PL7 L6) as (p & m & Q1 & Q2 & Q3 & Q4 & Q5).
    rewrite Q1. cbn [bind]. rewrite Q2. cbn [bind]. rewrite Q3. cbn [bind].
    pose proof (go_place (Whole n) (fst p, 0) s7 (proj1 (proj2 G7))) as G8. set (s8 := with_place s7 (Whole n) (fst p, 0)) in *.
    assert (B8 : blocks s8 = blocks s7) by reflexivity. assert (GG8 : graphs s8 = graphs s7) by reflexivity. assert (L8 : locs s8 = locs s7) by reflexivity.
    assert (P8 : place_of (Whole n) s8 = Ok (fst p, 0)) by apply place_whole_same.
    assert (K8 : kept s7 s8 [n]) by (intros k NM; apply place_whole_other; intros ->; apply NM; left; reflexivity).
    assert (R8 : ready s8 g eb) by (destruct R7; constructor; assumption).
    clearbody s8. clear Q3.
    assert (EBB : eb = nb \/ blocks s6 <= eb) by (destruct WH7 as [[X _]|X]; auto).
    assert (G28 : go (eq nb) s2 s8) by (weak (go_trans _ _ _ _ _ (go_trans _ _ _ _ _ G26 G7) G8)).
    assert (G38 : go (eq nb) s3 s8) by (weak (go_trans _ _ _ _ _ (go_trans _ _ _ _ _ G36 G7) G8)).
    assert (G48 : go (eq nb) s4 s8) by (weak (go_trans _ _ _ _ _ (go_trans _ _ _ _ _ G46 G7) G8)).
    assert (G18 : go (eq nb) s1 s8) by (weak (go_trans _ _ _ _ _ (go_trans _ _ _ _ _ G16 G7) G8)).
    assert (LT8 : locs s8 (blocks s1) = []) by (rewrite (go_locs _ _ _ (blocks s1) G28); [exact L2 | lia | lia]).
    destruct (link_go g (blocks s1) eb s8 (proj1 (proj2 G8)) ltac:(lia) ltac:(lia) (ready_block _ _ _ R8) ltac:(lia)) as (s9 & E9 & G9 & B9 & GG9 & L9 & _ & S9 & P9).
    { intros _. apply (go_unr _ _ _ g _ G28); [lia | exact (ready_empty _ _ _ R2 L2) | lia]. }
    { intros LE SE. exfalso. exact (go_start _ _ _ g _ G18 ltac:(lia) (le_n _) LE SE). }
    rewrite E9. cbn [bind]. clear E9.
    destruct (multiple_right (graphs s9) g eb (hb ++ [lst]) s9 (proj1 (proj2 G9)) (le_n _) ltac:(lia)) as (s10 & E10 & W10 & X10 & B10 & GG10 & L10 & P10 & ST10 & S10).
    { rewrite B9. exact (ready_block _ _ _ R8). }
    { rewrite L9. intros LE. apply (go_unr _ _ _ g _ G9); [lia | exact (ready_empty _ _ _ R8 LE) | destruct EBB; lia]. }
    { destruct hb; discriminate. }
    { apply Forall_app. split; [eapply Forall_impl; [|exact FB5]; cbv beta; intros x X; destruct EBB; lia|]. constructor; [|constructor]. destruct LST as [-> | X]; destruct EBB; lia. }
    rewrite E10. cbn [bind]. clear E10.
    assert (G10 : go (eq eb) s9 s10) by (split; [exact (proj1 (proj2 G9))|]; split; [exact W10 | exact X10]).
    assert (G810 : go (fun b => blocks s1 = b \/ eb = b) s8 s10) by exact (go_trans _ _ _ _ _ G9 G10).
    destruct (link_go g (blocks s2) (blocks s3) s10 W10 ltac:(lia) ltac:(lia) ltac:(lia) ltac:(lia)) as (t & E11 & G11 & B11 & GG11 & L11 & _ & S11 & P11).
    { intros _. apply (go_unr _ _ _ g _ G810); [lia | | destruct EBB; lia]. apply (go_unr _ _ _ g _ G38); [lia | exact (ready_empty _ _ _ R3 L3) | lia]. }
    { intros LE SE. exfalso. exact (go_start _ _ _ g _ (go_trans _ _ _ _ _ G28 G810) ltac:(lia) (le_n _) LE SE). }
    rewrite E11. cbn [bind]. clear E11. exists t, (blocks s3). split; [reflexivity|].
    assert (G8t : go (fun b => (blocks s1 = b \/ eb = b) \/ blocks s2 = b) s8 t) by exact (go_trans _ _ _ _ _ G810 G11).
    assert (G7t : go (fun b => (blocks s1 = b \/ eb = b) \/ blocks s2 = b) s7 t) by (weak (go_trans _ _ _ _ _ G8 G8t)).
    assert (G1t : go (eq nb) s1 t) by (apply (go_weaken (fun b => nb = b \/ ((blocks s1 = b \/ eb = b) \/ blocks s2 = b))); [intros b L Q; destruct EBB; lia | exact (go_trans _ _ _ _ _ G18 G8t)]).
    assert (G0t : go (eq c) st t).
    { apply (go_weaken (fun b => c = b \/ nb = b)); [|exact (go_trans _ _ _ _ _ G1 G1t)]. intros b L [Q|Q]; [exact Q|]. destruct WH1 as [[X _]|[X _]]; lia. }
    assert (Lt : locs t = locs s7) by congruence.
    assert (LE4 : locs s8 (blocks s3) = []) by (rewrite (go_locs _ _ _ (blocks s3) G48); [exact L4 | lia | lia]).
    split; [|split; [|split; [|split]]].
    - constructor; [exact G0t| | right; lia]. constructor.
      + lia.
      + apply (go_open _ _ _ _ G8t); [lia | destruct EBB; lia|]. apply (go_open _ _ _ _ G48); [lia | lia | exact (ready_open _ _ _ R4)].
      + intros _. apply (go_unr _ _ _ g _ G8t); [lia | | destruct EBB; lia]. apply (go_unr _ _ _ g _ G48); [lia | exact (ready_empty _ _ _ R4 L4) | lia].
    - intros k NM. cbn [numbers List.In] in NM. fold (all_numbers handlers) in NM. rewrite !in_app_iff in NM.
      transitivity (place_of (Whole k) s8); [unfold place_of; rewrite P11, P10, P9; reflexivity|].
      rewrite (K8 k) by (intros [C|[]]; tauto). rewrite (K7 k) by tauto. rewrite (K6 k) by tauto. rewrite (K5 k) by tauto.
      unfold place_of. rewrite P4, P3, P2, P1. reflexivity.
    - exists (fst p, 0), m. cbn [stmt_number fst snd]. split; [|split].
      + rewrite <- P8. unfold place_of. rewrite P11, P10, P9. reflexivity.
      + rewrite Lt. exact Q4.
      + intros LC. split; [reflexivity|]. destruct WH1 as [[-> _]|[_ X]]; [|contradiction]. rewrite Lt. exact Q5.
    - cbn [functions]. fold (all_functions handlers). apply covered_app; [exact (covered_go _ _ _ _ _ G7t C7)|]. apply covered_app.
      + assert (G5t : go (fun _ => True) s5 t) by (apply (go_weaken (fun b => (False \/ nb = b) \/ ((blocks s1 = b \/ eb = b) \/ blocks s2 = b))); [auto | exact (go_trans _ _ _ _ _ (go_trans _ _ _ _ _ G6 G7) G7t)]).
        exact (covered_go _ _ _ _ _ G5t C5).
      + assert (G6t : go (fun _ => True) s6 t) by (apply (go_weaken (fun b => nb = b \/ ((blocks s1 = b \/ eb = b) \/ blocks s2 = b))); [auto | exact (go_trans _ _ _ _ _ G7 G7t)]).
        exact (covered_go _ _ _ _ _ G6t C6).
    - discriminate.
  Qed.

  (** ** All statements *)

  Fixpoint every_stmt (s : stmt) : stmt_right s :=
    let all := fix all (l : list stmt) : Forall stmt_right l :=
      match l with [] => Forall_nil _ | s :: l => Forall_cons s (every_stmt s) (all l) end in
    match s with
    | Simple n => simple_right swallows n
    | Opaque n b => opaque_right swallows n b
    | Jump n k => jump_right swallows n k
    | Function n b => function_right swallows n b (list_right_of swallows b (all b))
    | Class n b => class_right swallows n b (list_right_of swallows b (all b))
    | If n b e => if_right swallows n b e (list_right_of swallows b (all b)) (list_right_of swallows e (all e))
    | While n b e => while_right swallows n b e (list_right_of swallows b (all b)) (list_right_of swallows e (all e))
    | For n b e => for_right swallows n b e (list_right_of swallows b (all b)) (list_right_of swallows e (all e))
    | With n items b => with_right swallows n items b (list_right_of swallows b (all b))
    | Try n b hs e f =>
        try_right n b hs e f (list_right_of swallows b (all b))
          ((fix each (hs : list (list string * bool * list stmt)) : Forall (fun h => list_right (snd h)) hs :=
              match hs with
              | [] => Forall_nil _
              | h :: hs => Forall_cons h (list_right_of swallows (snd h) (all (snd h))) (each hs)
              end) hs)
          (list_right_of swallows e (all e))
    end.
  Lemma every_list : forall l, list_right l.
  Proof. intros l. apply list_right_of. rewrite Forall_forall. intros s _. exact (every_stmt s). Qed.

  Lemma nothing_wf : wf nothing.
  Proof. constructor; cbn; intros; try lia; try contradiction; auto. constructor. Qed.

  (** ** The module *)
  Lemma module_right : forall body, forallb grammatical body = true -> NoDup (flat_map numbers body) ->
    exists t, visit_module body = Ok t /\ wf t /\ 0 < graphs t /\ covered (flat_map functions body) t /\
      (forallb (plain swallows) body = true -> faithful t 0 [] body).
  Proof.
    intros body GR ND. destruct (new_graph_right (Part 0 WholeModule) nothing nothing_wf) as (s1 & E1 & W1 & _ & B1 & GG1 & ST1 & FI1 & _ & R1 & _ & L1 & _).
    unfold visit_module. rewrite E1. cbn [nothing graphs blocks] in *. rewrite ST1.
    assert (BO1 : bounded s1 0 []) by (split; [constructor|]; intros o u E; destruct o; discriminate).
    destruct (every_list body 0 [] s1 0 GR ND W1 ltac:(lia) R1 BO1) as (s2 & c & E2 & [G2 R2 WH2] & _ & _ & C2 & V2).
    rewrite E2. cbn [bind]. unfold add_CF_statement, position_of. cbn [bind].
    pose proof (go_place (Part 0 WholeModule) (start (graph s2 0), 0) s2 (proj1 (proj2 G2))) as G3.
    assert (FI3 : final (graph (with_place s2 (Part 0 WholeModule) (start (graph s2 0), 0)) 0) = 1).
    { cbn [with_place graph]. destruct (x_graph _ _ _ _ (proj2 (proj2 G2)) 0 ltac:(lia)) as (X & _). congruence. }
    assert (R3 : ready (with_place s2 (Part 0 WholeModule) (start (graph s2 0), 0)) 0 c) by (destruct R2; constructor; assumption).
    assert (B3 : blocks (with_place s2 (Part 0 WholeModule) (start (graph s2 0), 0)) = blocks s2) by reflexivity.
    assert (GG3 : graphs (with_place s2 (Part 0 WholeModule) (start (graph s2 0), 0)) = graphs s2) by reflexivity.
    assert (L3 : locs (with_place s2 (Part 0 WholeModule) (start (graph s2 0), 0)) = locs s2) by reflexivity.
    assert (ST3 : start (graph (with_place s2 (Part 0 WholeModule) (start (graph s2 0), 0)) 0) = start (graph s2 0)) by reflexivity.
    rewrite FI3. set (s3 := with_place s2 (Part 0 WholeModule) (start (graph s2 0), 0)) in *. clearbody s3.
    pose proof (go_blocks _ _ _ G2) as BL2. pose proof (go_graphs _ _ _ G2) as GG2.
    assert (CC : c = 0 \/ 2 <= c) by (destruct WH2; lia).
    destruct body as [|f l].
    - cbn [visit_all] in E2. assert (s2 = s1 /\ c = 0) as [-> ->] by (split; congruence).
      assert (X : exists u, link_or_merge 0 0 1 s3 = Ok u /\ wf u /\ graphs u = graphs s3).
      { unfold link_or_merge. cbn [is_jump]. rewrite L3, L1, ST3, ST1. cbn [Nat.eqb].
        assert (G1 : graph (with_graph s3 0 (mk_cfg 1 (final (graph s3 0)) (unreachable (graph s3 0)) (owner (graph s3 0)))) 0 =
          mk_cfg 1 (final (graph s3 0)) (unreachable (graph s3 0)) (owner (graph s3 0))) by (unfold with_graph; cbn [graph]; apply set_same).
        assert (W3 : wf (with_graph s3 0 (mk_cfg 1 (final (graph s3 0)) (unreachable (graph s3 0)) (owner (graph s3 0))))).
        { pose proof (proj1 (proj2 G3)) as W. destruct W as [A1 A2 A3 A4 A5 A6 A7 A8].
          constructor; unfold with_graph; cbn [blocks locs preds succs reachable edges source target graphs graph places]; auto.
          - intros h y HL I. apply (A5 h y HL). at_ h 0; exact I.
          - intros h HL. at_ h 0; [exact (A6 0 HL) | exact (A6 h HL)].
          - intros h k y HL KL I J. apply (A7 h k y HL KL); [at_ h 0; exact I | at_ k 0; exact J].
          - intros h HL. destruct (A8 h HL). at_ h 0; cbn; [split; lia | auto]. }
        assert (UN : List.In 0 (unreachable (graph s3 0))) by (apply (ready_empty _ _ _ R3); rewrite L3; exact L1).
        destruct (not_unreachable_right _ 0 0 _ W3 ltac:(cbn [with_graph graphs]; lia)) as [u [E [NU U]]]; [rewrite G1; exact UN|].
        eexists. split; [exact E|]. rewrite G1 in *. cbn [start final unreachable owner] in *. split; [|reflexivity].
        apply (with_unr_wf (fun _ => False) 0); auto.
        - exact (wfx_weaken _ _ _ (fun _ X => or_introl X) W3).
        - cbn [with_graph graphs]. lia.
        - cbn [with_graph blocks]. lia.
        - cbn [with_graph blocks]. lia.
        - intros y Y. rewrite G1. exact (proj1 (U y) Y). }
      destruct X as (u & E4 & W4 & GG4). rewrite E4. cbn [bind]. destruct (update_right 0 u W4 ltac:(lia)) as (t & E5 & W5 & _ & GG5 & _).
      exists t. split; [exact E5|]. split; [exact W5|]. split; [lia|]. split; [apply covered_none|]. intros _ tr o [-> _]. split; [exists None; constructor | intros x []].
    - destruct (link_go 0 c 1 s3 (proj1 (proj2 G3)) ltac:(lia) (ready_block _ _ _ R3) ltac:(lia) ltac:(lia) (ready_empty _ _ _ R3)) as (u & E4 & G4 & B4 & GG4 & L4 & _).
      { rewrite L3, ST3. intros LE SE. exfalso. destruct WH2 as [[-> X]|X]; [apply X; [discriminate | exact LE]|].
        exact (go_start _ _ _ 0 c G2 ltac:(lia) X LE SE). }
      rewrite E4. cbn [bind]. destruct (update_right 0 u (proj1 (proj2 G4)) ltac:(lia)) as (t & E5 & W5 & B5 & GG5 & L5 & S5 & T5 & P5 & ST5 & X5 & RE5 & O5).
      pose proof (go_trans _ _ _ _ _ G3 G4) as G2u. exists t. split; [exact E5|]. split; [exact W5|]. split; [lia|]. split.
      + pose proof (covered_go _ _ _ _ _ G2u C2) as Cu. intros n b I PL. destruct (Cu n b I PL) as (h & HL & O & F). exists h.
        split; [lia|]. split; [rewrite (proj2 (O5 h)); exact O|]. intros tr o RU. destruct (F tr o RU) as [[q Wq] X]. split.
        * exists q. exact (walk_same u t h None _ q L5 S5 T5 (proj1 (O5 h)) Wq).
        * intros x IX. destruct (X x IX) as (b' & i & N & RE). exists b', i. rewrite L5. split; [exact N|]. apply RE5. right. exact RE.
      + intros PL tr o RU. cbn [app]. assert (F1 : front s1 0 0 None) by (apply empty_front; [exact L1 | right; auto | reflexivity]).
        destruct (V2 PL None tr o F1 RU) as (q & Wq & _). pose proof (go_walk _ s2 u 0 None tr q G2u ltac:(lia) Wq) as Wu. split.
        * exists q. exact (walk_same u t 0 None _ q L5 S5 T5 ST5 Wu).
        * intros x I. destruct (walk_reached u 0 None tr q Wu Logic.I x I) as (b & i & N & PA). exists b, i. rewrite L5. split; [exact N|]. apply RE5. left. exact PA.
  Qed.
End Programs.
