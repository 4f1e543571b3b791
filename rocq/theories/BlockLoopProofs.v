(** Proofs about the messages for infinite loops. *)
From Coq Require Import String List Bool Arith NArith ZArith QArith Qabs Qround Lia.
From Verif Require Import Base PyModel PySpec PyProofs IfModel IfSpec IfProofs FoldModel FoldSpec FoldProofs TypeModel LocalModel LocalSpec LocalProofs LetterProofs MergeSpec SolverModel SolverSpec SolverProofs BlockModel BlockSpec BlockProofs BlockEnvProofs BlockStepProofs BlockChoiceProofs BlockAssignProofs BlockRunProofs BlockFollowProofs BlockMainProofs BlockImpliesProofs.
Import ListNotations.
Local Open Scope string_scope.
Local Open Scope list_scope.
Local Open Scope nat_scope.

Section Names.
  Variables (H : host) (G : inspection) (hidden : nat -> list string).
  Definition named (V : list string) (d : variables) : Prop := Forall (fun p => exists x, List.In x V /\ fst p = [TName x]) d.
  Lemma named_incl V V' d : incl V V' -> named V d -> named V' d.
  Proof. intros I. apply Forall_impl. intros p (x & IN & E). exists x. auto. Qed.
  Lemma named_set V d x io : named V d -> List.In x V -> named V (set_var d [TName x] io).
  Proof.
    intros GD IN. unfold set_var. destruct (find_var d [TName x]); [destruct io; [|exact GD]|].
    - apply Forall_map. revert GD. apply Forall_impl. intros p GP. destruct (text_eqb (fst p) [TName x]); exact GP.
    - apply Forall_app. split; [exact GD|constructor; [exists x; auto|constructor]].
  Qed.
  Definition named_by (V : list string) (e : expr) : Prop := forall io bp d b d1, named V d -> initialize H G false io bp e d = Ok (b, d1) -> named V d1.
  Lemma all_named V l io bp : Forall (named_by V) l -> forall d b d1, named V d -> init_all H G false io bp l d = Ok (b, d1) -> named V d1.
  Proof.
    induction 1 as [|x l K F IH]; intros d b d1 GD E; cbn [init_all] in E; [injection E as <- <-; exact GD|].
    destruct (initialize H G false io bp x d) as [[[] dx]|] eqn:IX; cbn [bind fst snd] in E; [exact (IH dx _ _ (K _ _ _ _ _ GD IX) E)|injection E as <- <-; exact (K _ _ _ _ _ GD IX)|discriminate].
  Qed.
  Lemma init_named V e : incl (vars hidden e) V -> named_by V e.
  Proof.
    induction e as [x|k|o a IHa|o a b IHa IHb|o vs IHvs|a ops IHa IHops|g args IHg IHargs|a x IHa|a i IHa IHi|t a b IHt IHa IHb|n] using expr_ind'; intros IV io bp d b' d1 GD E.
    - cbn [initialize not_allowed bind nonlinear is_variable orb] in E. rewrite andb_false_r in E. unfold initialize_variable in E. destruct (guess G (Name x)); injection E as <- <-; [|exact GD].
      apply named_set; [exact GD|]. apply IV. left. reflexivity.
    - cbn [initialize not_allowed bind nonlinear is_variable orb] in E. destruct k as [|b|z|r|s], bp, io; cbn [bind andb orb negb] in E; rewrite ?andb_false_r in E; try (injection E as <- <-; exact GD).
    - rewrite init_unary in E. destruct o; try (injection E as <- <-; exact GD); try (destruct bp; [|injection E as <- <-; exact GD]); exact (IHa IV _ _ _ _ _ GD E).
    - rewrite init_binary in E. destruct (not_allowed H G (Binary o a b) io bp) as [[]|]; cbn [bind] in E; [injection E as <- <-; exact GD| |discriminate].
      destruct (nonlinear H (Binary o a b)) as [[]|]; cbn [bind] in E; [|  |discriminate]; [injection E as <- <-; exact GD|].
      assert (VA : incl (vars hidden a) V) by (intros x IN; apply IV; cbn [vars]; apply in_or_app; left; exact IN).
      assert (VB : incl (vars hidden b) V) by (intros x IN; apply IV; cbn [vars]; apply in_or_app; right; exact IN).
      assert (FF : Forall (named_by V) [a; b]) by (constructor; [exact (IHa VA)|constructor; [exact (IHb VB)|constructor]]).
      destruct o; first [exact (IHa VA _ _ _ _ _ GD E)|exact (all_named V [a; b] _ _ FF _ _ _ GD E)].
    - rewrite init_bool in E. destruct bp; [|injection E as <- <-; exact GD]. refine (all_named V vs _ _ _ _ _ _ GD E). rewrite Forall_forall in *. intros e IE. apply (IHvs e IE). intros x IN. apply IV. cbn [vars]. apply in_flat_map. exists e. auto.
    - rewrite init_compare in E. destruct (_ || _ || _); [injection E as <- <-; exact GD|]. refine (all_named V (a :: map snd ops) _ _ _ _ _ _ GD E).
      constructor; [apply IHa; intros x IN; apply IV; cbn [vars]; apply in_or_app; left; exact IN|]. apply Forall_map. rewrite Forall_forall in *. intros e IE. apply (IHops e IE). intros x IN. apply IV. cbn [vars]. apply in_or_app. right. apply in_flat_map. exists e. auto.
    - rewrite init_call in E. destruct (is_abs g).
      + destruct args as [|a args]; [discriminate|]. inversion IHargs as [|? ? IHa _]; subst. refine (IHa _ _ _ _ _ _ GD E). intros x IN. apply IV. cbn [vars flat_map]. apply in_or_app. right. apply in_or_app. left. exact IN.
      + injection E as <- <-. exact GD.
    - cbn [initialize not_allowed bind nonlinear is_variable orb negb andb] in E. injection E as <- <-. exact GD.
    - cbn [initialize not_allowed bind nonlinear is_variable orb negb andb] in E. injection E as <- <-. exact GD.
    - cbn [initialize not_allowed bind nonlinear is_variable orb negb andb] in E. injection E as <- <-. exact GD.
    - cbn [initialize not_allowed bind nonlinear is_variable orb] in E. destruct (is_collection G n); rewrite ?andb_false_r in E; injection E as <- <-; exact GD.
  Qed.
End Names.

Section Infinite.
  Variables (H : host) (G : inspection) (I : purity) (modified : expr -> list statement -> bool) (mutable : item -> bool) (unsat : zexpr -> bool) (sat : zexpr -> option bool) (hidden : nat -> list string).
  Hypothesis CH : closed_host H.
  Hypothesis MO : modifications hidden modified.
  Hypothesis SU : sound unsat.
  Context {W : Type}.
  Variables (P : python W) (M : machine W).
  Hypothesis AG : agrees P H.

  (** A condition with a meaning gives the same in states that agree on its variables. *)
  Lemma same_test e d z c w w2 : initialize H G false false true e [] = Ok (true, d) -> convert H d true e = Ok (Some z, c) -> fine e = true -> integral P (e, w) -> integral P (e, w2) ->
    (forall x, List.In x (vars hidden e) -> lookup P x w2 = lookup P x w) -> exists b, test P e w = (w, Ok b) /\ test P e w2 = (w2, Ok b).
  Proof.
    intros IE C F I1 I2 SAME. pose proof (init_named H G hidden (vars hidden e) e (incl_refl _) false true [] true d (Forall_nil _) IE) as ND.
    assert (GD : good I hidden [] d) by (revert ND; apply Forall_impl; intros p (x & _ & E); left; exists x; exact E).
    destruct (first_values P I hidden [] d w GD) as (f & TR).
    assert (TR2 : tracks P d f (fun _ => 0) w2).
    { intros s n FS K IS. apply (TR s n FS K). unfold find_var in K. destruct (find (fun p => text_eqb (fst p) (as_string s)) d) as [p|] eqn:E; [|destruct (K eq_refl)]. apply find_some in E. destruct E as [IN Q]. apply text_eqb_eq in Q.
      unfold named in ND. rewrite Forall_forall in ND. destruct (ND p IN) as (x & IX & EX). assert (ES : as_string s = as_string (Name x)) by (rewrite <- Q; exact EX).
      destruct IS as (v & GV & NV). exists v. split; [|exact NV]. unfold gives in *. rewrite (text_same P s (Name x) w2 FS eq_refl ES) in GV. rewrite (text_same P s (Name x) w FS eq_refl ES). cbn [eval] in *.
      rewrite (SAME x IX) in GV. congruence. }
        destruct (meaning H CH P d AG G false true e z c f (fun _ => 0) w [] d IE C F I1 TR) as (E1 & M1 & Z1). destruct (means_cond P w E1 e z c M1) as (b1 & v1 & G1 & T1 & B1 & _).
    destruct (meaning H CH P d AG G false true e z c f (fun _ => 0) w2 [] d IE C F I2 TR2) as (E2 & M2 & Z2). destruct (means_cond P w2 E2 e z c M2) as (b2 & v2 & G2 & T2 & B2 & _).
    exists b1. assert (b2 = b1) by congruence. subst b2. unfold test, andthen. unfold gives in *. rewrite G1, G2. auto.
  Qed.

  Lemma explicit_forever in_try leaves may_modify t body w :
    check_infinite_loop H G I modified mutable unsat sat in_try leaves may_modify t body = Ok (Some Explicit) -> ~ ends_normally P M t body w.
  Proof.
    unfold check_infinite_loop. intros E (n & w1 & w2 & _ & T). destruct (in_try || leaves); [discriminate|]. destruct (get_const_value H t) as [v|] eqn:V; cbn [bind] in E; [|discriminate].
    destruct (const_truth v) eqn:TV; [|exfalso; destruct (sat_condition H G sat t) as [[[]|]|]; cbn [bind] in E; try discriminate; destruct (negb (may_modify t body)); [discriminate|];
      destruct (condition_implies H G I modified mutable unsat false t body t) as [[]|]; cbn [bind] in E; discriminate].
    assert (NV : v <> VNone) by (intros ->; discriminate). assert (X := folded_value H CH t v V NV W P AG w1). unfold get_const_value in V.
    destruct (fold H t) as [u|x] eqn:FV; [|destruct (caught x); [assert (v = VNone) by congruence; contradiction|discriminate]].
    assert (u = v) by congruence. subst u. destruct (fold_good H CH t v FV) as [CV _]. unfold test, andthen in T. rewrite X in T. rewrite (truth_const P v w1 CV) in T. congruence.
  Qed.

  Hypothesis RG : regular P M I hidden.
  Lemma implicit_forever in_try leaves may_modify t body w : leaves_alone P M hidden may_modify ->
    check_infinite_loop H G I modified mutable unsat sat in_try leaves may_modify t body = Ok (Some Implicit) ->
    fine t = true -> forallb tidy body = true -> integral_loop P M t body w -> snd (test P t w) = Ok true -> ~ ends_normally P M t body w.
  Proof.
    unfold check_infinite_loop. intros LA E F T IL T0. destruct (in_try || leaves); [discriminate|]. destruct (get_const_value H t) as [v|]; cbn [bind] in E; [|discriminate].
    destruct (const_truth v); [discriminate|]. unfold sat_condition in E. destruct (initialize H G false false true t []) as [[[] d]|] eqn:IT; cbn [bind fst snd] in E; try discriminate.
    destruct (convert H d true t) as [[[z|] c]|] eqn:C; cbn [bind fst snd] in E; try discriminate. destruct (sat z) as [[]|]; try discriminate.
    assert (ALL : forall n w1, reaches P M t body w n w1 -> snd (test P t w1) = Ok true).
    { intros n w1 R. induction R as [|n w1 w2 w3 R IH T1 RB]; [exact T0|]. destruct (IL n w1 R) as [IT1 IB1]. specialize (IB1 w2 T1). destruct (IL (S n) w3 (reaches_next P M t body w n w1 w2 w3 R T1 RB)) as [IT3 _].
      destruct (same_test t d z c w1 w1 IT C F IT1 IT1 (fun _ _ => eq_refl)) as (b & TB & _). assert (w2 = w1) by congruence. subst w2.
      destruct (may_modify t body) eqn:MM; cbn [negb] in E.
      - destruct (condition_implies H G I modified mutable unsat false t body t) as [[]|] eqn:CI; cbn [bind] in E; try discriminate.
        rewrite (implied H G I modified mutable unsat hidden CH MO SU P M AG RG false t body t w1 w1 w3 CI ltac:(discriminate) T F F IT1 T1 RB IB1 IT3). reflexivity.
      - destruct (same_test t d z c w1 w3 IT C F IT1 IT3 (fun x IN => LA t body x w1 w3 MM IN RB)) as (b3 & TB1 & TB3). rewrite TB3. cbn [snd]. congruence. }
    intros (n & w1 & w2 & R & TF). specialize (ALL n w1 R). rewrite TF in ALL. discriminate.
  Qed.
End Infinite.
