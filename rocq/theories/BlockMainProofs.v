(** Proofs about the analysis of blocks: validation, and conditions implied after a block. *)
From Coq Require Import String List Bool Arith NArith ZArith QArith Qabs Qround Lia.
From Verif Require Import Base PyModel PySpec PyProofs IfModel IfSpec IfProofs FoldModel FoldSpec FoldProofs TypeModel LocalModel LocalSpec LocalProofs LetterProofs MergeSpec SolverModel SolverSpec SolverProofs BlockModel BlockSpec BlockProofs BlockEnvProofs BlockStepProofs BlockChoiceProofs BlockAssignProofs BlockRunProofs BlockFollowProofs.
Import ListNotations.
Local Open Scope string_scope.
Local Open Scope list_scope.
Local Open Scope nat_scope.

Lemma fine_unary o a : fine (Unary o a) = true -> fine a = true.
Proof. exact (fun X => X). Qed.
Lemma fine_bool o vs : fine (BoolOp o vs) = true -> Forall (fun v => fine v = true) vs.
Proof.
  intro F. destruct (fine_split _ F) as [X Y]. cbn [well_formed no_nested_compare] in X, Y. apply andb_true_iff in X. destruct X as [_ X].
  rewrite forallb_forall in X, Y. apply Forall_forall. intros a IN. unfold fine. rewrite (X a IN), (Y a IN). reflexivity.
Qed.
Lemma fine_compare a ops : fine (Compare a ops) = true -> fine a = true /\ Forall (fun cv => fine (snd cv) = true) ops.
Proof.
  intro F. destruct (fine_split _ F) as [X Y]. cbn [well_formed no_nested_compare] in X, Y. rewrite !andb_true_iff in X, Y. destruct X as [[_ X1] X2], Y as [[_ Y1] Y2].
  split; [unfold fine; rewrite X1, Y1; reflexivity|]. rewrite forallb_forall in X2, Y2. apply Forall_forall. intros c IN. unfold fine. rewrite (X2 c IN), (Y2 c IN). reflexivity.
Qed.
Lemma fine_call g args : fine (Call g args) = true -> fine g = true /\ Forall (fun v => fine v = true) args.
Proof.
  intro F. destruct (fine_split _ F) as [X Y]. cbn [well_formed no_nested_compare] in X, Y. apply andb_true_iff in X, Y. destruct X as [X1 X2], Y as [Y1 Y2].
  split; [unfold fine; rewrite X1, Y1; reflexivity|]. rewrite forallb_forall in X2, Y2. apply Forall_forall. intros c IN. unfold fine. rewrite (X2 c IN), (Y2 c IN). reflexivity.
Qed.
Section All.
  Variables (H : host) (G : inspection) (I : purity).
  Hypothesis CH : closed_host H.
  Context {W : Type}.
  Variables (P : python W) (M : machine W) (d : variables) (hidden : nat -> list string) (A : list string).
  Hypothesis AG : agrees P H.
  Hypothesis RG : regular P M I hidden.
  Hypothesis ST : stable I d hidden A.
  Notation tracks := (tracks P d).

  Lemma nothing_follows cur st w : follows P d cur st w {| changed := []; assertions := []; ends := false |} st w.
  Proof.
    intros f S1 T. split; [reflexivity|]. exists f. split; [apply agree_refl|]. split; [exact S1|]. split; [|constructor]. refine (tracks_ext P d f cur _ w _ T). apply update_nil.
  Qed.
  Lemma all_follow s : statement_follows H G I P M d A s.
  Proof.
    induction s as [s SI|l o FL FO] using statement_ind'; intros cur st r st' w w' V T IA L O E R IN.
    - destruct s as [ch t v|t v|t o e|v| | |t| |n]; try contradiction; cbn [after_statement] in E.
      + destruct V as (-> & PV & V). cbn [exec] in R. destruct (after_assignment H d _ cur st) as [[[l st1]|]|] eqn:EA; cbn [bind option_map fst snd] in E; try discriminate. injection E as <- <-.
        destruct t as [t|ts], v as [e|es]; cbn [after_assignment parent_bool goals_list values_of parts tidy evaluated pure_rhs] in *; try contradiction; try discriminate.
        * cbn [flat_map] in V. rewrite app_nil_r in V. destruct (quiet_value P M I hidden RG e w PV) as (u & EV). destruct (single_assign P M t e w w' u EV R) as (v & GV & SR).
          refine (assignment_follows H G I CH P M d hidden A AG RG ST cur st l st1 w w' [t] [e] [v] _ _ _ _ L O EA SR).
          -- constructor; [|constructor]. split; [exact T|left; exact V].
          -- constructor; [exact IN|constructor].
          -- constructor; [exact GV|constructor].
          -- intros x X. apply IA. exact X.
        * cbn [run_assign] in R. destruct (eval_list P es w) as [w1 [us|x]] eqn:EL; [|discriminate]. destruct (quiet_list P M I hidden RG es w w1 us PV EL) as [-> GS].
          unfold store_values in R. destruct (Nat.eqb (length ts) (length us)); [|discriminate].
          refine (assignment_follows H G I CH P M d hidden A AG RG ST cur st l st1 w w' ts es us _ _ GS _ L O EA R).
          -- exact (values_ok H G es T V).
          -- exact (flat_evaluated P es w IN).
          -- intros x X. apply IA. exact X.
      + destruct v as [e|]; [|contradiction]. destruct V as (PV & V). cbn [exec evaluated tidy] in *. destruct (after_assignment H d _ cur st) as [[[l st1]|]|] eqn:EA; cbn [bind option_map fst snd] in E; try discriminate. injection E as <- <-.
        cbn [after_assignment] in EA. destruct (quiet_value P M I hidden RG e w PV) as (u & EV). destruct (single_assign P M t e w w' u EV R) as (v & GV & SR).
        refine (assignment_follows H G I CH P M d hidden A AG RG ST cur st l st1 w w' [t] [e] [v] _ _ _ _ L O EA SR).
        * constructor; [|constructor]. split; [exact T|left; exact V].
        * constructor; [exact IN|constructor].
        * constructor; [exact GV|constructor].
        * intros x X. apply IA. exact X.
      + destruct t as [x|]; [|contradiction]. destruct V as (PV & NL & V). cbn [exec evaluated] in *. destruct (after_assignment H d _ cur st) as [[[l st1]|]|] eqn:EA; cbn [bind option_map fst snd] in E; try discriminate. injection E as <- <-.
        cbn [after_assignment] in EA. destruct (quiet_binary P M I hidden RG o x e w PV) as (u & EV). destruct (single_assign P M (Var x) _ w w' u EV R) as (v & GV & SR).
        refine (assignment_follows H G I CH P M d hidden A AG RG ST cur st l st1 w w' [Var x] [_] [v] _ _ _ _ L O EA SR).
        * constructor; [|constructor]. exact (augmented_value H G o x e T NL V).
        * constructor; [exact IN|constructor].
        * constructor; [exact GV|constructor].
        * intros y X. apply IA. exact X.
      + injection E as <- <-. cbn [BlockRunProofs.valid exec] in *. assert (w' = w); [|subst w'; apply nothing_follows]. destruct v as [e|es]; cbn [pure_rhs] in V.
        * destruct (quiet_value P M I hidden RG e w V) as ([u|x] & EV); rewrite EV in R; cbn in R; congruence.
        * pose proof (quiet_list_state P M I hidden RG es w V) as Q. destruct (eval_list P es w) as [w1 [us|x]]; cbn in Q, R; congruence.
      + injection E as <- <-. cbn [exec] in R. injection R as <-. apply nothing_follows.
      + discriminate R.
      + destruct V as (PV & V). cbn [exec evaluated tidy] in *. destruct (translate H d cur true t) as [[z|]|] eqn:TT; cbn [bind option_map] in E; try discriminate. injection E as <- <-.
        intros f S1 TR. split; [reflexivity|]. cbn [changed assertions]. inversion IN as [|? ? I1 _]; subst.
        destruct (condition_meaning H G CH P d AG t z f cur w (pieces_initialized H G d cur t z TT V) T I1 TR TT) as (b & v & GV & TV & ZV).
        assert (TE : test P t w = (w, Ok b)) by (unfold test, andthen; unfold gives in GV; rewrite GV; exact TV). rewrite TE in R. destruct b; [|discriminate]. injection R as <-.
        exists f. split; [apply agree_refl|]. split; [exact S1|]. split; [refine (tracks_ext P d f cur _ w _ TR); apply update_nil|]. constructor; [exact ZV|constructor].
    - rewrite after_if in E. rewrite exec_if in R. rewrite evaluated_if in IN. destruct (tidy_if l o T) as [TL TO]. apply valid_if in V. destruct V as [VL VO]. cbn [assigned_in] in IA.
      intros f S1 TR.
      refine (first_phase H G CH P M d AG cur o l w w' _ (static_all H d o TO) _ st [] [] [] true r st' L O (Forall_nil _) (Forall_nil _) (Forall_nil _) eq_refl E R IN f S1 TR (Forall_nil _) (Forall_nil _)).
      + rewrite Forall_forall in *. intros p IP. destruct (VL p IP) as [[_ IT] VB]. destruct (TL p IP) as [FT TB]. split; [exact IT|]. split; [exact FT|]. split; [exact (static_all H d _ TB)|].
        apply (block_all H G I P M d A); [exact (FL p IP)|exact VB|exact TB|]. intros x X. apply IA. apply in_or_app. left. apply in_flat_map. exists p. split; assumption.
      + apply (block_all H G I P M d A); [exact FO|exact VO|exact TO|]. intros x X. apply IA. apply in_or_app. right. exact X.
  Qed.
  Lemma block_follows_all b : Forall (valid H G I) b -> forallb tidy b = true -> incl (flat_map assigned_in b) A -> block_follows H P M d b.
  Proof. intros V T IA. apply (block_all H G I P M d A); [|exact V|exact T|exact IA]. apply Forall_forall. intros s _. exact (all_follow s). Qed.
End All.

(** ** Keys of variables *)
Section Keys.
  Variables (H : host) (G : inspection) (I : purity) (hidden : nat -> list string) (A : list string).
  Definition apart (e : expr) : Prop := forall x, List.In x A -> ~ List.In x (vars hidden e).
  Definition good_key (k : text) : Prop := (exists y, k = [TName y]) \/ exists e, fine e = true /\ as_string e = k /\ is_pure_expression I e = true /\ apart e.
  Definition good (d : variables) : Prop := Forall (fun p => good_key (fst p)) d.
  Lemma good_find d k : good d -> find_var d k <> None -> good_key k.
  Proof.
    unfold find_var. intros GD F. destruct (find (fun p => text_eqb (fst p) k) d) as [p|] eqn:E; [|destruct (F eq_refl)]. apply find_some in E. destruct E as [IN Q]. apply text_eqb_eq in Q. subst k.
    unfold good in GD. rewrite Forall_forall in GD. exact (GD p IN).
  Qed.
  Lemma good_stable d : good d -> stable I d hidden A.
  Proof.
    intros GD s F K. destruct (good_find d _ GD K) as [(y & E)|(e & FE & E & PE & AP)]; [left; exists y; exact E|right; exists e; auto].
  Qed.
  Lemma good_set d k io : good d -> good_key k -> good (set_var d k io).
  Proof.
    intros GD GK. unfold set_var. destruct (find_var d k); [destruct io; [|exact GD]|].
    - apply Forall_map. revert GD. apply Forall_impl. intros p GP. destruct (text_eqb (fst p) k); exact GP.
    - apply Forall_app. split; [exact GD|constructor; [exact GK|constructor]].
  Qed.
  Lemma good_variable e d io : good d -> good_key (as_string e) -> good (snd (initialize_variable G e d io)).
  Proof. intros GD GK. unfold initialize_variable. destruct (guess G e); [apply good_set; assumption|exact GD]. Qed.
  Lemma init_good mk e : fine e = true -> is_pure_expression I e = true -> (mk = true -> apart e) -> forall io bp d b d1, good d -> initialize H G mk io bp e d = Ok (b, d1) -> good d1.
  Proof.
    induction e as [x|k|o a IHa|o a b IHa IHb|o vs IHvs|a ops IHa IHops|g args IHg IHargs|a x IHa|a i IHa IHi|t a b IHt IHa IHb|n] using expr_ind'; intros F PE AP io bp d b' d1 GD E.
    - cbn [initialize not_allowed bind nonlinear is_variable orb] in E. rewrite andb_false_r in E. assert (X : d1 = snd (initialize_variable G (Name x) d io)) by (destruct (initialize_variable G (Name x) d io); cbn [snd]; congruence).
      subst d1. apply good_variable; [exact GD|]. left. exists x. reflexivity.
    - cbn [initialize not_allowed bind nonlinear is_variable orb] in E. destruct k as [|b|z|r|s], bp, io; cbn [bind andb orb negb] in E; rewrite ?andb_false_r in E; try (injection E as <- <-; exact GD).
    - rewrite init_unary in E. assert (FA : fine a = true) by exact (fine_unary o a F). cbn [is_pure_expression] in PE.
      assert (AA : mk = true -> apart a) by exact AP. destruct o; try (injection E as <- <-; exact GD); try (destruct bp; [|injection E as <- <-; exact GD]); exact (IHa FA PE AA _ _ _ _ _ GD E).
    - rewrite init_binary in E. destruct (not_allowed H G (Binary o a b) io bp) as [[]|]; cbn [bind] in E; [injection E as <- <-; exact GD| |discriminate].
      destruct (nonlinear H (Binary o a b)) as [[]|]; cbn [bind] in E; [| |discriminate].
      + destruct mk; [|injection E as <- <-; exact GD]. assert (X : d1 = snd (initialize_variable G (Binary o a b) d io)) by (destruct (initialize_variable G (Binary o a b) d io); cbn [snd]; congruence).
        subst d1. apply good_variable; [exact GD|]. right. exists (Binary o a b). split; [exact F|]. split; [reflexivity|]. split; [exact PE|exact (AP eq_refl)].
      + destruct (fine_binary o a b F) as [FA FB]. cbn [is_pure_expression] in PE. apply andb_true_iff in PE. destruct PE as [PA PB].
        assert (AA : mk = true -> apart a) by (intros MK x IX X; apply (AP MK x IX); cbn [vars]; apply in_or_app; left; exact X).
        assert (AB : mk = true -> apart b) by (intros MK x IX X; apply (AP MK x IX); cbn [vars]; apply in_or_app; right; exact X).
        destruct o; cbn [init_all] in E; try exact (IHa FA PA AA _ _ _ _ _ GD E);
          (destruct (initialize H G mk io false a d) as [[[] da]|] eqn:EA; cbn [bind fst snd] in E; [|injection E as <- <-; exact (IHa FA PA AA _ _ _ _ _ GD EA)|discriminate];
           destruct (initialize H G mk io false b da) as [[[] db]|] eqn:EB; cbn [bind fst snd] in E; [| |discriminate]; injection E as <- <-; exact (IHb FB PB AB _ _ _ _ _ (IHa FA PA AA _ _ _ _ _ GD EA) EB)).
    - rewrite init_bool in E. destruct bp; [|injection E as <- <-; exact GD]. pose proof (fine_bool o vs F) as FV. cbn [is_pure_expression] in PE. rewrite forallb_forall in PE.
      assert (X : Forall (fun e => forall io bp d b d1, good d -> initialize H G mk io bp e d = Ok (b, d1) -> good d1) vs).
      { rewrite Forall_forall in *. intros e IE. apply (IHvs e IE); [exact (FV e IE)|exact (PE e IE)|]. intros MK x IX X. apply (AP MK x IX). cbn [vars]. apply in_flat_map. exists e. split; assumption. }
      clear - X GD E. revert d GD E. induction X as [|x l K F IH]; intros d GD E; cbn [init_all] in E; [injection E as <- <-; exact GD|].
      destruct (initialize H G mk io true x d) as [[[] dx]|] eqn:IX; cbn [bind fst snd] in E; [exact (IH dx (K _ _ _ _ _ GD IX) E)|injection E as <- <-; exact (K _ _ _ _ _ GD IX)|discriminate].
    - rewrite init_compare in E. destruct (_ || _ || _); [injection E as <- <-; exact GD|]. pose proof (fine_compare a ops F) as [FA FV]. cbn [is_pure_expression] in PE. apply andb_true_iff in PE. destruct PE as [PA PO]. rewrite forallb_forall in PO.
      assert (X : Forall (fun e => forall io bp d b d1, good d -> initialize H G mk io bp e d = Ok (b, d1) -> good d1) (a :: map snd ops)).
      { constructor; [apply (IHa FA PA); intros MK x IX X; apply (AP MK x IX); cbn [vars]; apply in_or_app; left; exact X|]. apply Forall_map. rewrite Forall_forall in *. intros e IE.
        apply (IHops e IE); [exact (FV e IE)|exact (PO e IE)|]. intros MK x IX X. apply (AP MK x IX). cbn [vars]. apply in_or_app. right. apply in_flat_map. exists e. split; assumption. }
      clear - X GD E. revert d GD E. induction X as [|x l K F IH]; intros d GD E; cbn [init_all] in E; [injection E as <- <-; exact GD|].
      destruct (initialize H G mk io false x d) as [[[] dx]|] eqn:IX; cbn [bind fst snd] in E; [exact (IH dx (K _ _ _ _ _ GD IX) E)|injection E as <- <-; exact (K _ _ _ _ _ GD IX)|discriminate].
    - rewrite init_call in E. cbn [is_pure_expression] in PE. pose proof PE as PE0. apply andb_true_iff in PE. destruct PE as [PG PA]. destruct (is_abs g).
      + destruct args as [|a args]; [discriminate|]. inversion IHargs as [|? ? IHa _]; subst. cbn [forallb] in PA. apply andb_true_iff in PA. destruct PA as [PA _]. pose proof (fine_call g (a :: args) F) as [_ FV]. inversion FV; subst.
        refine (IHa _ PA _ _ _ _ _ _ GD E); [assumption|]. intros MK x IX X. apply (AP MK x IX). cbn [vars flat_map]. apply in_or_app. right. apply in_or_app. left. exact X.
      + destruct mk; [|injection E as <- <-; exact GD]. assert (X : d1 = snd (initialize_variable G (Call g args) d io)) by (destruct (initialize_variable G (Call g args) d io); cbn [snd]; congruence).
        subst d1. apply good_variable; [exact GD|]. right. exists (Call g args). split; [exact F|]. split; [reflexivity|]. split; [exact PE0|exact (AP eq_refl)].
    - cbn [initialize not_allowed bind nonlinear is_variable orb] in E. destruct mk; cbn [negb andb] in E; [|injection E as <- <-; exact GD].
      assert (X : d1 = snd (initialize_variable G (Attribute a x) d io)) by (destruct (initialize_variable G (Attribute a x) d io); cbn [snd]; congruence). subst d1. apply good_variable; [exact GD|]. right. exists (Attribute a x).
      split; [exact F|]. split; [reflexivity|]. split; [exact PE|exact (AP eq_refl)].
    - cbn [initialize not_allowed bind nonlinear is_variable orb] in E. destruct mk; cbn [negb andb] in E; [|injection E as <- <-; exact GD].
      assert (X : d1 = snd (initialize_variable G (Subscript a i) d io)) by (destruct (initialize_variable G (Subscript a i) d io); cbn [snd]; congruence). subst d1. apply good_variable; [exact GD|]. right. exists (Subscript a i).
      split; [exact F|]. split; [reflexivity|]. split; [exact PE|exact (AP eq_refl)].
    - discriminate PE.
    - cbn [initialize not_allowed bind nonlinear is_variable orb] in E. destruct (is_collection G n); rewrite ?andb_false_r in E; injection E as <- <-; exact GD.
  Qed.
End Keys.
