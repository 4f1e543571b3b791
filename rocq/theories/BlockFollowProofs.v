(** Proofs about the analysis of blocks: what running them does is a solution of the relations. *)
From Coq Require Import String List Bool Arith NArith ZArith QArith Qabs Qround Lia.
From Verif Require Import Base PyModel PySpec PyProofs IfModel IfSpec IfProofs FoldModel FoldSpec FoldProofs TypeModel LocalModel LocalSpec LocalProofs LetterProofs MergeSpec SolverModel SolverSpec SolverProofs BlockModel BlockSpec BlockProofs BlockEnvProofs BlockStepProofs BlockChoiceProofs BlockAssignProofs BlockRunProofs.
Import ListNotations.
Local Open Scope string_scope.
Local Open Scope list_scope.
Local Open Scope nat_scope.

Section Quiet.
  Context {W : Type}.
  Variables (P : python W) (M : machine W) (I : purity) (hidden : nat -> list string).
  Hypothesis RG : regular P M I hidden.
  Lemma quiet_eval e w : is_pure_expression I e = true -> exists r, eval P e w = (w, r).
  Proof. intro PE. exists (snd (eval P e w)). rewrite (surjective_pairing (eval P e w)), (pure_quiet _ _ _ _ RG e w PE). reflexivity. Qed.
  Lemma quiet_test e w : is_pure_expression I e = true -> exists r, test P e w = (w, r).
  Proof.
    intro PE. pose proof (pure_quiet _ _ _ _ RG (Unary Not e) w PE) as Q. cbn [eval] in Q. unfold test. unfold andthen at 1 in Q. unfold andthen. destruct (quiet_eval e w PE) as ([v|x] & E); rewrite E in *; [|exists (Raise x); reflexivity].
    unfold unary, andthen, pure in Q. destruct (truth P v w) as [w1 [b|x]]; cbn [fst] in Q; subst w1; eexists; reflexivity.
  Qed.
  Lemma ifexp_eval t a b w : eval P (IfExp t a b) w = match test P t w with (w, Ok true) => eval P a w | (w, Ok false) => eval P b w | (w, Raise x) => (w, Raise x) end.
  Proof.
    cbn [eval]. unfold test. unfold andthen. destruct (eval P t w) as [w1 [v|x]]; [|reflexivity]. destruct (truth P v w1) as [w2 [[]|x]]; reflexivity.
  Qed.
  Lemma quiet_value e w : pure_value I e = true -> exists r, eval P e w = (w, r).
  Proof.
    intro PE. assert (D : allowed_expression e && is_pure_expression I e = true -> exists r, eval P e w = (w, r)) by (intro X; apply andb_true_iff in X; exact (quiet_eval e w (proj2 X))).
    destruct e as [x|k|o a|o a b|o vs|a ops|g args|a x|a i|t a b|n]; try exact (D PE). cbn [pure_value] in PE. rewrite !andb_true_iff in PE. destruct PE as [[PT PA] PB].
    rewrite ifexp_eval. destruct (quiet_test t w PT) as ([[]|x] & ->); [exact (quiet_eval a w PA)|exact (quiet_eval b w PB)|eexists; reflexivity].
  Qed.
  Lemma quiet_binary o x e w : pure_value I e = true -> exists r, eval P (Binary o (Name x) e) w = (w, r).
  Proof.
    intro PE. assert (D : forall a, is_pure_expression I a = true -> exists r, eval P (Binary o (Name x) a) w = (w, r)) by (intros a PA; apply quiet_eval; exact PA).
    assert (D' : allowed_expression e && is_pure_expression I e = true -> exists r, eval P (Binary o (Name x) e) w = (w, r)) by (intro X; apply andb_true_iff in X; exact (D e (proj2 X))).
    destruct e as [y|k|u a|u a b|u vs|a ops|g args|a y|a i|t a b|n]; try exact (D' PE). cbn [pure_value] in PE. rewrite !andb_true_iff in PE. destruct PE as [[PT PA] PB].
    assert (EQ : forall a', eval P (Binary o (Name x) a') w = match lookup P x w with Ok v => match eval P a' w with (w1, Ok u) => binary P o v u w1 | (w1, Raise y) => (w1, Raise y) end | Raise y => (w, Raise y) end).
    { intro a'. cbn [eval]. unfold andthen. destruct (lookup P x w); [|reflexivity]. destruct (eval P a' w) as [w1 []]; reflexivity. }
    destruct (quiet_test t w PT) as (r & TT). rewrite EQ, ifexp_eval, TT. destruct r as [[]|y].
    - rewrite <- EQ. exact (D a PA).
    - rewrite <- EQ. exact (D b PB).
    - destruct (lookup P x w); eexists; reflexivity.
  Qed.
  Lemma quiet_list es w w' vs : forallb (is_pure_expression I) es = true -> eval_list P es w = (w', Ok vs) -> w' = w /\ Forall2 (gives P w) es vs.
  Proof.
    revert vs. induction es as [|e es IH]; intros vs PE E; cbn [eval_list forallb] in *; [injection E as <- <-; split; [reflexivity|constructor]|].
    apply andb_true_iff in PE. destruct PE as [PE PES]. destruct (quiet_eval e w PE) as ([v|x] & EV); rewrite EV in E; [|discriminate].
    destruct (eval_list P es w) as [w1 [vs1|x]] eqn:EL; [|discriminate]. assert (w1 = w') by congruence. subst w1. destruct (IH vs1 PES eq_refl) as [-> F]. assert (X : vs = v :: vs1) by congruence. subst vs. split; [reflexivity|constructor; [exact EV|exact F]].
  Qed.
  Lemma quiet_list_state es w : forallb (is_pure_expression I) es = true -> fst (eval_list P es w) = w.
  Proof.
    induction es as [|e es IH]; intros PE; cbn [eval_list forallb] in *; [reflexivity|]. apply andb_true_iff in PE. destruct PE as [PE PES]. destruct (quiet_eval e w PE) as ([v|x] & EV); rewrite EV; [|reflexivity].
    specialize (IH PES). destruct (eval_list P es w) as [w1 [vs1|x]]; exact IH.
  Qed.
End Quiet.

Section Follow.
  Variables (H : host) (G : inspection) (I : purity).
  Hypothesis CH : closed_host H.
  Context {W : Type}.
  Variables (P : python W) (M : machine W) (d : variables) (hidden : nat -> list string) (A : list string).
  Hypothesis AG : agrees P H.
  Hypothesis RG : regular P M I hidden.
  Hypothesis ST : stable I d hidden A.
  Notation tracks := (tracks P d).
  Notation initialized := (initialized H G).
  Notation valid := (valid H G I).
  Notation sound_step := (sound_step d).

  (** A run to the end is a solution. *)
  Definition follows (cur : counts) (st : written) (w : W) (r : effect) (st' : written) (w' : W) : Prop :=
    forall f, sat f (relations st) -> tracks f cur w -> ends r = false /\
      exists f', agree (count st) f f' /\ sat f' (relations st') /\ tracks f' (update cur (changed r)) w' /\ sat f' (assertions r).
  Definition statement_follows (s : statement) : Prop := forall cur st r st' w w', valid s -> tidy s = true -> incl (assigned_in s) A -> le cur (count st) -> ok_st st ->
    after_statement H d s cur st = Ok (Some (r, st')) -> exec P M s w = (w', Done) -> Forall (integral P) (evaluated P M s w) -> follows cur st w r st' w'.
  Definition block_follows (b : list statement) : Prop := forall cur st r st' w w', le cur (count st) -> ok_st st ->
    after_block H d b cur st [] [] = Ok (Some (r, st')) -> run P M b w = (w', Done) -> Forall (integral P) (evaluated_in P M b w) -> follows cur st w r st' w'.

  Lemma pieces_initialized cur e z : translate H d cur true e = Ok (Some z) -> Forall initialized (pieces e) -> initialized e.
  Proof.
    intros T F. destruct e as [x|k|o a|o a b|o vs|a ops|g args|a x|a i|t a b|n]; try (inversion F; assumption). exfalso. unfold translate in T. cbn [convert] in T. cbn in T. discriminate.
  Qed.

  Lemma sat_ending st f l : ok_st st -> sat f (relations st) -> Forall (condition (count st)) l -> forall g, agree (count st) f g -> sat f l -> sat g l.
  Proof. intros _ _ C g AGR S1. exact (sat_agree _ _ _ _ AGR C S1). Qed.

  (** *** Assignments *)
  Lemma assignment_follows cur st l st' w w' ts values us : Forall (value_ok H G) values -> Forall (fun e => Forall (integral P) (evaluated_value P e w)) values -> Forall2 (gives P w) values us ->
    incl (target_names ts) A -> le cur (count st) -> ok_st st -> assign_all H d cur false ts values st [] = Ok (Some (l, st')) -> store_all M ts us w = (w', Done) ->
    follows cur st w {| changed := l; assertions := []; ends := false |} st' w'.
  Proof.
    intros V IN GS IA L O AS SR f S1 T. split; [reflexivity|]. cbn [changed assertions].
    destruct (assign_dynamic H G I CH P M d hidden A AG RG ST cur ts w w' values us st [] l st' f w V IN GS L O (ok_nil d _) IA AS S1 T) as (f' & A1 & S2 & T2).
    - refine (tracks_ext P d f cur _ w _ T). apply update_nil.
    - exact SR.
    - exists f'. split; [exact A1|]. split; [exact S2|]. split; [exact T2|constructor].
  Qed.
  Lemma augmented_value o x e : tidy (SAugmented (Var x) o e) = true -> nonlinear H (Binary o (Name x) e) = Ok false -> Forall initialized (pieces e) -> value_ok H G (Binary o (Name x) e).
  Proof.
    cbn [tidy]. intros T NL F. rewrite !andb_true_iff, negb_true_iff, orb_true_iff, negb_true_iff in T. destruct T as [[T NC] LC]. split; [exact T|]. right. exists o, x, e. auto 10.
  Qed.
  Lemma values_ok es : forallb tidy_value es = true -> Forall initialized (flat_map pieces es) -> Forall (value_ok H G) es.
  Proof.
    induction es as [|e es IH]; cbn [forallb flat_map]; intros T F; [constructor|]. apply andb_true_iff in T. destruct T as [TE TS]. apply Forall_app in F. destruct F as [FE FS].
    constructor; [split; [exact TE|left; exact FE]|exact (IH TS FS)].
  Qed.
  Lemma single_assign t e w w' r : eval P e w = (w, r) -> run_assign P M (Single t) (Value e) w = (w', Done) -> exists u, gives P w e u /\ store_all M [t] [u] w = (w', Done).
  Proof.
    intros E R. cbn [run_assign] in R. rewrite E in R. destruct r as [u|x]; [|discriminate]. exists u. split; [exact E|]. cbn [store_all]. rewrite R. reflexivity.
  Qed.
  Lemma flat_evaluated es w : Forall (integral P) (flat_map (fun e => evaluated_value P e w) es) -> Forall (fun e => Forall (integral P) (evaluated_value P e w)) es.
  Proof. induction es as [|e es IH]; cbn [flat_map]; intro F; [constructor|]. apply Forall_app in F. destruct F as [F1 F2]. constructor; [exact F1|exact (IH F2)]. Qed.

  (** *** Blocks *)
  Lemma block_run l : Forall statement_follows l -> Forall valid l -> forallb tidy l = true -> incl (flat_map assigned_in l) A ->
    forall cur0 cur st done so_far r st' w w', (forall k, cur k = update cur0 done k) -> le cur0 (count st) -> ok_st st -> ok_changes d (count st) done -> Forall (condition (count st)) so_far ->
    after_block H d l cur st done so_far = Ok (Some (r, st')) -> run P M l w = (w', Done) -> Forall (integral P) (evaluated_in P M l w) ->
    forall f, sat f (relations st) -> tracks f cur w -> sat f so_far -> ends r = false /\
      exists f', agree (count st) f f' /\ sat f' (relations st') /\ tracks f' (update cur0 (changed r)) w' /\ sat f' (assertions r).
  Proof.
    intro FL. induction FL as [|s l X F IH]; intros V T IA cur0 cur st done so_far r st' w w' CU L O D C E R IN f S1 TR S2; cbn [after_block run evaluated_in] in *.
    - injection E as <- <-. injection R as <-. split; [reflexivity|]. exists f. split; [apply agree_refl|]. split; [exact S1|]. split; [|exact S2]. cbn [changed].
      refine (tracks_ext P d f cur _ w _ TR). intro k. symmetry. apply CU.
    - cbn [forallb flat_map] in *. apply andb_true_iff in T. destruct T as [TS TL]. inversion V as [|? ? VS VL]; subst.
      destruct (after_statement H d s cur st) as [[[g st1]|]|] eqn:ES; cbn [bind] in E; try discriminate.
      destruct (exec P M s w) as [w1 [| |x]] eqn:EX; try discriminate. apply Forall_app in IN. destruct IN as [IN1 IN2].
      assert (LC : le cur (count st)) by (intro k; rewrite CU; apply (update_le d _ _ _ L D)).
      destruct (X cur st g st1 w w1 VS TS (fun y Y => IA y (in_or_app _ _ _ (or_introl Y))) LC O ES EX IN1 f S1 TR) as [EN (f1 & AG1 & SR1 & T1 & SA1)]. rewrite EN in E.
      destruct (statement_static H d s cur st g st1 TS LC O ES) as (L1 & O1 & C1 & A1 & _).
      destruct (IH VL TL (fun y Y => IA y (in_or_app _ _ _ (or_intror Y))) cur0 (update cur (changed g)) st1 (merge_changes done (changed g)) (so_far ++ assertions g) r st' w1 w') with (f := f1) as [ER (f2 & AG2 & SR2 & T2 & SA2)]; try assumption.
      + intro k. rewrite (update_merge cur0 done (changed g) k (proj1 C1)).
        assert (UX : forall c c' m, (forall k, c k = c' k) -> update c m k = update c' m k) by (intros c c' m Q; unfold update; destruct k as [|[] [|]]; rewrite ?Q; reflexivity). apply UX. exact CU.
      + exact (le_trans' _ _ _ L L1).
      + apply ok_merge; [exact (changes_le d _ _ _ L1 D)|exact C1].
      + apply Forall_app. split; [exact (conditions_le _ _ _ L1 C)|exact A1].
      + apply sat_app. split; [exact (sat_agree _ _ _ _ AG1 C S2)|exact SA1].
      + split; [exact ER|]. exists f2. split; [exact (agree_trans _ _ _ _ _ L1 AG1 AG2)|]. split; [exact SR2|]. split; [exact T2|exact SA2].
  Qed.
  Lemma block_all l : Forall statement_follows l -> Forall valid l -> forallb tidy l = true -> incl (flat_map assigned_in l) A -> block_follows l.
  Proof.
    intros F V T IA cur st r st' w w' L O E R IN f S1 TR.
    exact (block_run l F V T IA cur cur st [] [] r st' w w' (fun k => eq_sym (update_nil cur k)) L O (ok_nil d _) (Forall_nil _) E R IN f S1 TR (Forall_nil _)).
  Qed.

  (** *** Branches *)
  Definition is_false (f : text -> Z) (z : zexpr) : Prop := zeval (env f) z = Some (ZB false).
  Definition is_true (f : text -> Z) (z : zexpr) : Prop := zeval (env f) z = Some (ZB true).
  (** Which changes are those of the branch that was taken. *)
  Definition chosen (f : text -> Z) (cs : list zexpr) (bc : list changes) (e : bool) (b : changes) : Prop :=
    (exists cs1 c cs2 bs1 bs2, cs = cs1 ++ c :: cs2 /\ bc = bs1 ++ b :: bs2 /\ length cs1 = length bs1 /\ Forall (is_false f) cs1 /\ is_true f c) \/
    (e = true /\ exists bs1, bc = bs1 ++ [b] /\ length bs1 = length cs /\ Forall (is_false f) cs) \/
    (e = false /\ b = [] /\ length bc = length cs /\ Forall (is_false f) cs).
  Lemma false_agree c f g l : agree c f g -> Forall (condition c) l -> Forall (is_false f) l -> Forall (is_false g) l.
  Proof. intros AGR C F. rewrite Forall_forall in *. intros z IN. unfold is_false. rewrite (zeval_agree c f g z AGR (proj1 (C z IN))). exact (F z IN). Qed.
  Lemma true_agree c f g z : agree c f g -> condition c z -> is_true f z -> is_true g z.
  Proof. intros AGR C F. unfold is_true. rewrite (zeval_agree c f g z AGR (proj1 C)). exact F. Qed.
  Lemma chosen_agree c f g cs bc e b : agree c f g -> Forall (condition c) cs -> chosen f cs bc e b -> chosen g cs bc e b.
  Proof.
    intros AGR C [(cs1 & z & cs2 & bs1 & bs2 & -> & -> & LN & F & T)|[(E & bs1 & B & LN & F)|(E & B & LN & F)]].
    - apply Forall_app in C. destruct C as [C1 C2]. inversion C2; subst. left. exists cs1, z, cs2, bs1, bs2. split; [reflexivity|]. split; [reflexivity|]. split; [exact LN|].
      split; [exact (false_agree _ _ _ _ AGR C1 F)|]. apply (true_agree c f g z AGR); assumption.
    - right. left. split; [exact E|]. exists bs1. split; [exact B|]. split; [exact LN|exact (false_agree _ _ _ _ AGR C F)].
    - right. right. split; [exact E|]. split; [exact B|]. split; [exact LN|exact (false_agree _ _ _ _ AGR C F)].
  Qed.
  Lemma how_picks f x int cur e b : forall bc cs v, chosen f cs bc e b -> how_changed x int cur cs bc e = Ok v -> pick f v = Some (ZVar (prefixed [TName x] (update cur b [TName x])) int).
  Proof.
    induction bc as [|b0 bc IH]; intros cs v CHO E; cbn [how_changed] in E.
    - destruct CHO as [(cs1 & z & cs2 & bs1 & bs2 & _ & B & _)|[(_ & bs1 & B & _)|(-> & -> & _)]]; [destruct bs1; discriminate|destruct bs1; discriminate|]. injection E as <-. reflexivity.
    - destruct CHO as [(cs1 & z & cs2 & bs1 & bs2 & -> & B & LN & F & T)|[(-> & bs1 & B & LN & F)|(-> & -> & LN & F)]].
      + destruct bs1 as [|b1 bs1], cs1 as [|c1 cs1]; try discriminate LN; cbn [app] in *.
        * assert (B1 : b0 = b) by congruence. assert (B2 : bc = bs2) by congruence. subst b0 bs2. destruct (e && _); [injection E as <-; reflexivity|].
          destruct (how_changed x int cur cs2 bc e) as [v'|]; cbn [bind] in E; [|discriminate]. injection E as <-. cbn [pick leaf]. unfold is_true in T. rewrite T. reflexivity.
        * assert (B1 : b0 = b1) by congruence. assert (B2 : bc = bs1 ++ b :: bs2) by congruence. subst b0 bc. replace (e && match bs1 ++ b :: bs2 with [] => true | _ => false end) with false in E by (destruct e, bs1; reflexivity).
          destruct (how_changed x int cur (cs1 ++ z :: cs2) (bs1 ++ b :: bs2) e) as [v'|] eqn:HC; cbn [bind] in E; [|discriminate]. injection E as <-. inversion F as [|? ? F1 F2]; subst. cbn [pick leaf]. unfold is_false in F1. rewrite F1.
          refine (IH _ _ _ HC). left. exists cs1, z, cs2, bs1, bs2. split; [reflexivity|]. split; [reflexivity|]. split; [cbn [length] in LN; lia|]. split; assumption.
      + destruct bs1 as [|b1 bs1], cs as [|c1 cs]; try discriminate LN; cbn [app] in *.
        * assert (B1 : b0 = b) by congruence. assert (B2 : bc = []) by congruence. subst b0 bc. cbn [andb] in E. injection E as <-. reflexivity.
        * assert (B1 : b0 = b1) by congruence. assert (B2 : bc = bs1 ++ [b]) by congruence. subst b0 bc. replace (true && match bs1 ++ [b] with [] => true | _ => false end) with false in E by (destruct bs1; reflexivity).
          destruct (how_changed x int cur cs (bs1 ++ [b]) true) as [v'|] eqn:HC; cbn [bind] in E; [|discriminate]. injection E as <-. inversion F as [|? ? F1 F2]; subst. cbn [pick leaf]. unfold is_false in F1. rewrite F1.
          refine (IH _ _ _ HC). right. left. split; [reflexivity|]. exists bs1. split; [reflexivity|]. split; [cbn [length] in LN; lia|exact F2].
      + destruct cs as [|c1 cs]; [discriminate LN|]. cbn [andb] in E. destruct (how_changed x int cur cs bc false) as [v'|] eqn:HC; cbn [bind] in E; [|discriminate]. injection E as <-. inversion F as [|? ? F1 F2]; subst. cbn [pick leaf]. unfold is_false in F1. rewrite F1.
        refine (IH _ _ _ HC). right. right. split; [reflexivity|]. split; [reflexivity|]. split; [cbn [length] in LN; lia|exact F2].
  Qed.
  Lemma chosen_in f cs bc e b : chosen f cs bc e b -> b = [] \/ List.In b bc.
  Proof.
    intros [(cs1 & z & cs2 & bs1 & bs2 & -> & -> & _)|[(E & bs1 & -> & _)|(E & B & _)]]; [right; apply in_or_app; right; left; reflexivity|right; apply in_or_app; right; left; reflexivity|left; exact B].
  Qed.
  Lemma new_dynamic cur cs bc e b xs w : forall st done r f, le cur (count st) -> ok_st st -> ok_changes d (count st) done -> Forall (condition (count st)) cs -> Forall (ok_changes d (count st)) bc ->
    new_variables d xs cur cs bc e st done = Ok r -> sat f (relations st) -> chosen f cs bc e b -> tracks f (update cur b) w -> tracks f (update (update cur b) done) w ->
    exists f', agree (count st) f f' /\ sat f' (relations (snd r)) /\ tracks f' (update (update cur b) (fst r)) w.
  Proof.
    induction xs as [|x xs IH]; intros st done r f L O D C B E S1 CHO T1 T2; cbn [new_variables] in E.
    - injection E as <-. exists f. split; [apply agree_refl|]. split; [exact S1|exact T2].
    - destruct (find_var d [TName x]) as [int|] eqn:FV; [|discriminate]. destruct (how_changed x int cur cs bc e) as [v|] eqn:HC; cbn [bind] in E; [|discriminate].
      destruct (update_relations x int v st) as [n s1] eqn:U. assert (V := how_ok d x int cur (count st) e L bc cs v C B HC). destruct (write_count x int v st s1 n U) as (E1 & E2 & L1).
      pose proof (how_picks f x int cur e b bc cs v CHO HC) as PK. set (m := f (prefixed [TName x] (update cur b [TName x]))) in *.
      assert (OB : ok_changes d (count st) b) by (destruct (chosen_in _ _ _ _ _ CHO) as [->|IB]; [apply ok_nil|rewrite Forall_forall in B; exact (B b IB)]).
      assert (LB : le (update cur b) (count st)) by exact (update_le d _ _ _ L OB).
      assert (FT : fits f (is_bool_choice v) (ZVar (prefixed [TName x] (update cur b [TName x])) int) m).
      { left. exists (inject_Z m). split; [|reflexivity]. cbn [zeval env int_var real_var]. destruct int; reflexivity. }
      assert (S2 := write_sat x int v st s1 n U O V f _ m S1 PK FT). assert (A1 : agree (count st) f (setf f (prefixed [TName x] n) m)) by (rewrite E1; apply agree_fresh).
      destruct (IH s1 (set_change x n done) r (setf f (prefixed [TName x] n) m)) as (f' & A2 & S3 & T3); try assumption.
      + exact (le_trans' _ _ _ L L1).
      + exact (write_ok x int v st s1 n U O V).
      + apply ok_set; [exact (changes_le d _ _ _ L1 D)|congruence|rewrite E2, bump_same; lia].
      + exact (conditions_le _ _ _ L1 C).
      + revert B. apply Forall_impl. intro y. exact (changes_le d _ _ y L1).
      + exact (chosen_agree _ _ _ _ _ _ _ A1 C CHO).
      + exact (tracks_agree P d _ _ _ _ _ LB A1 T1).
      + intros s z FS K IS. rewrite update_set. destruct (text_eqb (as_string s) [TName x]) eqn:EQ.
        * apply text_eqb_eq in EQ. rewrite EQ, setf_same. unfold m. rewrite <- EQ. exact (T1 s z FS K IS).
        * rewrite setf_other; [exact (T2 s z FS K IS)|]. change [TName x] with (as_string (Name x)). intro X. apply prefixed_inj in X. destruct X as [X _]. cbn [as_string] in X. rewrite X, text_eqb_refl in EQ. discriminate.
      + exists f'. split; [exact (agree_trans _ _ _ _ _ L1 A1 A2)|]. split; [exact S3|exact T3].
  Qed.
  Lemma find_keep xs : forall cur cs bc e st done r x, new_variables d xs cur cs bc e st done = Ok r -> List.In x xs \/ find_change done x <> None -> find_change (fst r) x <> None.
  Proof.
    induction xs as [|y xs IH]; intros cur cs bc e st done r x E X; cbn [new_variables] in E; [injection E as <-; destruct X as [[]|X]; exact X|].
    destruct (find_var d [TName y]) as [int|]; [|discriminate]. destruct (how_changed y int cur cs bc e) as [v|]; cbn [bind] in E; [|discriminate]. destruct (update_relations y int v st) as [n s1].
    refine (IH _ _ _ _ _ _ _ x E _). rewrite find_set. destruct (String.eqb y x) eqn:Q; [right; discriminate|]. destruct X as [[X|X]|X]; [subst y; rewrite String.eqb_refl in Q; discriminate|left; exact X|right; exact X].
  Qed.
  Lemma finish_follows cur st cs bc asserted e b r st' w' : le cur (count st) -> ok_st st -> Forall (condition (count st)) cs -> Forall (ok_changes d (count st)) bc -> Forall (condition (count st)) asserted ->
    finish d cur st cs bc asserted e false = Ok (Some (r, st')) ->
    ends r = false /\ forall f, sat f (relations st) -> chosen f cs bc e b -> tracks f (update cur b) w' -> sat f asserted ->
      exists f', agree (count st) f f' /\ sat f' (relations st') /\ tracks f' (update cur (changed r)) w' /\ sat f' (assertions r).
  Proof.
    intros L O C B CA E. unfold finish in E. destruct (new_variables d (names_changed bc) cur cs bc e st []) as [r0|] eqn:N; cbn [bind] in E; [|discriminate]. injection E as <- <-.
    split; [reflexivity|]. intros f S1 CHO T S2. cbn [changed assertions].
    destruct (new_dynamic cur cs bc e b (names_changed bc) w' st [] r0 f L O (ok_nil d _) C B N S1 CHO T) as (f' & A1 & S3 & T3).
    - refine (tracks_ext P d f _ _ w' _ T). apply update_nil.
    - exists f'. split; [exact A1|]. split; [exact S3|]. split; [|exact (sat_agree _ _ _ _ A1 CA S2)].
      refine (tracks_ext P d f' _ _ w' _ T3). intro k. destruct k as [|t k]; [reflexivity|]. destruct t; try (destruct k; reflexivity). destruct k; [|reflexivity].
      rewrite !update_name. destruct (find_change (fst r0) x) eqn:FC; [reflexivity|]. destruct (find_change b x) as [n|] eqn:FB; [exfalso|reflexivity].
      apply (find_keep _ _ _ _ _ _ _ _ x N); [|exact FC]. left. unfold names_changed. apply nodup_In. apply in_flat_map. destruct (chosen_in _ _ _ _ _ CHO) as [->|IB]; [discriminate FB|]. exists b. split; [exact IB|].
      unfold find_change in FB. destruct (find (fun p => String.eqb (fst p) x) b) as [p|] eqn:FD; [|discriminate]. apply find_some in FD. destruct FD as [IP EQ]. apply String.eqb_eq in EQ. subst x. apply in_map. exact IP.
  Qed.

  (** Assertions whose conditions do not hold. *)
  Lemma implied_false f a b c : condition c b -> is_false f a -> is_true f (z_implies a b).
  Proof. intros CB F. destruct (condition_value c b f CB) as (q & V). unfold is_true. rewrite (value_implies _ a b false q F V). reflexivity. Qed.
  Lemma implied_true f a b c : condition c a -> is_true f b -> is_true f (z_implies a b).
  Proof. intros CA T. destruct (condition_value c a f CA) as (p & V). unfold is_true. rewrite (value_implies _ a b p true V T). destruct p; reflexivity. Qed.
  Lemma and_false f c l z : Forall (condition c) l -> List.In z l -> is_false f z -> is_false f (ZAnd l).
  Proof.
    intros C IN F. destruct (conditions_values c l f C) as (bs & V). unfold is_false. rewrite (value_and _ l bs V). do 2 f_equal. clear C. induction V as [|y b l bs VY V IH]; [destruct IN|]. cbn [forallb].
    destruct IN as [->|IN]; [unfold is_false in F; assert (b = false) by congruence; subst b; reflexivity|]. rewrite (IH IN), andb_false_r. reflexivity.
  Qed.
  Lemma or_true f c l z : Forall (condition c) l -> List.In z l -> is_true f z -> is_true f (ZOr l).
  Proof.
    intros C IN F. destruct (conditions_values c l f C) as (bs & V). unfold is_true. rewrite (value_or _ l bs V). do 2 f_equal. clear C. induction V as [|y b l bs VY V IH]; [destruct IN|]. cbn [existsb].
    destruct IN as [->|IN]; [unfold is_true in F; assert (b = true) by congruence; subst b; reflexivity|]. rewrite (IH IN), orb_true_r. reflexivity.
  Qed.
  (** A branch that is not taken. *)
  Lemma skipped_assertions f c cs z g : Forall (condition c) cs -> condition c z -> Forall (condition c) (assertions g) -> is_false f z \/ Exists (is_true f) cs -> sat f (branch_assertions cs z g).
  Proof.
    intros C CZ CA X. unfold branch_assertions. pose proof (negated_conditions _ _ C) as N. destruct (ends g).
    - constructor; [|constructor]. destruct X as [X|X].
      + assert (NZ : is_true f (ZNot z)) by exact (value_not _ _ _ X). destruct cs; [exact NZ|]. exact (implied_true f _ _ c (condition_and _ _ N) NZ).
      + destruct cs as [|c0 cs]; [inversion X|]. apply Exists_exists in X. destruct X as (y & IY & TY). apply (implied_false f _ _ c (condition_not _ _ CZ)).
        apply (and_false f c _ (ZNot y) N); [apply in_map; exact IY|exact (value_not _ _ _ TY)].
    - apply Forall_map. rewrite Forall_forall in *. intros a IA'. apply (implied_false f _ _ c (CA a IA')). destruct X as [X|X].
      + destruct cs as [|c0 cs]; [exact X|]. apply (and_false f c _ z); [|apply in_or_app; right; left; reflexivity|exact X]. apply Forall_app. split; [apply Forall_forall; exact N|constructor; [exact CZ|constructor]].
      + destruct cs as [|c0 cs]; [inversion X|]. apply Exists_exists in X. destruct X as (y & IY & TY). apply (and_false f c _ (ZNot y)).
        * apply Forall_app. split; [apply Forall_forall; exact N|constructor; [exact CZ|constructor]].
        * apply in_or_app. left. apply in_map. exact IY.
        * exact (value_not _ _ _ TY).
  Qed.
  Lemma taken_assertions f c cs z g : Forall (condition c) cs -> condition c z -> ends g = false -> sat f (assertions g) -> sat f (branch_assertions cs z g).
  Proof.
    intros C CZ EN S1. unfold branch_assertions. rewrite EN. pose proof (negated_conditions _ _ C) as N. apply Forall_map. revert S1. apply Forall_impl. intros a T. apply (implied_true f _ _ c); [|exact T].
    destruct cs; [exact CZ|]. apply condition_and. apply Forall_app. split; [exact N|constructor; [exact CZ|constructor]].
  Qed.
  Lemma skipped_else f c cs g : Forall (condition c) cs -> Forall (condition c) (assertions g) -> Exists (is_true f) cs -> sat f (else_assertions cs g).
  Proof.
    intros C CA X. unfold else_assertions. pose proof (negated_conditions _ _ C) as N. apply Exists_exists in X. destruct X as (y & IY & TY). destruct (ends g).
    - constructor; [exact (or_true f c cs y C IY TY)|constructor].
    - apply Forall_map. rewrite Forall_forall in *. intros a IA'. apply (implied_false f _ _ c (CA a IA')). apply (and_false f c _ (ZNot y)); [apply Forall_forall; exact N|apply in_map; exact IY|exact (value_not _ _ _ TY)].
  Qed.
  Lemma taken_else f c cs g : Forall (condition c) cs -> ends g = false -> sat f (assertions g) -> sat f (else_assertions cs g).
  Proof.
    intros C EN S1. unfold else_assertions. rewrite EN. apply Forall_map. revert S1. apply Forall_impl. intros a T. apply (implied_true f _ _ c); [|exact T]. apply condition_and. exact (negated_conditions _ _ C).
  Qed.

  Lemma changes_up c c' bc : le c c' -> Forall (ok_changes d c) bc -> Forall (ok_changes d c') bc.
  Proof. intro L. apply Forall_impl. intro x. exact (changes_le d _ _ x L). Qed.
  (** After the branch that was taken. *)
  Definition taken (f : text -> Z) (cs : list zexpr) (bc : list changes) (b : changes) : Prop :=
    exists cs1 c cs2 bs1 bs2, cs = cs1 ++ c :: cs2 /\ bc = bs1 ++ b :: bs2 /\ length cs1 = length bs1 /\ Forall (is_false f) cs1 /\ is_true f c.
  Lemma taken_some f cs bc b : taken f cs bc b -> Exists (is_true f) cs.
  Proof. intros (cs1 & c & cs2 & bs1 & bs2 & -> & _ & _ & _ & T). apply Exists_exists. exists c. split; [apply in_or_app; right; left; reflexivity|exact T]. Qed.
  Lemma taken_more f cs bc b c b' : taken f cs bc b -> taken f (cs ++ [c]) (bc ++ [b']) b.
  Proof. intros (cs1 & c1 & cs2 & bs1 & bs2 & -> & -> & X). exists cs1, c1, (cs2 ++ [c]), bs1, (bs2 ++ [b']). rewrite <- !app_assoc. split; [reflexivity|]. split; [reflexivity|exact X]. Qed.
  Lemma taken_else_more f cs bc b b' : taken f cs bc b -> taken f cs (bc ++ [b']) b.
  Proof. intros (cs1 & c1 & cs2 & bs1 & bs2 & -> & -> & X). exists cs1, c1, cs2, bs1, (bs2 ++ [b']). rewrite <- !app_assoc. split; [reflexivity|]. split; [reflexivity|exact X]. Qed.
  Lemma taken_agree c f g cs bc b : agree c f g -> Forall (condition c) cs -> taken f cs bc b -> taken g cs bc b.
  Proof.
    intros AGR C (cs1 & z & cs2 & bs1 & bs2 & -> & -> & LN & F & T). apply Forall_app in C. destruct C as [C1 C2]. inversion C2; subst. exists cs1, z, cs2, bs1, bs2. split; [reflexivity|]. split; [reflexivity|]. split; [exact LN|].
    split; [exact (false_agree _ _ _ _ AGR C1 F)|]. apply (true_agree c f g z AGR); assumption.
  Qed.
  Lemma second_phase cur o l b w' : Forall (fun p => static_block H d (snd p)) l -> static_block H d o ->
    forall st cs bc asserted r st', le cur (count st) -> ok_st st -> Forall (condition (count st)) cs -> Forall (ok_changes d (count st)) bc -> Forall (condition (count st)) asserted ->
    after_branches H d cur o l st cs bc asserted false = Ok (Some (r, st')) -> ok_changes d (count st) b ->
    ends r = false /\ forall f, sat f (relations st) -> taken f cs bc b -> tracks f (update cur b) w' -> sat f asserted ->
      exists f', agree (count st) f f' /\ sat f' (relations st') /\ tracks f' (update cur (changed r)) w' /\ sat f' (assertions r).
  Proof.
    intros F SO. induction F as [|[t b0] l SB F IH]; intros st cs bc asserted r st' L O C B CA E OB; cbn [after_branches] in E.
    - destruct o as [|s o].
      + destruct (finish_follows cur st cs bc asserted false b r st' w' L O C B CA E) as [ER FR]. split; [exact ER|]. intros f S1 TK T S2. exact (FR f S1 (or_introl TK) T S2).
      + destruct (after_block H d (s :: o) cur st [] []) as [[[g st1]|]|] eqn:EB; cbn [bind] in E; try discriminate. destruct (SO cur st g st1 L O EB) as (L1 & O1 & C1 & A1 & X1). cbn [andb] in E.
        pose proof (conditions_le _ _ _ L1 C) as C'. pose proof (changes_up _ _ _ L1 B) as B'.
        destruct (finish_follows cur st1 cs (if ends g then bc else bc ++ [changed g]) (asserted ++ else_assertions cs g) true b r st' w' (le_trans' _ _ _ L L1) O1 C'
          ltac:(destruct (ends g); [exact B'|]; apply Forall_app; split; [exact B'|constructor; [exact C1|constructor]])
          ltac:(apply Forall_app; split; [exact (conditions_le _ _ _ L1 CA)|apply else_conditions; [exact C'|exact A1]]) E) as [ER FR].
        split; [exact ER|]. intros f S1 TK T S2. destruct (X1 f S1) as (f1 & AG1 & SR1). pose proof (taken_agree _ _ _ _ _ _ AG1 C TK) as TK1.
        destruct (FR f1 SR1) as (f2 & AG2 & R2).
        * left. destruct (ends g); [exact TK1|exact (taken_else_more _ _ _ _ _ TK1)].
        * exact (tracks_agree P d _ _ _ _ _ (update_le d _ _ _ L OB) AG1 T).
        * apply sat_app. split; [exact (sat_agree _ _ _ _ AG1 CA S2)|exact (skipped_else f1 _ cs g C' A1 (taken_some _ _ _ _ TK1))].
        * exists f2. split; [exact (agree_trans _ _ _ _ _ L1 AG1 AG2)|exact R2].
    - cbn [snd] in SB. destruct (translate H d cur true t) as [c|] eqn:TT; cbn [bind] in E; [|discriminate]. destruct (after_block H d b0 cur st [] []) as [[[g st1]|]|] eqn:EB; cbn [bind] in E; try (destruct c; discriminate).
      destruct c as [c|]; [|discriminate]. destruct (SB cur st g st1 L O EB) as (L1 & O1 & C1 & A1 & X1). cbn [andb] in E.
      pose proof (conditions_le _ _ _ L1 C) as C'. pose proof (changes_up _ _ _ L1 B) as B'. pose proof (translate_condition H d cur t c (count st1) TT (le_trans' _ _ _ L L1)) as CC.
      destruct (IH st1 (if ends g then cs else cs ++ [c]) (if ends g then bc else bc ++ [changed g]) (asserted ++ branch_assertions cs c g) r st' (le_trans' _ _ _ L L1) O1
        ltac:(destruct (ends g); [exact C'|]; apply Forall_app; split; [exact C'|constructor; [exact CC|constructor]])
        ltac:(destruct (ends g); [exact B'|]; apply Forall_app; split; [exact B'|constructor; [exact C1|constructor]])
        ltac:(apply Forall_app; split; [exact (conditions_le _ _ _ L1 CA)|apply branch_conditions; [exact C'|exact CC|exact A1]]) E (changes_le d _ _ _ L1 OB)) as [ER FR].
      split; [exact ER|]. intros f S1 TK T S2. destruct (X1 f S1) as (f1 & AG1 & SR1). pose proof (taken_agree _ _ _ _ _ _ AG1 C TK) as TK1.
      destruct (FR f1 SR1) as (f2 & AG2 & R2).
      + destruct (ends g); [exact TK1|exact (taken_more _ _ _ _ _ _ TK1)].
      + exact (tracks_agree P d _ _ _ _ _ (update_le d _ _ _ L OB) AG1 T).
      + apply sat_app. split; [exact (sat_agree _ _ _ _ AG1 CA S2)|exact (skipped_assertions f1 _ cs c g C' CC A1 (or_intror (taken_some _ _ _ _ TK1)))].
      + exists f2. split; [exact (agree_trans _ _ _ _ _ L1 AG1 AG2)|exact R2].
  Qed.
  Definition good_branch (p : expr * list statement) : Prop := initialized (fst p) /\ fine (fst p) = true /\ static_block H d (snd p) /\ block_follows (snd p).
  Lemma first_phase cur o l w w' : Forall good_branch l -> static_block H d o -> block_follows o ->
    forall st cs bc asserted always r st', le cur (count st) -> ok_st st -> Forall (condition (count st)) cs -> Forall (ok_changes d (count st)) bc -> Forall (condition (count st)) asserted -> length bc = length cs ->
    after_branches H d cur o l st cs bc asserted always = Ok (Some (r, st')) -> run_branches P M o l w = (w', Done) -> Forall (integral P) (evaluated_branches P M o l w) ->
    forall f, sat f (relations st) -> tracks f cur w -> Forall (is_false f) cs -> sat f asserted ->
    ends r = false /\ exists f', agree (count st) f f' /\ sat f' (relations st') /\ tracks f' (update cur (changed r)) w' /\ sat f' (assertions r).
  Proof.
    intros F SO FO. induction F as [|[t b0] l (IT & FT & SB & FB) F IH]; intros st cs bc asserted always r st' L O C B CA LN E R IN f S1 T FC S2; cbn [after_branches run_branches evaluated_branches fst snd] in *.
    - destruct o as [|s o].
      + destruct (finish_follows cur st cs bc asserted false [] r st' w' L O C B CA E) as [ER FR]. split; [exact ER|]. cbn [run] in R. injection R as <-. apply (FR f S1); [right; right; auto| |exact S2].
        refine (tracks_ext P d f _ _ w _ T). apply update_nil.
      + destruct (after_block H d (s :: o) cur st [] []) as [[[g st1]|]|] eqn:EB; cbn [bind] in E; try discriminate. destruct (SO cur st g st1 L O EB) as (L1 & O1 & C1 & A1 & _).
        destruct (FO cur st g st1 w w' L O EB R IN f S1 T) as [EN (f1 & AG1 & SR1 & T1 & SA1)]. rewrite EN, andb_false_r in E. pose proof (conditions_le _ _ _ L1 C) as C'.
        destruct (finish_follows cur st1 cs (bc ++ [changed g]) (asserted ++ else_assertions cs g) true (changed g) r st' w' (le_trans' _ _ _ L L1) O1 C'
          ltac:(apply Forall_app; split; [exact (changes_up _ _ _ L1 B)|constructor; [exact C1|constructor]])
          ltac:(apply Forall_app; split; [exact (conditions_le _ _ _ L1 CA)|apply else_conditions; [exact C'|exact A1]]) E) as [ER FR2].
        split; [exact ER|]. destruct (FR2 f1 SR1) as (f2 & AG2 & R2).
        * right. left. split; [reflexivity|]. exists bc. split; [reflexivity|]. split; [exact LN|exact (false_agree _ _ _ _ AG1 C FC)].
        * exact T1.
        * apply sat_app. split; [exact (sat_agree _ _ _ _ AG1 CA S2)|exact (taken_else f1 _ cs g C' EN SA1)].
        * exists f2. split; [exact (agree_trans _ _ _ _ _ L1 AG1 AG2)|exact R2].
    - destruct (translate H d cur true t) as [c|] eqn:TT; cbn [bind] in E; [|discriminate]. destruct (after_block H d b0 cur st [] []) as [[[g st1]|]|] eqn:EB; cbn [bind] in E; try (destruct c; discriminate).
      destruct c as [c|]; [|discriminate]. destruct (SB cur st g st1 L O EB) as (L1 & O1 & C1 & A1 & X1). inversion IN as [|? ? I1 I2]; subst.
      destruct (condition_meaning H G CH P d AG t c f cur w IT FT I1 T TT) as (bt & vt & GT & TVT & ZT).
      assert (TE : test P t w = (w, Ok bt)) by (unfold test, andthen; unfold gives in GT; rewrite GT; exact TVT). assert (HN : holds_now P t w = bt) by (unfold holds_now; rewrite TE; destruct bt; reflexivity).
      rewrite TE in R. rewrite HN in I2.
      pose proof (conditions_le _ _ _ L1 C) as C'. pose proof (changes_up _ _ _ L1 B) as B'. pose proof (translate_condition H d cur t c (count st) TT L) as CC0. pose proof (condition_le _ _ _ L1 CC0) as CC.
      assert (CA' : Forall (condition (count st1)) (asserted ++ branch_assertions cs c g)) by (apply Forall_app; split; [exact (conditions_le _ _ _ L1 CA)|apply branch_conditions; [exact C'|exact CC|exact A1]]).
      destruct bt.
      + (* taken *)
        destruct (FB cur st g st1 w w' L O EB R I2 f S1 T) as [EN (f1 & AG1 & SR1 & T1 & SA1)]. rewrite EN, andb_false_r in E.
        assert (SL : Forall (fun p => static_block H d (snd p)) l) by (revert F; apply Forall_impl; intros p (_ & _ & X & _); exact X).
        destruct (second_phase cur o l (changed g) w' SL SO st1 (cs ++ [c]) (bc ++ [changed g]) _ r st' (le_trans' _ _ _ L L1) O1
          ltac:(apply Forall_app; split; [exact C'|constructor; [exact CC|constructor]]) ltac:(apply Forall_app; split; [exact B'|constructor; [exact C1|constructor]]) CA' E C1) as [ER FR2].
        split; [exact ER|]. destruct (FR2 f1 SR1) as (f2 & AG2 & R2).
        * exists cs, c, [], bc, []. split; [reflexivity|]. split; [reflexivity|]. split; [lia|]. split; [exact (false_agree _ _ _ _ AG1 C FC)|exact (true_agree _ _ _ _ AG1 CC0 ZT)].
        * exact T1.
        * apply sat_app. split; [exact (sat_agree _ _ _ _ AG1 CA S2)|exact (taken_assertions f1 _ cs c g C' CC EN SA1)].
        * exists f2. split; [exact (agree_trans _ _ _ _ _ L1 AG1 AG2)|exact R2].
      + (* skipped *)
        destruct (X1 f S1) as (f1 & AG1 & SR1).
        assert (ZF : is_false f1 c) by (pose proof (false_agree _ _ _ [c] AG1 (Forall_cons _ CC0 (Forall_nil _)) (Forall_cons _ ZT (Forall_nil _))) as Y; inversion Y; assumption).
        pose proof (false_agree _ _ _ _ AG1 C FC) as FC'.
        destruct (IH st1 (if ends g then cs else cs ++ [c]) (if ends g then bc else bc ++ [changed g]) (asserted ++ branch_assertions cs c g) (always && ends g) r st' (le_trans' _ _ _ L L1) O1
          ltac:(destruct (ends g); [exact C'|]; apply Forall_app; split; [exact C'|constructor; [exact CC|constructor]])
          ltac:(destruct (ends g); [exact B'|]; apply Forall_app; split; [exact B'|constructor; [exact C1|constructor]]) CA'
          ltac:(destruct (ends g); [exact LN|]; rewrite !app_length, LN; reflexivity) E R I2 f1 SR1 (tracks_agree P d _ _ _ _ _ L AG1 T)
          ltac:(destruct (ends g); [exact FC'|]; apply Forall_app; split; [exact FC'|constructor; [exact ZF|constructor]])
          ltac:(apply sat_app; split; [exact (sat_agree _ _ _ _ AG1 CA S2)|exact (skipped_assertions f1 _ cs c g C' CC A1 (or_introl ZF))])) as (ER & f2 & AG2 & R2).
        split; [exact ER|]. exists f2. split; [exact (agree_trans _ _ _ _ _ L1 AG1 AG2)|exact R2].
  Qed.
End Follow.
