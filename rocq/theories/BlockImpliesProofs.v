(** Proofs about the analysis of blocks: validation, implied conditions and loops. *)
From Coq Require Import String List Bool Arith NArith ZArith QArith Qabs Qround Lia.
From Verif Require Import Base PyModel PySpec PyProofs IfModel IfSpec IfProofs FoldModel FoldSpec FoldProofs TypeModel LocalModel LocalSpec LocalProofs LetterProofs MergeSpec SolverModel SolverSpec SolverProofs BlockModel BlockSpec BlockProofs BlockEnvProofs BlockStepProofs BlockChoiceProofs BlockAssignProofs BlockRunProofs BlockFollowProofs BlockMainProofs.
Import ListNotations.
Local Open Scope string_scope.
Local Open Scope list_scope.
Local Open Scope nat_scope.

Section Validation.
  Variables (H : host) (G : inspection) (I : purity) (modified : expr -> list statement -> bool) (mutable : item -> bool) (context : list statement) (hidden : nat -> list string).
  Hypothesis MO : modifications hidden modified.
  Notation initialized := (initialized H G).
  Notation valid := (valid H G I).
  Notation good := (good I hidden (flat_map assigned_in context)).
  Notation vstatement := (validate_statement H G I modified context).

  Fixpoint validate_block (allowed : bool) (l : list statement) (d : variables) : res (bool * variables) :=
    match l with
    | [] => Ok (true, d)
    | s :: l => do r <- validate_block allowed l d; if fst r then vstatement allowed false s (snd r) else Ok r
    end.
  Fixpoint validate_branches (top one : bool) (o : list statement) (first : bool) (l : list (expr * list statement)) (d : variables) : res (bool * variables) :=
    match l with
    | [] => validate_block (negb (top && one)) o d
    | (t, b) :: l =>
        do r <- validate_branches top one o false l d;
        if fst r
        then do r <- validate_block (negb (top && first)) b (snd r); if fst r then validate_condition H G I modified context t (snd r) else Ok r
        else Ok r
    end.
  Lemma validate_if allowed top l o d : vstatement allowed top (SIf l o) d = validate_branches top (Nat.leb (length l) 1) o true l d.
  Proof.
    cbn [validate_statement]. generalize (Nat.leb (length l) 1). intro one.
    match goal with |- ?F true l d = _ => assert (K : forall l first d, F first l d = validate_branches top one o first l d); [|exact (K l true d)] end.
    clear l d. induction l as [|[t b] l IH]; intros first d; [reflexivity|]. cbn [validate_branches]. rewrite <- IH. reflexivity.
  Qed.

  Definition proper_value (e : expr) : Prop := fine e = true /\ is_pure_expression I e = true.
  Lemma initialize_values_good l : forall d d1, initialize_all H G modified context l d = Ok (true, d1) -> Forall initialized l /\ (Forall proper_value l -> good d -> good d1).
  Proof.
    induction l as [|e l IH]; intros d d1 E; cbn [initialize_all] in E; [injection E as <-; split; [constructor|auto]|]. destruct (allowed_expression e); [|discriminate].
    destruct (initialize H G (negb (modified e context)) false true e d) as [[[] dx]|] eqn:IX; cbn [bind fst snd] in E; try discriminate. destruct (IH dx d1 E) as [FI GD]. split.
    - constructor; [exists (negb (modified e context)), d, dx; exact IX|exact FI].
    - intros PV GX. inversion PV as [|? ? [F PE] PV']; subst. apply (GD PV'). refine (init_good H G I hidden _ (negb (modified e context)) e F PE _ false true d true dx GX IX).
      intros MK x IA IV. apply negb_true_iff in MK. exact (MO e context x MK IV IA).
  Qed.
  Lemma pieces_pure e : is_pure_expression I e = true -> pieces e = [e].
  Proof. destruct e; try reflexivity. discriminate. Qed.
  Lemma pieces_proper e : pure_value I e = true -> fine e = true -> Forall proper_value (pieces e).
  Proof.
    intros PE F. assert (D : allowed_expression e && is_pure_expression I e = true -> Forall proper_value [e]) by (intro X; apply andb_true_iff in X; constructor; [split; [exact F|exact (proj2 X)]|constructor]).
    destruct e as [x|k|o a|o a b|o vs|a ops|g args|a x|a i|t a b|n]; try exact (D PE). cbn [pure_value] in PE. rewrite !andb_true_iff in PE. destruct PE as [[PT PA] PB]. destruct (fine_ifexp _ _ _ F) as (FT & FA & FB).
    cbn [pieces]. repeat (constructor; [split; assumption|]). constructor.
  Qed.
  Lemma all_proper es : forallb (is_pure_expression I) es = true -> forallb tidy_value es = true -> Forall proper_value (flat_map pieces es).
  Proof.
    induction es as [|e es IH]; cbn [forallb flat_map]; intros PE T; [constructor|]. apply andb_true_iff in PE, T. destruct PE as [PE PES], T as [T TS]. apply Forall_app. split; [|exact (IH PES TS)].
    rewrite (pieces_pure e PE). constructor; [split; [exact (proj1 (tidy_parts e T))|exact PE]|constructor].
  Qed.
  Lemma condition_valid e d d1 : fine e = true -> validate_condition H G I modified context e d = Ok (true, d1) -> is_pure_expression I e = true /\ initialized e /\ (good d -> good d1).
  Proof.
    intros F E. unfold validate_condition in E. destruct (allowed_expression e && is_pure_expression I e) eqn:PE; [|discriminate]. apply andb_true_iff in PE. destruct PE as [_ PE]. split; [exact PE|].
    unfold initialize_values in E. cbn [flat_map] in E. rewrite app_nil_r, (pieces_pure e PE) in E. destruct (initialize_values_good [e] d d1 E) as [FI GD]. inversion FI; subst. split; [assumption|].
    intro GX. apply GD; [|exact GX]. constructor; [split; [exact F|exact PE]|constructor].
  Qed.
  Lemma simple_valid allowed s d d1 : tidy s = true -> validate_simple H G I modified context allowed s d = Ok (true, d1) -> valid s /\ (good d -> good d1).
  Proof.
    intros T E. destruct s as [ch t v|t [e|]|t o e|v| | |t|l o|n]; cbn [validate_simple] in E; try discriminate.
    - destruct ch; [discriminate|]. cbn [negb andb] in E. destruct (pure_rhs I v) eqn:PV; [|discriminate]. destruct t as [t|ts], v as [e|es]; cbn [initialize_assigned tidy pure_rhs parts BlockRunProofs.valid values_of] in *; try discriminate.
      + unfold initialize_values in E. destruct (initialize_values_good _ d d1 E) as [FI GD]. split; [split; [reflexivity|]; split; [exact PV|exact FI]|]. apply GD. cbn [flat_map]. rewrite app_nil_r. exact (pieces_proper e PV (proj1 (tidy_parts e T))).
      + unfold initialize_values in E. destruct (initialize_values_good _ d d1 E) as [FI GD]. split; [split; [reflexivity|]; split; [exact PV|exact FI]|]. apply GD. exact (all_proper es PV T).
    - destruct (pure_value I e) eqn:PV; [|discriminate]. unfold initialize_values in E. destruct (initialize_values_good _ d d1 E) as [FI GD]. cbn [flat_map] in FI, GD. rewrite app_nil_r in FI, GD. cbn [BlockRunProofs.valid tidy] in *.
      split; [split; assumption|]. apply GD. exact (pieces_proper e PV (proj1 (tidy_parts e T))).
    - destruct (pure_value I e) eqn:PV; [|discriminate]. destruct t as [x|]; [|discriminate]. destruct (nonlinear H (Binary o (Name x) e)) as [[]|] eqn:NL; cbn [bind] in E; try discriminate.
      unfold initialize_values in E. destruct (initialize_values_good _ d d1 E) as [FI GD]. cbn [flat_map] in FI, GD. rewrite app_nil_r in FI, GD. cbn [BlockRunProofs.valid tidy] in *.
      split; [split; [exact PV|]; split; [exact NL|exact FI]|]. rewrite !andb_true_iff in T. destruct T as [[T _] _]. apply GD. exact (pieces_proper e PV (proj2 (fine_binary _ _ _ (proj1 (tidy_parts _ T))))).
    - injection E as E <-. cbn [BlockRunProofs.valid]. auto.
    - injection E as <-. split; [exact Logic.I|auto].
    - injection E as _ <-. split; [exact Logic.I|auto].
    - destruct (is_pure_expression I t) eqn:PE; [|discriminate]. unfold initialize_values in E. destruct (initialize_values_good _ d d1 E) as [FI GD]. cbn [flat_map] in FI, GD. rewrite app_nil_r in FI, GD. cbn [BlockRunProofs.valid tidy] in *.
      split; [split; assumption|]. apply GD. rewrite (pieces_pure t PE). constructor; [split; assumption|constructor].
  Qed.
  Lemma block_valid l : Forall (fun s => forall allowed top d d1, tidy s = true -> vstatement allowed top s d = Ok (true, d1) -> valid s /\ (good d -> good d1)) l ->
    forall allowed d d1, forallb tidy l = true -> validate_block allowed l d = Ok (true, d1) -> Forall valid l /\ (good d -> good d1).
  Proof.
    induction 1 as [|s l X F IH]; intros allowed d d1 T E; cbn [validate_block forallb] in *; [injection E as <-; split; [constructor|auto]|]. apply andb_true_iff in T. destruct T as [TS TL].
    destruct (validate_block allowed l d) as [[[] dx]|] eqn:EB; cbn [bind fst snd] in E; try discriminate. destruct (IH allowed d dx TL EB) as [VL GL], (X allowed false dx d1 TS E) as [VS GS]. split; [constructor; assumption|auto].
  Qed.
  Lemma statement_valid s : forall allowed top d d1, tidy s = true -> vstatement allowed top s d = Ok (true, d1) -> valid s /\ (good d -> good d1).
  Proof.
    induction s as [s SI|l o FL FO] using statement_ind'; intros allowed top d d1 T E.
    - apply (simple_valid allowed s d d1 T). destruct s; try contradiction; exact E.
    - rewrite validate_if in E. destruct (tidy_if l o T) as [TL TO]. rewrite valid_if. revert E. generalize (Nat.leb (length l) 1) as one. generalize true at 1 as first.
      clear T. revert d1. induction l as [|[t b] l IH]; intros d1 first one E; cbn [validate_branches] in E.
      + destruct (block_valid o FO _ d d1 TO E) as [VO GO]. split; [split; [constructor|exact VO]|exact GO].
      + inversion FL as [|? ? FB FL']; subst. inversion TL as [|? ? [FT TB] TL']; subst. cbn [fst snd] in *.
        destruct (validate_branches top one o false l d) as [[[] dx]|] eqn:EB; cbn [bind fst snd] in E; try discriminate. destruct (IH FL' TL' dx false one EB) as [[VL VO] GL].
        destruct (validate_block (negb (top && first)) b dx) as [[[] dy]|] eqn:EY; cbn [bind fst snd] in E; try discriminate. destruct (block_valid b FB _ dx dy TB EY) as [VB GB].
        destruct (condition_valid t dy d1 FT E) as (PT & IT & GT). split; [split; [constructor; [split; [split; assumption|exact VB]|exact VL]|exact VO]|auto].
  Qed.
  Definition fine_item (n : item) : Prop := match n with Condition e => fine e = true | Statement s => tidy s = true end.
  Definition valid_item (n : item) : Prop := match n with Condition e => is_pure_expression I e = true /\ initialized e | Statement s => valid s end.
  Lemma items_valid l : Forall fine_item l -> forall d d1, validate_all H G I modified mutable context l d = Ok (true, d1) -> Forall valid_item l /\ (good d -> good d1).
  Proof.
    induction 1 as [|n l F FL IH]; intros d d1 E; cbn [validate_all] in E; [injection E as <-; split; [constructor|auto]|].
    destruct (validate H G I modified mutable context n d) as [[[] dx]|] eqn:EN; cbn [bind fst snd] in E; try discriminate. destruct (IH dx d1 E) as [VL GL].
    assert (X : valid_item n /\ (good d -> good dx)).
    { unfold validate in EN. destruct (mutable n); [discriminate|]. destruct n as [e|s]; cbn [fine_item valid_item] in *; [destruct (condition_valid e d dx F EN) as (PE & IE & GE); auto|exact (statement_valid s true true d dx F EN)]. }
    destruct X as [VN GN]. split; [constructor; assumption|auto].
  Qed.
End Validation.

Section Initial.
  Context {W : Type}.
  Variables (P : python W) (I : purity) (hidden : nat -> list string) (A : list string).
  Lemma represented k : good_key I hidden A k -> exists e, fine e = true /\ as_string e = k.
  Proof. intros [(y & ->)|(e & F & E & _)]; [exists (Name y); split; reflexivity|exists e; split; assumption]. Qed.
  Lemma first_values d w : good I hidden A d -> exists f, tracks P d f (fun _ => 0) w.
  Proof.
    intro GD. assert (X : exists f, forall s z, fine s = true -> List.In (as_string s) (map fst d) -> is_int P w s z -> f (as_string s) = z).
    { induction GD as [|[k i] d GK GD IH]; [exists (fun _ => 0%Z); intros s z _ []|]. destruct IH as (f & FA). cbn [fst] in GK. destruct (represented k GK) as (e & F & E).
      exists (setf f k (match snd (eval P e w) with Ok v => match as_int v with Some n => n | None => 0%Z end | _ => 0%Z end)). intros s z FS IN IS. destruct (text_eqb (as_string s) k) eqn:Q.
      - apply text_eqb_eq in Q. rewrite Q, setf_same. destruct IS as (v & GV & NV). unfold gives in GV. rewrite (text_same P s e w FS F ltac:(congruence)) in GV. rewrite GV. cbn [snd]. rewrite NV. reflexivity.
      - assert (NE : as_string s <> k) by (intro X; rewrite X, text_eqb_refl in Q; discriminate). rewrite (setf_other f k _ _ NE). apply (FA s z FS); [|exact IS]. destruct IN as [IN|IN]; [destruct (NE (eq_sym IN))|exact IN]. }
    destruct X as (f & FA). exists f. intros s z FS K IS. cbn [prefixed]. apply (FA s z FS); [|exact IS]. unfold find_var in K. destruct (find (fun p => text_eqb (fst p) (as_string s)) d) as [p|] eqn:E; [|destruct (K eq_refl)].
    apply find_some in E. destruct E as [IN Q]. apply text_eqb_eq in Q. rewrite <- Q. apply in_map. exact IN.
  Qed.
End Initial.

Section Implied.
  Variables (H : host) (G : inspection) (I : purity) (modified : expr -> list statement -> bool) (mutable : item -> bool) (unsat : zexpr -> bool) (hidden : nat -> list string).
  Hypothesis CH : closed_host H.
  Hypothesis MO : modifications hidden modified.
  Hypothesis SU : sound unsat.
  Context {W : Type}.
  Variables (P : python W) (M : machine W).
  Hypothesis AG : agrees P H.
  Hypothesis RG : regular P M I hidden.

  Theorem implied inside c1 block c2 w w1 w2 :
    condition_implies H G I modified mutable unsat inside c1 block c2 = Ok true ->
    (inside = true -> exists b l o rest, block = SIf ((c1, b) :: l) o :: rest) ->
    forallb tidy block = true -> fine c1 = true -> fine c2 = true ->
    integral P (c1, w) -> test P c1 w = (w1, Ok true) ->
    run P M block w1 = (w2, Done) -> Forall (integral P) (evaluated_in P M block w1) ->
    integral P (c2, w2) -> test P c2 w2 = (w2, Ok true).
  Proof.
    intros E INS T F1 F2 I1 T1 R IB I2. unfold condition_implies in E.
    destruct (validate_all H G I modified mutable block (if inside then map Statement block ++ [Condition c2] else Condition c1 :: map Statement block ++ [Condition c2]) []) as [[[] d]|] eqn:VA; cbn [bind fst snd] in E; try discriminate.
    assert (FB : Forall fine_item (map Statement block ++ [Condition c2])).
    { apply Forall_app. split; [|constructor; [exact F2|constructor]]. apply Forall_map. apply Forall_forall. intros s IN. rewrite forallb_forall in T. exact (T s IN). }
    assert (FI : Forall fine_item (if inside then map Statement block ++ [Condition c2] else Condition c1 :: map Statement block ++ [Condition c2])) by (destruct inside; [exact FB|constructor; [exact F1|exact FB]]).
    destruct (items_valid H G I modified mutable block hidden MO _ FI [] d VA) as [VI GD]. specialize (GD (Forall_nil _)).
    assert (VR : Forall (valid_item H G I) (map Statement block ++ [Condition c2])) by (destruct inside; [exact VI|inversion VI; assumption]).
    apply Forall_app in VR. destruct VR as [VB V2]. inversion V2 as [|? ? VC2 _]; subst. cbn [valid_item] in VC2. destruct VC2 as [PC2 IC2]. rewrite Forall_map in VB. cbn [valid_item] in VB.
    assert (V1 : is_pure_expression I c1 = true /\ initialized H G c1).
    { destruct inside; [|inversion VI; assumption]. destruct (INS eq_refl) as (b & l & o & rest & ->). inversion VB as [|? ? VS _]; subst. apply valid_if in VS. destruct VS as [VL _]. inversion VL as [|? ? [X _] _]; subst. exact X. }
    destruct V1 as [PC1 IC1]. clear VI V2 VA FB.
    pose proof (good_stable I hidden (flat_map assigned_in block) d GD) as ST. destruct (first_values P I hidden (flat_map assigned_in block) d w GD) as (f & TR).
    unfold convert_with_blocks in E. cbn [translate_all] in E. destruct (translate H d (fun _ => 0) true c1) as [[z1|]|] eqn:TZ1; cbn [bind option_map] in E; try discriminate.
    cbn [convert_rest] in E. destruct (after_block H d block (fun _ => 0) {| count := fun _ => 0; relations := [] |} [] []) as [[[r st']|]|] eqn:AB; cbn [bind] in E; try discriminate.
    cbn [translate_all] in E. destruct (translate H d (update (fun _ => 0) (changed r)) true c2) as [[z2|]|] eqn:TZ2; cbn [bind option_map] in E; try discriminate.
    cbn [convert_rest app bind fst snd relations] in E. injection E as E.
    destruct (condition_meaning H G CH P d AG c1 z1 f (fun _ => 0) w IC1 F1 I1 TR TZ1) as (b1 & v1 & G1 & TV1 & Z1).
    assert (TE : test P c1 w = (w, Ok b1)) by (unfold test, andthen; unfold gives in G1; rewrite G1; exact TV1). rewrite TE in T1. assert (w1 = w) by congruence. assert (b1 = true) by congruence. subst w1 b1.
    assert (O0 : ok_st {| count := fun _ => 0; relations := [] |}) by constructor. assert (L0 : le (fun _ : text => 0) (count {| count := fun _ => 0; relations := [] |})) by apply le_refl'.
    destruct (block_follows_all H G I CH P M d hidden (flat_map assigned_in block) AG RG ST block VB T (incl_refl _) (fun _ => 0) _ r st' w w2 L0 O0 AB R IB f (Forall_nil _) TR) as (EN & f' & A1 & S1 & TR' & SA).
    destruct (condition_meaning H G CH P d AG c2 z2 f' _ w2 IC2 F2 I2 TR' TZ2) as (b2 & v2 & G2 & TV2 & Z2).
    assert (TE2 : test P c2 w2 = (w2, Ok b2)) by (unfold test, andthen; unfold gives in G2; rewrite G2; exact TV2). rewrite TE2. destruct b2; [reflexivity|]. exfalso.
    unfold implies in E. apply (SU _ E (env f')). pose proof (translate_condition H d (fun _ => 0) c1 z1 (fun _ => 0) TZ1 L0) as C1. cbn [count] in A1.
    assert (Z1' : zeval (env f') z1 = Some (ZB true)) by (rewrite (zeval_agree _ f f' z1 A1 (proj1 C1)); exact Z1).
    rewrite (value_and (env f') _ [true; true]); [reflexivity|]. constructor; [|constructor; [|constructor]].
    - assert (S2 : sat f' (relations st' ++ assertions r)) by (apply sat_app; split; assumption).
      rewrite (value_and (env f') _ (map (fun _ => true) (relations st' ++ assertions r))); [clear; f_equal; f_equal; induction (relations st' ++ assertions r) as [|y m IH]; [reflexivity|exact IH]|].
      clear E. induction S2; constructor; assumption.
    - rewrite (value_not _ _ false); [reflexivity|]. rewrite (value_implies _ _ _ true false Z1' Z2). reflexivity.
  Qed.
End Implied.
