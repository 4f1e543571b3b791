(** Proofs about the analysis of blocks: statements and blocks. *)
From Coq Require Import String List Bool Arith NArith ZArith QArith Qabs Qround Lia.
From Verif Require Import Base PyModel PySpec PyProofs IfModel IfSpec IfProofs FoldModel FoldSpec FoldProofs TypeModel LocalModel LocalSpec LocalProofs LetterProofs MergeSpec SolverModel SolverSpec SolverProofs BlockModel BlockSpec BlockProofs BlockEnvProofs BlockStepProofs BlockChoiceProofs BlockAssignProofs.
Import ListNotations.
Local Open Scope string_scope.
Local Open Scope list_scope.
Local Open Scope nat_scope.

(** ** Statements without their inner loops *)
Section Unfold.
  Context {W : Type}.
  Variables (P : python W) (M : machine W).
  Fixpoint run_branches (orelse : list statement) (l : list (expr * list statement)) (w : W) : W * outcome :=
    match l with
    | [] => run P M orelse w
    | (t, b) :: l => match test P t w with (w, Ok true) => run P M b w | (w, Ok false) => run_branches orelse l w | (w, Raise x) => (w, Failed x) end
    end.
  Lemma exec_if l o w : exec P M (SIf l o) w = run_branches o l w.
  Proof. cbn [exec]. revert w. induction l as [|[t b] l IH]; intro w; [reflexivity|]. cbn [run_branches]. destruct (test P t w) as [w1 [[]|]]; [reflexivity|exact (IH w1)|reflexivity]. Qed.
  Fixpoint evaluated_branches (orelse : list statement) (l : list (expr * list statement)) (w : W) : list (expr * W) :=
    match l with
    | [] => evaluated_in P M orelse w
    | (t, b) :: l => (t, w) :: if holds_now P t w then evaluated_in P M b w else evaluated_branches orelse l w
    end.
  Lemma evaluated_if l o w : evaluated P M (SIf l o) w = evaluated_branches o l w.
  Proof. cbn [evaluated]. induction l as [|[t b] l IH]; [reflexivity|]. cbn [evaluated_branches]. rewrite <- IH. reflexivity. Qed.
End Unfold.
Section UnfoldAnalysis.
  Variables (H : host) (d : variables).
  Definition finish (cur : counts) (st : written) (conditions : list zexpr) (branch_changes : list changes) (asserted : list zexpr) (has_else always : bool) : res (option (effect * written)) :=
    if always then Ok (Some ({| changed := []; assertions := []; ends := true |}, st))
    else
      do r <- new_variables d (names_changed branch_changes) cur conditions branch_changes has_else st [];
      Ok (Some ({| changed := fst r; assertions := asserted; ends := false |}, snd r)).
  Fixpoint after_branches (cur : counts) (orelse : list statement) (l : list (expr * list statement)) (st : written) (conditions : list zexpr) (branch_changes : list changes)
      (asserted : list zexpr) (always : bool) : res (option (effect * written)) :=
    match l with
    | [] =>
        match orelse with
        | [] => finish cur st conditions branch_changes asserted false false
        | _ =>
            do r <- after_block H d orelse cur st [] [];
            match r with
            | None => Ok None
            | Some (f, st) =>
                finish cur st conditions (if ends f then branch_changes else branch_changes ++ [changed f])
                  (asserted ++ else_assertions conditions f) true (always && ends f)
            end
        end
    | (t, b) :: l =>
        do c <- translate H d cur true t;
        do r <- after_block H d b cur st [] [];
        match c, r with
        | Some c, Some (f, st) =>
            after_branches cur orelse l st (if ends f then conditions else conditions ++ [c]) (if ends f then branch_changes else branch_changes ++ [changed f])
              (asserted ++ branch_assertions conditions c f) (always && ends f)
        | _, _ => Ok None
        end
    end.
  Lemma after_if l o cur st : after_statement H d (SIf l o) cur st = after_branches cur o l st [] [] [] true.
  Proof.
    cbn [after_statement].
    match goal with |- ?F l st [] [] [] true = _ => assert (K : forall l st c b a al, F l st c b a al = after_branches cur o l st c b a al); [|exact (K l st [] [] [] true)] end.
    clear l st. induction l as [|[t b] l IH]; intros st c bc a al; [reflexivity|]. cbn [after_branches]. destruct (translate H d cur true t) as [[z|]|]; cbn [bind]; [| |reflexivity].
    - change (after_block H d b cur st [] []) with ((fix block (l : list statement) (cur : counts) (st : written) (done : changes) (so_far : list zexpr) {struct l}
      : res (option (effect * written)) :=
      match l with
      | [] => Ok (Some ({| changed := done; assertions := so_far; ends := false |}, st))
      | s :: l =>
          do r <- after_statement H d s cur st;
          match r with
          | None => Ok None
          | Some (f, st) =>
              if ends f then Ok (Some ({| changed := []; assertions := []; ends := true |}, st))
              else block l (update cur (changed f)) st (merge_changes done (changed f)) (so_far ++ assertions f)
          end
      end) b cur st [] []).
      match goal with |- bind ?x _ = _ => destruct x as [[[f st1]|]|] end; cbn [bind]; [apply IH|reflexivity|reflexivity].
    - reflexivity.
  Qed.
End UnfoldAnalysis.

Lemma update_nil cur k : update cur [] k = cur k.
Proof. destruct k as [|[] [|]]; reflexivity. Qed.

Section Valid.
  Variables (H : host) (G : inspection) (I : purity).
  Notation initialized := (initialized H G).
  (** Validated statements. *)
  Fixpoint valid (s : statement) : Prop :=
    match s with
    | SAssign chained t v => chained = false /\ pure_rhs I v = true /\ match t, v with Single _, Display _ => False | _, _ => Forall initialized (flat_map pieces (values_of t v)) end
    | SAnnotated t (Some e) => pure_value I e = true /\ Forall initialized (pieces e)
    | SAnnotated t None => False
    | SAugmented (Var x) o e => pure_value I e = true /\ nonlinear H (Binary o (Name x) e) = Ok false /\ Forall initialized (pieces e)
    | SAugmented Elsewhere _ _ => False
    | SExpr v => pure_rhs I v = true
    | SPass | SEnd => True
    | SAssert e => is_pure_expression I e = true /\ Forall initialized (pieces e)
    | SIf l o =>
        fold_right (fun p q => ((is_pure_expression I (fst p) = true /\ initialized (fst p)) /\ fold_right (fun s q => valid s /\ q) True (snd p)) /\ q) True l /\
        fold_right (fun s q => valid s /\ q) True o
    | SOther _ => False
    end.
  Lemma fold_valid l : fold_right (fun s q => valid s /\ q) True l <-> Forall valid l.
  Proof. induction l as [|s l IH]; cbn [fold_right]; [split; [constructor|exact (fun _ => Logic.I)]|]. rewrite IH. split; [intros [X Y]; constructor; assumption|intro F; inversion F; subst; split; assumption]. Qed.
  Lemma valid_if l o : valid (SIf l o) <-> Forall (fun p => (is_pure_expression I (fst p) = true /\ initialized (fst p)) /\ Forall valid (snd p)) l /\ Forall valid o.
  Proof.
    cbn [valid]. rewrite fold_valid. apply and_iff_compat_r. induction l as [|p l IH]; cbn [fold_right]; [split; [constructor|exact (fun _ => Logic.I)]|]. rewrite IH, fold_valid.
    split; [intros [X Y]; constructor; assumption|intro F; inversion F; subst; split; assumption].
  Qed.
  Lemma tidy_if l o : tidy (SIf l o) = true -> Forall (fun p => fine (fst p) = true /\ forallb tidy (snd p) = true) l /\ forallb tidy o = true.
  Proof.
    cbn [tidy]. intro T. apply andb_true_iff in T. destruct T as [T TO]. split; [|exact TO]. rewrite forallb_forall in T. apply Forall_forall. intros p IN. specialize (T p IN). apply andb_true_iff in T. exact T.
  Qed.
End Valid.

(** ** What the analysis of statements gives, whatever they do *)
Section Static.
  Variables (H : host) (G : inspection) (I : purity) (d : variables).
  Definition sound_step (st : written) (r : effect) (st' : written) : Prop :=
    le (count st) (count st') /\ ok_st st' /\ ok_changes d (count st') (changed r) /\ Forall (condition (count st')) (assertions r) /\
    forall f, sat f (relations st) -> exists f', agree (count st) f f' /\ sat f' (relations st').
  Lemma sound_trans st1 r1 st2 r2 st3 : sound_step st1 r1 st2 -> sound_step st2 r2 st3 -> sound_step st1 r2 st3.
  Proof.
    intros (L1 & _ & _ & _ & X1) (L2 & O2 & C2 & A2 & X2). split; [exact (le_trans' _ _ _ L1 L2)|]. split; [exact O2|]. split; [exact C2|]. split; [exact A2|].
    intros f S1. destruct (X1 f S1) as (f1 & A1 & S2). destruct (X2 f1 S2) as (f2 & A3 & S3). exists f2. split; [exact (agree_trans _ _ _ _ _ L1 A1 A3)|exact S3].
  Qed.
  Lemma sound_refl st r : ok_st st -> ok_changes d (count st) (changed r) -> Forall (condition (count st)) (assertions r) -> sound_step st r st.
  Proof. intros O C A. split; [apply le_refl'|]. split; [exact O|]. split; [exact C|]. split; [exact A|]. intros f S1. exists f. split; [apply agree_refl|exact S1]. Qed.
  Lemma conditions_le c c' l : le c c' -> Forall (condition c) l -> Forall (condition c') l.
  Proof. intros L. apply Forall_impl. intros z. apply condition_le. exact L. Qed.
  Lemma block_static l : Forall (fun s => forall cur st r st', tidy s = true -> le cur (count st) -> ok_st st -> after_statement H d s cur st = Ok (Some (r, st')) -> sound_step st r st') l ->
    forall cur st done so_far r st', forallb tidy l = true -> le cur (count st) -> ok_st st -> ok_changes d (count st) done -> Forall (condition (count st)) so_far ->
    after_block H d l cur st done so_far = Ok (Some (r, st')) -> sound_step st r st'.
  Proof.
    induction 1 as [|s l X F IH]; intros cur st done so_far r st' T L O D S1 E; cbn [after_block] in E.
    - injection E as <- <-. apply sound_refl; assumption.
    - cbn [forallb] in T. apply andb_true_iff in T. destruct T as [TS TL]. destruct (after_statement H d s cur st) as [[[f st1]|]|] eqn:ES; cbn [bind] in E; try discriminate.
      pose proof (X cur st f st1 TS L O ES) as SS. destruct (ends f).
      + injection E as <- <-. destruct SS as (L1 & O1 & C1 & A1 & X1). split; [exact L1|]. split; [exact O1|]. split; [apply ok_nil|]. split; [constructor|exact X1].
      + refine (sound_trans _ _ _ _ _ SS _). destruct SS as (L1 & O1 & C1 & A1 & X1). refine (IH _ _ _ _ _ _ TL _ O1 _ _ E).
        * apply (update_le d); [exact (le_trans' _ _ _ L L1)|exact C1].
        * apply ok_merge; [exact (changes_le d _ _ _ L1 D)|exact C1].
        * apply Forall_app. split; [exact (conditions_le _ _ _ L1 S1)|exact A1].
  Qed.
  Lemma leaf_ok_var c n x int : n <= c [TName x] -> leaf_ok c (ZVar (prefixed [TName x] n) int).
  Proof. intro L. split; [exact (old_name c x n L)|]. split; [destruct int; discriminate|reflexivity]. Qed.
  Lemma how_ok x int cur c e : le cur c -> forall l conditions v, Forall (condition c) conditions -> Forall (ok_changes d c) l -> how_changed x int cur conditions l e = Ok v -> choice_ok c v.
  Proof.
    intros L l. induction l as [|b l IH]; intros conditions v C B E; cbn [how_changed] in E.
    - destruct e; [discriminate E|]. injection E as <-. apply leaf_ok_var. rewrite update_nil. apply L.
    - inversion B as [|? ? B1 B2]; subst. assert (LF : choice_ok c (leaf x int cur b)) by (apply leaf_ok_var; exact (update_le d cur c b L B1 [TName x])).
      destruct (e && _); [injection E as <-; exact LF|]. destruct conditions as [|z cs]; [discriminate|]. inversion C as [|? ? C1 C2]; subst.
      destruct (how_changed x int cur cs l e) as [v'|] eqn:HC; cbn [bind] in E; [|discriminate]. injection E as <-. split; [exact C1|]. split; [exact LF|exact (IH cs v' C2 B2 HC)].
  Qed.
  Lemma new_static cur conditions l e xs : forall st done r, le cur (count st) -> ok_st st -> ok_changes d (count st) done -> Forall (condition (count st)) conditions -> Forall (ok_changes d (count st)) l ->
    new_variables d xs cur conditions l e st done = Ok r ->
    le (count st) (count (snd r)) /\ ok_st (snd r) /\ ok_changes d (count (snd r)) (fst r) /\ forall f, sat f (relations st) -> exists f', agree (count st) f f' /\ sat f' (relations (snd r)).
  Proof.
    induction xs as [|x xs IH]; intros st done r L O D C B E; cbn [new_variables] in E.
    - injection E as <-. split; [apply le_refl'|]. split; [exact O|]. split; [exact D|]. intros f S1. exists f. split; [apply agree_refl|exact S1].
    - destruct (find_var d [TName x]) as [int|] eqn:FV; [|discriminate]. destruct (how_changed x int cur conditions l e) as [v|] eqn:HC; cbn [bind] in E; [|discriminate].
      destruct (update_relations x int v st) as [n s1] eqn:U. assert (V := how_ok x int cur (count st) e L l conditions v C B HC). destruct (write_count x int v st s1 n U) as (E1 & E2 & L1).
      destruct (IH s1 (set_change x n done) r (le_trans' _ _ _ L L1) (write_ok x int v st s1 n U O V)) as (L2 & O2 & C2 & X).
      + apply ok_set; [exact (changes_le d _ _ _ L1 D)|congruence|rewrite E2, bump_same; lia].
      + exact (conditions_le _ _ _ L1 C).
      + revert B. apply Forall_impl. intro b. exact (changes_le d _ _ b L1).
      + exact E.
      + split; [exact (le_trans' _ _ _ L1 L2)|]. split; [exact O2|]. split; [exact C2|]. intros f S1. destruct (write_static x int v st s1 n U O V f S1) as (f1 & A1 & S2). destruct (X f1 S2) as (f2 & A2 & S3).
        exists f2. split; [exact (agree_trans _ _ _ _ _ L1 A1 A2)|exact S3].
  Qed.
  Lemma finish_static cur st conditions bc asserted e always r st' : le cur (count st) -> ok_st st -> Forall (condition (count st)) conditions -> Forall (ok_changes d (count st)) bc -> Forall (condition (count st)) asserted ->
    finish d cur st conditions bc asserted e always = Ok (Some (r, st')) -> sound_step st r st'.
  Proof.
    intros L O C B A E. unfold finish in E. destruct always; [injection E as <- <-; apply sound_refl; [exact O|apply ok_nil|constructor]|].
    destruct (new_variables d (names_changed bc) cur conditions bc e st []) as [r0|] eqn:N; cbn [bind] in E; [|discriminate]. injection E as <- <-.
    destruct (new_static cur conditions bc e _ st [] r0 L O (ok_nil d _) C B N) as (L1 & O1 & C1 & X). split; [exact L1|]. split; [exact O1|]. split; [exact C1|]. split; [exact (conditions_le _ _ _ L1 A)|exact X].
  Qed.
  Lemma negated_conditions c l : Forall (condition c) l -> Forall (condition c) (map ZNot l).
  Proof. intro F. apply Forall_map. revert F. apply Forall_impl. intro z. apply condition_not. Qed.
  Lemma branch_conditions c conditions z f : Forall (condition c) conditions -> condition c z -> Forall (condition c) (assertions f) -> Forall (condition c) (branch_assertions conditions z f).
  Proof.
    intros C Z A. unfold branch_assertions. pose proof (negated_conditions _ _ C) as N. destruct (ends f).
    - constructor; [|constructor]. destruct conditions; [exact (condition_not _ _ Z)|]. apply condition_implies'; [apply condition_and; exact N|exact (condition_not _ _ Z)].
    - apply Forall_map. revert A. apply Forall_impl. intros a CA. apply condition_implies'; [|exact CA]. destruct conditions; [exact Z|]. apply condition_and. apply Forall_app. split; [exact N|constructor; [exact Z|constructor]].
  Qed.
  Lemma else_conditions c conditions f : Forall (condition c) conditions -> Forall (condition c) (assertions f) -> Forall (condition c) (else_assertions conditions f).
  Proof.
    intros C A. unfold else_assertions. destruct (ends f); [constructor; [apply condition_or; exact C|constructor]|]. apply Forall_map. revert A. apply Forall_impl. intros a CA.
    apply condition_implies'; [apply condition_and; exact (negated_conditions _ _ C)|exact CA].
  Qed.
  Definition static_block (b : list statement) : Prop := forall cur st r st', le cur (count st) -> ok_st st -> after_block H d b cur st [] [] = Ok (Some (r, st')) -> sound_step st r st'.
  Lemma branches_static cur o l : Forall (fun p => static_block (snd p)) l -> static_block o ->
    forall st conditions bc asserted always r st', le cur (count st) -> ok_st st -> Forall (condition (count st)) conditions -> Forall (ok_changes d (count st)) bc -> Forall (condition (count st)) asserted ->
    after_branches H d cur o l st conditions bc asserted always = Ok (Some (r, st')) -> sound_step st r st'.
  Proof.
    intros F SO. induction F as [|[t b] l SB F IH]; intros st conditions bc asserted always r st' L O C B A E; cbn [after_branches] in E.
    - destruct o as [|s o]; [exact (finish_static _ _ _ _ _ _ _ _ _ L O C B A E)|]. destruct (after_block H d (s :: o) cur st [] []) as [[[f st1]|]|] eqn:EB; cbn [bind] in E; try discriminate.
      pose proof (SO cur st f st1 L O EB) as SS. refine (sound_trans _ _ _ _ _ SS _). destruct SS as (L1 & O1 & C1 & A1 & X1).
      refine (finish_static _ _ _ _ _ _ _ _ _ (le_trans' _ _ _ L L1) O1 (conditions_le _ _ _ L1 C) _ _ E).
      + assert (B' : Forall (ok_changes d (count st1)) bc) by (revert B; apply Forall_impl; intro x; exact (changes_le d _ _ x L1)). destruct (ends f); [exact B'|]. apply Forall_app. split; [exact B'|constructor; [exact C1|constructor]].
      + apply Forall_app. split; [exact (conditions_le _ _ _ L1 A)|]. apply else_conditions; [exact (conditions_le _ _ _ L1 C)|exact A1].
    - cbn [snd] in SB. destruct (translate H d cur true t) as [c|] eqn:TT; cbn [bind] in E; [|discriminate]. destruct (after_block H d b cur st [] []) as [[[f st1]|]|] eqn:EB; cbn [bind] in E; try (destruct c; discriminate).
      destruct c as [c|]; [|discriminate]. pose proof (SB cur st f st1 L O EB) as SS. refine (sound_trans _ _ _ _ _ SS _). destruct SS as (L1 & O1 & C1 & A1 & X1).
      pose proof (translate_condition H d cur t c (count st1) TT (le_trans' _ _ _ L L1)) as CC.
      refine (IH _ _ _ _ _ _ _ (le_trans' _ _ _ L L1) O1 _ _ _ E).
      + destruct (ends f); [exact (conditions_le _ _ _ L1 C)|]. apply Forall_app. split; [exact (conditions_le _ _ _ L1 C)|constructor; [exact CC|constructor]].
      + assert (B' : Forall (ok_changes d (count st1)) bc) by (revert B; apply Forall_impl; intro x; exact (changes_le d _ _ x L1)). destruct (ends f); [exact B'|]. apply Forall_app. split; [exact B'|constructor; [exact C1|constructor]].
      + apply Forall_app. split; [exact (conditions_le _ _ _ L1 A)|]. apply branch_conditions; [exact (conditions_le _ _ _ L1 C)|exact CC|exact A1].
  Qed.
  Lemma assignment_static s cur st l st' : tidy s = true -> le cur (count st) -> ok_st st -> after_assignment H d s cur st = Ok (Some (l, st')) ->
    sound_step st {| changed := l; assertions := []; ends := false |} st'.
  Proof.
    intros T L O E.
    assert (K : forall ts values, Forall (fun e => tidy_value e = true) values -> assign_all H d cur false ts values st [] = Ok (Some (l, st')) -> sound_step st {| changed := l; assertions := []; ends := false |} st').
    { intros ts values V AS. destruct (assign_static H d cur ts values st [] l st' V L O (ok_nil d _) AS) as (L1 & O1 & C1 & X). split; [exact L1|]. split; [exact O1|]. split; [exact C1|]. split; [constructor|exact X]. }
    destruct s as [ch t v|t [e|]|[x|] o e| | | | | | ]; cbn [after_assignment] in E; try discriminate.
    - destruct t as [t|ts], v as [e|es]; cbn [tidy parent_bool values_of parts] in *; try discriminate.
      + apply (K _ _ (Forall_cons _ T (Forall_nil _)) E).
      + apply (K _ _ (Forall_nil _) E).
      + apply (K _ _ (proj2 (Forall_forall _ _) (proj1 (forallb_forall _ _) T)) E).
    - apply (K _ _ (Forall_cons _ T (Forall_nil _)) E).
    - cbn [tidy] in T. apply andb_true_iff in T. destruct T as [T _]. apply andb_true_iff in T. destruct T as [T _]. apply (K _ _ (Forall_cons _ T (Forall_nil _)) E).
  Qed.
  Lemma statement_static s : forall cur st r st', tidy s = true -> le cur (count st) -> ok_st st -> after_statement H d s cur st = Ok (Some (r, st')) -> sound_step st r st'.
  Proof.
    induction s as [s SI|l o FL FO] using statement_ind'; intros cur st r st' T L O E.
    - assert (TRIV : forall e', ok_st st -> sound_step st {| changed := []; assertions := []; ends := e' |} st) by (intros; apply sound_refl; [assumption|apply ok_nil|constructor]).
      destruct s; try contradiction; cbn [after_statement] in E; try (injection E as <- <-; apply TRIV; exact O).
      + destruct (after_assignment H d _ cur st) as [[[l st1]|]|] eqn:EA; cbn [bind option_map fst snd] in E; try discriminate; injection E as <- <-; exact (assignment_static _ _ _ _ _ T L O EA).
      + destruct (after_assignment H d _ cur st) as [[[l st1]|]|] eqn:EA; cbn [bind option_map fst snd] in E; try discriminate; injection E as <- <-; exact (assignment_static _ _ _ _ _ T L O EA).
      + destruct (after_assignment H d _ cur st) as [[[l st1]|]|] eqn:EA; cbn [bind option_map fst snd] in E; try discriminate; injection E as <- <-; exact (assignment_static _ _ _ _ _ T L O EA).
      + destruct (translate H d cur true t) as [[z|]|] eqn:TT; cbn [bind option_map] in E; try discriminate. injection E as <- <-. apply sound_refl; [exact O|apply ok_nil|].
      constructor; [exact (translate_condition H d cur t z (count st) TT L)|constructor].
    - rewrite after_if in E. destruct (tidy_if l o T) as [TL TO].
      assert (BS : forall b, Forall (fun s => forall cur st r st', tidy s = true -> le cur (count st) -> ok_st st -> after_statement H d s cur st = Ok (Some (r, st')) -> sound_step st r st') b -> forallb tidy b = true -> static_block b).
      { intros b FB TB cur' st1 r1 st2 L1 O1 E1. exact (block_static b FB cur' st1 [] [] r1 st2 TB L1 O1 (ok_nil d _) (Forall_nil _) E1). }
      refine (branches_static cur o l _ (BS o FO TO) st [] [] [] true r st' L O (Forall_nil _) (Forall_nil _) (Forall_nil _) E).
      clear E. rewrite Forall_forall in *. intros p IN. apply BS; [exact (FL p IN)|exact (proj2 (TL p IN))].
  Qed.
  Lemma static_all b : forallb tidy b = true -> static_block b.
  Proof.
    intros T cur st r st' L O E. refine (block_static b _ cur st [] [] r st' T L O (ok_nil d _) (Forall_nil _) E). apply Forall_forall. intros s _. exact (statement_static s).
  Qed.
End Static.
