(** Proofs about changes between two places. *)
From Coq Require Import String List Bool Arith Lia.
From Verif Require Import Base CfgModel CfgBlockProofs CfgWfProofs CfgOpProofs CfgVisitProofs CfgTryProofs CfgTidyProofs CfgLoopProofs.
From Verif Require CfgSpec ReachModel.
From Verif Require Import WalkModel WalkSpec WalkProofs WalkStartProofs WalkBackProofs WalkCfgProofs.
From Verif Require Import BetweenModel BetweenSpec.
Import ListNotations.
Local Open Scope list_scope.
Local Open Scope nat_scope.

Lemma same_place_iff : forall p q, same_place p q = true <-> p = q.
Proof.
  intros [a b] [c d]. unfold same_place. cbn [fst snd]. rewrite andb_true_iff, !Nat.eqb_eq. split; [intros [-> ->]; reflexivity|]. intro E. split; congruence.
Qed.
Lemma other_place : forall p q, same_place p q = false <-> p <> q.
Proof. intros p q. rewrite <- (same_place_iff p q). destruct (same_place p q); split; congruence. Qed.
Lemma changes_iff : forall events var p, changes events var p = true <-> changed_at events var p.
Proof.
  intros events var p. unfold changes, changed_at. rewrite existsb_exists. split; intros (k & I & H); exists k; (split; [exact I|]); destruct k; congruence.
Qed.

Section Graph.
Variable t : state.
Notation back before := (stops (Some (fun b i => same_place (b, i) before))).
Notation from before after := (reached (sizes t) (around t false) false (back before) true [after]).

Lemma back_stop : forall before q, back before q = same_place q before.
Proof. intros before [b i]. reflexivity. Qed.
Lemma reached_way : forall before after q, from before after q -> q <> before -> way t before q after.
Proof.
  intros before after q R. induction R as [s I _|s q I X|q r R IH N S0]; intro D.
  - destruct I as [->|[]]. apply way_none. exact D.
  - discriminate X.
  - rewrite back_stop in N. apply other_place in N. exact (way_first t before r q after D S0 (IH N)).
Qed.
Lemma way_not : forall before q after, way t before q after -> q <> before.
Proof. intros before q after H. destruct H; assumption. Qed.
Lemma way_reached : forall before after q, way t before q after -> from before after q.
Proof.
  intros before after q H. induction H as [p D|p q r D S0 H IH].
  - apply reached_start; [left; reflexivity|reflexivity].
  - apply (reached_step _ _ _ _ _ _ q); [exact IH| |exact S0]. rewrite back_stop. apply other_place. exact (way_not _ _ _ H).
Qed.
End Graph.

Section Program.
Variables (body : list stmt) (t : state).
Hypothesis GR : forallb CfgSpec.grammatical body = true.
Hypothesis ND : NoDup (0 :: flat_map CfgSpec.numbers body).
Hypothesis E : visit_module body = Ok t.
Variable events : nat -> nat * nat -> list ReachModel.event_kind.
Notation between := (is_changed_between (sizes t) (around t false) events).

Lemma walked_back : forall before after, snd after < sizes t (fst after) -> exists m, forall fuel, m <= fuel -> exists l,
  back_from (sizes t) (around t false) fuel before after = Ok l /\ forall q, In q l <-> way t before q after.
Proof.
  intros before [b i] L. destruct (program_walk body t GR ND E false b i (Some (fun b i => same_place (b, i) before)) true false L) as (m & H).
  exists m. intros fuel M. destruct (H fuel M) as (l & A & _ & Q). exists l. split; [exact A|]. intro q. rewrite Q. split.
  - intros [R [X|X]]; [discriminate X|]. rewrite back_stop in X. apply other_place in X. exact (reached_way t before (b, i) q R X).
  - intro W. split; [exact (way_reached t before (b, i) q W)|]. right. rewrite back_stop. apply other_place. exact (way_not _ _ _ _ W).
Qed.
Lemma between_right : forall var before afters, (forall p, In p afters -> snd p < sizes t (fst p)) -> exists m, forall fuel, m <= fuel -> exists r,
  between fuel var before afters = Ok r /\ (r = true <-> exists after, In after afters /\ changed_on_way t events var before after).
Proof.
  intros var before. induction afters as [|after afters IH]; intro V.
  - exists 0. intros fuel _. exists false. split; [reflexivity|]. split; [discriminate|]. intros (a & [] & _).
  - destruct (walked_back before after (V after (or_introl eq_refl))) as (m1 & H1). destruct IH as (m2 & H2); [intros p I; apply V; right; exact I|].
    exists (max m1 m2). intros fuel M. destruct (H1 fuel ltac:(lia)) as (l & A & Q). destruct (H2 fuel ltac:(lia)) as (r & B & R).
    cbn [is_changed_between]. rewrite A. cbn [bind]. destruct (existsb (changes events var) l) eqn:X.
    + exists true. split; [reflexivity|]. split; [intros _|reflexivity]. apply existsb_exists in X as (q & I & X). exists after. split; [left; reflexivity|].
      exists q. split; [apply Q; exact I|apply changes_iff; exact X].
    + exists r. split; [exact B|]. rewrite R. split; intros (a & I & H).
      * exists a. split; [right; exact I|exact H].
      * destruct I as [<-|I]; [|exists a; split; assumption]. exfalso. destruct H as (q & W & C). apply Q in W. apply changes_iff in C.
        assert (Y : existsb (changes events var) l = true) by (apply existsb_exists; exists q; split; assumption). congruence.
Qed.
Lemma any_var_right : forall before afters, (forall p, In p afters -> snd p < sizes t (fst p)) -> forall vars, exists m, forall fuel, m <= fuel -> exists r,
  any_var (sizes t) (around t false) events fuel vars before afters = Ok r /\
  (r = true <-> exists var after, In var vars /\ In after afters /\ changed_on_way t events var before after).
Proof.
  intros before afters V. induction vars as [|v vars IH].
  - exists 0. intros fuel _. exists false. split; [reflexivity|]. split; [discriminate|]. intros (a & b & [] & _).
  - destruct (between_right v before afters V) as (m1 & H1). destruct IH as (m2 & H2). exists (max m1 m2). intros fuel M.
    destruct (H1 fuel ltac:(lia)) as (c & A & Q). destruct (H2 fuel ltac:(lia)) as (r & B & R). cbn [any_var]. rewrite A. cbn [bind]. destruct c.
    + exists true. split; [reflexivity|]. split; [intros _|reflexivity]. destruct (proj1 Q eq_refl) as (a & I & H). exists v, a. split; [left; reflexivity|split; assumption].
    + exists r. split; [exact B|]. rewrite R. split; intros (w & a & I & J & H).
      * exists w, a. split; [right; exact I|split; assumption].
      * destruct I as [<-|I]; [|exists w, a; auto]. assert (false = true) by (apply Q; exists a; split; assumption). discriminate.
Qed.
Theorem tests_right : forall vars first differing, (forall afters p, In afters differing -> In p afters -> snd p < sizes t (fst p)) ->
  exists m, forall fuel, m <= fuel -> exists r, test_variables_change (sizes t) (around t false) events fuel vars first differing = Ok r /\
  (r = true <-> exists var afters after, In var vars /\ In afters differing /\ In after afters /\ changed_on_way t events var first after).
Proof.
  intros vars first. induction differing as [|afters differing IH]; intro V.
  - exists 0. intros fuel _. exists false. split; [reflexivity|]. split; [discriminate|]. intros (a & b & c & _ & [] & _).
  - destruct (any_var_right first afters (fun p I => V afters p (or_introl eq_refl) I) vars) as (m1 & H1). destruct IH as (m2 & H2); [intros l p I; apply V; right; exact I|].
    exists (max m1 m2). intros fuel M. destruct (H1 fuel ltac:(lia)) as (c & A & Q). destruct (H2 fuel ltac:(lia)) as (r & B & R).
    cbn [test_variables_change]. rewrite A. cbn [bind]. destruct c.
    + exists true. split; [reflexivity|]. split; [intros _|reflexivity]. destruct (proj1 Q eq_refl) as (v & a & I & J & H). exists v, afters, a. auto using in_eq.
    + exists r. split; [exact B|]. rewrite R. split; intros (v & l & a & I & J & K & H).
      * exists v, l, a. auto using in_cons.
      * destruct J as [<-|J]; [|exists v, l, a; auto]. assert (false = true) by (apply Q; exists v, a; auto). discriminate.
Qed.
End Program.

(** ** Executions *)

Section Walk.
Variable t : state.
Hypothesis W : wf t.
Hypothesis LO : located t.

Lemma walk_way : forall g b avoided, (forall q, nth_error (locs t (fst q)) (snd q) = Some b -> avoided = q) ->
  nth_error (locs t (fst avoided)) (snd avoided) = Some b -> forall mid p r after, CfgSpec.walk t g (Some p) mid (Some r) ->
  ~ In b mid -> p <> avoided -> way t avoided r after -> way t avoided p after.
Proof.
  intros g b av U B. induction mid as [|z mid IH]; intros p r after H N D Wy; inversion H as [p' X|p' q n l r' S0 K]; subst; [exact Wy|].
  assert (Dq : q <> av). { intros ->. destruct S0 as [M _]. rewrite B in M. apply N. left. congruence. }
  apply (way_first t av p q after D); [eapply step_back; eauto|]. apply (IH q r after K); [intro I; apply N; right; exact I|exact Dq|exact Wy].
Qed.
Lemma run_way : forall g p0 pre x mid y post r b avoided, CfgSpec.walk t g p0 (pre ++ x :: mid ++ y :: post) r -> place_of b t = Ok avoided ->
  nth_error (locs t (fst avoided)) (snd avoided) = Some b -> ~ In b (x :: mid ++ [y]) ->
  exists p q, place_of x t = Ok p /\ place_of y t = Ok q /\ snd q < sizes t (fst q) /\ way t avoided p q.
Proof.
  intros g p0 pre x mid y post r b av H Pb Nb N. apply walk_app in H as (a & _ & H). inversion H as [|a' p n l r' S0 K]; subst.
  apply walk_app in K as (a2 & M & K). inversion K as [|a3 q n l r' S1 K']; subst. exists p, q.
  split; [destruct p; apply (LO _ _ _ (proj1 S0))|]. split; [destruct q; apply (LO _ _ _ (proj1 S1))|].
  split; [apply nth_error_Some; rewrite (proj1 S1); discriminate|].
  assert (U : forall q, nth_error (locs t (fst q)) (snd q) = Some b -> av = q) by (intros [c j] X; cbn [fst snd] in X; apply LO in X; congruence).
  assert (Dp : p <> av) by (intros ->; destruct S0 as [X _]; rewrite Nb in X; apply N; left; congruence).
  assert (Dq : q <> av) by (intros ->; destruct S1 as [X _]; rewrite Nb in X; apply N; right; apply in_app_iff; right; left; congruence).
  destruct (walk_some _ _ _ _ _ M) as [s ->]. 
  apply (walk_way g b av U Nb mid p s q M); [intro I; apply N; right; apply in_app_iff; left; exact I|exact Dp|].
  assert (Ds : s <> av).
  { destruct mid as [|z mid] using rev_ind; [inversion M; subst; exact Dp|]. apply walk_app in M as (a0 & _ & M). inversion M as [|a1 s1 n1 l1 r1 S2 K2]; subst. inversion K2; subst.
    intros ->. destruct S2 as [X _]. rewrite Nb in X. apply N. right. apply in_app_iff. left. apply in_app_iff. right. left. congruence. }
  apply (way_first t av s q q Ds); [eapply step_back; eauto|apply way_none; exact Dq].
Qed.
End Walk.

Lemma noticed body t events var : forallb CfgSpec.grammatical body = true -> NoDup (0 :: flat_map CfgSpec.numbers body) -> visit_module body = Ok t ->
  forall p q avoided afters, snd q < sizes t (fst q) -> way t avoided p q -> In q afters -> (forall r, In r afters -> snd r < sizes t (fst r)) -> changed_at events var p ->
  exists m, forall fuel, m <= fuel -> is_changed_between (sizes t) (around t false) events fuel var avoided afters = Ok true.
Proof.
  intros GR ND E p q av afters L Wy I V C. destruct (between_right body t GR ND E events var av afters V) as (m & H). exists m. intros fuel M.
  destruct (H fuel M) as (r & A & R). rewrite A. f_equal. apply R. exists q. split; [exact I|]. exists p. split; assumption.
Qed.
Lemma walk_noticed body t : forallb CfgSpec.grammatical body = true -> NoDup (0 :: flat_map CfgSpec.numbers body) -> visit_module body = Ok t ->
  forall g pre b mid1 x mid y post r, CfgSpec.walk t g None (pre ++ b :: mid1 ++ x :: mid ++ y :: post) r ->
  ~ In b (x :: mid ++ [y]) -> exists before p q, place_of b t = Ok before /\ place_of x t = Ok p /\ place_of y t = Ok q /\
  forall events var afters, changed_at events var p -> In q afters -> (forall r, In r afters -> snd r < sizes t (fst r)) ->
  exists m, forall fuel, m <= fuel -> is_changed_between (sizes t) (around t false) events fuel var before afters = Ok true.
Proof.
  intros GR ND E g pre b mid1 x mid y post r K N. destruct (built body t GR ND E) as (W & SO & LO).
  assert (Pb : exists av, nth_error (locs t (fst av)) (snd av) = Some b).
  { assert (K0 := K). apply walk_app in K0 as (a & _ & K0). inversion K0 as [|a' av n l r' S0 K1]; subst. exists av. exact (proj1 S0). }
  destruct Pb as (av & Nb). assert (Pb : place_of b t = Ok av) by (destruct av; apply (LO _ _ _ Nb)).
  replace (pre ++ b :: mid1 ++ x :: mid ++ y :: post) with ((pre ++ b :: mid1) ++ x :: mid ++ y :: post) in K by (rewrite <- app_assoc; reflexivity).
  destruct (run_way t W LO g None _ x mid y post r b av K Pb Nb N) as (p & q & Px & Py & L & Wy).
  exists av, p, q. split; [exact Pb|]. split; [exact Px|]. split; [exact Py|]. intros events var afters C I V.
  exact (noticed body t events var GR ND E p q av afters L Wy I V C).
Qed.
Theorem module_noticed swallows body t : forallb CfgSpec.grammatical body = true -> NoDup (0 :: flat_map CfgSpec.numbers body) -> visit_module body = Ok t ->
  forallb (CfgSpec.plain swallows) body = true -> forall pre b mid1 x mid y post o, CfgSpec.runs swallows body (pre ++ b :: mid1 ++ x :: mid ++ y :: post) o ->
  ~ In b (x :: mid ++ [y]) -> exists before p q, place_of b t = Ok before /\ place_of x t = Ok p /\ place_of y t = Ok q /\
  forall events var afters, changed_at events var p -> In q afters -> (forall r, In r afters -> snd r < sizes t (fst r)) ->
  exists m, forall fuel, m <= fuel -> is_changed_between (sizes t) (around t false) events fuel var before afters = Ok true.
Proof.
  intros GR ND E PL pre b mid1 x mid y post o RU N. assert (ND' : NoDup (flat_map CfgSpec.numbers body)) by (inversion ND; auto).
  destruct (module_walks swallows body GR ND') as (t' & E2 & H). assert (t' = t) as -> by congruence.
  destruct (H PL _ _ RU) as [[r K] _]. exact (walk_noticed body t GR ND E 0 pre b mid1 x mid y post r K N).
Qed.
Theorem function_noticed swallows body t : forallb CfgSpec.grammatical body = true -> NoDup (0 :: flat_map CfgSpec.numbers body) -> visit_module body = Ok t ->
  forall n f, In (n, f) (flat_map CfgSpec.functions body) -> forallb (CfgSpec.plain swallows) f = true ->
  forall pre b mid1 x mid y post o, CfgSpec.runs swallows f (pre ++ b :: mid1 ++ x :: mid ++ y :: post) o ->
  ~ In b (x :: mid ++ [y]) -> exists before p q, place_of b t = Ok before /\ place_of x t = Ok p /\ place_of y t = Ok q /\
  forall events var afters, changed_at events var p -> In q afters -> (forall r, In r afters -> snd r < sizes t (fst r)) ->
  exists m, forall fuel, m <= fuel -> is_changed_between (sizes t) (around t false) events fuel var before afters = Ok true.
Proof.
  intros GR ND E n f K PL pre b mid1 x mid y post o RU N. assert (ND' : NoDup (flat_map CfgSpec.numbers body)) by (inversion ND; auto).
  destruct (function_walks swallows body GR ND') as (t' & E2 & H). assert (t' = t) as -> by congruence.
  destruct (H n f K PL) as (g & _ & _ & H2). destruct (H2 _ _ RU) as [[r K2] _].
  exact (walk_noticed body t GR ND E g (Part n Args :: pre) b mid1 x mid y post r K2 N).
Qed.
