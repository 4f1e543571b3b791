(** Walks over the control flow graphs of programs. *)
From Coq Require Import String List Bool Arith Lia.
From Verif Require Import Base CfgModel CfgBlockProofs CfgWfProofs CfgOpProofs CfgVisitProofs CfgTryProofs CfgTidyProofs CfgLoopProofs.
From Verif Require CfgSpec.
From Verif Require Import WalkModel WalkSpec WalkProofs WalkStartProofs WalkBackProofs.
Import ListNotations.
Local Open Scope list_scope.
Local Open Scope nat_scope.

Section Graph.
Variable t : state.
Hypothesis W : wf t.
Hypothesis SO : sourced t.
Hypothesis LO : located t.
Notation size := (sizes t).

Lemma graph_closed d : closed (blocks t) (around t d).
Proof.
  intros b c _ K. destruct d; unfold around in K; apply in_map_iff in K as (e & <- & K).
  - destruct (wf_succ _ _ W _ _ K) as (E & _). exact (proj2 (wf_edge _ _ W _ E)).
  - exact (proj1 (wf_edge _ _ W _ (proj2 SO _ _ K))).
Qed.
Lemma graph_empty d : empty_last size (around t d).
Proof.
  intros b e K Z. unfold sizes in Z. rewrite length_zero_iff_nil in Z. destruct d; unfold around in *.
  - rewrite (wf_open _ _ e W Z). reflexivity.
  - apply in_map_iff in K as (x & <- & K). destruct (proj1 SO x (proj2 SO _ _ K) Z).
Qed.
Lemma graph_place b i x : nth_error (locs t b) i = Some x -> b < blocks t /\ i < size b.
Proof.
  intros N. assert (L : i < length (locs t b)) by (apply nth_error_Some; congruence). split; [|exact L].
  destruct (lt_dec b (blocks t)) as [|L']; auto. destruct (wf_new _ _ W b) as [E _]; [lia|]. rewrite E in L. inversion L.
Qed.

(** A step of the graphs is a step of the walks. *)
Lemma step_step g p q x : CfgSpec.step t g (Some p) q x -> step size (around t true) true p q.
Proof.
  destruct p as [b i], q as [c j]. intros [N [[E F]|(L & Z & e & K & T)]]; cbn [fst snd] in *.
  - subst. apply step_in; auto. apply nth_error_Some. congruence.
  - subst. apply step_out; auto. constructor.
    + unfold around. apply in_map; auto.
    + unfold sizes. intros C. rewrite length_zero_iff_nil in C. rewrite C in N. discriminate.
Qed.
Lemma step_back g p q x : CfgSpec.step t g (Some p) q x -> step size (around t false) false q p.
Proof.
  destruct p as [b i], q as [c j]. intros [N [[E F]|(L & Z & e & K & T)]]; cbn [fst snd] in *.
  - subst. apply back_in; auto. apply nth_error_Some. congruence.
  - subst. destruct (wf_succ _ _ W _ _ K) as (_ & So & P & NE). apply back_out; auto.
    + unfold sizes. destruct (locs t (target t e)); [discriminate|cbn [length]; lia].
    + constructor; [unfold around; apply in_map_iff; exists e; auto|]. unfold sizes. rewrite length_zero_iff_nil. exact NE.
Qed.

Lemma walk_app g : forall l1 l2 p r, CfgSpec.walk t g p (l1 ++ l2) r -> exists q, CfgSpec.walk t g p l1 q /\ CfgSpec.walk t g q l2 r.
Proof.
  induction l1 as [|x l1 IH]; intros l2 p r H; cbn [app] in H.
  - exists p. split; [constructor|exact H].
  - inversion H as [|p' q n l r' S0 K]; subst. destruct (IH _ _ _ K) as (q' & A & B). exists q'. split; [econstructor; eauto|exact B].
Qed.
Lemma walk_some g p mid r : CfgSpec.walk t g (Some p) mid r -> exists s, r = Some s.
Proof.
  intros M. remember (Some p) as o eqn:Eo. revert p Eo. induction M as [o|o q n l r S0 K IH]; intros p Eo; [eauto|]. eapply IH. reflexivity.
Qed.

Notation at_ stop := (stops (Some (stop_at t stop))).
Notation after stop s := (reached size (around t true) true (at_ stop) false [s]).
Notation before stop s := (reached size (around t false) false (at_ stop) false [s]).

Lemma walk_after g stop s : forall mid p r, CfgSpec.walk t g (Some p) mid (Some r) -> (forall z, In z mid -> stop z = false) ->
  (p = s \/ after stop s p /\ at_ stop p = false) -> r = s \/ after stop s r /\ at_ stop r = false.
Proof.
  induction mid as [|z mid IH]; intros p r H NS P; inversion H as [p' E|p' q n l r' S0 K]; subst.
  - exact P.
  - apply (IH q r K); [intros; apply NS; right; auto|]. right. split.
    + destruct P as [->|[P N]]; [eapply reached_next; [left; reflexivity|reflexivity|eapply step_step; eauto]|eapply reached_step; eauto; eapply step_step; eauto].
    + destruct S0 as [N _]. unfold stops, stop_at. cbn [fst snd]. rewrite N. apply NS. left; auto.
Qed.
Lemma walk_before g stop s : forall mid p r, CfgSpec.walk t g (Some p) mid (Some r) -> (forall z, In z mid -> stop z = false) ->
  before stop s r -> before stop s p.
Proof.
  induction mid as [|z mid IH]; intros p r H NS P; inversion H as [p' E|p' q n l r' S0 K]; subst; [exact P|].
  assert (Q : before stop s q) by (apply (IH q r K); [intros; apply NS; right; auto|exact P]).
  eapply reached_step; [exact Q| |eapply step_back; eauto].
  destruct S0 as [N _]. unfold stops, stop_at. rewrite N. apply NS. left; auto.
Qed.

Lemma walk_found g p0 pre x mid y post r : CfgSpec.walk t g p0 (pre ++ x :: mid ++ y :: post) r ->
  exists p q, nth_error (locs t (fst p)) (snd p) = Some x /\ nth_error (locs t (fst q)) (snd q) = Some y /\
    forall stop, (forall z, In z mid -> stop z = false) -> after stop p q /\ before stop q p.
Proof.
  intros H. apply walk_app in H as (a & _ & H). inversion H as [|a' p n l r' S0 K]; subst.
  apply walk_app in K as (a2 & M & K). inversion K as [|a3 q n l r' S1 K']; subst.
  exists p, q. split; [exact (proj1 S0)|]. split; [exact (proj1 S1)|]. intros stop NS.
  destruct (walk_some _ _ _ _ M) as [s ->]. split.
  - destruct (walk_after g stop p mid p s M NS (or_introl eq_refl)) as [->|[R N]].
    + eapply reached_next; [left; reflexivity|reflexivity|eapply step_step; eauto].
    + eapply reached_step; eauto. eapply step_step; eauto.
  - apply (walk_before g stop q mid p s M NS). eapply reached_next; [left; reflexivity|reflexivity|eapply step_back; eauto].
Qed.

Lemma yields_by d stop ie p q x y : nth_error (locs t (fst p)) (snd p) = Some x -> nth_error (locs t (fst q)) (snd q) = Some y ->
  reached size (around t d) d (at_ stop) false [p] q -> ie = true \/ stop y = false -> yields t d stop ie p q.
Proof.
  intros A B R IE.
  destruct (walk size (around t d) d (Some (stop_at t stop)) false ie (blocks t) [p] (graph_empty d) (graph_closed d)) as (m & Hm).
  { intros b' i' [K|[]]. subst p. exact (graph_place b' i' x A). }
  exists m. intros fuel M. destruct (Hm fuel M) as (l & A' & _ & _ & CO). exists l. split; [exact A'|].
  apply CO; auto. destruct IE as [IE|IE]; [auto|right]. unfold stops, stop_at. rewrite B. exact IE.
Qed.

Lemma found g p0 pre x mid y post r : CfgSpec.walk t g p0 (pre ++ x :: mid ++ y :: post) r ->
  exists p q, place_of x t = Ok p /\ place_of y t = Ok q /\
    forall stop include_end, (forall z, In z mid -> stop z = false) ->
      (include_end = true \/ stop y = false -> yields t true stop include_end p q) /\
      (include_end = true \/ stop x = false -> yields t false stop include_end q p).
Proof.
  intros H. destruct (walk_found g p0 pre x mid y post r H) as (p & q & A & B & C). exists p, q.
  split; [destruct p; apply (LO _ _ _ A)|]. split; [destruct q; apply (LO _ _ _ B)|].
  intros stop ie NS. destruct (C stop NS) as [F G]. split; intros IE.
  - exact (yields_by true stop ie p q x y A B F IE).
  - exact (yields_by false stop ie q p y x B A G IE).
Qed.
End Graph.

Lemma built body t : forallb CfgSpec.grammatical body = true -> NoDup (0 :: flat_map CfgSpec.numbers body) -> visit_module body = Ok t ->
  wf t /\ sourced t /\ located t.
Proof.
  intros GR ND E. assert (ND' : NoDup (flat_map CfgSpec.numbers body)) by (inversion ND; auto).
  destruct (module_right (fun _ => false) body GR ND') as (t' & E' & W & _). assert (t' = t) as -> by congruence.
  destruct (module_tidy body t E ND) as (L & S0 & _). auto.
Qed.

(** Walks over the graphs of a program. *)
Lemma program_walk body t : forallb CfgSpec.grammatical body = true -> NoDup (0 :: flat_map CfgSpec.numbers body) -> visit_module body = Ok t ->
  forall forward b i o include_start include_end, i < sizes t b ->
  exists m, forall fuel, m <= fuel -> exists l,
    locs_from_locs (sizes t) (around t forward) forward o None include_start include_end fuel [(b, i)] = Ok l /\ NoDup l /\
    forall q, In q l <-> reached (sizes t) (around t forward) forward (stops o) include_start [(b, i)] q /\ (include_end = true \/ stops o q = false).
Proof.
  intros GR ND E d b i o is ie L. destruct (built body t GR ND E) as (W & SO & LO).
  destruct (walk (sizes t) (around t d) d o is ie (blocks t) [(b, i)] (graph_empty t W SO d) (graph_closed t W SO d)) as (m & H).
  { intros b' i' [K|[]]. assert (b = b' /\ i = i') as (<- & <-) by (split; congruence).
    destruct (nth_error (locs t b) i) as [x|] eqn:N; [exact (graph_place t W b i x N)|apply nth_error_None in N; unfold sizes in L; lia]. }
  exists m. intros fuel M. destruct (H fuel M) as (l & A & N & S0 & CO). exists l. split; [exact A|split; [exact N|]].
  intros q. split; [apply S0|]. intros [Q X]. apply CO; auto.
Qed.

Lemma module_found swallows body t : forallb CfgSpec.grammatical body = true -> NoDup (0 :: flat_map CfgSpec.numbers body) -> visit_module body = Ok t ->
  forallb (CfgSpec.plain swallows) body = true -> forall pre x mid y post o, CfgSpec.runs swallows body (pre ++ x :: mid ++ y :: post) o ->
  exists p q, place_of x t = Ok p /\ place_of y t = Ok q /\
    forall stop include_end, (forall z, In z mid -> stop z = false) ->
      (include_end = true \/ stop y = false -> yields t true stop include_end p q) /\
      (include_end = true \/ stop x = false -> yields t false stop include_end q p).
Proof.
  intros GR ND E PL pre x mid y post o RU. destruct (built body t GR ND E) as (W & SO & LO).
  assert (ND' : NoDup (flat_map CfgSpec.numbers body)) by (inversion ND; auto).
  destruct (module_walks swallows body GR ND') as (t' & E2 & H). assert (t' = t) as -> by congruence.
  destruct (H PL _ _ RU) as [[r K] _]. exact (found t W SO LO 0 None pre x mid y post r K).
Qed.
Lemma function_found swallows body t : forallb CfgSpec.grammatical body = true -> NoDup (0 :: flat_map CfgSpec.numbers body) -> visit_module body = Ok t ->
  forall n b, In (n, b) (flat_map CfgSpec.functions body) -> forallb (CfgSpec.plain swallows) b = true ->
  forall pre x mid y post o, CfgSpec.runs swallows b (pre ++ x :: mid ++ y :: post) o ->
  exists p q, place_of x t = Ok p /\ place_of y t = Ok q /\
    forall stop include_end, (forall z, In z mid -> stop z = false) ->
      (include_end = true \/ stop y = false -> yields t true stop include_end p q) /\
      (include_end = true \/ stop x = false -> yields t false stop include_end q p).
Proof.
  intros GR ND E n b K PL pre x mid y post o RU. destruct (built body t GR ND E) as (W & SO & LO).
  assert (ND' : NoDup (flat_map CfgSpec.numbers body)) by (inversion ND; auto).
  destruct (function_walks swallows body GR ND') as (t' & E2 & H). assert (t' = t) as -> by congruence.
  destruct (H n b K PL) as (g & _ & _ & H2). destruct (H2 _ _ RU) as [[r K2] _].
  exact (found t W SO LO g None (Part n Args :: pre) x mid y post r K2).
Qed.

Lemma program_walks body t : forallb CfgSpec.grammatical body = true -> NoDup (0 :: flat_map CfgSpec.numbers body) -> visit_module body = Ok t ->
  forall forward starts o include_start include_end, (forall b i, In (b, i) starts -> i < sizes t b) ->
  exists m, forall fuel, m <= fuel -> exists l,
    locs_from_locs (sizes t) (around t forward) forward o None include_start include_end fuel starts = Ok l /\ NoDup l /\
    (forall q, In q l -> reached (sizes t) (around t forward) forward (stops o) include_start starts q /\ (include_end = true \/ stops o q = false)) /\
    ((forall q, stops o q = false) -> forall q, reached (sizes t) (around t forward) forward (stops o) include_start starts q -> In q l).
Proof.
  intros GR ND E d starts o is ie L. destruct (built body t GR ND E) as (W & SO & LO).
  destruct (walk (sizes t) (around t d) d o is ie (blocks t) starts (graph_empty t W SO d) (graph_closed t W SO d)) as (m & H).
  { intros b i K. specialize (L b i K).
    destruct (nth_error (locs t b) i) as [x|] eqn:N; [exact (graph_place t W b i x N)|apply nth_error_None in N; unfold sizes in L; lia]. }
  exists m. intros fuel M. destruct (H fuel M) as (l & A & N & S0 & CO). exists l. split; [exact A|split; [exact N|split; [exact S0|]]].
  intros NS q Q. apply CO; auto.
Qed.
