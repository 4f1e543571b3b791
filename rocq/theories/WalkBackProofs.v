(** Walks backwards are walks forward over the mirrored blocks. *)
From Coq Require Import String List Bool Arith Lia FinFun.
From Verif Require Import Base WalkModel WalkSpec WalkProofs WalkStartProofs.
Import ListNotations.
Local Open Scope list_scope.
Local Open Scope nat_scope.

Section Mirror.
Variable size : nat -> nat.
Variable next : nat -> list nat.
Variable o : option (nat -> nat -> bool).
Variables include_start include_end : bool.
Notation entry := (nat * nat * nat * bool * nat)%type.

Definition flip (q : nat * nat) : nat * nat := (fst q, size (fst q) - 1 - snd q).
Definition flip_seg (s : nat * nat * nat) : nat * nat * nat := match s with (b, f, t) => (b, size b - t, size b - f) end.
Definition flip_entry (e : entry) : entry := match e with (b, f, t, x, i) => (b, size b - t, size b - f, x, i) end.
Definition flip_stop : option (nat -> nat -> bool) :=
  match o with None => None | Some p => Some (fun b i => p b (size b - 1 - i)) end.
Definition valid (q : nat * nat) : Prop := snd q < size (fst q).
Definition fits (b f t : nat) : Prop := f <= t <= size b.
Definition fit_stack (l : list entry) : Prop := forall b f t x i, In (b, f, t, x, i) l -> fits b f t.
Definition fit_table (v : nat -> option (nat * nat)) : Prop := forall b f t, v b = Some (f, t) -> fits b f t.
Definition mirrors (v w : nat -> option (nat * nat)) : Prop :=
  forall b, w b = match v b with None => None | Some (f, t) => Some (size b - t, size b - f) end.

Lemma flip_flip q : valid q -> flip (flip q) = q.
Proof. destruct q as [b i]. unfold valid, flip. cbn [fst snd]. intros V. f_equal. lia. Qed.
Lemma flip_valid q : valid q -> valid (flip q).
Proof. destruct q as [b i]. unfold valid, flip. cbn [fst snd]. lia. Qed.
Lemma flip_stops q : valid q -> stops flip_stop (flip q) = stops o q.
Proof.
  destruct q as [b i]. unfold valid, flip, stops, flip_stop. cbn [fst snd]. intros V. destruct o; [|reflexivity].
  cbn [fst snd]. f_equal. lia.
Qed.

Lemma stop_mirror (p : nat -> bool) s f : forall n, f + n <= s ->
  stop_up (fun i => p (s - 1 - i)) (s - (f + n)) n = option_map (fun i => s - 1 - i) (stop_down p f n).
Proof.
  induction n as [|n IH]; intros L; [reflexivity|]. cbn [stop_up stop_down].
  replace (s - 1 - (s - (f + S n))) with (f + n) by lia. destruct (p (f + n)); cbn [option_map].
  - f_equal. lia.
  - rewrite <- IH by lia. f_equal. lia.
Qed.
Lemma stop_down_some (p : nat -> bool) f : forall n i, stop_down p f n = Some i -> f <= i < f + n.
Proof.
  induction n as [|n IH]; intros i H; cbn [stop_down] in H; [discriminate|]. destruct (p (f + n)).
  - assert (f + n = i) by congruence. lia.
  - specialize (IH _ H). lia.
Qed.

Lemma triage_mirror b f t x : fits b f t ->
  exists s y f' t', triage false o None include_start include_end b f t x = (s, y, (f', t')) /\ fits b f' t' /\
    triage true flip_stop None include_start include_end b (size b - t) (size b - f) x = (s, y, (size b - t', size b - f')).
Proof.
  intros W. unfold fits in *. unfold triage, flip_stop. cbn [andb orb]. destruct o as [p|].
  - replace (size b - f - (size b - t)) with (t - f) by lia.
    pose proof (stop_mirror (p b) (size b) f (t - f)) as H. replace (f + (t - f)) with t in H by lia. rewrite H by lia.
    destruct (stop_down (p b) f (t - f)) as [i|] eqn:E; cbn [option_map].
    + apply stop_down_some in E. destruct include_end.
      * exists true, true, i, t. split; [reflexivity|]. split; [lia|]. apply (f_equal2 pair); [reflexivity|apply (f_equal2 pair); lia].
      * exists true, true, (S i), t. split; [reflexivity|]. split; [lia|]. apply (f_equal2 pair); [reflexivity|apply (f_equal2 pair); lia].
    + exists false, true, f, t. split; [reflexivity|]. split; [lia|reflexivity].
  - exists false, true, f, t. split; [reflexivity|]. split; [lia|reflexivity].
Qed.

Lemma enter_mirror c stack v w stack' w' : fit_stack stack -> fit_table v -> mirrors v w ->
  enter size true c (map flip_entry stack) w = Ok (stack', w') ->
  exists st v', enter size false c stack v = Ok (st, v') /\ stack' = map flip_entry st /\ fit_stack st /\ fit_table v' /\ mirrors v' w'.
Proof.
  intros FS FT M. unfold enter. rewrite (M c).
  assert (PF : forall f, f <= size c -> fit_stack ((c, f, size c, false, 0) :: stack)).
  { intros f L b f' t' x i [K|K]; [|eapply FS; eauto]. assert (c = b /\ f = f' /\ size c = t') as (<- & <- & <-) by (repeat split; congruence). unfold fits; lia. }
  assert (PT : fit_table (put v c (0, size c))).
  { intros b f t. unfold put. destruct (Nat.eqb_spec b c) as [->|D]; [|apply FT]. intros K. assert (0 = f /\ size c = t) as (<- & <-) by (split; congruence). unfold fits; lia. }
  assert (PM : mirrors (put v c (0, size c)) (put w c (0, size c))).
  { intros b. unfold put. destruct (Nat.eqb_spec b c) as [->|D]; [|apply M]. f_equal. f_equal; lia. }
  destruct (Nat.eqb_spec (size c) 0) as [S0|S0].
  { intros H. assert (map flip_entry stack = stack' /\ w = w') as (<- & <-) by (split; congruence). exists stack, v. auto. }
  destruct (v c) as [[vf vt]|] eqn:V.
  - pose proof (FT _ _ _ V) as W. unfold fits in W.
    destruct (Nat.eqb_spec (size c - vt) 0) as [A|A]; destruct (Nat.eqb_spec (size c - vf) (size c)) as [B|B];
    destruct (Nat.eqb_spec vf 0) as [A'|A']; destruct (Nat.eqb_spec vt (size c)) as [B'|B']; try lia; cbn [andb]; try discriminate.
    + intros H. assert (map flip_entry stack = stack' /\ w = w') as (<- & <-) by (split; congruence). exists stack, v. auto.
    + intros H.
      assert ((c, 0, size c - vt, false, 0) :: map flip_entry stack = stack' /\ put w c (0, size c) = w') as (<- & <-) by (split; congruence).
      exists ((c, vt, size c, false, 0) :: stack), (put v c (0, size c)). split; [reflexivity|].
      split; [cbn [map flip_entry]; apply (f_equal2 cons); [|reflexivity]; apply (f_equal2 pair); [|reflexivity]; apply (f_equal2 pair); [|reflexivity]; apply (f_equal2 pair); [|lia]; apply (f_equal2 pair); [reflexivity|lia]|]. split; [apply PF; lia|auto].
  - intros H. assert ((c, 0, size c, false, 0) :: map flip_entry stack = stack' /\ put w c (0, size c) = w') as (<- & <-) by (split; congruence).
    exists ((c, 0, size c, false, 0) :: stack), (put v c (0, size c)). split; [reflexivity|].
    split; [cbn [map flip_entry]; apply (f_equal2 cons); [|reflexivity]; apply (f_equal2 pair); [|reflexivity]; apply (f_equal2 pair); [|reflexivity]; apply (f_equal2 pair); [|lia]; apply (f_equal2 pair); [reflexivity|lia]|]. split; [apply PF; lia|auto].
Qed.

Definition fit_segs (ys : list (nat * nat * nat)) : Prop := forall b f t, In (b, f, t) ys -> fits b f t.

Lemma dfs_mirror : forall fuel stack v w ys w', fit_stack stack -> fit_table v -> mirrors v w ->
  dfs size next true flip_stop None include_start include_end fuel (map flip_entry stack) w = Ok (ys, w') ->
  exists zs v', dfs size next false o None include_start include_end fuel stack v = Ok (zs, v') /\
    ys = map flip_seg zs /\ fit_segs zs /\ fit_table v' /\ mirrors v' w'.
Proof.
  induction fuel as [|fuel IH]; intros stack v w ys w' FS FT M H; [discriminate|].
  destruct stack as [|[[[[b f] t] x] i] stack]; cbn [dfs map flip_entry] in *.
  { assert (ys = [] /\ w = w') as (-> & <-) by (split; congruence). exists [], v.
    split; [reflexivity|split; [reflexivity|split; [intros ? ? ? []|auto]]]. }
  assert (W : fits b f t) by (apply (FS b f t x i); left; auto).
  assert (FS' : fit_stack stack) by (intros b' f' t' x' i' K; eapply FS; right; eauto).
  destruct (triage_mirror b f t x W) as (s1 & y1 & f1 & t1 & T1 & W1 & T2).
  assert (X : exists s y f' t', fits b f' t' /\
     (if Nat.eqb i 0 then triage false o None include_start include_end b f t x else (false, false, (f, t))) = (s, y, (f', t')) /\
     (if Nat.eqb i 0 then triage true flip_stop None include_start include_end b (size b - t) (size b - f) x else (false, false, (size b - t, size b - f)))
       = (s, y, (size b - t', size b - f'))).
  { destruct (Nat.eqb i 0); [exists s1, y1, f1, t1; auto|exists false, false, f, t; auto]. }
  destruct X as (s & y & f' & t' & W' & E1 & E2). rewrite E2 in H. rewrite E1.
  assert (EQ : Nat.eqb (size b - t') (size b - f') = Nat.eqb f' t').
  { unfold fits in W'. destruct (Nat.eqb_spec f' t'); destruct (Nat.eqb_spec (size b - t') (size b - f')); auto; lia. }
  rewrite EQ in H.
  set (Y := if y && negb (Nat.eqb f' t') then [(b, f', t')] else []).
  assert (YE : (if y && negb (Nat.eqb f' t') then [(b, size b - t', size b - f')] else []) = map flip_seg Y)
    by (unfold Y; destruct (y && negb (Nat.eqb f' t')); reflexivity).
  rewrite YE in H.
  assert (FY : fit_segs Y).
  { unfold Y. destruct (y && negb (Nat.eqb f' t')); intros b' f2 t2 K; [|destruct K]. destruct K as [K|[]].
    assert (b = b' /\ f' = f2 /\ t' = t2) as (<- & <- & <-) by (repeat split; congruence). exact W'. }
  assert (FIN : forall st u u', fit_stack st -> fit_table u -> mirrors u u' ->
    (do r <- dfs size next true flip_stop None include_start include_end fuel (map flip_entry st) u'; Ok (map flip_seg Y ++ fst r, snd r)) = Ok (ys, w') ->
    exists zs v', (do r <- dfs size next false o None include_start include_end fuel st u; Ok (Y ++ fst r, snd r)) = Ok (zs, v') /\
      ys = map flip_seg zs /\ fit_segs zs /\ fit_table v' /\ mirrors v' w').
  { intros st u u' A1 A2 A3 H3.
    destruct (dfs size next true flip_stop None include_start include_end fuel (map flip_entry st) u') as [[y' w2]|e] eqn:D; [|discriminate].
    destruct (IH _ _ _ _ _ A1 A2 A3 D) as (z & v2 & D' & -> & B1 & B2 & B3). rewrite D'. cbn [bind fst snd] in *.
    assert (map flip_seg Y ++ map flip_seg z = ys /\ w2 = w') as (<- & <-) by (split; congruence).
    exists (Y ++ z), v2. split; [reflexivity|]. split; [symmetry; apply map_app|].
    split; [|auto]. intros b' f2 t2 K. apply in_app_or in K as [K|K]; auto. }
  destruct s; [apply (FIN _ _ _ FS' FT M H)|].
  destruct (Nat.leb (length (next b)) i); [apply (FIN _ _ _ FS' FT M H)|].
  assert (FS2 : fit_stack ((b, f', t', x, S i) :: stack)).
  { intros b' f2 t2 x' i' [K|K]; [|eapply FS'; eauto]. assert (b = b' /\ f' = f2 /\ t' = t2) as (<- & <- & <-) by (repeat split; congruence). exact W'. }
  assert (AE : at_end size true b (size b - t') (size b - f') = at_end size false b f' t').
  { unfold at_end, fits in *. destruct (Nat.eqb_spec (size b - f') (size b)); destruct (Nat.eqb_spec f' 0); auto; lia. }
  cbv zeta in *. rewrite AE in H.
  change ((b, size b - t', size b - f', x, S i) :: map flip_entry stack) with (map flip_entry ((b, f', t', x, S i) :: stack)) in H.
  destruct (at_end size false b f' t'); [|apply (FIN _ _ _ FS2 FT M H)].
  destruct (enter size true (nth i (next b) 0) (map flip_entry ((b, f', t', x, S i) :: stack)) w) as [[st' u']|e] eqn:EN; [|discriminate].
  destruct (enter_mirror _ _ _ _ _ _ FS2 FT M EN) as (st & u & EN' & -> & B1 & B2 & B3). rewrite EN'. cbn [bind fst snd] in *.
  apply (FIN _ _ _ B1 B2 B3 H).
Qed.

Lemma start_mirror fuel b pos v w ys w' : pos < size b -> fit_table v -> mirrors v w ->
  start_at size next true flip_stop None include_start include_end fuel b (size b - 1 - pos) w = Ok (ys, w') ->
  exists zs v', start_at size next false o None include_start include_end fuel b pos v = Ok (zs, v') /\
    ys = map flip_seg zs /\ fit_segs zs /\ fit_table v' /\ mirrors v' w'.
Proof.
  intros L FT M. unfold start_at. rewrite (M b).
  assert (GO : forall f, f <= (if include_start then S pos else pos) ->
    dfs size next true flip_stop None include_start include_end fuel
      [(b, if include_start then size b - 1 - pos else S (size b - 1 - pos), size b - f, true, 0)]
      (put w b (if include_start then size b - 1 - pos else S (size b - 1 - pos), size b)) = Ok (ys, w') ->
    exists zs v', dfs size next false o None include_start include_end fuel [(b, f, if include_start then S pos else pos, true, 0)]
      (put v b (0, if include_start then S pos else pos)) = Ok (zs, v') /\
      ys = map flip_seg zs /\ fit_segs zs /\ fit_table v' /\ mirrors v' w').
  { intros f LF H. set (p := if include_start then S pos else pos) in *.
    assert (LP : p <= size b) by (unfold p; destruct include_start; lia).
    assert (EP : (if include_start then size b - 1 - pos else S (size b - 1 - pos)) = size b - p) by (unfold p; destruct include_start; lia).
    rewrite EP in H. refine (dfs_mirror fuel [(b, f, p, true, 0)] _ _ _ _ _ _ _ H).
    - intros b' f2 t2 x' i' [K|[]]. assert (b = b' /\ f = f2 /\ p = t2) as (<- & <- & <-) by (repeat split; congruence). unfold fits; lia.
    - intros b' f2 t2. unfold put. destruct (Nat.eqb_spec b' b) as [->|D]; [|apply FT]. intros K.
      assert (0 = f2 /\ p = t2) as (<- & <-) by (split; congruence). unfold fits; lia.
    - intros b'. unfold put. destruct (Nat.eqb_spec b' b) as [->|D]; [|apply M]. f_equal. f_equal. lia. }
  destruct (v b) as [[vf vt]|] eqn:V.
  - pose proof (FT _ _ _ V) as W. unfold fits in W.
    destruct (Nat.leb_spec vf pos) as [A|A]; destruct (Nat.ltb_spec pos vt) as [B|B];
    destruct (Nat.leb_spec (size b - vt) (size b - 1 - pos)) as [A'|A']; destruct (Nat.ltb_spec (size b - 1 - pos) (size b - vf)) as [B'|B'];
      try lia; cbn [andb].
    + intros H. assert (ys = [] /\ w = w') as (-> & <-) by (split; congruence). exists [], v.
      split; [reflexivity|split; [reflexivity|split; [intros ? ? ? []|auto]]].
    + destruct (Nat.eqb_spec (size b - vf) (size b)) as [E|E]; [|discriminate]. destruct (Nat.eqb_spec vf 0) as [E'|E']; [|lia]. subst vf.
      cbv zeta. rewrite Nat.sub_0_r. apply GO. destruct include_start; lia.
    + destruct (Nat.eqb_spec (size b - vf) (size b)) as [E|E]; [lia|discriminate].
  - cbv zeta. intros H. apply (GO 0); [lia|]. rewrite Nat.sub_0_r. exact H.
Qed.

Lemma blocks_mirror fuel : forall locs v w ys, (forall s, In s locs -> valid s) -> fit_table v -> mirrors v w ->
  blocks_from_locs size next true flip_stop None include_start include_end fuel (map flip locs) w = Ok ys ->
  exists zs, blocks_from_locs size next false o None include_start include_end fuel locs v = Ok zs /\ ys = map flip_seg zs /\ fit_segs zs.
Proof.
  induction locs as [|[b pos] locs IH]; intros v w ys G FT M H; cbn [blocks_from_locs map] in *.
  - assert (ys = []) as -> by congruence. exists []. split; [reflexivity|split; [reflexivity|intros ? ? ? []]].
  - change (flip (b, pos)) with (b, size b - 1 - pos) in H. cbv iota beta in H.
    destruct (start_at size next true flip_stop None include_start include_end fuel b (size b - 1 - pos) w) as [[y w1]|e] eqn:A; [|discriminate].
    assert (L : pos < size b) by (apply (G (b, pos)); left; auto).
    destruct (start_mirror _ _ _ _ _ _ _ L FT M A) as (z & v1 & A' & -> & B1 & B2 & B3). rewrite A'. cbn [bind fst snd] in *.
    destruct (blocks_from_locs size next true flip_stop None include_start include_end fuel (map flip locs) w1) as [y'|e] eqn:B; [|discriminate].
    destruct (IH _ _ _ (fun s K => G s (or_intror K)) B2 B3 B) as (z' & B' & -> & B4). rewrite B'. cbn [bind] in *.
    assert (map flip_seg z ++ map flip_seg z' = ys) as <- by congruence.
    exists (z ++ z'). split; [reflexivity|]. split; [symmetry; apply map_app|].
    intros b' f2 t2 K. apply in_app_or in K as [K|K]; auto.
Qed.

Lemma places_mirror zs : fit_segs zs -> map flip (flat_map (places false) zs) = flat_map cells (map flip_seg zs).
Proof.
  induction zs as [|[[b f] t] zs IH]; intros F; [reflexivity|]. cbn [flat_map map]. rewrite map_app, IH by (intros b' f' t' K; apply F; right; auto).
  f_equal. assert (W : fits b f t) by (apply F; left; auto). unfold fits in W. unfold places, cells, flip_seg.
  replace (size b - f - (size b - t)) with (t - f) by lia.
  remember (t - f) as m eqn:Em. assert (t = f + m) by lia. subst t. clear Em F IH.
  induction m as [|m IHm]; [reflexivity|].
  rewrite seq_S, map_app, rev_app_distr. cbn [map rev app seq]. f_equal.
  - unfold flip. cbn [fst snd]. f_equal. lia.
  - rewrite IHm by lia. f_equal. f_equal. lia.
Qed.

Lemma step_flip q r : step size next false q r -> valid q -> valid r /\ step size next true (flip q) (flip r).
Proof.
  intros H. destruct H as [b i F|b i c F|b i F L|b c j F L O E]; try discriminate; intros V; unfold valid, flip in *; cbn [fst snd] in *.
  - split; [lia|]. replace (size b - 1 - i) with (S (size b - 1 - S i)) by lia. apply step_in; auto; lia.
  - split; [lia|]. replace (size c - 1 - j) with 0 by lia. apply step_out; auto; lia.
Qed.
Lemma step_flop q r : step size next true q r -> valid q -> valid r /\ step size next false (flip q) (flip r).
Proof.
  intros H. destruct H as [b i F L|b i c F L O|b i F|b c j F]; try discriminate; intros V; unfold valid, flip in *; cbn [fst snd] in *.
  - split; [lia|]. replace (size b - 1 - i) with (S (size b - 1 - S i)) by lia. apply back_in; auto; lia.
  - assert (size c <> 0) by (clear - O; induction O; auto). split; [lia|].
    replace (size b - 1 - i) with 0 by lia. apply back_out; auto; lia.
Qed.

Lemma reached_flip starts q : (forall s, In s starts -> valid s) -> reached size next false (stops o) include_start starts q ->
  valid q /\ reached size next true (stops flip_stop) include_start (map flip starts) (flip q).
Proof.
  intros G H. induction H as [s K X|s q K X ST|q r Q [V IH] NS ST].
  - split; auto. apply reached_start; auto. apply in_map; auto.
  - destruct (step_flip _ _ ST (G _ K)) as [V ST']. split; auto. eapply reached_next; eauto. apply in_map; auto.
  - destruct (step_flip _ _ ST V) as [V' ST']. split; auto. eapply reached_step; eauto. rewrite flip_stops; auto.
Qed.
Lemma reached_flop starts q : (forall s, In s starts -> valid s) -> reached size next true (stops flip_stop) include_start (map flip starts) q ->
  valid q /\ reached size next false (stops o) include_start starts (flip q).
Proof.
  intros G H. induction H as [s K X|s q K X ST|q r Q [V IH] NS ST].
  - apply in_map_iff in K as (s' & <- & K). split; [apply flip_valid; auto|]. rewrite flip_flip by auto. apply reached_start; auto.
  - apply in_map_iff in K as (s' & <- & K). destruct (step_flop _ _ ST (flip_valid _ (G _ K))) as [V ST']. split; auto.
    rewrite flip_flip in ST' by auto. eapply reached_next; eauto.
  - destruct (step_flop _ _ ST V) as [V' ST']. split; auto. eapply reached_step; eauto.
    rewrite <- flip_stops by (apply flip_valid; auto). rewrite flip_flip; auto.
Qed.
End Mirror.

(** Both directions. *)
Lemma walk size next forward o include_start include_end n starts : empty_last size next -> closed n next -> in_graph n size starts ->
  exists m, forall fuel, m <= fuel -> exists l,
    locs_from_locs size next forward o None include_start include_end fuel starts = Ok l /\ NoDup l /\
    (forall q, In q l -> reached size next forward (stops o) include_start starts q /\ (include_end = true \/ stops o q = false)) /\
    (length starts <= 1 \/ (forall q, stops o q = false) ->
     forall q, reached size next forward (stops o) include_start starts q -> include_end = true \/ stops o q = false -> In q l).
Proof.
  intros E C G. destruct forward.
  { destruct (forward_walk size next o include_start include_end n starts E C G) as (m & H). exists m. intros fuel M.
    destruct (H fuel M) as (l & A & ND & _ & SO & CO). exists l. auto. }
  assert (V : forall s, In s starts -> valid size s) by (intros [b i] K; apply (G b i K)).
  assert (G' : in_graph n size (map (flip size) starts)).
  { intros b i K. apply in_map_iff in K as ([b' i'] & Eq & K). destruct (G _ _ K) as [G1 G2]. unfold flip in Eq. cbn [fst snd] in Eq.
    assert (b' = b /\ size b' - 1 - i' = i) as (-> & <-) by (split; congruence). split; auto; lia. }
  destruct (forward_walk size next (flip_stop size o) include_start include_end n (map (flip size) starts) E C G') as (m & H).
  exists m. intros fuel M. destruct (H fuel M) as (l & A & ND & SZ & SO & CO). unfold locs_from_locs in A.
  destruct (blocks_from_locs size next true (flip_stop size o) None include_start include_end fuel (map (flip size) starts) (fun _ => None)) as [ys|e] eqn:B; [|discriminate].
  cbn [bind] in A. rewrite cells_places in A. assert (flat_map cells ys = l) as El by congruence.
  destruct (blocks_mirror size next o include_start include_end fuel starts (fun _ => None) (fun _ => None) ys V) as (zs & B' & -> & F); auto.
  { intros ? ? ?; discriminate. }
  { intros b; reflexivity. }
  rewrite <- (places_mirror size zs F) in El.
  assert (VL : forall q, In q (flat_map (places false) zs) -> valid size q).
  { intros [b k] K. apply in_flat_map in K as ([[b' f] t] & K1 & K2). cbn [places] in K2. apply in_rev in K2.
    change (In (b, k) (cells (b', f, t))) in K2. apply in_cells in K2 as [-> K2]. specialize (F _ _ _ K1). unfold fits, valid in *. cbn [fst snd]. lia. }
  exists (flat_map (places false) zs). unfold locs_from_locs. rewrite B'. cbn [bind]. split; [reflexivity|].
  split; [rewrite <- El in ND; apply NoDup_map_inv in ND; exact ND|].
  split.
  - intros q K. destruct (SO (flip size q)) as [Q S0]. { rewrite <- El. apply in_map; auto. }
    apply (reached_flop size next o include_start starts _ V) in Q as [_ Q]. rewrite flip_flip in Q by auto.
    rewrite flip_stops in S0 by auto. auto.
  - intros X q Q S0. destruct (reached_flip size next o include_start starts q V Q) as [VQ Q'].
    assert (K : In (flip size q) l).
    { apply CO; auto.
      - destruct X as [X|X]; [left; rewrite map_length; auto|right]. intros [b i]. unfold stops, flip_stop.
        destruct o as [p|]; auto. exact (X (b, size b - 1 - i)).
      - rewrite flip_stops; auto. }
    rewrite <- El in K. apply in_map_iff in K as (q' & Eq & K).
    assert (q' = q). { rewrite <- (flip_flip size q VQ), <- Eq. symmetry. apply flip_flip. auto. }
    subst q'. exact K.
Qed.
