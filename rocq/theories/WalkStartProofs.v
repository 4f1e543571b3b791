(** Proofs about whole walks over control flow graphs. *)
From Coq Require Import String List Bool Arith Lia FinFun.
From Verif Require Import Base WalkModel WalkSpec WalkProofs.
Import ListNotations.
Local Open Scope list_scope.
Local Open Scope nat_scope.

(** * The places to start from, forward, the last places included *)
Section Starts.
Variable size : nat -> nat.
Variable next : nat -> list nat.
Variable o : option (nat -> nat -> bool).
Variable include_start : bool.
Variable n : nat.
Variable R : nat * nat -> Prop.
Hypothesis last : empty_last size next.
Hypothesis cl : closed n next.
Notation stop := (stops o).
Notation stp := (step size next true).
Hypothesis R_step : forall q r, R q -> stop q = false -> stp q r -> R r.
Notation INV := (Inv size next o R [] []).

Lemma covered_nil Z q : covered size next o [] [] Z q -> In q Z.
Proof. intros [[K|(f & t & [] & _)]|(_ & _ & [(b & f & [] & _)|(b & i & [] & _)])]. exact K. Qed.

Definition bound : nat := list_sum (map (cost next) (seq 0 n)).
Lemma cost_bound b : b < n -> cost next b <= bound.
Proof.
  intros B. unfold bound. assert (K : In b (seq 0 n)) by (apply in_seq; lia). revert K.
  generalize (seq 0 n) as l. intros l. induction l as [|x l IH]; intros K; [destruct K|].
  change (cost next b <= cost next x + list_sum (map (cost next) l)).
  destruct K as [->|K]; [lia|]. specialize (IH K). lia.
Qed.
Lemma left_bound v : left_over next n v <= bound.
Proof.
  unfold left_over, bound. generalize (seq 0 n) as l. intros l. induction l as [|x l IH]; [constructor|].
  change (open_cost next v x + list_sum (map (open_cost next v) l) <= cost next x + list_sum (map (cost next) l)).
  assert (open_cost next v x <= cost next x) by (unfold open_cost; destruct (v x) as [[[|?] ?]|]; lia). lia.
Qed.

(** The first places that a start leads to. *)
Definition from (s q : nat * nat) : Prop := (include_start = true /\ q = s) \/ (include_start = false /\ stp s q).

Lemma start_ok fuel b pos v Z : 2 * bound < fuel -> b < n -> pos < size b -> INV v Z -> (forall q, from (b, pos) q -> R q) ->
  exists ys v', start_at size next true o None include_start true fuel b pos v = Ok (ys, v') /\
    INV v' (Z ++ flat_map cells ys) /\
    (v b = None \/ (forall q, stop q = false) -> forall q, from (b, pos) q -> In q (Z ++ flat_map cells ys)).
Proof.
  intros M B L I RF.
  assert (GO : forall vf, pos < vf <= size b -> (v b = None /\ vf = size b \/ v b = Some (vf, size b)) ->
    exists ys v', dfs size next true o None include_start true fuel [(b, (if include_start then pos else S pos), vf, true, 0)]
        (put v b ((if include_start then pos else S pos), size b)) = Ok (ys, v') /\
      INV v' (Z ++ flat_map cells ys) /\ (forall q, from (b, pos) q -> In q (Z ++ flat_map cells ys))).
  { intros vf LE V. set (p := if include_start then pos else S pos).
    assert (P : p <= vf) by (unfold p; destruct include_start; lia).
    destruct (phase_push size next o R b p vf [] [] v Z I) as [I1 C1]; auto; [lia| | |].
    - intros LT. apply RF. unfold from, p in *. destruct include_start; [left; auto|right]. split; auto. apply step_in; auto; lia.
    - intros E Ev c Cin Sc. apply RF. unfold from, p in *. destruct include_start; [lia|right]. split; auto.
      apply step_out; auto; [lia|constructor; auto].
    - destruct (run_ok size next o include_start R last R_step n cl fuel [(b, p, vf, true, 0)] (put v b (p, size b)) Z) as (ys & v' & A1 & A2 & A3).
      + change (cost next b - 0 + 0 + left_over next n (put v b (p, size b)) < fuel).
        pose proof (cost_bound b B). pose proof (left_bound (put v b (p, size b))). lia.
      + intros b' f' t' x' i' [K|[]]. assert (b = b' /\ 0 = i') as (<- & <-) by (split; congruence). split; auto; lia.
      + exact I1.
      + exists ys, v'. split; [exact A1|split; [exact A2|]]. intros q FQ. apply A3.
        change (covered size next o [(b, p, vf)] [] Z q).
        destruct FQ as [[E ->]|[E ST]].
        * left. right. exists p, vf. cbn [fst snd]. unfold p. rewrite E. split; [left; auto|split; [lia|intros; lia]].
        * assert (Ep : p = S pos) by (unfold p; rewrite E; auto).
          inversion ST as [b1 i1 F1 L1|b1 i1 c1 F1 L1 O1|b1 i1 F1|b1 c1 j1 F1]; subst; try discriminate.
          -- left. destruct (Nat.eq_dec (S pos) vf) as [X|X].
             ++ destruct V as [[_ V]|V]; [lia|].
                destruct (i_first _ _ _ _ _ _ _ _ I _ _ _ V) as [K|(f & t & [] & _)]; [lia|]. left. rewrite X. exact K.
             ++ right. exists p, vf. cbn [fst snd]. split; [left; auto|split; [lia|intros; lia]].
          -- apply (onto_iff size next last) in O1 as [O1 O2]. right. cbn [fst snd]. split; [auto|split; [auto|]].
             left. exists b, p. split; [left; f_equal; lia|]. split; [intros; lia|exact O1]. }
  unfold start_at. destruct (v b) as [[vf vt]|] eqn:V.
  - destruct (i_range _ _ _ _ _ _ _ _ I _ _ _ V) as [-> LE].
    destruct (Nat.leb_spec vf pos) as [LP|LP].
    + destruct (Nat.ltb_spec pos (size b)) as [LT|LT]; [|lia]. cbn [andb].
      exists [], v. split; [reflexivity|]. cbn [flat_map]. rewrite app_nil_r. split; [exact I|].
      intros [X|NS] q FQ; [discriminate|].
      assert (K : In (b, pos) Z).
      { destruct (i_all _ _ _ _ _ _ _ _ I NS b vf (size b) pos V) as [K|(f & t & [] & _)]; auto. }
      destruct FQ as [[_ ->]|[_ ST]]; auto. apply covered_nil. apply (i_closed _ _ _ _ _ _ _ _ I _ _ K (NS _) ST).
    + cbn [andb]. rewrite Nat.eqb_refl. cbv zeta.
      destruct (GO vf) as (ys & v' & A1 & A2 & A3); auto. exists ys, v'. auto.
  - cbv zeta. destruct (GO (size b)) as (ys & v' & A1 & A2 & A3); auto. exists ys, v'. auto.
Qed.

Lemma starts_ok fuel : 2 * bound < fuel -> forall locs v Z, INV v Z ->
  (forall b i, In (b, i) locs -> b < n /\ i < size b) -> (forall s q, In s locs -> from s q -> R q) ->
  exists ys v', blocks_from_locs size next true o None include_start true fuel locs v = Ok ys /\
    INV v' (Z ++ flat_map cells ys) /\
    ((forall b, v b = None) /\ length locs <= 1 \/ (forall q, stop q = false) ->
     forall s q, In s locs -> from s q -> In q (Z ++ flat_map cells ys)).
Proof.
  intros M. induction locs as [|[b pos] locs IH]; intros v Z I G RF; cbn [blocks_from_locs].
  - exists [], v. split; [reflexivity|]. cbn [flat_map]. rewrite app_nil_r. split; [exact I|]. intros _ s q [].
  - destruct (G b pos (or_introl eq_refl)) as [B L].
    destruct (start_ok fuel b pos v Z M B L I) as (ys & v1 & A1 & A2 & A3).
    { intros q. apply RF. left; auto. }
    rewrite A1. cbn [bind fst snd].
    destruct (IH v1 (Z ++ flat_map cells ys) A2) as (zs & v2 & B1 & B2 & B3).
    { intros; apply G; right; auto. }
    { intros s q K. apply RF. right; auto. }
    rewrite B1. cbn [bind]. exists (ys ++ zs), v2. split; [reflexivity|]. rewrite flat_map_app, app_assoc.
    split; [exact B2|]. intros H s q [<-|K] FQ.
    + apply in_or_app. left. apply A3; auto. destruct H as [[H _]|H]; auto.
    + destruct H as [[_ H]|H].
      * cbn [length] in H. destruct locs; [destruct K|cbn [length] in H; lia].
      * apply (B3 (or_intror H) s); auto.
Qed.
End Starts.

Lemma Inv_nil size next o R : Inv size next o R [] [] (fun _ => None) [].
Proof.
  constructor; try discriminate.
  - intros ? ? ? [].
  - intros ? ? ? [].
  - constructor.
  - intros ? ? [].
  - intros ? [].
  - intros ? ? [].
Qed.

Lemma cells_places ys : flat_map (places true) ys = flat_map cells ys.
Proof. apply flat_map_ext. intros [[b f] t]. reflexivity. Qed.

(** Forward, the last places included. *)
Lemma forward_included size next o include_start n starts : empty_last size next -> closed n next -> in_graph n size starts ->
  exists m, forall fuel, m <= fuel -> exists l,
    locs_from_locs size next true o None include_start true fuel starts = Ok l /\ NoDup l /\
    (forall b i, In (b, i) l -> i < size b) /\
    (forall q, In q l -> reached size next true (stops o) include_start starts q) /\
    (length starts <= 1 \/ (forall q, stops o q = false) ->
     forall q, reached size next true (stops o) include_start starts q -> In q l).
Proof.
  intros E C G. exists (S (2 * bound next n)). intros fuel M.
  set (R := reached size next true (stops o) include_start starts).
  assert (RS : forall q r, R q -> stops o q = false -> step size next true q r -> R r) by (intros q r; apply reached_step).
  destruct (starts_ok size next o include_start n R E C RS fuel M starts (fun _ => None) [] (Inv_nil _ _ _ _)) as (ys & v & A & I & K).
  - exact G.
  - intros s q Ks [[X ->]|[X ST]]; [apply reached_start; auto|eapply reached_next; eauto].
  - exists (flat_map cells ys). unfold locs_from_locs. rewrite A. cbn [bind]. rewrite cells_places.
    split; [reflexivity|]. cbn [app] in *.
    split; [pose proof (i_nodup _ _ _ _ _ _ _ _ I) as ND; cbn [flat_map] in ND; rewrite app_nil_r in ND; exact ND|].
    split; [intros b i Hb; destruct (i_in _ _ _ _ _ _ _ _ I b i) as (f & _ & Hf); [apply in_or_app; auto|lia]|].
    split; [exact (i_sound _ _ _ _ _ _ _ _ I)|].
    intros H q Q. induction Q as [s Ks X|s q Ks X ST|q r Q IH NS ST].
    + apply (K (match H with or_introl h => or_introl (conj (fun _ => eq_refl) h) | or_intror h => or_intror h end) s); auto. left; auto.
    + apply (K (match H with or_introl h => or_introl (conj (fun _ => eq_refl) h) | or_intror h => or_intror h end) s); auto. right; auto.
    + apply (covered_nil size next o). apply (i_closed _ _ _ _ _ _ _ _ I q); auto.
Qed.

(** * The last places left out *)
Section Excluded.
Variable size : nat -> nat.
Variable next : nat -> list nat.
Variable o : option (nat -> nat -> bool).
Variable include_start : bool.
Notation go q := (negb (stops o q)).

Lemma triage_excluded first b f t : triage true o None include_start false b f t first =
  match stop_up (fun i => stops o (b, i)) f (t - f) with None => (false, true, (f, t)) | Some j => (true, true, (f, j)) end.
Proof.
  unfold triage. cbn [andb orb]. unfold stops. destruct o as [p|].
  - cbn [fst snd]. change (fun i => p b i) with (p b). destruct (stop_up (p b) f (t - f)); reflexivity.
  - assert (E : forall m k, stop_up (fun _ => false) k m = None) by (induction m; intros; cbn [stop_up]; auto). rewrite E. reflexivity.
Qed.

Lemma filter_all (b f t : nat) : (forall k, f <= k < t -> stops o (b, k) = false) ->
  filter (fun q => go q) (cells (b, f, t)) = cells (b, f, t).
Proof.
  intros H. assert (G : forall q, In q (cells (b, f, t)) -> stops o q = false).
  { intros [c k] K. apply in_cells in K as [-> K]. auto. }
  revert G. generalize (cells (b, f, t)) as l. intros l. induction l as [|x l IH]; intros G; [reflexivity|].
  cbn [filter]. rewrite (G x) by (left; auto). cbn [negb]. f_equal. apply IH. intros; apply G; right; auto.
Qed.
Lemma filter_stop (b f j : nat) : f <= j -> (forall k, f <= k < j -> stops o (b, k) = false) -> stops o (b, j) = true ->
  filter (fun q => go q) (cells (b, f, S j)) = cells (b, f, j).
Proof.
  intros L H K. replace (cells (b, f, S j)) with (cells (b, f, j) ++ [(b, j)]).
  - rewrite filter_app, filter_all by auto. cbn [filter]. rewrite K. cbn [negb]. apply app_nil_r.
  - unfold cells. replace (S j - f) with (S (j - f)) by lia. rewrite seq_S, map_app. cbn [map]. f_equal. f_equal. f_equal. lia.
Qed.
Lemma some_cells (c : bool) b f t : flat_map cells (if c && negb (Nat.eqb f t) then [(b, f, t)] else []) = if c then cells (b, f, t) else [].
Proof.
  destruct c; cbn [andb]; [|reflexivity]. destruct (Nat.eqb_spec f t) as [->|D]; cbn [negb flat_map]; [|apply app_nil_r].
  unfold cells. rewrite Nat.sub_diag. reflexivity.
Qed.

Lemma dfs_excluded : forall fuel stack v ys v', dfs size next true o None include_start true fuel stack v = Ok (ys, v') ->
  exists zs, dfs size next true o None include_start false fuel stack v = Ok (zs, v') /\
    flat_map cells zs = filter (fun q => go q) (flat_map cells ys).
Proof.
  induction fuel as [|fuel IH]; intros stack v ys v' H; [discriminate|]. cbn [dfs] in *.
  destruct stack as [|[[[[b f] t] x] i] stack].
  { assert (ys = [] /\ v = v') as (-> & <-) by (split; congruence). exists []. split; reflexivity. }
  (* the rest of a round is the same in both *)
  assert (REST : forall (a c : bool) f1 t1 f2 t2,
    (let yielded := if a && negb (Nat.eqb f1 t1) then [(b, f1, t1)] else [] in
     do r <- (if Nat.leb (length (next b)) i then dfs size next true o None include_start true fuel stack v
              else if at_end size true b f t then do e <- enter size true (nth i (next b) 0) ((b, f, t, x, S i) :: stack) v;
                     dfs size next true o None include_start true fuel (fst e) (snd e)
              else dfs size next true o None include_start true fuel ((b, f, t, x, S i) :: stack) v);
     Ok (yielded ++ fst r, snd r)) = Ok (ys, v') ->
    flat_map cells (if c && negb (Nat.eqb f2 t2) then [(b, f2, t2)] else []) =
      filter (fun q => go q) (flat_map cells (if a && negb (Nat.eqb f1 t1) then [(b, f1, t1)] else [])) ->
    exists zs,
    (let yielded := if c && negb (Nat.eqb f2 t2) then [(b, f2, t2)] else [] in
     do r <- (if Nat.leb (length (next b)) i then dfs size next true o None include_start false fuel stack v
              else if at_end size true b f t then do e <- enter size true (nth i (next b) 0) ((b, f, t, x, S i) :: stack) v;
                     dfs size next true o None include_start false fuel (fst e) (snd e)
              else dfs size next true o None include_start false fuel ((b, f, t, x, S i) :: stack) v);
     Ok (yielded ++ fst r, snd r)) = Ok (zs, v') /\
    flat_map cells zs = filter (fun q => go q) (flat_map cells ys)).
  { intros a c f1 t1 f2 t2 H1 H2. cbv zeta in *.
    set (Y1 := if a && negb (Nat.eqb f1 t1) then [(b, f1, t1)] else []) in *.
    set (Y2 := if c && negb (Nat.eqb f2 t2) then [(b, f2, t2)] else []) in *.
    assert (FIN : forall st w, (do r <- dfs size next true o None include_start true fuel st w; Ok (Y1 ++ fst r, snd r)) = Ok (ys, v') ->
      exists zs, (do r <- dfs size next true o None include_start false fuel st w; Ok (Y2 ++ fst r, snd r)) = Ok (zs, v') /\
        flat_map cells zs = filter (fun q => go q) (flat_map cells ys)).
    { intros st w H3. destruct (dfs size next true o None include_start true fuel st w) as [[y w']|e] eqn:D; [|discriminate].
      destruct (IH _ _ _ _ D) as (z & D' & F). rewrite D'. cbn [bind fst snd] in *.
      assert (Y1 ++ y = ys /\ w' = v') as (<- & <-) by (split; congruence).
      exists (Y2 ++ z). split; [reflexivity|]. rewrite !flat_map_app, filter_app, H2, F. reflexivity. }
    destruct (Nat.leb (length (next b)) i); [apply FIN; exact H1|].
    destruct (at_end size true b f t); [|apply FIN; exact H1].
    destruct (enter size true (nth i (next b) 0) ((b, f, t, x, S i) :: stack) v) as [[st w]|e]; [|discriminate].
    cbn [bind fst snd] in *. apply FIN; exact H1. }
  destruct (Nat.eqb_spec i 0) as [->|N0].
  - rewrite triage_eq in H. rewrite triage_excluded.
    destruct (stop_up (fun i => stops o (b, i)) f (t - f)) as [j|] eqn:E.
    + destruct (stop_up_some _ _ _ _ E) as (J & J1 & J2).
      destruct (dfs size next true o None include_start true fuel stack v) as [[y w']|e] eqn:D; [|discriminate].
      destruct (IH _ _ _ _ D) as (z & D' & F). rewrite D'. cbn [bind fst snd] in *.
      assert ((if true && negb (Nat.eqb f (S j)) then [(b, f, S j)] else []) ++ y = ys /\ w' = v') as (<- & <-) by (split; congruence).
      eexists. split; [reflexivity|]. rewrite !flat_map_app, filter_app, !some_cells, F. f_equal.
      symmetry. apply filter_stop; auto. lia.
    + apply (REST true true f t f t H). rewrite some_cells. symmetry. apply filter_all.
      intros k K. apply (stop_up_none _ _ _ E). lia.
  - apply (REST false false f t f t H). reflexivity.
Qed.

Lemma blocks_excluded fuel : forall locs v ys, blocks_from_locs size next true o None include_start true fuel locs v = Ok ys ->
  exists zs, blocks_from_locs size next true o None include_start false fuel locs v = Ok zs /\
    flat_map cells zs = filter (fun q => go q) (flat_map cells ys).
Proof.
  induction locs as [|[b pos] locs IH]; intros v ys H; cbn [blocks_from_locs] in *.
  - assert (ys = []) as -> by congruence. exists []. split; reflexivity.
  - destruct (start_at size next true o None include_start true fuel b pos v) as [[y w]|e] eqn:A; [|discriminate]. cbn [bind fst snd] in H.
    destruct (blocks_from_locs size next true o None include_start true fuel locs w) as [y'|e] eqn:B; [|discriminate]. cbn [bind] in H.
    destruct (IH _ _ B) as (z' & B' & F').
    assert (A' : exists z, start_at size next true o None include_start false fuel b pos v = Ok (z, w) /\
                           flat_map cells z = filter (fun q => go q) (flat_map cells y)).
    { revert A. unfold start_at. destruct (v b) as [[vf vt]|].
      - destruct (Nat.leb vf pos && Nat.ltb pos vt).
        + intros A. assert (y = [] /\ v = w) as (-> & <-) by (split; congruence). exists []. split; reflexivity.
        + destruct (Nat.eqb vt (size b)); [|discriminate]. cbv zeta. apply dfs_excluded.
      - apply dfs_excluded. }
    destruct A' as (z & A' & F). rewrite A'. cbn [bind fst snd]. rewrite B'. cbn [bind].
    assert (y ++ y' = ys) as <- by congruence. exists (z ++ z'). split; [reflexivity|].
    rewrite !flat_map_app, filter_app, F, F'. reflexivity.
Qed.
End Excluded.

(** Forward. *)
Lemma forward_walk size next o include_start include_end n starts : empty_last size next -> closed n next -> in_graph n size starts ->
  exists m, forall fuel, m <= fuel -> exists l,
    locs_from_locs size next true o None include_start include_end fuel starts = Ok l /\ NoDup l /\
    (forall b i, In (b, i) l -> i < size b) /\
    (forall q, In q l -> reached size next true (stops o) include_start starts q /\ (include_end = true \/ stops o q = false)) /\
    (length starts <= 1 \/ (forall q, stops o q = false) ->
     forall q, reached size next true (stops o) include_start starts q -> include_end = true \/ stops o q = false -> In q l).
Proof.
  intros E C G. destruct (forward_included size next o include_start n starts E C G) as (m & H). exists m. intros fuel M.
  destruct (H fuel M) as (l & A & ND & SZ & SO & CO). destruct include_end.
  - exists l. split; [exact A|split; [exact ND|split; [exact SZ|split]]]; [intros q K; split; auto|]. intros; auto.
  - unfold locs_from_locs in A.
    destruct (blocks_from_locs size next true o None include_start true fuel starts (fun _ => None)) as [ys|e] eqn:B; [|discriminate].
    cbn [bind] in A. rewrite cells_places in A. assert (flat_map cells ys = l) as El by congruence.
    destruct (blocks_excluded _ _ _ _ _ _ _ _ B) as (zs & B' & F). rewrite El in F.
    exists (filter (fun q => negb (stops o q)) l). unfold locs_from_locs. rewrite B'. cbn [bind]. rewrite cells_places, F.
    split; [reflexivity|]. split; [apply NoDup_filter; auto|].
    split; [intros b i K; apply filter_In in K as [K _]; eauto|]. split.
    + intros q K. apply filter_In in K as [K K']. split; auto. right. destruct (stops o q); [discriminate|auto].
    + intros X q Q [Y|Y]; [discriminate|]. apply filter_In. split; auto. rewrite Y. reflexivity.
Qed.
