(** Proofs about walks over control flow graphs: forward first, backwards by mirroring. *)
From Coq Require Import String List Bool Arith Lia FinFun.
From Verif Require Import Base WalkModel WalkSpec.
Import ListNotations.
Local Open Scope list_scope.
Local Open Scope nat_scope.

(** * The places to stop at *)
Lemma stop_up_some p : forall n f i, stop_up p f n = Some i ->
  f <= i < f + n /\ p i = true /\ forall k, f <= k < i -> p k = false.
Proof.
  induction n as [|n IH]; intros f i H; cbn [stop_up] in H; [discriminate|].
  destruct (p f) eqn:E.
  - assert (f = i) by congruence. subst i. split; [lia|split; [exact E|intros; lia]].
  - destruct (IH _ _ H) as (A & B & C). split; [lia|split; [exact B|]].
    intros k K. destruct (Nat.eq_dec k f); [subst; auto|apply C; lia].
Qed.
Lemma stop_up_none p : forall n f, stop_up p f n = None -> forall k, f <= k < f + n -> p k = false.
Proof.
  induction n as [|n IH]; intros f H k K; [lia|]. cbn [stop_up] in H.
  destruct (p f) eqn:E; [discriminate|]. destruct (Nat.eq_dec k f); [subst; auto|apply (IH (S f)); auto; lia].
Qed.

Section Forward.
Variable size : nat -> nat.
Variable next : nat -> list nat.
Variable o : option (nat -> nat -> bool).
Variable include_start : bool.
Variable R : nat * nat -> Prop.
Hypothesis last : empty_last size next.
Notation stop := (stops o).
Notation stp := (step size next true).
Hypothesis R_step : forall q r, R q -> stop q = false -> stp q r -> R r.

Notation seg := (nat * nat * nat)%type.
Definition cells (s : seg) : list (nat * nat) := match s with (b, f, t) => map (pair b) (seq f (t - f)) end.
Lemma in_cells b f t c k : In (c, k) (cells (b, f, t)) <-> c = b /\ f <= k < t.
Proof.
  unfold cells. rewrite in_map_iff. split.
  - intros (x & E & K). apply in_seq in K. assert (b = c /\ x = k) as [-> ->] by (split; congruence). split; auto; lia.
  - intros (-> & K). exists k. split; auto. apply in_seq. lia.
Qed.
Lemma nodup_cells s : NoDup (cells s).
Proof. destruct s as [[b f] t]. unfold cells. apply Injective_map_NoDup; [intros x y E; congruence|apply seq_NoDup]. Qed.

Lemma onto_iff b c : onto size next b c <-> In c (next b) /\ size c <> 0.
Proof.
  split; [|intros [A B]; constructor; auto].
  intros H. destruct H as [b c A B|b e c A B C]; auto.
  pose proof (last b e A B) as L. destruct C as [e c C D|e e' c C D E]; rewrite L in C; destruct C.
Qed.

Notation inprog := (nat * nat * nat)%type.
Definition live (P : list seg) (q : nat * nat) : Prop :=
  exists f t, In (fst q, f, t) P /\ f <= snd q < t /\ forall k, f <= k < snd q -> stop (fst q, k) = false.
Definition promised (P : list seg) (Q : list inprog) (q : nat * nat) : Prop :=
  snd q = 0 /\ size (fst q) <> 0 /\
  ((exists b f, In (b, f, size b) P /\ (forall k, f <= k < size b -> stop (b, k) = false) /\ In (fst q) (next b)) \/
   (exists b i, In (b, size b, i) Q /\ In (fst q) (skipn i (next b)))).
Definition solid P (Z : list (nat * nat)) q : Prop := In q Z \/ live P q.
Definition covered P Q (Z : list (nat * nat)) q : Prop := solid P Z q \/ promised P Q q.
Definition opens (b t : nat) : Prop := t = size b -> forall c, In c (next b) -> size c <> 0 -> R (c, 0).

Record Inv (P : list seg) (Q : list inprog) (v : nat -> option (nat * nat)) (Z : list (nat * nat)) : Prop := {
  i_range : forall b f t, v b = Some (f, t) -> t = size b /\ f <= t;
  i_pend : forall b f t, In (b, f, t) P -> f <= t <= size b /\ (f < t -> R (b, f)) /\ (f = t -> opens b t) /\ (t < size b -> solid P Z (b, t));
  i_prog : forall b t i, In (b, t, i) Q -> opens b t;
  i_nodup : NoDup (Z ++ flat_map cells P);
  i_in : forall b k, In (b, k) (Z ++ flat_map cells P) -> exists f, v b = Some (f, size b) /\ f <= k < size b;
  i_sound : forall q, In q Z -> R q;
  i_closed : forall q r, In q Z -> stop q = false -> stp q r -> covered P Q Z r;
  i_first : forall b f t, v b = Some (f, t) -> f < size b -> solid P Z (b, f);
  i_all : (forall q, stop q = false) -> forall b f t k, v b = Some (f, t) -> f <= k < size b -> solid P Z (b, k) }.

(** Coverage is kept if nothing covered gets lost. *)
Lemma Inv_weaken P Q v Z P' Q' Z' :
  Inv P Q v Z ->
  (forall q, solid P Z q -> solid P' Z' q) ->
  (forall q, covered P Q Z q -> covered P' Q' Z' q) ->
  (forall s, In s P' -> In s P) ->
  (forall b t i, In (b, t, i) Q' -> opens b t) ->
  NoDup (Z' ++ flat_map cells P') ->
  (forall q, In q (Z' ++ flat_map cells P') -> In q (Z ++ flat_map cells P)) ->
  (forall q, In q Z' -> R q) ->
  (forall q r, In q Z' -> ~ In q Z -> stop q = false -> stp q r -> covered P' Q' Z' r) ->
  Inv P' Q' v Z'.
Proof.
  intros I C CC HP HQ ND IN SO CL.
  assert (dec : forall x y : nat * nat, {x = y} + {x <> y}) by (intros; decide equality; apply Nat.eq_dec).
  constructor.
  - exact (i_range _ _ _ _ I).
  - intros b f t K. destruct (i_pend _ _ _ _ I b f t (HP _ K)) as (A & B & D & E).
    split; [exact A|split; [exact B|split; [exact D|]]]. intros T. apply C, E, T.
  - exact HQ.
  - exact ND.
  - intros b k K. apply (i_in _ _ _ _ I), IN, K.
  - exact SO.
  - intros q r K S0 ST. destruct (in_dec dec q Z) as [Y|Y].
    + apply CC. eapply (i_closed _ _ _ _ I); eauto.
    + eapply CL; eauto.
  - intros b f t K L. apply C. eapply (i_first _ _ _ _ I); eauto.
  - intros NS b f t k K L. apply C. eapply (i_all _ _ _ _ I); eauto.
Qed.

(** A stopped segment: its places up to the stop are visited. *)
Lemma phase_stop b f t P Q v Z j :
  Inv ((b, f, t) :: P) Q v Z -> stop_up (fun i => stop (b, i)) f (t - f) = Some j ->
  Inv P Q v (Z ++ cells (b, f, S j)) /\
  (forall q, covered ((b, f, t) :: P) Q Z q -> covered P Q (Z ++ cells (b, f, S j)) q).
Proof.
  intros I ST. destruct (stop_up_some _ _ _ _ ST) as (A & B & N).
  destruct (i_pend _ _ _ _ I b f t (or_introl eq_refl)) as (W & RF & _ & _).
  assert (C0 : forall q, solid ((b, f, t) :: P) Z q -> solid P (Z ++ cells (b, f, S j)) q).
  { intros q [K|(f' & t' & K & L & M)].
    - left. apply in_or_app. auto.
    - destruct K as [K|K].
      + destruct q as [b' k]. cbn [fst snd] in *. assert (b = b' /\ f = f' /\ t = t') as (<- & <- & <-) by (repeat split; congruence).
        left. apply in_or_app. right. apply in_cells. split; auto. split; [lia|].
        destruct (le_lt_dec k j); [lia|]. assert (stop (b, j) = false) by (apply M; lia). congruence.
      + right. exists f', t'. auto. }
  assert (C : forall q, covered ((b, f, t) :: P) Q Z q -> covered P Q (Z ++ cells (b, f, S j)) q).
  { intros q [K|(E & F & [(b' & f' & K & L & M)|K])]; [left; auto| |].
    - destruct K as [K|K].
      + assert (b = b' /\ f = f' /\ t = size b') as (<- & <- & Et) by (repeat split; congruence).
        assert (stop (b, j) = false) by (apply L; lia). congruence.
      + right. split; [auto|split; [auto|]]. left. exists b', f'. auto.
    - right. split; [auto|split; [auto|]]. right. exact K. }
  split; [|exact C].
  assert (RK : forall k, f <= k <= j -> R (b, k)).
  { intros k. induction k as [|k IH]; intros K.
    - assert (f = 0) by lia. subst f. apply RF. lia.
    - destruct (Nat.eq_dec f (S k)) as [->|D]; [apply RF; lia|].
      apply (R_step (b, k)); [apply IH; lia|apply N; lia|apply step_in; auto; lia]. }
  assert (SUB : forall q, In q (cells (b, f, S j)) -> In q (cells (b, f, t))).
  { intros [c k] K. apply in_cells in K. apply in_cells. destruct K as [-> K]. split; auto; lia. }
  apply (Inv_weaken _ _ _ _ P Q (Z ++ cells (b, f, S j)) I C0 C).
  - intros s K. right. exact K.
  - intros b' t' i K. eapply (i_prog _ _ _ _ I); eauto.
  - pose proof (i_nodup _ _ _ _ I) as ND. cbn [flat_map] in ND.
    replace (cells (b, f, t)) with (cells (b, f, S j) ++ cells (b, S j, t)) in ND.
    + rewrite app_assoc in ND. rewrite <- app_assoc in ND. rewrite <- app_assoc in ND.
      rewrite <- app_assoc.
      rewrite (app_assoc Z) in ND. rewrite (app_assoc Z).
      set (X := Z ++ cells (b, f, S j)) in *. clearbody X. clear - ND.
      induction (cells (b, S j, t)) as [|y l IH]; [exact ND|]. apply IH. cbn [app] in ND. apply NoDup_remove_1 in ND. exact ND.
    + unfold cells. rewrite <- map_app. f_equal.
      replace (t - f) with ((S j - f) + (t - S j)) by lia. rewrite seq_app. f_equal. f_equal. lia.
  - intros q K. apply in_app_or in K as [K|K].
    + apply in_app_or in K as [K|K]; apply in_or_app; [left; auto|right]. cbn [flat_map]. apply in_or_app. left. auto.
    + apply in_or_app. right. cbn [flat_map]. apply in_or_app. auto.
  - intros q K. apply in_app_or in K as [K|K]; [eapply (i_sound _ _ _ _ I); eauto|].
    destruct q as [c k]. apply in_cells in K as [-> K]. apply RK. lia.
  - intros q r K Y S0 ST'. apply in_app_or in K as [K|K]; [contradiction|].
    destruct q as [c k]. apply in_cells in K as [-> K].
    assert (k <> j) by (intros ->; congruence).
    inversion ST'; subst; try discriminate; [|lia].
    left. left. apply in_or_app. right. apply in_cells. split; auto; lia.
Qed.

(** A segment without stops: all its places are visited, the blocks after it remain to be entered. *)
Lemma phase_pass b f t P Q v Z :
  Inv ((b, f, t) :: P) Q v Z -> stop_up (fun i => stop (b, i)) f (t - f) = None ->
  Inv P ((b, t, 0) :: Q) v (Z ++ cells (b, f, t)) /\
  (forall q, covered ((b, f, t) :: P) Q Z q -> covered P ((b, t, 0) :: Q) (Z ++ cells (b, f, t)) q).
Proof.
  intros I ST. pose proof (stop_up_none _ _ _ ST) as N.
  destruct (i_pend _ _ _ _ I b f t (or_introl eq_refl)) as (W & RF & OP & CO).
  assert (N' : forall k, f <= k < t -> stop (b, k) = false) by (intros; apply N; lia).
  assert (C0 : forall q, solid ((b, f, t) :: P) Z q -> solid P (Z ++ cells (b, f, t)) q).
  { intros q [K|(f' & t' & K & L & M)].
    - left. apply in_or_app. auto.
    - destruct K as [K|K].
      + destruct q as [b' k]. cbn [fst snd] in *. assert (b = b' /\ f = f' /\ t = t') as (<- & <- & <-) by (repeat split; congruence).
        left. apply in_or_app. right. apply in_cells. auto.
      + right. exists f', t'. auto. }
  assert (C : forall q, covered ((b, f, t) :: P) Q Z q -> covered P ((b, t, 0) :: Q) (Z ++ cells (b, f, t)) q).
  { intros q [K|(E & F & [(b' & f' & K & L & M)|(b' & i & K & L)])]; [left; auto| |].
    - right. split; [auto|split; [auto|]]. destruct K as [K|K].
      + right. exists b', 0. assert (b = b' /\ t = size b') as (<- & Et) by (split; congruence).
        split; [left; congruence|exact M].
      + left. exists b', f'. auto.
    - right. split; [auto|split; [auto|]]. right. exists b', i. split; [right; auto|auto]. }
  assert (RK : forall k, f <= k < t -> R (b, k)).
  { intros k. induction k as [|k IH]; intros K.
    - assert (f = 0) by lia. subst f. apply RF. lia.
    - destruct (Nat.eq_dec f (S k)) as [->|D]; [apply RF; lia|].
      apply (R_step (b, k)); [apply IH; lia|apply N'; lia|apply step_in; auto; lia]. }
  split; [|exact C].
  apply (Inv_weaken _ _ _ _ P ((b, t, 0) :: Q) (Z ++ cells (b, f, t)) I C0 C).
  - intros s K. right. exact K.
  - intros b' t' i [K|K]; [|eapply (i_prog _ _ _ _ I); eauto].
    assert (b = b' /\ t = t') as (<- & <-) by (split; congruence).
    destruct (Nat.eq_dec f t) as [E|E]; [auto|].
    intros Et c K1 K2. apply (R_step (b, pred t)); [apply RK; lia|apply N'; lia|].
    apply step_out; auto; [lia|]. apply onto_iff. auto.
  - pose proof (i_nodup _ _ _ _ I) as ND. cbn [flat_map] in ND. rewrite app_assoc in ND. exact ND.
  - intros q K. cbn [flat_map]. rewrite app_assoc. exact K.
  - intros q K. apply in_app_or in K as [K|K]; [eapply (i_sound _ _ _ _ I); eauto|].
    destruct q as [c k]. apply in_cells in K as [-> K]. apply RK. lia.
  - intros q r K Y S0 ST'. apply in_app_or in K as [K|K]; [contradiction|].
    destruct q as [c k]. apply in_cells in K as [-> K].
    inversion ST' as [b1 i1 F1 L1|b1 i1 c1 F1 L1 O1|b1 i1 F1|b1 c1 j1 F1]; subst; try discriminate.
    + destruct (Nat.eq_dec (S k) t) as [E|E].
      * rewrite E. left. apply C0, CO. lia.
      * left. left. apply in_or_app. right. apply in_cells. split; auto; lia.
    + apply onto_iff in O1 as [O1 O2]. right. cbn [fst snd]. split; [auto|split; [auto|]].
      right. exists b, 0. split; [left; f_equal; f_equal; lia|exact O1].
Qed.

(** Nothing is left of a block whose successors have all been entered, or that is not left at its end. *)
Lemma phase_done b t i P Q v Z :
  Inv P ((b, t, i) :: Q) v Z -> length (next b) <= i ->
  Inv P Q v Z /\ (forall q, covered P ((b, t, i) :: Q) Z q -> covered P Q Z q).
Proof.
  intros I L.
  assert (C : forall q, covered P ((b, t, i) :: Q) Z q -> covered P Q Z q).
  { intros q [K|(E & F & [K|(b' & i' & [K|K] & M)])].
    - left; auto.
    - right. split; [auto|split; [auto|]]. auto.
    - assert (b = b' /\ i = i') as (<- & <-) by (split; congruence).
      rewrite skipn_all2 in M by lia. destruct M.
    - right. split; [auto|split; [auto|]]. right. exists b', i'. auto. }
  split; [|exact C].
  apply (Inv_weaken _ _ _ _ P Q Z I (fun q K => K) C); auto.
  - intros b' t' i' K. eapply (i_prog _ _ _ _ I). right. eauto.
  - exact (i_nodup _ _ _ _ I).
  - exact (i_sound _ _ _ _ I).
  - intros q r K Y. contradiction.
Qed.

Lemma skipn_step (l : list nat) i c : i < length l -> In c (skipn i l) -> c = nth i l 0 \/ In c (skipn (S i) l).
Proof.
  revert i. induction l as [|x l IH]; intros i L K; [inversion L|].
  destruct i; cbn [skipn nth length] in *; [destruct K; auto|]. apply IH; [lia|auto].
Qed.

(** The next block is not entered: it is empty, has been visited from its start on, or the control does not come to it. *)
Lemma phase_skip b t i P Q v Z :
  Inv P ((b, t, i) :: Q) v Z -> i < length (next b) ->
  (t = size b -> size (nth i (next b) 0) <> 0 -> exists t', v (nth i (next b) 0) = Some (0, t')) ->
  Inv P ((b, t, S i) :: Q) v Z /\ (forall q, covered P ((b, t, i) :: Q) Z q -> covered P ((b, t, S i) :: Q) Z q).
Proof.
  intros I L V.
  assert (C : forall q, covered P ((b, t, i) :: Q) Z q -> covered P ((b, t, S i) :: Q) Z q).
  { intros q [K|(E & F & [K|(b' & i' & [K|K] & M)])].
    - left; auto.
    - right. split; [auto|split; [auto|]]. auto.
    - assert (b = b' /\ i = i' /\ t = size b') as (<- & <- & Et) by (repeat split; congruence).
      destruct (skipn_step _ _ _ L M) as [X|X].
      + left. destruct q as [c k]. cbn [fst snd] in *. subst c k.
        destruct (V Et F) as (t' & Vc). apply (i_first _ _ _ _ I _ _ _ Vc). lia.
      + right. split; [auto|split; [auto|]]. right. exists b, (S i). split; [left; congruence|auto].
    - right. split; [auto|split; [auto|]]. right. exists b', i'. split; [right; auto|auto]. }
  split; [|exact C].
  apply (Inv_weaken _ _ _ _ P ((b, t, S i) :: Q) Z I (fun q K => K) C); auto.
  - intros b' t' i' [K|K].
    + assert (b = b' /\ t = t') as (<- & <-) by (split; congruence). apply (i_prog _ _ _ _ I b t i). left; auto.
    + eapply (i_prog _ _ _ _ I). right. eauto.
  - exact (i_nodup _ _ _ _ I).
  - exact (i_sound _ _ _ _ I).
  - intros q r K Y. contradiction.
Qed.

(** A new segment in front of what has been visited of a block. *)
Lemma phase_push c f t Q P v Z :
  Inv P Q v Z -> f <= t <= size c ->
  (f < t -> R (c, f)) -> (f = t -> opens c t) ->
  (v c = None /\ t = size c \/ v c = Some (t, size c)) ->
  Inv ((c, f, t) :: P) Q (put v c (f, size c)) Z /\ (forall q, covered P Q Z q -> covered ((c, f, t) :: P) Q Z q).
Proof.
  intros I W RF OP V.
  assert (C0 : forall q, solid P Z q -> solid ((c, f, t) :: P) Z q).
  { intros q [K|(f' & t' & K & L)]; [left; auto|right; exists f', t'; split; [right; auto|auto]]. }
  assert (C : forall q, covered P Q Z q -> covered ((c, f, t) :: P) Q Z q).
  { intros q [K|(E & F & [(b' & f' & K & L)|K])]; [left; auto| |]; right; (split; [auto|split; [auto|]]); [left|right; auto].
    exists b', f'. split; [right; auto|auto]. }
  assert (PUT : forall b, put v c (f, size c) b = if Nat.eqb b c then Some (f, size c) else v b) by reflexivity.
  split; [|exact C]. constructor.
  - intros b f' t' K. rewrite PUT in K. destruct (Nat.eqb_spec b c) as [->|D].
    + assert (f = f' /\ size c = t') as (<- & <-) by (split; congruence). split; auto; lia.
    + apply (i_range _ _ _ _ I _ _ _ K).
  - intros b f' t' [K|K].
    + assert (c = b /\ f = f' /\ t = t') as (<- & <- & <-) by (repeat split; congruence).
      split; [auto|split; [auto|split; [auto|]]]. intros T. apply C0.
      destruct V as [[V V']|V]; [lia|]. apply (i_first _ _ _ _ I _ _ _ V T).
    + destruct (i_pend _ _ _ _ I b f' t' K) as (A & B & D & E).
      split; [auto|split; [auto|split; [auto|]]]. intros T. apply C0, E, T.
  - exact (i_prog _ _ _ _ I).
  - cbn [flat_map]. pose proof (i_nodup _ _ _ _ I) as ND.
    assert (DIS : forall q, In q (cells (c, f, t)) -> ~ In q (Z ++ flat_map cells P)).
    { intros [b k] K X. apply in_cells in K as [-> K]. destruct (i_in _ _ _ _ I _ _ X) as (f' & X1 & X2).
      destruct V as [[V _]|V]; [congruence|]. assert (t = f') by congruence. lia. }
    pose proof (nodup_cells (c, f, t)) as NC. revert NC DIS. generalize (cells (c, f, t)) as l. intros l. induction l as [|x l IH]; intros NC DIS; [exact ND|].
    cbn [app]. apply NoDup_cons_iff in NC as [NX NC].
    assert (G : NoDup (Z ++ l ++ flat_map cells P)) by (apply IH; auto; intros q K; apply DIS; right; auto).
    apply (NoDup_Add (a := x) (l := Z ++ l ++ flat_map cells P)); [apply Add_app|]. split; auto.
    intros X. apply in_app_or in X as [X|X]; [|apply in_app_or in X as [X|X]].
    + apply (DIS x); [left; auto|apply in_or_app; auto].
    + auto.
    + apply (DIS x); [left; auto|apply in_or_app; auto].
  - intros b k K. cbn [flat_map] in K. rewrite PUT.
    assert (K' : In (b, k) (cells (c, f, t)) \/ In (b, k) (Z ++ flat_map cells P)).
    { apply in_app_or in K as [K|K]; [right; apply in_or_app; auto|]. apply in_app_or in K as [K|K]; [left; auto|right; apply in_or_app; auto]. }
    destruct K' as [K'|K'].
    + apply in_cells in K' as [-> K']. rewrite Nat.eqb_refl. exists f. split; auto; lia.
    + destruct (i_in _ _ _ _ I _ _ K') as (f' & X1 & X2). destruct (Nat.eqb_spec b c) as [->|D].
      * exists f. split; auto. destruct V as [[V _]|V]; [congruence|]. assert (t = f') by congruence. lia.
      * exists f'. auto.
  - exact (i_sound _ _ _ _ I).
  - intros q r K S0 ST. apply C. eapply (i_closed _ _ _ _ I); eauto.
  - intros b f' t' K T. rewrite PUT in K. destruct (Nat.eqb_spec b c) as [->|D].
    + assert (f = f') as <- by congruence. destruct (Nat.eq_dec f t) as [E|E].
      * apply C0. destruct V as [[V V']|V]; [lia|]. rewrite E. apply (i_first _ _ _ _ I _ _ _ V). lia.
      * right. exists f, t. cbn [fst snd]. split; [left; auto|split; [lia|intros; lia]].
    + apply C0. apply (i_first _ _ _ _ I _ _ _ K T).
  - intros NS b f' t' k K T. rewrite PUT in K. destruct (Nat.eqb_spec b c) as [->|D].
    + assert (f = f') as <- by congruence. destruct (le_lt_dec t k) as [E|E].
      * apply C0. destruct V as [[V V']|V]; [lia|]. apply (i_all _ _ _ _ I NS _ _ _ k V). lia.
      * right. exists f, t. cbn [fst snd]. split; [left; auto|split; [lia|intros; apply NS]].
    + apply C0. apply (i_all _ _ _ _ I NS _ _ _ k K T).
Qed.

(** * The loop *)
Notation entry := (nat * nat * nat * bool * nat)%type.
Definition pends (stack : list entry) : list seg :=
  flat_map (fun e : entry => match e with (b, f, t, _, i) => if Nat.eqb i 0 then [(b, f, t)] else [] end) stack.
Definition progs (stack : list entry) : list inprog :=
  flat_map (fun e : entry => match e with (b, f, t, _, i) => if Nat.eqb i 0 then [] else [(b, t, i)] end) stack.

Variable n : nat.
Hypothesis cl : closed n next.
Definition cost (b : nat) : nat := S (length (next b)).
Definition open_cost (v : nat -> option (nat * nat)) (b : nat) : nat :=
  match v b with Some (0, _) => 0 | _ => cost b end.
Definition weight (stack : list entry) : nat :=
  list_sum (map (fun e : entry => match e with (b, _, _, _, i) => cost b - i end) stack).
Definition left_over (v : nat -> option (nat * nat)) : nat := list_sum (map (open_cost v) (seq 0 n)).
Definition sized (stack : list entry) : Prop := forall b f t x i, In (b, f, t, x, i) stack -> b < n /\ i <= length (next b).

Lemma sum_put (g h : nat -> nat) c : forall m k, k <= c < k + m -> h c + 0 = h c -> (forall b, b <> c -> g b = h b) ->
  list_sum (map g (seq k m)) + h c = list_sum (map h (seq k m)) + g c.
Proof.
  induction m as [|m IH]; intros k K _ E; [lia|]. cbn [seq map]. 
  change (g k + list_sum (map g (seq (S k) m)) + h c = h k + list_sum (map h (seq (S k) m)) + g c).
  destruct (Nat.eq_dec k c) as [->|D].
  - assert (X : map g (seq (S c) m) = map h (seq (S c) m)).
    { apply map_ext_in. intros a Ha. apply in_seq in Ha. apply E. lia. }
    rewrite X. lia.
  - rewrite (E k D). specialize (IH (S k)). rewrite <- (Nat.add_assoc (h k)), IH by (auto; lia). lia.
Qed.
Lemma left_put v c t : c < n -> left_over (put v c (0, t)) + open_cost v c = left_over v.
Proof.
  intros L. unfold left_over.
  assert (E : open_cost (put v c (0, t)) c = 0) by (unfold open_cost, put; rewrite Nat.eqb_refl; reflexivity).
  pose proof (sum_put (open_cost (put v c (0, t))) (open_cost v) c n 0) as H. rewrite E in H.
  rewrite H; [lia|lia|lia|]. intros b D. unfold open_cost, put. destruct (Nat.eqb_spec b c); [contradiction|reflexivity].
Qed.

Lemma triage_eq first b f t : triage true o None include_start true b f t first =
  match stop_up (fun i => stop (b, i)) f (t - f) with None => (false, true, (f, t)) | Some j => (true, true, (f, S j)) end.
Proof.
  clear R_step. unfold triage. cbn [andb orb]. unfold stops. destruct o as [p|].
  - cbn [fst snd]. change (fun i => p b i) with (p b). destruct (stop_up (p b) f (t - f)); reflexivity.
  - assert (E : forall m k, stop_up (fun _ => false) k m = None) by (induction m; intros; cbn [stop_up]; auto). rewrite E. reflexivity.
Qed.

Notation run := (dfs size next true o None include_start true).

(** What is done with an entry whose block has been yielded. *)
Lemma advance fuel : (forall stack v Z, weight stack + left_over v < fuel -> sized stack -> Inv (pends stack) (progs stack) v Z ->
    exists ys v', run fuel stack v = Ok (ys, v') /\ Inv [] [] v' (Z ++ flat_map cells ys) /\
      forall q, covered (pends stack) (progs stack) Z q -> In q (Z ++ flat_map cells ys)) ->
  forall b f t x i stack v Z, weight stack + left_over v + (cost b - i) <= fuel -> b < n -> i <= length (next b) -> sized stack ->
  Inv (pends stack) ((b, t, i) :: progs stack) v Z ->
  exists ys v',
    (if Nat.leb (length (next b)) i then run fuel stack v
     else if at_end size true b f t then do e <- enter size true (nth i (next b) 0) ((b, f, t, x, S i) :: stack) v; run fuel (fst e) (snd e)
     else run fuel ((b, f, t, x, S i) :: stack) v) = Ok (ys, v') /\
    Inv [] [] v' (Z ++ flat_map cells ys) /\
    forall q, covered (pends stack) ((b, t, i) :: progs stack) Z q -> In q (Z ++ flat_map cells ys).
Proof.
  intros IH b f t x i stack v Z M B I0 SZ I.
  destruct (Nat.leb_spec (length (next b)) i) as [L|L].
  { destruct (phase_done _ _ _ _ _ _ _ I L) as [I' C]. destruct (IH stack v Z) as (ys & v' & A1 & A2 & A3); auto.
    - unfold cost in M. lia.
    - exists ys, v'. auto. }
  assert (SZ' : sized ((b, f, t, x, S i) :: stack)).
  { intros b' f' t' x' i' [K|K]; [|eapply SZ; eauto]. assert (b = b' /\ S i = i') as (<- & <-) by (split; congruence). split; auto. }
  assert (M' : weight ((b, f, t, x, S i) :: stack) + left_over v < fuel).
  { change (cost b - S i + weight stack + left_over v < fuel). unfold cost in *. lia. }
  assert (SKIP : (t = size b -> size (nth i (next b) 0) <> 0 -> exists t', v (nth i (next b) 0) = Some (0, t')) ->
     exists ys v', run fuel ((b, f, t, x, S i) :: stack) v = Ok (ys, v') /\ Inv [] [] v' (Z ++ flat_map cells ys) /\
     forall q, covered (pends stack) ((b, t, i) :: progs stack) Z q -> In q (Z ++ flat_map cells ys)).
  { intros V. destruct (phase_skip _ _ _ _ _ _ _ I L V) as [I' C].
    destruct (IH ((b, f, t, x, S i) :: stack) v Z) as (ys & v' & A1 & A2 & A3); auto. exists ys, v'. auto. }
  unfold at_end. destruct (Nat.eqb_spec t (size b)) as [Et|Et]; [|apply SKIP; intros; contradiction].
  set (c := nth i (next b) 0) in *.
  assert (Cin : In c (next b)) by (apply nth_In; exact L).
  assert (Cn : c < n) by (apply (cl b); auto).
  unfold enter. destruct (Nat.eqb_spec (size c) 0) as [S0|S0].
  { cbn [bind fst snd]. apply SKIP. intros; contradiction. }
  assert (RC : R (c, 0)).
  { apply (i_prog _ _ _ _ I b t i); auto. left; auto. }
  assert (PUSH : forall vf, vf <> 0 -> vf <= size c -> (v c = None /\ vf = size c \/ v c = Some (vf, size c)) ->
     exists ys v', run fuel ((c, 0, vf, false, 0) :: (b, f, t, x, S i) :: stack) (put v c (0, size c)) = Ok (ys, v') /\ Inv [] [] v' (Z ++ flat_map cells ys) /\
     forall q, covered (pends stack) ((b, t, i) :: progs stack) Z q -> In q (Z ++ flat_map cells ys)).
  { intros vf N0 LE V.
    destruct (phase_push c 0 vf _ _ _ _ I) as [I1 C1]; auto; [lia|intros; lia|].
    destruct (phase_skip _ _ _ _ _ _ _ I1 L) as [I2 C2].
    { intros _ _. exists (size c). unfold put. fold c. rewrite Nat.eqb_refl. reflexivity. }
    destruct (IH ((c, 0, vf, false, 0) :: (b, f, t, x, S i) :: stack) (put v c (0, size c)) Z) as (ys & v' & A1 & A2 & A3).
    - change (cost c - 0 + weight ((b, f, t, x, S i) :: stack) + left_over (put v c (0, size c)) < fuel).
      pose proof (left_put v c (size c) Cn) as LP.
      assert (OC : open_cost v c = cost c).
      { unfold open_cost. destruct V as [[V _]|V]; rewrite V; auto. destruct vf; [congruence|auto]. }
      lia.
    - intros b' f' t' x' i' [K|K]; [|eapply SZ'; eauto]. assert (c = b' /\ 0 = i') as (<- & <-) by (split; congruence). split; auto; lia.
    - exact I2.
    - exists ys, v'. split; [exact A1|split; [exact A2|]]. intros q K. apply A3, C2, C1, K. }
  destruct (v c) as [[vf vt]|] eqn:V.
  - destruct (i_range _ _ _ _ I _ _ _ V) as [-> LE].
    rewrite Nat.eqb_refl. destruct (Nat.eqb_spec vf 0) as [->|N0].
    + cbn [andb bind fst snd]. apply SKIP. intros _ _. exists (size c). auto.
    + cbn [andb bind fst snd]. apply PUSH; auto.
  - cbn [bind fst snd]. apply PUSH; auto.
Qed.

Lemma run_ok : forall fuel stack v Z, weight stack + left_over v < fuel -> sized stack -> Inv (pends stack) (progs stack) v Z ->
  exists ys v', run fuel stack v = Ok (ys, v') /\ Inv [] [] v' (Z ++ flat_map cells ys) /\
    forall q, covered (pends stack) (progs stack) Z q -> In q (Z ++ flat_map cells ys).
Proof.
  induction fuel as [|fuel IH]; intros stack v Z M SZ I; [lia|].
  destruct stack as [|[[[[b f] t] x] i] stack]; cbn [dfs].
  { exists [], v. split; [reflexivity|]. cbn [flat_map]. rewrite app_nil_r. split; [exact I|].
    intros q [[K|(f & t & [] & _)]|(_ & _ & [(b & f & [] & _)|(b & i & [] & _)])]. exact K. }
  destruct (SZ b f t x i (or_introl eq_refl)) as [B L].
  assert (SZ' : sized stack) by (intros b' f' t' x' i' K; eapply SZ; right; eauto).
  change (cost b - i + weight stack + left_over v < S fuel) in M.
  destruct (Nat.eqb_spec i 0) as [->|N0].
  - change (pends ((b, f, t, x, 0) :: stack)) with ((b, f, t) :: pends stack) in *.
    change (progs ((b, f, t, x, 0) :: stack)) with (progs stack) in *.
    rewrite triage_eq. destruct (stop_up (fun i => stop (b, i)) f (t - f)) as [j|] eqn:E.
    + destruct (phase_stop _ _ _ _ _ _ _ _ I E) as [I' C].
      destruct (stop_up_some _ _ _ _ E) as (J & _ & _).
      destruct (IH stack v (Z ++ cells (b, f, S j))) as (ys & v' & A1 & A2 & A3); auto.
      { unfold cost in M. lia. }
      rewrite A1. cbn [bind fst snd]. destruct (Nat.eqb_spec f (S j)); [lia|]. cbn [andb negb].
      exists ([(b, f, S j)] ++ ys), v'. split; [reflexivity|]. rewrite flat_map_app. cbn [flat_map]. rewrite app_nil_r, app_assoc.
      split; [exact A2|]. intros q K. apply A3, C, K.
    + destruct (phase_pass _ _ _ _ _ _ _ I E) as [I' C].
      destruct (advance fuel IH b f t x 0 stack v (Z ++ cells (b, f, t))) as (ys & v' & A1 & A2 & A3); auto; [lia|].
      rewrite A1. cbn [bind fst snd].
      exists ((if true && negb (Nat.eqb f t) then [(b, f, t)] else []) ++ ys), v'. split; [reflexivity|].
      assert (F : flat_map cells (if true && negb (Nat.eqb f t) then [(b, f, t)] else []) = cells (b, f, t)).
      { cbn [andb]. destruct (Nat.eqb_spec f t) as [->|D]; cbn [negb flat_map]; [|apply app_nil_r].
        unfold cells. rewrite Nat.sub_diag. reflexivity. }
      rewrite flat_map_app, F, app_assoc. split; [exact A2|]. intros q K. apply A3, C, K.
  - destruct i as [|i]; [contradiction|].
    change (pends ((b, f, t, x, S i) :: stack)) with (pends stack) in *.
    change (progs ((b, f, t, x, S i) :: stack)) with ((b, t, S i) :: progs stack) in *.
    destruct (advance fuel IH b f t x (S i) stack v Z) as (ys & v' & A1 & A2 & A3); auto; [lia|].
    rewrite A1. cbn [bind fst snd andb app]. exists ys, v'. auto.
Qed.
End Forward.
