(** Proofs about sets of types and type guesses. *)
From Coq Require Import String List Bool Arith NArith ZArith Lia.
From Verif Require Import Base PyModel PySpec PyProofs TypeModel TypeSpec.
Import ListNotations.
Local Open Scope string_scope.
Local Open Scope list_scope.

(** ** Sets *)
Lemma has_bit a t : has a t = N.testbit a (ty_int t).
Proof.
  unfold has. set (k := ty_int t). destruct (N.testbit a k) eqn:E.
  - apply N.ltb_lt. destruct (N.land (N.shiftl 1 k) a) eqn:Z; [|lia]. exfalso.
    assert (X : N.testbit (N.land (N.shiftl 1 k) a) k = true).
    { rewrite N.land_spec, E, N.shiftl_spec_high' by lia. rewrite N.sub_diag. reflexivity. }
    rewrite Z in X. discriminate.
  - apply N.ltb_ge. assert (X : N.land (N.shiftl 1 k) a = 0%N); [|rewrite X; lia]. apply N.bits_inj. intro i. rewrite N.land_spec, N.bits_0.
    rewrite N.shiftl_1_l. destruct (N.eq_dec i k) as [->|NE]; [rewrite E; apply andb_false_r|]. rewrite N.pow2_bits_false by congruence. reflexivity.
Qed.
Lemma ty_int_inj t u : ty_int t = ty_int u -> t = u.
Proof. destruct t, u; cbn; intro; reflexivity || discriminate. Qed.
Lemma ty_eqb_eq t u : ty_eqb t u = true <-> t = u.
Proof. unfold ty_eqb. rewrite N.eqb_eq. split; [apply ty_int_inj|congruence]. Qed.

Theorem has_none t : has no_types t = false.
Proof. rewrite has_bit. apply N.bits_0. Qed.
Theorem has_single t u : has (only t) u = true <-> t = u.
Proof.
  rewrite has_bit. unfold only. rewrite N.shiftl_1_l. rewrite N.pow2_bits_eqb, N.eqb_eq. split; [apply ty_int_inj|congruence].
Qed.
Theorem has_join a b t : has (join a b) t = true <-> has a t = true \/ has b t = true.
Proof. rewrite !has_bit. unfold join. rewrite N.lor_spec, orb_true_iff. tauto. Qed.
Theorem has_meet a b t : has (meet a b) t = true <-> has a t = true /\ has b t = true.
Proof. rewrite !has_bit. unfold meet. rewrite N.land_spec, andb_true_iff. tauto. Qed.
Lemma in_all t : List.In t all_types.
Proof. destruct t; cbn; tauto. Qed.
Theorem get_members a t : List.In t (types_get a) <-> has a t = true.
Proof. unfold types_get. rewrite filter_In. split; [tauto|]. intro H. split; [apply in_all|exact H]. Qed.
Theorem get_once a : NoDup (types_get a).
Proof.
  apply NoDup_filter. unfold all_types. repeat constructor; cbn; intuition discriminate.
Qed.
Theorem only_members a l : has_only a l = true <-> forall t, has a t = true -> List.In t l.
Proof.
  unfold has_only. rewrite forallb_forall. split.
  - intros H t M. apply get_members in M. specialize (H t M). apply existsb_exists in H. destruct H as (u & U & E). apply ty_eqb_eq in E. subst. exact U.
  - intros H t M. apply get_members in M. apply existsb_exists. exists t. split; [apply H; exact M|apply ty_eqb_eq; reflexivity].
Qed.
Theorem mutable_members a : any_mutable a = true <-> has a TList = true \/ has a TSet = true \/ has a TDict = true.
Proof. unfold any_mutable. cbn [existsb]. rewrite !orb_true_iff. intuition congruence. Qed.
Theorem container_members a : any_container a = true <->
  has a TString = true \/ has a TList = true \/ has a TTuple = true \/ has a TSet = true \/ has a TDict = true.
Proof. unfold any_container. cbn [existsb]. rewrite !orb_true_iff. intuition congruence. Qed.

Definition mask : N := 1022.
Lemma made_mask a : made a -> N.land a mask = a.
Proof.
  induction 1 as [|t|a b _ IHa _ IHb|a b _ IHa _ IHb].
  - reflexivity.
  - destruct t; reflexivity.
  - unfold join. rewrite N.land_lor_distr_l, IHa, IHb. reflexivity.
  - unfold meet. rewrite <- N.land_assoc, IHb. reflexivity.
Qed.
Definition upto : list N := map N.of_nat (seq 0 1024).
Definition count_ok (a : N) : bool := let m := N.land a mask in Nat.eqb (types_len m) (length (types_get m)).
Lemma all_counted : forallb count_ok upto = true.
Proof. vm_compute. reflexivity. Qed.
Lemma land_le a b : (N.land a b <= b)%N.
Proof.
  apply N.ldiff_le. apply N.bits_inj. intro i. rewrite N.ldiff_spec, N.land_spec, N.bits_0. destruct (N.testbit a i), (N.testbit b i); reflexivity.
Qed.
Theorem len_members a : made a -> types_len a = length (types_get a).
Proof.
  intro M. pose proof (made_mask a M) as E. pose proof (land_le a mask) as L. rewrite E in L. unfold mask in L.
  pose proof all_counted as C. rewrite forallb_forall in C. specialize (C a).
  assert (I : List.In a upto).
  { unfold upto. apply in_map_iff. exists (N.to_nat a). rewrite N2Nat.id. split; [reflexivity|]. apply in_seq. lia. }
  specialize (C I). unfold count_ok in C. rewrite E in C. apply Nat.eqb_eq. exact C.
Qed.

(** ** Termination *)
Definition fresh (ids vis : list nat) : list nat := filter (fun n => negb (existsb (Nat.eqb n) vis)) ids.
Lemma existsb_in n vis : existsb (Nat.eqb n) vis = true <-> List.In n vis.
Proof. rewrite existsb_exists. split; [intros (x & I & E); apply Nat.eqb_eq in E; subst; exact I|intro I; exists n; split; [exact I|apply Nat.eqb_refl]]. Qed.
Lemma fresh_le ids vis vis' : incl vis vis' -> length (fresh ids vis') <= length (fresh ids vis).
Proof.
  intro I. unfold fresh. induction ids as [|n ids IH]; cbn [filter]; [lia|].
  destruct (existsb (Nat.eqb n) vis) eqn:E.
  - apply existsb_in, I, existsb_in in E. rewrite E. cbn. exact IH.
  - cbn [negb length]. destruct (existsb (Nat.eqb n) vis'); cbn; lia.
Qed.
Lemma fresh_lt ids vis n : List.In n ids -> existsb (Nat.eqb n) vis = false -> length (fresh ids (n :: vis)) < length (fresh ids vis).
Proof.
  intros I E. induction ids as [|m ids IH]; [destruct I|].
  assert (LE : length (fresh ids (n :: vis)) <= length (fresh ids vis)) by (apply fresh_le; intros x X; right; exact X).
  unfold fresh in *. cbn [filter existsb] in *. destruct (Nat.eqb_spec m n) as [->|NE].
  - cbn [orb negb]. rewrite E. cbn [negb length]. lia.
  - cbn [orb]. destruct I as [->|I]; [congruence|]. specialize (IH I). destruct (existsb (Nat.eqb m) vis); cbn [negb length existsb] in *; lia.
Qed.

Section Ends.
  Variable A : analysis.
  Variable ids : list nat.
  Hypothesis N : numbered A ids.

  Definition ends (v : list nat -> expr -> res guess) (vis : list nat) (e : expr) : Prop := exists g, v vis e = Ok g /\ incl vis (fst g).
  Definition ends_from (v : list nat -> expr -> res guess) (fuel : nat) (e : expr) : Prop :=
    forall vis, length (fresh ids vis) < fuel -> ends v vis e.
  Lemma ends_both v fuel a b : ends_from v fuel a -> ends_from v fuel b -> forall vis, length (fresh ids vis) < fuel ->
    exists g, both v vis a b = Ok g /\ incl vis (fst g).
  Proof.
    intros HA HB vis L. unfold both. destruct (HA vis L) as (x & -> & IX). cbn [bind].
    destruct (HB (fst x)) as (y & -> & IY); [pose proof (fresh_le ids _ _ IX); lia|]. cbn [bind]. eexists. split; [reflexivity|]. cbn. eapply incl_tran; eassumption.
  Qed.
  Lemma ends_binop v fuel o a b : ends_from v fuel a -> ends_from v fuel b -> forall vis, length (fresh ids vis) < fuel ->
    exists g, visit_binop v vis o a b = Ok g /\ incl vis (fst g).
  Proof.
    intros HA HB vis L. destruct (ends_both v fuel a b HA HB vis L) as (g & E & I).
    assert (L2 : length (fresh ids (fst g)) < fuel) by (pose proof (fresh_le ids _ _ I); lia).
    destruct (ends_both v fuel a b HA HB (fst g) L2) as (h & E2 & I2).
    assert (SELF : forall t : types, exists g0, Ok (vis, t) = Ok g0 /\ incl vis (fst g0)) by (intro; eexists; split; [reflexivity|apply incl_refl]).
    assert (BIT : exists g0, (do x <- v vis a; do y <- v (fst x) b; Ok (fst y, if has (join (snd x) (snd y)) TSet then only TSet
                 else if has (meet (snd x) (snd y)) TBool then only TBool else if has (join (snd x) (snd y)) TInt then only TInt else no_types)) = Ok g0 /\ incl vis (fst g0)).
    { destruct (HA vis L) as (x & -> & IX). cbn [bind]. destruct (HB (fst x)) as (y & -> & IY); [pose proof (fresh_le ids _ _ IX); lia|].
      cbn [bind]. eexists. split; [reflexivity|]. cbn. eapply incl_tran; eassumption. }
    unfold visit_binop. destruct o; try apply SELF; try exact BIT.
    - eauto.
    - rewrite E. cbn [bind]. eexists. split; [reflexivity|exact I].
    - destruct (HA vis L) as (x & -> & IX). eauto.
    - rewrite E. cbn [bind]. destruct (has (snd g) TString); [eexists; split; [reflexivity|exact I]|].
      rewrite E2. cbn [bind]. eexists. split; [reflexivity|]. eapply incl_tran; eassumption.
    - rewrite E. cbn [bind]. destruct (has (snd g) TFloat); [eexists; split; [reflexivity|exact I]|].
      rewrite E2. cbn [bind]. eexists. split; [reflexivity|]. eapply incl_tran; eassumption.
  Qed.
  Lemma ends_defs v fuel : (forall e, ends_from v fuel e) -> forall l vis acc, length (fresh ids vis) < S fuel -> (forall n d, List.In (n, d) l -> List.In n ids) ->
    exists g, visit_defs v vis l acc = Ok g /\ incl vis (fst g).
  Proof.
    intros V l. induction l as [|[n d] l IH]; intros vis acc L SUB; cbn [visit_defs]; [eexists; split; [reflexivity|apply incl_refl]|].
    destruct (existsb (Nat.eqb n) vis) eqn:E; [apply IH; [exact L|intros; eapply SUB; right; eassumption]|].
    assert (F : length (fresh ids (n :: vis)) < fuel) by (pose proof (fresh_lt ids vis n (SUB n d (or_introl eq_refl)) E); lia).
    destruct d as [iter|e].
    - destruct (IH (n :: vis) (match get_range_params iter with Some _ => join acc (only TInt) | None => acc end)) as (g & -> & I); [lia|intros; eapply SUB; right; eassumption|].
      eexists. split; [reflexivity|]. eapply incl_tran; [|exact I]. apply incl_tl, incl_refl.
    - destruct (V e (n :: vis) F) as (x & -> & IX). cbn [bind].
      assert (I0 : incl vis (fst x)) by (eapply incl_tran; [|exact IX]; apply incl_tl, incl_refl).
      destruct (IH (fst x) (join acc (snd x))) as (g & -> & I); [pose proof (fresh_le ids _ _ I0); lia|intros; eapply SUB; right; eassumption|].
      eexists. split; [reflexivity|]. eapply incl_tran; eassumption.
  Qed.
  Definition inner (v : list nat -> expr -> res guess) (fuel : nat) (e : expr) : Prop :=
    match e with Attribute a _ => ends_from v fuel a | _ => True end.
  Lemma visit_ends fuel e : ends_from (visit_type fuel A) fuel e.
  Proof.
    revert e. induction fuel as [|fuel IH]; [intros e vis L; lia|].
    assert (SELF : forall (vis : list nat) (t : types), exists g, Ok (vis, t) = Ok g /\ incl vis (fst g)) by (intros; eexists; split; [reflexivity|apply incl_refl]).
    enough (K : forall e, ends_from (visit_type (S fuel) A) (S fuel) e /\ inner (visit_type (S fuel) A) (S fuel) e) by (intro e; apply K).
    induction e as [x|c|o a IHa|o a b IHa IHb|o vs IHvs|a ops IHa IHops|g args IHg IHargs|a x IHa|a i IHa IHi|c a b IHc IHa IHb|n] using expr_ind';
      (split; [intros vis L; unfold ends|try exact I]).
    - change (visit_type (S fuel) A vis (Name x)) with (visit_defs (visit_type fuel A) vis (defs A x) no_types).
      apply ends_defs with (fuel := fuel); [exact IH|exact L|]. intros. eapply N. eassumption.
    - apply SELF.
    - destruct o; [apply SELF|exact (proj1 IHa vis L)|exact (proj1 IHa vis L)|apply SELF].
    - exact (ends_binop (visit_type (S fuel) A) (S fuel) o a b (proj1 IHa) (proj1 IHb) vis L).
    - apply SELF.
    - apply SELF.
    - destruct g as [| | | | | | |e m| | |]; try apply SELF. destruct IHg as [_ IHe]. cbn [inner] in IHe. destruct (IHe vis L) as (x & E & IX).
      change (exists g, (do g0 <- visit_type (S fuel) A vis e; Ok (fst g0, visit_call_method (snd g0) e m)) = Ok g /\ incl vis (fst g)).
      rewrite E. cbn [bind]. eexists. split; [reflexivity|exact IX].
    - apply SELF.
    - apply IHa.
    - apply SELF.
    - exact (ends_both (visit_type (S fuel) A) (S fuel) a b (proj1 IHa) (proj1 IHb) vis L).
    - apply SELF.
  Qed.
End Ends.

(** The result does not depend on the fuel. *)
Definition more (v v' : list nat -> expr -> res guess) (e : expr) : Prop := forall vis g, v vis e = Ok g -> v' vis e = Ok g.
Lemma more_both v v' a b : more v v' a -> more v v' b -> forall vis g, both v vis a b = Ok g -> both v' vis a b = Ok g.
Proof.
  intros HA HB vis g. unfold both. destruct (v vis a) as [x|] eqn:E; [|discriminate]. rewrite (HA _ _ E). cbn [bind].
  destruct (v (fst x) b) as [y|] eqn:E2; [|discriminate]. rewrite (HB _ _ E2). cbn [bind]. auto.
Qed.
Lemma more_binop v v' o a b : more v v' a -> more v v' b -> forall vis g, visit_binop v vis o a b = Ok g -> visit_binop v' vis o a b = Ok g.
Proof.
  intros HA HB vis g. pose proof (more_both v v' a b HA HB) as B. unfold visit_binop. destruct o; auto.
  - destruct (both v vis a b) as [x|] eqn:E; [|discriminate]. rewrite (B _ _ E). auto.
  - destruct (both v vis a b) as [x|] eqn:E; [|discriminate]. rewrite (B _ _ E). cbn [bind]. destruct (has (snd x) TString); [auto|].
    destruct (both v (fst x) a b) as [y|] eqn:E2; [|discriminate]. rewrite (B _ _ E2). auto.
  - destruct (both v vis a b) as [x|] eqn:E; [|discriminate]. rewrite (B _ _ E). cbn [bind]. destruct (has (snd x) TFloat); [auto|].
    destruct (both v (fst x) a b) as [y|] eqn:E2; [|discriminate]. rewrite (B _ _ E2). auto.
  - destruct (v vis a) as [x|] eqn:E; [|discriminate]. rewrite (HA _ _ E). cbn [bind].
    destruct (v (fst x) b) as [y|] eqn:E2; [|discriminate]. rewrite (HB _ _ E2). auto.
  - destruct (v vis a) as [x|] eqn:E; [|discriminate]. rewrite (HA _ _ E). cbn [bind].
    destruct (v (fst x) b) as [y|] eqn:E2; [|discriminate]. rewrite (HB _ _ E2). auto.
  - destruct (v vis a) as [x|] eqn:E; [|discriminate]. rewrite (HA _ _ E). cbn [bind].
    destruct (v (fst x) b) as [y|] eqn:E2; [|discriminate]. rewrite (HB _ _ E2). auto.
Qed.
Lemma more_defs v v' : (forall e, more v v' e) -> forall l vis acc g, visit_defs v vis l acc = Ok g -> visit_defs v' vis l acc = Ok g.
Proof.
  intros V l. induction l as [|[n d] l IH]; intros vis acc g; cbn [visit_defs]; [auto|].
  destruct (existsb _ _); [apply IH|]. destruct d as [iter|e]; [apply IH|].
  destruct (v (n :: vis) e) as [x|] eqn:E; [|discriminate]. rewrite (V _ _ _ E). cbn [bind]. apply IH.
Qed.
Lemma more_fuel A fuel : forall e, more (visit_type fuel A) (visit_type (S fuel) A) e.
Proof.
  induction fuel as [|fuel IH]; [intros e vis g H; discriminate|].
  set (v := visit_type (S fuel) A). set (v' := visit_type (S (S fuel)) A).
  enough (K : forall e, more v v' e /\ match e with Attribute a _ => more v v' a | _ => True end) by (intro e; apply K).
  induction e as [x|c|o a IHa|o a b IHa IHb|o vs IHvs|a ops IHa IHops|f args IHf IHargs|a x IHa|a i IHa IHi|c a b IHc IHa IHb|n] using expr_ind';
    (split; [intros vis g|try exact I]); try exact (fun H => H).
  - exact (more_defs _ _ IH (defs A x) vis no_types g).
  - destruct o; try exact (fun H => H); exact (proj1 IHa vis g).
  - exact (more_binop v v' o a b (proj1 IHa) (proj1 IHb) vis g).
  - destruct f as [| | | | | | |e m| | |]; try exact (fun H => H). destruct IHf as [_ IHe].
    change ((do g0 <- v vis e; Ok (fst g0, visit_call_method (snd g0) e m)) = Ok g -> (do g0 <- v' vis e; Ok (fst g0, visit_call_method (snd g0) e m)) = Ok g).
    destruct (v vis e) as [y|] eqn:E; [|discriminate]. rewrite (IHe _ _ E). auto.
  - apply IHa.
  - exact (more_both v v' a b (proj1 IHa) (proj1 IHb) vis g).
Qed.
Lemma fuel_le A f f' vis e g : f <= f' -> visit_type f A vis e = Ok g -> visit_type f' A vis e = Ok g.
Proof. intro L. induction L as [|f' L IH]; [auto|]. intro H. apply more_fuel. auto. Qed.
Lemma filter_le {T} (p : T -> bool) l : length (filter p l) <= length l.
Proof. induction l as [|x l IH]; cbn; [lia|]. destruct (p x); cbn; lia. Qed.
Theorem guess_ends A ids n e : numbered A ids -> exists r, forall fuel, length ids < fuel -> guess_type fuel A n e = Ok r.
Proof.
  intro N. set (vis := match n with Some n => [n] | None => [] end).
  destruct (visit_ends A ids N (S (length ids)) e vis) as (g & E & _).
  { pose proof (filter_le (fun m => negb (existsb (Nat.eqb m) vis)) ids). unfold fresh. lia. }
  eexists. intros fuel L. unfold guess_type. fold vis. rewrite (fuel_le A (S (length ids)) fuel vis e g L E). reflexivity.
Qed.

(** ** Soundness *)
Section Sound.
  Context {W : Type}.
  Variable P : python W.
  Variable obj : nat -> option ty.
  Hypothesis OBJ : not_numbers obj.
  Variable A : analysis.

  Lemma eval_then {T B} (m : comp (W := W) T) (k : T -> comp B) w w' v : andthen m k w = (w', Ok v) -> exists a u, m w = (u, Ok a) /\ k a u = (w', Ok v).
  Proof. unfold andthen. destruct (m w) as [u [a|x]]; [eauto|discriminate]. Qed.
  Lemma int_type v : type_of obj v = Some TInt -> exists z, v = VInt z.
  Proof. destruct v; cbn; intro H; try discriminate; [eauto|]. exfalso. exact (OBJ n H). Qed.
  Lemma int_binary o a b w w' v : int_result o = true -> binary P o (VInt a) (VInt b) w = (w', Ok v) -> exists z, v = VInt z.
  Proof.
    unfold binary. cbn [as_int]. intros R. destruct o; try discriminate R; cbn [int_op bool_result]; unfold pure;
      try (intro H; injection H as <- <-; eauto); try (destruct (Z.eqb b 0)); try (destruct (Z.leb 0 b)); intro H; try discriminate H; injection H as <- <-; eauto.
  Qed.
  Lemma empty_or (a b : types) t : (a = no_types \/ a = only t) -> (b = no_types \/ b = only t) -> join a b = no_types \/ join a b = only t.
  Proof. intros [->| ->] [->| ->]; unfold join; rewrite ?N.lor_0_l, ?N.lor_0_r, ?N.lor_diag; auto. Qed.
  Definition clean (v : list nat -> expr -> res guess) (e : expr) (t : ty) : Prop := forall vis g, v vis e = Ok g -> snd g = no_types \/ snd g = only t.
  Lemma clean_both v a b t : clean v a t -> clean v b t -> forall vis g, both v vis a b = Ok g -> snd g = no_types \/ snd g = only t.
  Proof.
    intros CA CB vis g. unfold both. destruct (v vis a) as [x|] eqn:E; [|discriminate]. cbn [bind]. destruct (v (fst x) b) as [y|] eqn:E2; [|discriminate].
    cbn [bind]. intro H. injection H as <-. cbn [snd]. apply empty_or; [eapply CA; eassumption|eapply CB; eassumption].
  Qed.
  Lemma clean_binop v o a b : int_result o = true -> clean v a TInt -> clean v b TInt -> forall vis g, visit_binop v vis o a b = Ok g -> snd g = no_types \/ snd g = only TInt.
  Proof.
    intros R CA CB vis g. pose proof (clean_both v a b TInt CA CB) as CB2. unfold visit_binop. destruct o; try discriminate R.
    - apply CB2.
    - destruct (both v vis a b) as [x|] eqn:E; [|discriminate]. cbn [bind]. intro H. injection H as <-. cbn [snd].
      destruct (CB2 _ _ E) as [->| ->]; vm_compute; auto.
    - apply CA.
    - intro H. injection H as <-. auto.
    - destruct (both v vis a b) as [x|] eqn:E; [|discriminate]. cbn [bind]. destruct (CB2 _ _ E) as [EX|EX]; rewrite EX; cbn [has].
      + replace (has no_types TString) with false by reflexivity. destruct (both v (fst x) a b) as [y|] eqn:E2; [|discriminate]. cbn [bind]. intro H. injection H as <-. cbn [snd].
        destruct (has (snd y) TInt); auto.
      + replace (has (only TInt) TString) with false by reflexivity. destruct (both v (fst x) a b) as [y|] eqn:E2; [|discriminate]. cbn [bind]. intro H. injection H as <-. cbn [snd].
        destruct (has (snd y) TInt); auto.
    - intro H. injection H as <-. auto.
    - intro H. injection H as <-. auto.
    - destruct (v vis a) as [x|] eqn:E; [|discriminate]. cbn [bind]. destruct (v (fst x) b) as [y|] eqn:E2; [|discriminate]. cbn [bind]. intro H. injection H as <-. cbn [snd].
      destruct (CA _ _ E) as [->| ->], (CB _ _ E2) as [->| ->]; vm_compute; auto.
    - destruct (v vis a) as [x|] eqn:E; [|discriminate]. cbn [bind]. destruct (v (fst x) b) as [y|] eqn:E2; [|discriminate]. cbn [bind]. intro H. injection H as <-. cbn [snd].
      destruct (CA _ _ E) as [->| ->], (CB _ _ E2) as [->| ->]; vm_compute; auto.
    - destruct (v vis a) as [x|] eqn:E; [|discriminate]. cbn [bind]. destruct (v (fst x) b) as [y|] eqn:E2; [|discriminate]. cbn [bind]. intro H. injection H as <-. cbn [snd].
      destruct (CA _ _ E) as [->| ->], (CB _ _ E2) as [->| ->]; vm_compute; auto.
  Qed.

  Theorem typed_trusted e t : typed P obj A e t -> trusted P obj A e t.
  Proof.
    induction 1 as [e t _ T|n|b|r|s|o a b R _ IHa _ IHb|o a N _ IHa|a|a c b R _ IHa _ IHb|c a b t _ IHa _ IHb]; [exact T| | | | | | | | |];
      (split; [intros w w' v H|intros fuel vis g H; destruct fuel as [|fuel]; [discriminate H|]]).
    - injection H as <- <-. reflexivity.
    - injection H as <-. auto.
    - injection H as <- <-. reflexivity.
    - injection H as <-. auto.
    - injection H as <- <-. reflexivity.
    - injection H as <-. auto.
    - injection H as <- <-. reflexivity.
    - injection H as <-. auto.
    - cbn [eval] in H. apply eval_then in H. destruct H as (x & u & HX & H). apply eval_then in H. destruct H as (y & u' & HY & H).
      destruct (int_type _ (proj1 IHa _ _ _ HX)) as (i & ->). destruct (int_type _ (proj1 IHb _ _ _ HY)) as (j & ->).
      destruct (int_binary _ _ _ _ _ _ R H) as (z & ->). reflexivity.
    - exact (clean_binop (visit_type (S fuel) A) o a b R (proj2 IHa (S fuel)) (proj2 IHb (S fuel)) vis g H).
    - cbn [eval] in H. apply eval_then in H. destruct H as (x & u & HX & H). destruct (int_type _ (proj1 IHa _ _ _ HX)) as (i & ->).
      destruct o; [congruence| | |]; injection H as <- <-; reflexivity.
    - destruct o; [congruence| | |]; [exact (proj2 IHa (S fuel) vis g H)|exact (proj2 IHa (S fuel) vis g H)|injection H as <-; auto].
    - cbn [eval] in H. apply eval_then in H. destruct H as (x & u & HX & H). unfold unary in H. apply eval_then in H. destruct H as (y & u' & HY & H). injection H as <- <-. reflexivity.
    - injection H as <-. auto.
    - rewrite eval_compare in H. apply eval_then in H. destruct H as (x & u & HX & H). cbn [map chain fst snd] in H. apply eval_then in H. destruct H as (y & u' & HY & H).
      destruct (int_type _ (proj1 IHa _ _ _ HX)) as (i & ->). destruct (int_type _ (proj1 IHb _ _ _ HY)) as (j & ->).
      destruct c; try discriminate R; injection H as <- <-; reflexivity.
    - injection H as <-. auto.
    - cbn [eval] in H. apply eval_then in H. destruct H as (x & u & HX & H). apply eval_then in H. destruct H as (y & u' & HY & H).
      destruct y; [exact (proj1 IHa _ _ _ H)|exact (proj1 IHb _ _ _ H)].
    - exact (clean_both (visit_type (S fuel) A) a b t (proj2 IHa (S fuel)) (proj2 IHb (S fuel)) vis g H).
  Qed.
  Theorem typed_sound e t : typed P obj A e t -> forall fuel n ts, guess_type fuel A n e = Ok (Some ts) -> sound P obj e ts.
  Proof.
    intros T fuel n ts G w w' v H. destruct (typed_trusted e t T) as [TV TG]. exists t. split; [eapply TV; exact H|].
    unfold guess_type in G. destruct (visit_type fuel A _ e) as [g|] eqn:E; [|discriminate]. cbn [bind] in G.
    destruct (Nat.ltb 0 (types_len (snd g))) eqn:L; [|discriminate]. injection G as <-.
    destruct (TG _ _ _ E) as [Z|Z]; rewrite Z in *; [discriminate L|]. apply has_single. reflexivity.
  Qed.
End Sound.
