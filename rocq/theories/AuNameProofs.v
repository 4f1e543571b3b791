(** Proofs about the places of names: with consistent names required, names correspond one-to-one. *)
From Coq Require Import String List Bool Arith Lia.
From Verif Require Import Base AuModel AuSpec AuProofs AuMergeProofs AuResultProofs.
Import ListNotations.
Local Open Scope string_scope.
Local Open Scope list_scope.
Local Open Scope nat_scope.

(** ** The loop over the variables *)

Lemma const_eq_text : forall s t, const_eq (VAtom (AStr s)) (VAtom (AStr t)) = true -> s = t.
Proof. intros s t E. cbn [const_eq] in E. apply atom_eq_str in E. congruence. Qed.

Lemma keys_eq_text : forall u v, Forall (fun v => exists s, v = VAtom (AStr s)) v -> keys_eq u v = true -> u = v.
Proof.
  induction u as [|x u IH]; intros [|y v] T E; cbn [keys_eq] in E; try discriminate; [reflexivity|].
  apply andb_true_iff in E. destruct E as (E & F). inversion T as [|? ? (s & ->) T']; subst. f_equal; [|exact (IH _ T' F)].
  destruct x; cbn [const_eq] in E; try discriminate. apply atom_eq_str in E. congruence.
Qed.

Lemma keys_eq_refl_text : forall u, Forall (fun v => exists s, v = VAtom (AStr s)) u -> keys_eq u u = true.
Proof.
  induction u as [|x u IH]; intros T; [reflexivity|]. inversion T as [|? ? (s & ->) T']; subst. cbn [keys_eq const_eq].
  rewrite atom_eq_refl, (IH T'). reflexivity.
Qed.

Lemma owner_app : forall o o' i v, owner o' i v <> None -> owner (o ++ o') i v <> None.
Proof.
  induction o as [|[[j w] subs] o IH]; intros o' i v N; [exact N|]. cbn [app owner].
  destruct (Nat.eqb i j && const_eq v w); [discriminate|exact (IH _ _ _ N)].
Qed.
Lemma owner_here : forall o i v subs, (exists s, v = VAtom (AStr s)) -> List.In ((i, v), subs) o -> owner o i v <> None.
Proof.
  induction o as [|[[j w] subs'] o IH]; intros i v subs (s & ->) I; [destruct I|]. cbn [owner]. destruct I as [E|I].
  - injection E as -> -> ->. rewrite Nat.eqb_refl. cbn [const_eq]. rewrite atom_eq_refl. discriminate.
  - destruct (Nat.eqb i j && const_eq (VAtom (AStr s)) w); [discriminate|]. exact (IH _ _ _ (ex_intro _ s eq_refl) I).
Qed.

Lemma indexed_in : forall subs b i (v : val), nth_error subs i = Some v -> List.In (b + i, v) (combine (seq b (length subs)) subs).
Proof.
  induction subs as [|s subs IH]; intros b i v E; [destruct i; discriminate|]. cbn [length seq combine]. destruct i as [|i]; cbn [nth_error] in E.
  - injection E as <-. left. rewrite Nat.add_0_r. reflexivity.
  - right. specialize (IH (S b) i v E). rewrite Nat.add_succ_r. exact IH.
Qed.

Lemma add_key_nonempty : forall k l, add_key k l <> [].
Proof. intros k [|k' l]; cbn [add_key]; [discriminate|]. destruct (keys_eq k k'); discriminate. Qed.

Lemma canonicals_empty : forall o a, canonicals o a = [] -> forall i v, List.In (i, v) (looked_up a) -> owner o i v = None.
Proof.
  intros o a E i v I. unfold canonicals in E. revert E I. generalize (looked_up a) as l.
  assert (KEEP : forall l acc, acc <> [] ->
    fold_left (fun acc '(i, v) => match owner o i v with Some subs => add_key subs acc | None => acc end) l acc <> []).
  { induction l as [|[j w] l IH]; intros acc N; [exact N|]. cbn [fold_left]. apply IH. destruct (owner o j w); [apply add_key_nonempty|exact N]. }
  induction l as [|[j w] l IH]; intros E I; [destruct I|]. cbn [fold_left] in E.
  destruct (owner o j w) as [subs|] eqn:O.
  - exfalso. exact (KEEP _ _ (add_key_nonempty subs []) E).
  - destruct I as [F|I]; [congruence|exact (IH E I)].
Qed.

Lemma extend_keys : forall g k l k', List.In k' (map fst (extend_group g k l)) <-> List.In k' (map fst g) \/ (k' = k /\ in_groups g k = false).
Proof.
  induction g as [|[k1 l1] g IH]; intros k l k'; cbn [extend_group map fst List.In].
  - unfold in_groups. cbn. intuition congruence.
  - unfold in_groups. cbn [existsb]. fold (in_groups g k). destruct (keys_eq k k1); cbn [map fst List.In orb].
    + intuition congruence.
    + rewrite IH. tauto.
Qed.
Lemma in_groups_key : forall g k, in_groups g k = true -> exists k', List.In k' (map fst g) /\ keys_eq k k' = true.
Proof.
  intros g k E. unfold in_groups in E. apply existsb_exists in E. destruct E as ([k' l'] & I & K).
  exists k'. split; [exact (in_map fst _ _ I)|exact K].
Qed.

Definition texts (v : list val) : Prop := Forall (fun v => exists s, v = VAtom (AStr s)) v.
(** The state of the loop: the keys of the groups are owned and differ from each other everywhere. *)
Record steady (o : owners) (g : groups) : Prop := mk_steady {
  steady_texts : forall k, List.In k (map fst g) -> texts k;
  steady_owned : forall k i v, List.In k (map fst g) -> nth_error k i = Some v -> owner o i v <> None;
  steady_apart : forall k k' i v, List.In k (map fst g) -> List.In k' (map fst g) -> nth_error k i = Some v -> nth_error k' i = Some v -> k = k' }.

Lemma consistent_loop : forall avars o g forced g' forced', (forall a, List.In a avars -> named a = true -> textual (avar_subs a)) ->
  steady o g -> merge_loop true avars o g forced = Ok (Some (g', forced')) ->
  (forall k, List.In k (map fst g) -> List.In k (map fst g')) /\
  (exists o', steady o' g') /\ forall a, List.In a avars -> named a = true -> List.In (avar_subs a) (map fst g').
Proof.
  induction avars as [|a avars IH]; intros o g forced g' forced' T ST E; cbn [merge_loop] in E.
  - injection E as <- <-. refine (conj (fun k I => I) (conj (ex_intro _ o ST) _)). intros a [].
  - assert (T' : forall x, List.In x avars -> named x = true -> textual (avar_subs x)) by (intros x Ix; apply T; right; exact Ix).
    assert (SKIP : named a = false -> forall o1 g1 forced1, steady o1 g1 -> (forall k, List.In k (map fst g) -> List.In k (map fst g1)) ->
      merge_loop true avars o1 g1 forced1 = Ok (Some (g', forced')) ->
      (forall k, List.In k (map fst g) -> List.In k (map fst g')) /\ (exists o', steady o' g') /\
      forall x, List.In x (a :: avars) -> named x = true -> List.In (avar_subs x) (map fst g')).
    { intros N o1 g1 forced1 ST1 K E1. destruct (IH _ _ _ _ _ T' ST1 E1) as (K' & O' & A').
      refine (conj (fun k I => K' _ (K _ I)) (conj O' _)). intros x [<-|I] Nx; [congruence|exact (A' _ I Nx)]. }
    assert (DONE : forall o1 g1 forced1, steady o1 g1 -> (forall k, List.In k (map fst g) -> List.In k (map fst g1)) ->
      List.In (avar_subs a) (map fst g1) ->
      merge_loop true avars o1 g1 forced1 = Ok (Some (g', forced')) ->
      (forall k, List.In k (map fst g) -> List.In k (map fst g')) /\ (exists o', steady o' g') /\
      forall x, List.In x (a :: avars) -> named x = true -> List.In (avar_subs x) (map fst g')).
    { intros o1 g1 forced1 ST1 K I1 E1. destruct (IH _ _ _ _ _ T' ST1 E1) as (K' & O' & A').
      refine (conj (fun k I => K' _ (K _ I)) (conj O' _)). intros x [<-|I] Nx; [exact (K' _ I1)|exact (A' _ I Nx)]. }
    destruct (avar_subs a) as [|s subs] eqn:S; [discriminate|]. rewrite <- S in *.
    assert (G : (match canonicals o a with
                   | [] => merge_loop true avars (rev (map (fun p => (p, avar_subs a)) (combine (seq 0 (length (avar_subs a))) (avar_subs a))) ++ o)
                               (if named a then extend_group g (avar_subs a) [a] else g) forced
                   | [canon] =>
                       if named a && keys_eq canon (avar_subs a) && in_groups g canon
                       then merge_loop true avars o (extend_group g canon [a]) forced
                       else Ok None
                   | canons => Ok None
                   end) = Ok (Some (g', forced')) \/ (named a = false /\ merge_loop true avars o g forced = Ok (Some (g', forced')))).
    { destruct s as [x|l|l|k at_ sb|n sb]; try (left; exact E). right. split; [|exact E].
      destruct (named a) eqn:N; [|reflexivity]. destruct (T a (or_introl eq_refl) N) as (_ & F). rewrite S in F.
      apply Forall_inv in F. destruct F as (? & F). discriminate. }
    clear E. destruct G as [E|(N & E)]; [|exact (SKIP N _ _ _ ST (fun k I => I) E)].
    destruct (canonicals o a) as [|canon [|]] eqn:C; [| |discriminate].
    + destruct (named a) eqn:N.
      * destruct (T a (or_introl eq_refl) N) as (NE & TX).
        assert (FREE : forall i v, nth_error (avar_subs a) i = Some v -> owner o i v = None).
        { intros i v Ei. apply (canonicals_empty _ _ C). unfold looked_up. rewrite N. exact (indexed_in _ 0 _ _ Ei). }
        assert (NG : in_groups g (avar_subs a) = false).
        { destruct (in_groups g (avar_subs a)) eqn:IG; [|reflexivity]. exfalso.
          destruct (in_groups_key _ _ IG) as (k' & Ik & K). apply (keys_eq_text _ _ (steady_texts _ _ ST _ Ik)) in K. subst k'.
          refine (steady_owned _ _ ST _ 0 s Ik _ (FREE 0 s _)); rewrite S; reflexivity. }
        refine (DONE _ _ _ _ _ _ E).
        -- assert (NEW : forall i v, nth_error (avar_subs a) i = Some v ->
             owner (rev (map (fun p => (p, avar_subs a)) (combine (seq 0 (length (avar_subs a))) (avar_subs a))) ++ o) i v <> None).
           { intros i v Ei. refine (owner_here _ i v (avar_subs a) _ _).
             - unfold texts in TX. rewrite Forall_forall in TX. exact (TX _ (nth_error_In _ _ Ei)).
             - apply in_or_app. left. apply -> in_rev. apply in_map_iff. exists (i, v). split; [reflexivity|exact (indexed_in _ 0 _ _ Ei)]. }
           constructor.
           ++ intros k I. apply extend_keys in I. destruct I as [I|(-> & _)]; [exact (steady_texts _ _ ST _ I)|exact TX].
           ++ intros k i v I Ei. apply extend_keys in I. destruct I as [I|(-> & _)]; [|exact (NEW _ _ Ei)].
              apply owner_app. exact (steady_owned _ _ ST _ _ _ I Ei).
           ++ intros k k' i v I I' Ei Ei'. apply extend_keys in I, I'.
              destruct I as [I|(-> & _)]; destruct I' as [I'|(-> & _)].
              ** exact (steady_apart _ _ ST _ _ _ _ I I' Ei Ei').
              ** exfalso. exact (steady_owned _ _ ST _ _ _ I Ei (FREE _ _ Ei')).
              ** exfalso. exact (steady_owned _ _ ST _ _ _ I' Ei' (FREE _ _ Ei)).
              ** reflexivity.
        -- intros k I. apply extend_keys. left. exact I.
        -- apply extend_keys. right. split; [reflexivity|exact NG].
      * refine (SKIP eq_refl _ _ _ _ (fun k I => I) E). constructor.
        -- exact (steady_texts _ _ ST).
        -- intros k i v I Ei. apply owner_app. exact (steady_owned _ _ ST _ _ _ I Ei).
        -- exact (steady_apart _ _ ST).
    + destruct (named a && keys_eq canon (avar_subs a) && in_groups g canon) eqn:CC; [|discriminate].
      rewrite !andb_true_iff in CC. destruct CC as ((N & K) & IG).
      destruct (T a (or_introl eq_refl) N) as (NE & TX).
      apply (keys_eq_text _ _ TX) in K. subst canon.
      destruct (in_groups_key _ _ IG) as (k' & Ik & K). apply (keys_eq_text _ _ (steady_texts _ _ ST _ Ik)) in K. subst k'.
      assert (SAME : forall k, List.In k (map fst (extend_group g (avar_subs a) [a])) -> List.In k (map fst g)).
      { intros k I. apply extend_keys in I. destruct I as [I|(-> & _)]; assumption. }
      refine (DONE _ _ _ _ _ _ E).
      * constructor.
        -- intros k I. exact (steady_texts _ _ ST _ (SAME _ I)).
        -- intros k i v I. exact (steady_owned _ _ ST _ _ _ (SAME _ I)).
        -- intros k k1 i v I I'. exact (steady_apart _ _ ST _ _ _ _ (SAME _ I) (SAME _ I')).
      * intros k I. apply extend_keys. left. exact I.
      * apply extend_keys. left. exact Ik.
Qed.

Lemma consistent_candidates : forall avars g, (forall a, List.In a avars -> named a = true -> textual (avar_subs a)) ->
  get_merge_candidates true avars = Ok (Some g) -> forall a b i v, List.In a avars -> List.In b avars -> named a = true -> named b = true ->
  nth_error (avar_subs a) i = Some v -> nth_error (avar_subs b) i = Some v -> avar_subs a = avar_subs b.
Proof.
  intros avars g T E a b i v Ia Ib Na Nb Ea Eb. unfold get_merge_candidates in E.
  destruct (merge_loop true avars [] [] []) as [[[g1 forced]|]|e] eqn:ML; cbn [bind] in E; try discriminate.
  destruct (consistent_loop _ _ _ _ _ _ T (mk_steady [] [] (fun k (I : List.In k []) => match I with end) (fun k _ _ (I : List.In k []) => match I with end)
     (fun k _ _ _ (I : List.In k []) => match I with end)) ML) as (_ & (o' & ST) & A).
  exact (steady_apart _ _ ST _ _ _ _ (A _ Ia Na) (A _ Ib Nb) Ea Eb).
Qed.

(** ** Places *)

Section Places.
  Variable astroid_fields : string -> list string.
  Variable is_subclass : string -> string -> bool.
  Variable class_of : string -> node_class.
  Variable stop_on : list val -> res bool.
  Variable shape_of : string -> string -> shape.
  Variable used : string -> Prop.
  Variable plain : atom -> Prop.
  Hypothesis classes_ok : classes astroid_fields is_subclass shape_of used.
  Hypothesis fields_once : forall k, NoDup (all_fields astroid_fields k).

  Notation fields := (all_fields astroid_fields).
  Notation unify := (unify astroid_fields is_subclass class_of stop_on).
  Notation well := (well fields shape_of used plain).

  Lemma many_find : forall run vs attrs num r a, many run vs attrs num = Ok r -> List.In a attrs ->
    exists ws num1 c av n2, mapM (fun v => getattr v a) vs = Ok ws /\ run ws num1 = Ok (c, av, n2) /\ List.In (a, c) (fst (fst r)) /\ incl av (snd (fst r)).
  Proof.
    intros run vs. induction attrs as [|b attrs IH]; intros num r a E I; [destruct I|]. cbn [many] in E.
    destruct (mapM (fun v => getattr v b) vs) as [ws|e] eqn:MM; cbn [bind] in E; [|discriminate].
    destruct (run ws num) as [[[core av] n1]|e] eqn:R; cbn [bind] in E; [|discriminate].
    destruct (many run vs attrs n1) as [[[cs more] n2]|e] eqn:P; cbn [bind] in E; [|discriminate]. injection E as <-. cbn [fst snd].
    destruct I as [<-|I].
    - exists ws, num, core, av, n1. refine (conj MM (conj R (conj _ _))); [left; reflexivity|]. intros x Ix. apply in_or_app. left. exact Ix.
    - destruct (IH _ _ _ P I) as (ws' & m1 & c & av' & m2 & E1 & E2 & E3 & E4). exists ws', m1, c, av', m2. cbn [fst snd] in *.
      refine (conj E1 (conj E2 (conj _ _))); [right; exact E3|]. intros x Ix. apply in_or_app. right. exact (E4 _ Ix).
  Qed.

  Lemma positions_find : forall run columns num r j column, positions run columns num = Ok r -> nth_error columns j = Some column ->
    exists num1 c c' av n2, run column num1 = Ok (c, av, n2) /\ as_tuple column c = Ok c' /\ List.In c' (fst (fst r)) /\ incl av (snd (fst r)).
  Proof.
    intros run. induction columns as [|b columns IH]; intros num r j column E J; [destruct j; discriminate|]. cbn [positions] in E.
    destruct (run b num) as [[[core av] n1]|e] eqn:R; cbn [bind] in E; [|discriminate].
    destruct (as_tuple b core) as [core'|e] eqn:T; cbn [bind] in E; [|discriminate].
    destruct (positions run columns n1) as [[[cs more] n2]|e] eqn:P; cbn [bind] in E; [|discriminate]. injection E as <-. cbn [fst snd].
    destruct j as [|j]; cbn [nth_error] in J.
    - injection J as ->. exists num, core, core', av, n1. refine (conj R (conj T (conj _ _))); [left; reflexivity|]. intros x Ix. apply in_or_app. left. exact Ix.
    - destruct (IH _ _ _ _ P J) as (m1 & c & c' & av' & m2 & E1 & E2 & E3 & E4). exists m1, c, c', av', m2. cbn [fst snd] in *.
      refine (conj E1 (conj E2 (conj _ _))); [right; exact E3|]. intros x Ix. apply in_or_app. right. exact (E4 _ Ix).
  Qed.

  Lemma attr_in : forall (l : list (string * val)) a c, attr_of l a = Some c -> List.In (a, c) l.
  Proof.
    induction l as [|[b w] l IH]; intros a c E; [discriminate|]. cbn [attr_of] in E.
    destruct (String.eqb_spec a b) as [->|_]; [left; congruence|right; exact (IH _ _ E)].
  Qed.

  (** [seen n p core]: the variable [n] stands for a name. *)
  Definition named_in (n : nat) (core : val) : Prop := forall p, exists k, name_class k /\ List.In (n, Some k) (parents_in p core).

  Lemma named_in_node : forall kind vs cores avars num core avars' num' a c n,
    make_core class_of stop_on kind vs cores avars num = Ok (core, avars', num') -> attr_of cores a = Some c -> named_in n c -> named_in n core.
  Proof.
    intros kind vs cores avars num core avars' num' a c n E A N p. apply make_core_ok in E. destruct E as (attrs & NN & -> & _).
    destruct (N (Some kind)) as (k & NC & I). exists k. split; [exact NC|]. cbn [parents_in]. apply in_flat_map.
    exists (a, c). split; [|exact I]. apply attr_in. exact (new_node_attr _ _ _ _ _ _ NN A).
  Qed.

  Lemma seqs_step : forall fuel (vs : list val) num r n j ws (is_ : val -> Prop), (forall v, is_ v -> is_seq v = true /\ is_var v = false) -> vs <> [] ->
    Forall2 (fun v w => is_ v /\ length (elements v) = n /\ nth_error (elements v) j = Some w) vs ws ->
    unify (S fuel) vs num = Ok r ->
    exists num1 c c' av n2, unify fuel ws num1 = Ok (c, av, n2) /\ as_tuple ws c = Ok c' /\ (exists cs, fst (fst r) = VList cs /\ List.In c' cs) /\
      incl av (snd (fst r)).
  Proof.
    intros fuel vs num r n j ws is_ SQ NE F E. cbn [AuModel.unify] in E.
    assert (ALL : forall v, List.In v vs -> is_ v /\ length (elements v) = n /\ exists w, nth_error (elements v) j = Some w).
    { intros v I. clear - F I. induction F as [|x w vs ws (A & B & C) F IH]; [destruct I|]. destruct I as [<-|I]; [eauto|exact (IH I)]. }
    replace (existsb is_var vs) with false in E.
    2:{ symmetry. destruct (existsb is_var vs) eqn:EV; [|reflexivity]. apply existsb_exists in EV. destruct EV as (x & I & V).
        destruct (ALL _ I) as (A & _). apply SQ in A. destruct A. congruence. }
    destruct vs as [|v0 vs]; [congruence|]. set (all := v0 :: vs) in *.
    destruct (ALL v0 (or_introl eq_refl)) as (S0 & L0 & w0 & J0). rewrite (proj1 (SQ _ S0)) in E.
    replace (forallb is_seq all) with true in E.
    2:{ symmetry. apply forallb_forall. intros v I. destruct (ALL _ I) as (A & _). exact (proj1 (SQ _ A)). }
    rewrite L0 in E.
    replace (forallb (fun v => Nat.eqb (length (elements v)) n) all) with true in E.
    2:{ symmetry. apply forallb_forall. intros v I. destruct (ALL _ I) as (_ & -> & _). apply Nat.eqb_refl. }
    destruct (positions _ _ num) as [[[cs av] n1]|e] eqn:P; cbn [bind] in E; [|discriminate]. injection E as <-. cbn [fst snd].
    assert (J : nth_error (map (fun i => map (fun v => nth i (elements v) (VAtom ANone)) all) (seq 0 n)) j = Some ws).
    { assert (Lj : j < n) by (rewrite <- L0; apply nth_error_Some; congruence).
      rewrite (map_nth_error (fun i => map (fun v => nth i (elements v) (VAtom ANone)) all) j (seq 0 n) (d := j)).
      - f_equal. clear - F. clearbody all. induction F as [|x w us ws (A & B & C) F IH]; [reflexivity|]. cbn [map]. rewrite IH. f_equal. exact (nth_error_nth _ _ _ C).
      - rewrite (nth_error_nth' _ 0) by (rewrite seq_length; exact Lj). rewrite seq_nth by exact Lj. reflexivity. }
    destruct (positions_find _ _ _ _ _ _ P J) as (m1 & c & c' & av' & m2 & E1 & E2 & E3 & E4).
    exists m1, c, c', av', m2. refine (conj E1 (conj E2 (conj _ E4))). exists cs. split; [reflexivity|exact E3].
  Qed.

  Lemma place_found : forall vs ns, name_place fields vs ns -> forall fuel s num core avars num', vs <> [] -> Forall (well s) vs ->
    unify fuel vs num = Ok (core, avars, num') ->
    exists n, List.In (VVar n (map (fun x => VAtom (AStr x)) ns)) avars /\ named_in n core.
  Proof.
    induction 1 as [k vs ns NC F|k a vs ws ns NC Ia F NP IH|n j vs ws ns F NP IH|n j vs ws ns F NP IH];
      intros fuel s num core avars num' NE W E; (destruct fuel as [|fuel]; [discriminate|]).
    - cbn [AuModel.unify] in E. rewrite (wells_not_var _ _ _ _ _ _ W) in E.
      assert (M : mapM (fun v => getattr v "name") vs = Ok (map (fun x => VAtom (AStr x)) ns)).
      { clear - F. induction F as [|v x vs ns (at_ & -> & H) F IH]; [reflexivity|]. cbn [mapM map getattr]. rewrite holds_iff in H. rewrite H. cbn [bind].
        rewrite IH. reflexivity. }
      assert (IK : forallb (instance_of is_subclass k) vs = true).
      { apply forallb_forall. intros v I. rewrite Forall_forall in W. specialize (W _ I).
        assert (exists at_, v = VNode k at_ None) as (at_ & ->).
        { clear - F I. induction F as [|x w vs ws (A & -> & C) F IH]; [destruct I|]. destruct I as [<-|I]; [eauto|exact (IH I)]. }
        inversion W; subst. cbn [instance_of]. apply (reflexive _ _ _ _ classes_ok). assumption. }
      inversion F as [E1 E2|v0 n0 vs' ns' (at0 & -> & H0) F' E1 E2]; subst; [congruence|].
      cbn [is_seq existsb is_node orb negb] in E. rewrite IK in E.
      replace (str_in k ["Name"; "AssignName"]) with true in E by (symmetry; apply namek_iff; exact NC).
      rewrite M in E. cbn [bind] in E.
      destruct (new_aunifier stop_on _ num) as [[[c av] n1]|e] eqn:NA; cbn [bind] in E; [|discriminate].
      apply new_aunifier_ok in NA. destruct NA as (-> & -> & ->).
      exists (S num). assert (E' := E). apply make_core_ok in E. destruct E as (attrs & NN & -> & -> & -> & _).
      split; [left; reflexivity|]. intros p. exists k. split; [exact NC|]. cbn [parents_in]. apply in_flat_map.
      eexists ("name", _). split; [apply attr_in; refine (new_node_attr _ _ _ _ _ _ NN _); reflexivity|]. left. reflexivity.
    - cbn [AuModel.unify] in E. rewrite (wells_not_var _ _ _ _ _ _ W) in E.
      assert (M : mapM (fun v => getattr v a) vs = Ok ws).
      { clear - F. induction F as [|v x vs ns (at_ & -> & H) F IH]; [reflexivity|]. cbn [mapM map getattr]. rewrite holds_iff in H. rewrite H. cbn [bind].
        rewrite IH. reflexivity. }
      assert (ALL : forall v, List.In v vs -> exists at_, v = VNode k at_ None).
      { intros v I. clear - F I. induction F as [|x w vs ws (A & -> & C) F IH]; [destruct I|]. destruct I as [<-|I]; [eauto|exact (IH I)]. }
      assert (IK : forallb (instance_of is_subclass k) vs = true).
      { apply forallb_forall. intros v I. rewrite Forall_forall in W. specialize (W _ I).
        destruct (ALL _ I) as (at_ & ->). inversion W; subst. cbn [instance_of]. apply (reflexive _ _ _ _ classes_ok). assumption. }
      assert (NE' : ws <> []) by (intros ->; inversion F; subst; congruence).
      assert (WS : Forall (well (shape_of k a)) ws).
      { clear - F W Ia. induction F as [|v w vs ws (at_ & -> & H) F IH]; constructor.
        - apply Forall_inv in W. inversion W as [|? ? U A N|?|?]; subst. destruct (A _ Ia) as (w' & Hw' & Ww'). rewrite (holds_fun _ _ _ _ Hw' H) in Ww'. exact Ww'.
        - apply IH. exact (Forall_inv_tail W). }
      inversion F as [E1 E2|v0 n0 vs' ns' (at0 & -> & H0) F' E1 E2]; subst; [congruence|].
      cbn [is_seq existsb is_node orb negb] in E. rewrite IK in E.
      replace (str_in k ["Name"; "AssignName"]) with false in E.
      2:{ symmetry. destruct (str_in k ["Name"; "AssignName"]) eqn:NK; [|reflexivity]. exfalso. apply NC, namek_iff. exact NK. }
      destruct (many _ _ _ num) as [[[cs av] n1]|e] eqn:MM; cbn [bind] in E; [|discriminate].
      destruct (many_find _ _ _ _ _ _ MM Ia) as (ws' & m1 & c & av' & m2 & E1 & E2 & E3 & E4). cbn [fst snd] in *.
      rewrite M in E1. injection E1 as <-.
      destruct (IH _ _ _ _ _ _ NE' WS E2) as (n & In_ & NI). exists n.
      assert (AC : attr_of cs a = Some c).
      { apply attr_of_nodup; [|exact E3]. apply many_names in MM. cbn [fst] in MM. rewrite MM. apply fields_once. }
      refine (conj _ (named_in_node _ _ _ _ _ _ _ _ _ _ _ E AC NI)).
      apply make_core_ok in E. destruct E as (attrs & NN & -> & -> & -> & _). exact (E4 _ In_).
    - assert (NE' : ws <> []) by (intros ->; inversion F; subst; congruence).
      assert (exists t, Forall (well t) ws) as (t & WS).
      { destruct s as [|t|t t']; [| |].
        - exfalso. destruct F as [|v w vs ws (l & -> & _) F]; [congruence|]. apply Forall_inv in W. inversion W.
        - exists t. clear - F W. induction F as [|v w vs ws (l & -> & L & J) F IH]; constructor.
          + apply Forall_inv in W. inversion W as [|?|? ? FF|?]; subst. rewrite Forall_forall in FF. exact (FF _ (nth_error_In _ _ J)).
          + apply IH. exact (Forall_inv_tail W).
        - exfalso. destruct F as [|v w vs ws (l & -> & _) F]; [congruence|]. apply Forall_inv in W. inversion W. }
      destruct (seqs_step fuel vs num (core, avars, num') n j ws (fun v => exists l, v = VList l)) as (m1 & c & c' & av' & m2 & E1 & E2 & (cs & E3 & E3') & E4).
      + intros v (l & ->). split; reflexivity.
      + exact NE.
      + clear - F. induction F as [|v w vs ws (l & -> & L & J) F IH]; constructor; [|exact IH]. split; [eauto|split; assumption].
      + exact E.
      + cbn [fst snd] in *. subst core. destruct (IH _ _ _ _ _ _ NE' WS E1) as (m & In_ & NI). exists m.
        split; [exact (E4 _ In_)|]. intros p. destruct (NI p) as (k & NC & I). exists k. split; [exact NC|]. cbn [parents_in]. apply in_flat_map.
        exists c'. split; [exact E3'|]. destruct (as_tuple_vars _ _ _ E2) as (_ & ->). exact I.
    - assert (NE' : ws <> []) by (intros ->; inversion F; subst; congruence).
      assert (exists t, Forall (well t) ws) as (t & WS).
      { destruct s as [|t|t t']; [| |].
        - exfalso. destruct F as [|v w vs ws (l & -> & _) F]; [congruence|]. apply Forall_inv in W. inversion W.
        - exfalso. destruct F as [|v w vs ws (l & -> & _) F]; [congruence|]. apply Forall_inv in W. inversion W.
        - assert (J0 : j = 0 \/ j = 1).
          { destruct F as [|v w vs ws (l & -> & _ & J) F]; [congruence|]. apply Forall_inv in W. inversion W; subst. destruct j as [|[|[|]]]; [auto|auto|discriminate|discriminate]. }
          destruct J0 as [-> | ->]; [exists t|exists t']; clear - F W; (induction F as [|v w vs ws (l & -> & L & J) F IH]; constructor;
          [apply Forall_inv in W; inversion W; subst; cbn in J; congruence|apply IH; exact (Forall_inv_tail W)]). }
      destruct (seqs_step fuel vs num (core, avars, num') n j ws (fun v => exists l, v = VTup l)) as (m1 & c & c' & av' & m2 & E1 & E2 & (cs & E3 & E3') & E4).
      + intros v (l & ->). split; reflexivity.
      + exact NE.
      + clear - F. induction F as [|v w vs ws (l & -> & L & J) F IH]; constructor; [|exact IH]. split; [eauto|split; assumption].
      + exact E.
      + cbn [fst snd] in *. subst core. destruct (IH _ _ _ _ _ _ NE' WS E1) as (m & In_ & NI). exists m.
        split; [exact (E4 _ In_)|]. intros p. destruct (NI p) as (k & NC & I). exists k. split; [exact NC|]. cbn [parents_in]. apply in_flat_map.
        exists c'. split; [exact E3'|]. destruct (as_tuple_vars _ _ _ E2) as (_ & ->). exact I.
  Qed.
End Places.
