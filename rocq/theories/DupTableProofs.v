(** Lists and dictionaries that are suggested instead of if statements. *)
From Coq Require Import String List Bool Arith ZArith Lia Permutation.
From Verif Require Import Base DupModel DupSpec.
Import ListNotations.
Local Open Scope string_scope.
Local Open Scope list_scope.
Local Open Scope nat_scope.

Lemma test_rect' (Q : test -> Prop) : (forall l ops, Q (TCompare l ops)) -> (forall op values, Forall Q values -> Q (TBool op values)) -> (forall id, Q (TOther id)) -> forall t, Q t.
Proof.
  intros HC HB HO. fix IH 1. intros [l ops|op values|id]; [apply HC| |apply HO]. apply HB. induction values as [|v values IV]; constructor; [apply IH|exact IV].
Qed.

Fixpoint all_vals (values : list test) : option (list (list (list literal))) :=
  match values with
  | [] => Some []
  | v :: values => match vals_from_simple_test v with
                   | None => None
                   | Some d => match all_vals values with None => None | Some ds => Some (d :: ds) end
                   end
  end.
Lemma vals_bool op values : vals_from_simple_test (TBool op values) =
  if str_in op ["and"; "or"] then
    match all_vals values with
    | None => None
    | Some ds => if String.eqb op "or" then Some (concat ds) else Some (map (fun disjunction => sort_literals (concat disjunction)) (product ds))
    end
  else None.
Proof. reflexivity. Qed.

Lemma all_vals_iff : forall values ds, all_vals values = Some ds <-> map vals_from_simple_test values = map Some ds.
Proof.
  induction values as [|v values IH]; intros ds; cbn [all_vals map].
  - destruct ds; cbn [map]; split; intros E; try discriminate; reflexivity.
  - destruct (vals_from_simple_test v) as [d|]; [|destruct ds; split; discriminate]. destruct (all_vals values) as [ds'|].
    + destruct ds as [|d' ds]; [split; discriminate|]. specialize (IH ds). cbn [map]. split.
      * intros E. assert (E2 : Some ds' = Some ds) by congruence. rewrite (proj1 IH E2). congruence.
      * intros E. assert (E2 : map vals_from_simple_test values = map Some ds) by congruence. pose proof (proj2 IH E2). congruence.
    + destruct ds as [|d' ds]; split; try discriminate. cbn [map]. intros E. assert (E2 : map vals_from_simple_test values = map Some ds) by congruence.
      pose proof (proj2 (IH ds) E2). discriminate.
Qed.

Section Table.
  Variable equal : string -> const -> bool.
  Variable other_test : test -> bool.

  Definition conj_holds (c : list literal) : bool := forallb (fun '(n, k) => equal n k) c.
  Definition disj_holds (d : list (list literal)) : bool := existsb conj_holds d.

  Lemma insert_holds x l : conj_holds (insert_literal x l) = conj_holds (x :: l).
  Proof.
    unfold conj_holds. induction l as [|y l IH]; [reflexivity|]. cbn [insert_literal]. destruct (String.leb (fst x) (fst y)); [reflexivity|].
    cbn [forallb] in IH |- *. rewrite IH. destruct x as [n c]. destruct y as [m k]. destruct (equal n c), (equal m k); reflexivity.
  Qed.
  Lemma sort_holds l : conj_holds (sort_literals l) = conj_holds l.
  Proof. induction l as [|x l IH]; [reflexivity|]. cbn [sort_literals fold_right]. rewrite insert_holds. unfold conj_holds in *. cbn [forallb]. f_equal. exact IH. Qed.
  Lemma conj_app a b : conj_holds (a ++ b) = conj_holds a && conj_holds b.
  Proof. unfold conj_holds. apply forallb_app. Qed.

  Lemma concat_holds ds : disj_holds (concat ds) = existsb disj_holds ds.
  Proof. unfold disj_holds. induction ds as [|d ds IH]; [reflexivity|]. cbn [concat existsb]. rewrite existsb_app, IH. reflexivity. Qed.

  Lemma existsb_flat (A B : Type) (f : A -> list B) (p : B -> bool) l : existsb p (flat_map f l) = existsb (fun x => existsb p (f x)) l.
  Proof. induction l as [|x l IH]; [reflexivity|]. cbn [flat_map existsb]. rewrite existsb_app, IH. reflexivity. Qed.
  Lemma existsb_map' (A B : Type) (f : A -> B) (p : B -> bool) l : existsb p (map f l) = existsb (fun x => p (f x)) l.
  Proof. induction l as [|x l IH]; [reflexivity|]. cbn [map existsb]. rewrite IH. reflexivity. Qed.
  Lemma existsb_ext' (A : Type) (p q : A -> bool) l : (forall x, p x = q x) -> existsb p l = existsb q l.
  Proof. intros H. induction l as [|x l IH]; [reflexivity|]. cbn [existsb]. rewrite IH, H. reflexivity. Qed.
  Lemma existsb_and (A : Type) (p : A -> bool) b l : existsb (fun x => b && p x) l = b && existsb p l.
  Proof. induction l as [|x l IH]; [destruct b; reflexivity|]. cbn [existsb]. rewrite IH. destruct b; reflexivity. Qed.
  Lemma existsb_and_r (A : Type) (p : A -> bool) b l : existsb (fun x => p x && b) l = existsb p l && b.
  Proof. induction l as [|x l IH]; [reflexivity|]. cbn [existsb]. rewrite IH. destruct b, (p x), (existsb p l); reflexivity. Qed.

  Lemma product_holds ds : disj_holds (map (fun l => sort_literals (concat l)) (product ds)) = forallb disj_holds ds.
  Proof.
    unfold disj_holds at 1. rewrite existsb_map'. rewrite (existsb_ext' _ _ (fun l => conj_holds (concat l))) by (intros x; apply sort_holds).
    induction ds as [|d ds IH]; [reflexivity|]. cbn [product forallb]. rewrite existsb_flat, <- IH. unfold disj_holds.
    rewrite (existsb_ext' _ _ (fun x => conj_holds x && existsb (fun l => conj_holds (concat l)) (product ds))).
    - apply existsb_and_r.
    - intros x. rewrite existsb_map'. rewrite (existsb_ext' _ _ (fun l => conj_holds x && conj_holds (concat l))); [apply existsb_and|].
      intros l. cbn [concat]. apply conj_app.
  Qed.

  Theorem simple_test_holds t d : vals_from_simple_test t = Some d -> holds_test equal other_test t = disj_holds d.
  Proof.
    revert d. induction t as [l ops|op values IH|id] using test_rect'; intros d E.
    - cbn [vals_from_simple_test] in E.
      assert (ONE : forall n c, disj_holds [[(n, c)]] = equal n c) by (intros n c; cbn; rewrite andb_true_r, orb_false_r; reflexivity).
      destruct l as [n|c|id]; [| |discriminate];
        (destruct ops as [|[op [m|k|id']] [|? ?]]; try discriminate;
         destruct (String.eqb op "==") eqn:Q; [|discriminate]; apply String.eqb_eq in Q; subst op;
         assert (d = [[ (_, _) ]]) as -> by (symmetry in E; injection E as E; exact E); rewrite ONE; reflexivity).
    - rewrite vals_bool in E. destruct (str_in op ["and"; "or"]) eqn:SI; [|discriminate].
      destruct (all_vals values) as [ds|] eqn:AV; [|discriminate].
      assert (MAP : map (holds_test equal other_test) values = map disj_holds ds).
      { clear E SI. revert ds AV. induction IH as [|v values Hv HV IHV]; intros ds AV; cbn [all_vals] in AV; [injection AV as <-; reflexivity|].
        destruct (vals_from_simple_test v) as [d'|] eqn:EV; [|discriminate]. destruct (all_vals values) as [ds'|]; [|discriminate].
        injection AV as <-. cbn [map]. rewrite (Hv d' eq_refl), (IHV ds' eq_refl). reflexivity. }
      assert (EX : forall p (l : list bool), p = true \/ p = false -> True) by auto. clear EX.
      unfold str_in in SI. cbn [existsb] in SI. destruct (String.eqb op "or") eqn:OR.
      + apply String.eqb_eq in OR. subst op. injection E as <-. cbn [holds_test]. rewrite concat_holds.
        transitivity (existsb (fun b => b) (map (holds_test equal other_test) values)); [rewrite existsb_map'; reflexivity|].
        rewrite MAP, existsb_map'. reflexivity.
      + destruct (String.eqb op "and") eqn:AN; [|cbn in SI; discriminate]. apply String.eqb_eq in AN. subst op.
        assert (d = map (fun l => sort_literals (concat l)) (product ds)) as -> by congruence. rewrite product_holds. cbn [holds_test].
        clear - MAP. revert ds MAP. induction values as [|v values IHV]; intros [|d ds] MAP; try discriminate; [reflexivity|].
        cbn [map] in MAP. cbn [forallb]. assert (M1 : holds_test equal other_test v = disj_holds d) by congruence.
        rewrite M1. f_equal. apply IHV. congruence.
    - discriminate.
  Qed.

  (** The last branch that holds is what the dictionary gives. *)
  Fixpoint last_branch (i : nat) (ds : list (list (list literal))) : option nat :=
    match ds with [] => None | d :: ds => match last_branch (S i) ds with Some j => Some j | None => if disj_holds d then Some i else None end end.

  Definition shaped (vars : list string) (c : list literal) : Prop := map fst c = vars.

  Lemma key_conj vars c : shaped vars c -> key_matches equal vars (map snd c) = conj_holds c.
  Proof.
    intros <-. unfold key_matches. rewrite !map_length, Nat.eqb_refl. cbn [andb]. unfold conj_holds. induction c as [|[n k] c IH]; [reflexivity|].
    cbn [map combine forallb fst snd]. rewrite IH. reflexivity.
  Qed.

  Lemma find_app' (A : Type) (p : A -> bool) a b : find p (a ++ b) = match find p a with Some x => Some x | None => find p b end.
  Proof. induction a as [|x a IH]; [reflexivity|]. cbn [app find]. destruct (p x); [reflexivity|exact IH]. Qed.

  Definition found (o : option (list const * nat)) : option nat := match o with Some (_, i) => Some i | None => None end.

  Lemma find_entries vars i d : Forall (shaped vars) d ->
    found (find (fun '(key, _) => key_matches equal vars key) (rev (map (fun c : list literal => (map snd c, i)) d))) = if disj_holds d then Some i else None.
  Proof.
    intros F. induction F as [|c d SC F IH]; [reflexivity|]. cbn [map rev]. rewrite find_app'. unfold disj_holds in *. cbn [existsb].
    destruct (find _ (rev (map _ d))) as [[k j]|]; cbn [found] in IH |- *.
    - destruct (existsb conj_holds d); [|discriminate]. rewrite orb_true_r. exact IH.
    - destruct (existsb conj_holds d); [discriminate|]. rewrite orb_false_r. cbn [find]. rewrite (key_conj _ _ SC). destruct (conj_holds c); reflexivity.
  Qed.

  Lemma looked_last vars ds : Forall (Forall (shaped vars)) ds -> looked_up equal vars (entries ds) = last_branch 0 ds.
  Proof.
    unfold looked_up, entries. generalize 0 as i. induction ds as [|d ds IH]; intros i F; [reflexivity|]. inversion F as [|? ? F1 F2]; subst.
    cbn [length seq combine flat_map last_branch]. rewrite rev_app_distr, find_app'. specialize (IH (S i) F2). rewrite <- IH.
    destruct (find _ (rev (flat_map _ _))) as [[k j]|]; [reflexivity|]. exact (find_entries vars i d F1).
  Qed.

  Lemma same_variables_shaped ds c0 d0 r0 : ds = (c0 :: d0) :: r0 -> same_variables ds = true -> Forall (Forall (shaped (map fst c0))) ds.
  Proof.
    intros E S1. rewrite E in S1 at 1. unfold same_variables in S1. rewrite <- E in S1. rewrite Forall_forall. intros d I. rewrite Forall_forall. intros c IC.
    rewrite forallb_forall in S1. specialize (S1 d I). rewrite forallb_forall in S1. specialize (S1 c IC). apply andb_true_iff in S1. destruct S1 as (L & A).
    apply Nat.eqb_eq in L. unfold shaped. clear - L A. revert c0 L A. induction c as [|[n k] c IH]; intros [|[m q] c0] L A; try discriminate; [reflexivity|].
    cbn [combine forallb fst map] in *. apply andb_true_iff in A. destruct A as (A1 & A2). apply String.eqb_eq in A1. subst m. f_equal. apply IH; [cbn in L; lia|exact A2].
  Qed.

  (** The first one is the last one if no two branches hold. *)
  Lemma first_last tests ds : map vals_from_simple_test tests = map Some ds ->
    (forall i j t u, nth_error tests i = Some t -> nth_error tests j = Some u -> holds_test equal other_test t = true -> holds_test equal other_test u = true -> i = j) ->
    forall k, last_branch k ds = first_branch equal other_test k tests.
  Proof.
    revert ds. induction tests as [|t tests IH]; intros [|d ds] M ONE k; try discriminate; [reflexivity|]. cbn [map] in M.
    assert (EV : vals_from_simple_test t = Some d) by congruence. assert (M' : map vals_from_simple_test tests = map Some ds) by congruence.
    cbn [last_branch first_branch]. rewrite (simple_test_holds t d EV). rewrite (IH ds M').
    2: { intros i j x y X Y HX HY. specialize (ONE (S i) (S j) x y X Y HX HY). lia. }
    destruct (disj_holds d) eqn:H; [|destruct (first_branch equal other_test (S k) tests); reflexivity].
    assert (NO : forall k, first_branch equal other_test k tests = None).
    { assert (G : forall u, List.In u tests -> holds_test equal other_test u = false).
      { intros u I. destruct (holds_test equal other_test u) eqn:HU; [|reflexivity]. exfalso. destruct (In_nth_error _ _ I) as (i & NI).
        rewrite <- (simple_test_holds t d EV) in H. specialize (ONE 0 (S i) t u eq_refl NI H HU). discriminate. }
      clear - G. induction tests as [|u tests IH]; intros k; [reflexivity|]. cbn [first_branch]. rewrite (G u (or_introl eq_refl)). apply IH. intros v I. apply G. right. exact I. }
    rewrite NO. reflexivity.
  Qed.

  Theorem dictionary tests ds c0 d0 r0 : map vals_from_simple_test tests = map Some ds -> ds = (c0 :: d0) :: r0 -> same_variables ds = true ->
    (forall i j t u, nth_error tests i = Some t -> nth_error tests j = Some u -> holds_test equal other_test t = true -> holds_test equal other_test u = true -> i = j) ->
    looked_up equal (map fst c0) (entries ds) = first_branch equal other_test 0 tests.
  Proof. intros M E S1 ONE. rewrite (looked_last _ _ (same_variables_shaped _ _ _ _ E S1)). apply first_last; assumption. Qed.

  (** Whatever the conditions are, nothing is found exactly when no branch is taken. *)
  Theorem dictionary_default tests ds c0 d0 r0 : map vals_from_simple_test tests = map Some ds -> ds = (c0 :: d0) :: r0 -> same_variables ds = true ->
    (looked_up equal (map fst c0) (entries ds) = None <-> first_branch equal other_test 0 tests = None).
  Proof.
    intros M E S1. rewrite (looked_last _ _ (same_variables_shaped _ _ _ _ E S1)). clear E S1. revert ds M. generalize 0 as k.
    induction tests as [|t tests IH]; intros k [|d ds] M; try discriminate; [split; reflexivity|]. cbn [map] in M.
    assert (EV : vals_from_simple_test t = Some d) by congruence. assert (M' : map vals_from_simple_test tests = map Some ds) by congruence.
    cbn [last_branch first_branch]. rewrite (simple_test_holds t d EV). specialize (IH (S k) ds M'). destruct (last_branch (S k) ds), (disj_holds d); split; try discriminate.
    - intros Q. apply IH in Q. discriminate.
    - intros _. apply IH. reflexivity.
    - intros _. reflexivity.
  Qed.
End Table.

(** ** Lists *)

Lemma insert_perm x l : Permutation (insert_int x l) (x :: l).
Proof.
  induction l as [|y l IH]; [reflexivity|]. cbn [insert_int]. destruct (x <=? y)%Z; [reflexivity|]. rewrite IH. apply perm_swap.
Qed.
Lemma sort_perm l : Permutation (sort_ints l) l.
Proof. induction l as [|x l IH]; [reflexivity|]. cbn [sort_ints fold_right]. rewrite insert_perm. constructor. exact IH. Qed.
Lemma ints_eq_iff a b : ints_eq a b = true <-> a = b.
Proof.
  revert b. induction a as [|x a IH]; intros [|y b]; cbn [ints_eq]; split; try congruence; try discriminate.
  - intros E. apply andb_true_iff in E. destruct E as (E1 & E2). apply Z.eqb_eq in E1. apply IH in E2. congruence.
  - intros E. injection E as -> ->. rewrite Z.eqb_refl. apply IH. reflexivity.
Qed.

(** Keys of conjunctions of one literal. *)
Definition keys_of (ds : list (list (list literal))) : list const := flat_map (fun c => match c with x :: _ => [snd x] | [] => [] end) (concat ds).

Theorem list_keys ds : uses_list ds = true -> exists zs, int_values (keys_of ds) = Some zs /\ Permutation zs (map Z.of_nat (seq 0 (length (concat ds)))).
Proof.
  unfold uses_list, keys_of. destruct ds as [|[|[|x [|y c]] d] r] eqn:E; try discriminate. rewrite <- E.
  destruct (int_values _) as [zs|]; [|discriminate]. intros Q. apply ints_eq_iff in Q. exists zs. split; [reflexivity|]. rewrite <- Q. symmetry. apply sort_perm.
Qed.

Lemma int_values_map : forall l zs, int_values l = Some zs -> map int_value l = map Some zs.
Proof.
  induction l as [|c l IH]; intros zs E; cbn [int_values] in E; [injection E as <-; reflexivity|].
  destruct (int_value c) as [z|] eqn:V; [|discriminate]. destruct (int_values l) as [zs'|]; [|discriminate]. injection E as <-. cbn [map]. rewrite V, (IH zs' eq_refl). reflexivity.
Qed.

Section Lists.
  Variable equal : string -> const -> bool.
  Variable other_test : test -> bool.
  (** The value of the variable, as far as it can be equal to an integer. *)
  Variable v : option Z.
  Hypothesis equal_int : forall n c z, int_value c = Some z -> equal n c = true -> v = Some z.

  Lemma one_at : forall ds i j d e, NoDup (map int_value (keys_of ds)) -> Forall (Forall (fun c : list literal => exists x, c = [x])) ds ->
    Forall (fun c => int_value c <> None) (keys_of ds) ->
    nth_error ds i = Some d -> nth_error ds j = Some e -> disj_holds equal d = true -> disj_holds equal e = true -> i <= j -> i = j.
  Proof.
    assert (HOLD : forall ds d, Forall (Forall (fun c : list literal => exists x, c = [x])) ds -> Forall (fun c => int_value c <> None) (keys_of ds) ->
      List.In d ds -> disj_holds equal d = true -> exists c, List.In c (keys_of [d]) /\ int_value c = v /\ v <> None).
    { intros ds d F G I H. unfold disj_holds in H. apply existsb_exists in H. destruct H as (c & IC & HC). rewrite Forall_forall in F. specialize (F d I).
      rewrite Forall_forall in F. destruct (F c IC) as ([n k] & ->). unfold conj_holds in HC. cbn in HC. rewrite andb_true_r in HC.
      assert (IK : List.In k (keys_of [d])). { unfold keys_of. apply in_flat_map. exists [(n, k)]. split; [cbn [concat]; rewrite app_nil_r; exact IC|left; reflexivity]. }
      assert (IKD : List.In k (keys_of ds)). { unfold keys_of. apply in_flat_map. exists [(n, k)]. split; [apply in_concat; exists d; split; assumption|left; reflexivity]. }
      exists k. split; [exact IK|]. rewrite Forall_forall in G. specialize (G k IKD). destruct (int_value k) as [z|] eqn:V; [|congruence].
      pose proof (equal_int _ _ _ V HC). split; congruence. }
    assert (SPLIT : forall d ds, keys_of (d :: ds) = keys_of [d] ++ keys_of ds).
    { intros d ds. unfold keys_of. cbn [concat]. rewrite app_nil_r, flat_map_app. reflexivity. }
    induction ds as [|d0 ds IH]; intros i j d e ND F G NI NJ HD HE LE; [destruct i; discriminate|].
    rewrite SPLIT in ND, G. rewrite map_app in ND.
    assert (G1 := proj1 (proj1 (Forall_app _ _ _) G)). assert (G2 := proj2 (proj1 (Forall_app _ _ _) G)). inversion F as [|? ? F1 F2]; subst.
    destruct i as [|i], j as [|j]; [reflexivity| |lia|].
    - exfalso. cbn [nth_error] in NI, NJ. injection NI as ->. apply nth_error_In in NJ.
      destruct (HOLD [d] d) as (c & IC & VC & NV); [constructor; [exact F1|constructor]|exact G1|left; reflexivity|exact HD|].
      destruct (HOLD ds e F2 G2 NJ HE) as (c' & IC' & VC' & _).
      assert (IV1 : List.In v (map int_value (keys_of [d]))) by (apply in_map_iff; exists c; split; assumption).
      assert (IV2 : List.In v (map int_value (keys_of ds))).
      { apply in_map_iff. exists c'. split; [exact VC'|]. unfold keys_of in IC' |- *. apply in_flat_map in IC'. destruct IC' as (q & IQ & IX). apply in_flat_map. exists q.
        split; [|exact IX]. cbn [concat] in IQ. rewrite app_nil_r in IQ. apply in_concat. exists e. split; assumption. }
      clear - ND IV1 IV2. induction (map int_value (keys_of [d])) as [|x l IH]; [destruct IV1|]. cbn [app] in ND. inversion ND as [|? ? N1 N2]; subst.
      destruct IV1 as [->|IV1]; [apply N1, in_or_app; right; exact IV2|exact (IH N2 IV1)].
    - f_equal. apply (IH i j d e); try assumption; [|lia]. clear - ND. induction (map int_value (keys_of [d0])) as [|x l IH]; [exact ND|]. inversion ND; subst. exact (IH H2).
  Qed.

  Theorem list_lookup tests ds c0 d0 r0 : map vals_from_simple_test tests = map Some ds -> ds = (c0 :: d0) :: r0 -> same_variables ds = true -> uses_list ds = true ->
    looked_up equal (map fst c0) (entries ds) = first_branch equal other_test 0 tests.
  Proof.
    intros M E S1 U. apply (dictionary equal other_test _ _ _ _ _ M E S1).
    destruct (list_keys _ U) as (zs & IV & PE). pose proof (int_values_map _ _ IV) as MV.
    assert (ND : NoDup (map int_value (keys_of ds))).
    { rewrite MV. apply FinFun.Injective_map_NoDup; [intros a b Q; congruence|]. apply (Permutation_NoDup (Permutation_sym PE)).
      apply FinFun.Injective_map_NoDup; [intros a b Q; lia|apply seq_NoDup]. }
    assert (NN : Forall (fun c => int_value c <> None) (keys_of ds)).
    { rewrite Forall_forall. intros c I. assert (IM : List.In (int_value c) (map int_value (keys_of ds))) by (apply in_map; exact I).
      rewrite MV in IM. apply in_map_iff in IM. destruct IM as (z & Q & _). congruence. }
    assert (SH : Forall (Forall (fun c : list literal => exists x, c = [x])) ds).
    { pose proof (same_variables_shaped _ _ _ _ E S1) as SH. unfold uses_list in U. rewrite E in U. destruct c0 as [|x0 [|y0 c0]]; try discriminate.
      rewrite Forall_forall in SH |- *. intros d I. specialize (SH d I). rewrite Forall_forall in SH |- *. intros c IC. specialize (SH c IC). unfold shaped in SH.
      destruct c as [|x [|y c]]; try discriminate. exists x. reflexivity. }
    assert (NTH : forall i t, nth_error tests i = Some t -> holds_test equal other_test t = true -> exists d, nth_error ds i = Some d /\ disj_holds equal d = true).
    { intros i t NI H. assert (Q : nth_error (map vals_from_simple_test tests) i = Some (vals_from_simple_test t)) by (rewrite nth_error_map, NI; reflexivity).
      rewrite M, nth_error_map in Q. destruct (nth_error ds i) as [d|]; [|discriminate]. exists d. split; [reflexivity|]. cbn [option_map] in Q.
      rewrite <- (simple_test_holds equal other_test t d); [exact H|congruence]. }
    intros i j t u NI NJ HT HU. destruct (NTH i t NI HT) as (d & ND1 & H1). destruct (NTH j u NJ HU) as (e & ND2 & H2).
    destruct (Nat.le_ge_cases i j) as [L|L]; [exact (one_at ds i j d e ND SH NN ND1 ND2 H1 H2 L)|symmetry; exact (one_at ds j i e d ND SH NN ND2 ND1 H2 H1 L)].
  Qed.
End Lists.

(** ** Which conditions are replaced *)

Lemma leading_spec (A : Type) (keep : A -> bool) : forall l, leading keep l <= length l /\ (forall i x, i < leading keep l -> nth_error l i = Some x -> keep x = true) /\
  (forall x, nth_error l (leading keep l) = Some x -> keep x = false).
Proof.
  induction l as [|y l (L & K & N)]; cbn [leading]; [split; [cbn; lia|split; [lia|discriminate]]|]. destruct (keep y) eqn:Q.
  - split; [cbn [length]; lia|]. split; [intros [|i] x LT E; [cbn in E; congruence|exact (K i x ltac:(lia) E)]|exact N].
  - split; [lia|]. split; [lia|]. intros x E. cbn in E. congruence.
Qed.

Lemma nth_skipn (A : Type) : forall n (l : list A) i, nth_error (skipn n l) i = nth_error l (n + i).
Proof. induction n as [|n IH]; intros [|x l] i; try reflexivity; [destruct i; reflexivity|]. cbn [skipn Nat.add nth_error]. apply IH. Qed.

Theorem simple_part_spec ds a b : simple_part ds = Some (a, b) ->
  a + 2 <= b /\ b < length ds /\ (a = 0 \/ b = length ds - 1) /\
  (forall i, i < a -> nth_error ds i = Some None) /\ (forall i, a <= i <= b -> exists d, nth_error ds i = Some (Some d)) /\
  (b + 1 < length ds -> nth_error ds (b + 1) = Some None).
Proof.
  unfold simple_part. destruct (leading_spec _ (@is_none (list (list literal))) ds) as (L1 & K1 & N1). set (s := leading is_none ds) in *.
  destruct (leading_spec _ (fun d : option (list (list literal)) => negb (is_none d)) (skipn s ds)) as (L2 & K2 & N2). set (m := leading (fun d => negb (is_none d)) (skipn s ds)) in *.
  destruct (m =? 0) eqn:M0; [discriminate|]. apply Nat.eqb_neq in M0. rewrite skipn_length in L2.
  destruct ((s + m - 1 - s + 1 <? 3) || _) eqn:C; [discriminate|]. intros E. assert (a = s) as -> by congruence. assert (b = s + m - 1) as -> by congruence. clear E.
  apply orb_false_iff in C. destruct C as (C1 & C2). apply Nat.ltb_ge in C1.
  split; [lia|]. split; [lia|]. split.
  { apply andb_false_iff in C2. destruct C2 as [C2|C2]; apply negb_false_iff, Nat.eqb_eq in C2; [left|right]; exact C2. }
  split; [|split].
  - intros i LT. destruct (nth_error ds i) as [[d|]|] eqn:NI; [specialize (K1 i _ LT NI); discriminate|reflexivity|]. apply nth_error_None in NI. lia.
  - intros i (LE1 & LE2). destruct (nth_error ds i) as [[d|]|] eqn:NI; [exists d; reflexivity| |apply nth_error_None in NI; lia].
    exfalso. assert (NK : nth_error (skipn s ds) (i - s) = Some None) by (rewrite nth_skipn; replace (s + (i - s)) with i by lia; exact NI).
    specialize (K2 (i - s) None ltac:(lia) NK). discriminate.
  - intros LT. assert (NE : nth_error (skipn s ds) m = nth_error ds (s + m - 1 + 1)) by (rewrite nth_skipn; f_equal; lia).
    destruct (nth_error ds (s + m - 1 + 1)) as [[d|]|] eqn:NI; [|reflexivity|apply nth_error_None in NI; lia]. specialize (N2 (Some d) NE). discriminate.
Qed.
