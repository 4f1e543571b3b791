(** Proofs about the analysis of blocks: values with choices, new variables for them. *)
From Coq Require Import String List Bool Arith NArith ZArith QArith Qabs Qround Lia.
From Verif Require Import Base PyModel PySpec PyProofs IfModel IfSpec IfProofs FoldModel FoldSpec FoldProofs TypeModel LocalModel LocalSpec LocalProofs LetterProofs MergeSpec SolverModel SolverSpec SolverProofs BlockModel BlockSpec BlockProofs BlockEnvProofs BlockStepProofs.
Import ListNotations.
Local Open Scope string_scope.
Local Open Scope list_scope.
Local Open Scope nat_scope.

Definition sat (f : text -> Z) (l : list zexpr) : Prop := Forall (fun z => zeval (env f) z = Some (ZB true)) l.
Lemma sat_agree c f g l : agree c f g -> Forall (condition c) l -> sat f l -> sat g l.
Proof.
  intros A C S1. unfold sat in *. rewrite Forall_forall in *. intros z I. rewrite (zeval_agree c f g z A (proj1 (C z I))). exact (S1 z I).
Qed.
Lemma sat_app f a b : sat f (a ++ b) <-> sat f a /\ sat f b.
Proof. apply Forall_app. Qed.

(** ** Choices *)
Definition leaf_ok (c : counts) (z : zexpr) : Prop := known c z /\ sort_of z <> None /\ no_real z = true.
Fixpoint choice_ok (c : counts) (v : choice) : Prop :=
  match v with One z => leaf_ok c z | Choose t a b => condition c t /\ choice_ok c a /\ choice_ok c b end.
Lemma choice_le c c' v : le c c' -> choice_ok c v -> choice_ok c' v.
Proof.
  intro L. induction v as [z|t a IHa b IHb]; cbn [choice_ok]; [intros (K & X & N); exact (conj (known_le c c' z L K) (conj X N))|].
  intros (T & A & B). exact (conj (condition_le c c' t L T) (conj (IHa A) (IHb B))).
Qed.
Fixpoint pick (f : text -> Z) (v : choice) : option zexpr :=
  match v with
  | One z => Some z
  | Choose t a b => match zeval (env f) t with Some (ZB true) => pick f a | Some (ZB false) => pick f b | _ => None end
  end.
Lemma pick_agree c f g v : agree c f g -> choice_ok c v -> pick g v = pick f v.
Proof.
  intro A. induction v as [z|t a IHa b IHb]; cbn [choice_ok pick]; [reflexivity|]. intros ((K & _) & OA & OB). rewrite (zeval_agree c f g t A K), (IHa OA), (IHb OB). reflexivity.
Qed.
Lemma pick_some c f v : choice_ok c v -> exists z, pick f v = Some z /\ leaf_ok c z /\ (is_bool_choice v = true -> is_bool_term z = true).
Proof.
  induction v as [z|t a IHa b IHb]; cbn [choice_ok pick is_bool_choice]; [intro L; exists z; auto|]. intros (T & OA & OB).
  destruct (condition_value c t f T) as ([] & ->).
  - destruct (IHa OA) as (z & X & Y & Z). exists z. split; [exact X|]. split; [exact Y|]. intro B. apply Z. apply andb_true_iff in B. tauto.
  - destruct (IHb OB) as (z & X & Y & Z). exists z. split; [exact X|]. split; [exact Y|]. intro B. apply Z. apply andb_true_iff in B. tauto.
Qed.
Lemma var_condition c op k int z : proper op = true -> old c k -> known c z -> sort_of z <> None -> is_bool_term z = false -> condition c (ZRel op (ZVar k int) z).
Proof.
  intros PR O K S1 B. split; [cbn [known over_vars]; unfold known; cbn [over_vars]; auto|]. cbn [sort_of]. unfold is_bool_term in B. destruct (sort_of z) as [[]|]; try discriminate; try congruence; destruct int; reflexivity.
Qed.
Lemma bool_condition c z : known c z -> is_bool_term z = true -> condition c z.
Proof. intros K B. split; [exact K|]. unfold is_bool_term in B. destruct (sort_of z) as [[]|]; try discriminate; reflexivity. Qed.
Lemma int_known c n : known c (ZInt n). Proof. exact Logic.I. Qed.
Lemma leaf_condition c ab k int z : old c k -> leaf_ok c z -> (ab = true -> is_bool_term z = true) -> condition c (equals_leaf ab (ZVar k int) z).
Proof.
  intros O (K & S1 & N) AB. unfold equals_leaf.
  assert (VC : forall op n, proper op = true -> condition c (ZRel op (ZVar k int) (ZInt n))) by (intros op n PR; apply var_condition; [exact PR|exact O|exact Logic.I|discriminate|reflexivity]).
  destruct ab.
  - assert (B := bool_condition c z K (AB eq_refl)). apply condition_and.
    constructor; [apply condition_implies'; [apply VC; reflexivity|exact B]|]. constructor; [apply condition_implies'; [exact B|apply VC; reflexivity]|constructor].
  - destruct (is_bool_term z) eqn:BT; [|apply var_condition; auto]. assert (B := bool_condition c z K BT). apply condition_and.
    constructor; [apply condition_implies'; [exact B|apply VC; reflexivity]|]. constructor; [apply condition_implies'; [apply condition_not; exact B|apply VC; reflexivity]|constructor].
Qed.
Lemma equals_condition c ab k int v : old c k -> choice_ok c v -> (ab = true -> is_bool_choice v = true) -> condition c (equals ab (ZVar k int) v).
Proof.
  intro O. induction v as [z|t a IHa b IHb]; cbn [choice_ok equals is_bool_choice]; [apply leaf_condition; exact O|]. intros (T & OA & OB) AB.
  apply condition_and. constructor; [apply condition_implies'; [exact T|apply IHa; [exact OA|]]|constructor; [apply condition_implies'; [apply condition_not; exact T|apply IHb; [exact OB|]]|constructor]].
  - intro E. specialize (AB E). apply andb_true_iff in AB. tauto.
  - intro E. specialize (AB E). apply andb_true_iff in AB. tauto.
Qed.
Lemma equals_picked c f ab k int v z : old c k -> choice_ok c v -> (ab = true -> is_bool_choice v = true) -> pick f v = Some z ->
  zeval (env f) (equals_leaf ab (ZVar k int) z) = Some (ZB true) -> zeval (env f) (equals ab (ZVar k int) v) = Some (ZB true).
Proof.
  intro O. induction v as [y|t a IHa b IHb]; cbn [choice_ok equals is_bool_choice pick]; [intros _ _ E V; assert (y = z) by congruence; subst; exact V|]. intros (T & OA & OB) AB PK V.
  assert (AA : ab = true -> is_bool_choice a = true) by (intro E; specialize (AB E); apply andb_true_iff in AB; tauto).
  assert (AB' : ab = true -> is_bool_choice b = true) by (intro E; specialize (AB E); apply andb_true_iff in AB; tauto).
  destruct (condition_value c t f T) as (bt & VT). rewrite VT in PK.
  destruct (condition_value c _ f (equals_condition c ab k int a O OA AA)) as (ba & VA). destruct (condition_value c _ f (equals_condition c ab k int b O OB AB')) as (bb & VB).
  rewrite (value_and _ _ [implb bt ba; implb (negb bt) bb]).
  - destruct bt.
    + assert (ba = true) by (specialize (IHa OA AA PK V); congruence). subst ba. reflexivity.
    + assert (bb = true) by (specialize (IHb OB AB' PK V); congruence). subst bb. reflexivity.
  - constructor; [apply value_implies; assumption|]. constructor; [apply value_implies; [apply value_not; exact VT|exact VB]|constructor].
Qed.
(** The integer [n] fits the leaf. *)
Definition fits (f : text -> Z) (ab : bool) (z : zexpr) (n : Z) : Prop :=
  (exists q, zeval (env f) z = Some (ZN q) /\ (q == inject_Z n)%Q) \/
  (exists b, zeval (env f) z = Some (ZB b) /\ negb (Z.eqb n 0) = b /\ (ab = false -> n = Z.b2z b)).
Lemma fits_leaf c f ab k int z : leaf_ok c z -> (ab = true -> is_bool_term z = true) -> fits f ab z (f k) -> zeval (env f) (equals_leaf ab (ZVar k int) z) = Some (ZB true).
Proof.
  intros (K & S1 & N) AB F.
  assert (VR : forall op m b, decided_by op (f k) m = Some b -> zeval (env f) (ZRel op (ZVar k int) (ZInt m)) = Some (ZB b)).
  { intros op m b D. cbn [zeval znumbers env int_var real_var]. replace (if int then inject_Z (f k) else inject_Z (f k)) with (inject_Z (f k)) by (destruct int; reflexivity).
    rewrite (zcompare_int op (inject_Z (f k)) (inject_Z m) (f k) m ltac:(reflexivity) ltac:(reflexivity)), D. reflexivity. }
  destruct F as [(q & V & Q)|(b & V & X & Y)].
  - assert (NB : is_bool_term z = false).
    { destruct (is_bool_term z) eqn:B; [|reflexivity]. destruct (condition_value c z f (bool_condition c z K B)) as (b & V'). congruence. }
    unfold equals_leaf. destruct ab; [specialize (AB eq_refl); congruence|]. rewrite NB. cbn [zeval]. rewrite V. cbn [znumbers env int_var real_var].
    replace (if int then inject_Z (f k) else inject_Z (f k)) with (inject_Z (f k)) by (destruct int; reflexivity).
    rewrite (zcompare_int Eq (inject_Z (f k)) q (f k) (f k) ltac:(reflexivity) Q). unfold decided_by. cbn [decide]. rewrite Z.eqb_refl. reflexivity.
  - assert (BT : is_bool_term z = true).
    { unfold is_bool_term. destruct (sort_of z) as [s|] eqn:SZ; [|congruence]. destruct (zeval_defined (env f) z (old c) K s SZ) as (v & V' & KD). assert (v = ZB b) by congruence. subst v. destruct s; try contradiction. reflexivity. }
    unfold equals_leaf. destruct ab.
    + assert (NE : zeval (env f) (ZRel Ne (ZVar k int) (ZInt 0)) = Some (ZB b)) by (apply VR; unfold decided_by; cbn [decide]; rewrite X; reflexivity).
      unfold z_iff. rewrite (value_and _ _ [implb b b; implb b b]); [destruct b; reflexivity|]. constructor; [apply value_implies; assumption|]. constructor; [apply value_implies; assumption|constructor].
    + rewrite BT. specialize (Y eq_refl).
      assert (E1 : zeval (env f) (ZRel Eq (ZVar k int) (ZInt 1)) = Some (ZB (Z.eqb (f k) 1))) by (apply VR; reflexivity).
      assert (E0 : zeval (env f) (ZRel Eq (ZVar k int) (ZInt 0)) = Some (ZB (Z.eqb (f k) 0))) by (apply VR; reflexivity).
      rewrite (value_and _ _ [implb b (Z.eqb (f k) 1); implb (negb b) (Z.eqb (f k) 0)]).
      * rewrite Y. destruct b; reflexivity.
      * constructor; [apply value_implies; assumption|]. constructor; [apply value_implies; [apply value_not; exact V|exact E0]|constructor].
Qed.
Lemma fits_some c f ab z : leaf_ok c z -> (ab = true -> is_bool_term z = true) -> exists n, fits f ab z n.
Proof.
  intros (K & S1 & N) AB. destruct (sort_of z) as [s|] eqn:SZ; [|congruence]. destruct (zeval_defined (env f) z (old c) K s SZ) as ([q|b] & V & KD).
  - destruct (whole_number f z q N V) as (n & Q). exists n. left. exists q. auto.
  - exists (Z.b2z b). right. exists b. split; [exact V|]. split; [destruct b; reflexivity|reflexivity].
Qed.
Lemma fits_agree c f g ab z n : agree c f g -> known c z -> fits f ab z n -> fits g ab z n.
Proof. intros A K. unfold fits. rewrite (zeval_agree c f g z A K). exact (fun x => x). Qed.

(** ** One new variable *)
Definition ok_st (st : written) : Prop := Forall (condition (count st)) (relations st).
Definition bump (c : counts) (x : string) : counts := fun k => if text_eqb k [TName x] then S (c [TName x]) else c k.
Lemma bump_le c x : le c (bump c x).
Proof. intro k. unfold bump. destruct (text_eqb k [TName x]) eqn:E; [apply text_eqb_eq in E; subst k; lia|lia]. Qed.
Lemma bump_same c x : bump c x [TName x] = S (c [TName x]).
Proof. unfold bump. rewrite text_eqb_refl. reflexivity. Qed.
Lemma old_name c x n : n <= c [TName x] -> old c (prefixed [TName x] n).
Proof. intro L. exists (Name x), n. split; [reflexivity|exact L]. Qed.
Section OneWrite.
  Variables (x : string) (int : bool) (v : choice) (st st' : written) (n : nat).
  Hypothesis U : update_relations x int v st = (n, st').
  Hypothesis OK : ok_st st.
  Hypothesis V : choice_ok (count st) v.
  Lemma write_count : n = S (count st [TName x]) /\ count st' = bump (count st) x /\ le (count st) (count st').
  Proof.
    unfold update_relations in U. assert (E1 : n = S (count st [TName x])) by congruence. assert (E2 : st' = {| count := bump (count st) x;
      relations := relations st ++ [equals (is_bool_choice v) (ZVar (prefixed [TName x] (S (count st [TName x]))) int) v] |}) by (unfold bump; congruence).
    split; [exact E1|]. rewrite E2. split; [reflexivity|apply bump_le].
  Qed.
  Lemma write_relations : relations st' = relations st ++ [equals (is_bool_choice v) (ZVar (prefixed [TName x] n) int) v].
  Proof. unfold update_relations in U. destruct write_count as (E & _). rewrite E. change st' with (snd (n, st')). rewrite <- U. reflexivity. Qed.
  Lemma write_ok : ok_st st'.
  Proof.
    unfold ok_st. destruct write_count as (E1 & E2 & L). rewrite write_relations. apply Forall_app. split.
    - refine (Forall_impl _ _ OK). intros z. apply condition_le. exact L.
    - constructor; [|constructor]. apply equals_condition; [|exact (choice_le _ _ v L V)|exact (fun e => e)]. apply old_name. rewrite E2, bump_same. lia.
  Qed.
  Lemma write_sat f z m : sat f (relations st) -> pick f v = Some z -> fits f (is_bool_choice v) z m ->
    sat (setf f (prefixed [TName x] n) m) (relations st').
  Proof.
    intros S1 PK F. destruct write_count as (E1 & E2 & L). assert (A : agree (count st) f (setf f (prefixed [TName x] n) m)) by (rewrite E1; apply agree_fresh).
    rewrite write_relations. apply sat_app. split; [exact (sat_agree _ _ _ _ A OK S1)|]. constructor; [|constructor].
    destruct (pick_some _ f v V) as (z' & PK' & LO & BT). assert (z' = z) by congruence. subst z'.
    apply (equals_picked (count st') _ _ _ _ v z); [apply old_name; rewrite E2, bump_same; lia|exact (choice_le _ _ v L V)|exact (fun e => e)|rewrite (pick_agree _ _ _ v A V); exact PK|].
    apply (fits_leaf (count st)); [exact LO|exact BT|]. rewrite setf_same. exact (fits_agree _ _ _ _ z m A (proj1 LO) F).
  Qed.
  Lemma write_static f : sat f (relations st) -> exists f', agree (count st) f f' /\ sat f' (relations st').
  Proof.
    intro S1. destruct (pick_some _ f v V) as (z & PK & LO & BT). destruct (fits_some _ f _ z LO BT) as (m & F).
    exists (setf f (prefixed [TName x] n) m). split; [|exact (write_sat f z m S1 PK F)]. destruct write_count as (-> & _). apply agree_fresh.
  Qed.
End OneWrite.

(** ** Changes *)
Lemma find_filter (l : changes) x y : find_change (filter (fun p => negb (String.eqb (fst p) x)) l) y = if String.eqb x y then None else find_change l y.
Proof.
  unfold find_change. induction l as [|[a n] l IH]; [destruct (String.eqb x y); reflexivity|]. cbn [filter fst]. destruct (String.eqb_spec a x) as [->|NE]; cbn [negb find fst].
  - rewrite IH. destruct (String.eqb_spec x y) as [->|]; reflexivity.
  - destruct (String.eqb_spec a y) as [->|]; [|exact IH]. destruct (String.eqb_spec x y) as [->|]; [congruence|reflexivity].
Qed.
Lemma find_set x n l y : find_change (set_change x n l) y = if String.eqb x y then Some n else find_change l y.
Proof.
  unfold set_change. assert (A : forall a b y, find_change (a ++ b) y = match find_change a y with Some m => Some m | None => find_change b y end).
  { intros a b z. unfold find_change. induction a as [|[k m] a IH]; [reflexivity|]. cbn [app find fst]. destruct (String.eqb k z); [reflexivity|exact IH]. }
  rewrite A, find_filter. destruct (String.eqb_spec x y) as [->|N]; [unfold find_change; cbn [find fst]; rewrite String.eqb_refl; reflexivity|].
  destruct (find_change l y); [reflexivity|]. unfold find_change. cbn [find fst]. destruct (String.eqb_spec x y); [congruence|reflexivity].
Qed.
Lemma find_merge m : forall l y, find_change (merge_changes l m) y = match find (fun p => String.eqb (fst p) y) (rev m) with Some p => Some (snd p) | None => find_change l y end.
Proof.
  induction m as [|[x n] m IH]; intros l y; [reflexivity|]. cbn [merge_changes fold_left fst snd]. fold (merge_changes (set_change x n l) m). rewrite IH. cbn [rev].
  assert (A : forall a b, find (fun p : string * nat => String.eqb (fst p) y) (a ++ b) = match find (fun p => String.eqb (fst p) y) a with Some p => Some p | None => find (fun p => String.eqb (fst p) y) b end).
  { induction a as [|p a IHa]; intro b; [reflexivity|]. cbn [app find]. destruct (String.eqb (fst p) y); [reflexivity|apply IHa]. }
  rewrite A. destruct (find _ (rev m)); [reflexivity|]. cbn [find fst]. rewrite find_set. destruct (String.eqb x y); reflexivity.
Qed.
Definition distinct (l : changes) : Prop := NoDup (map fst l).
Lemma set_distinct x n l : distinct l -> distinct (set_change x n l).
Proof.
  unfold distinct, set_change. intro D. rewrite map_app. cbn [map fst]. apply (proj2 (NoDup_Add (Add_app x (map fst (filter (fun p => negb (String.eqb (fst p) x)) l)) []))). rewrite app_nil_r. split.
  - induction l as [|p l IH]; [constructor|]. inversion D as [|? ? NI D2]; subst. cbn [filter].
    destruct (negb (String.eqb (fst p) x)); [|exact (IH D2)]. cbn [map]. constructor; [|exact (IH D2)]. rewrite in_map_iff. intros (q & E & I). apply filter_In in I. apply NI. rewrite in_map_iff. exists q. tauto.
  - rewrite in_map_iff. intros ([a m] & E & I). apply filter_In in I. cbn [fst] in *. destruct I as [_ I]. subst a. rewrite String.eqb_refl in I. discriminate.
Qed.
Lemma merge_distinct m : forall l, distinct l -> distinct (merge_changes l m).
Proof. induction m as [|p m IH]; intros l D; [exact D|]. cbn [merge_changes fold_left]. apply IH. apply set_distinct. exact D. Qed.
Lemma find_rev (l : changes) y : distinct l -> find (fun p => String.eqb (fst p) y) (rev l) = find (fun p => String.eqb (fst p) y) l.
Proof.
  induction l as [|p l IH]; intro D; [reflexivity|]. inversion D as [|? ? NI D']; subst. cbn [rev find].
  assert (A : forall a b, find (fun p : string * nat => String.eqb (fst p) y) (a ++ b) = match find (fun p => String.eqb (fst p) y) a with Some p => Some p | None => find (fun p => String.eqb (fst p) y) b end).
  { induction a as [|q a IHa]; intro b; [reflexivity|]. cbn [app find]. destruct (String.eqb (fst q) y); [reflexivity|apply IHa]. }
  rewrite A, (IH D'). cbn [find]. destruct (String.eqb_spec (fst p) y) as [E|N].
  - destruct (find (fun p0 => String.eqb (fst p0) y) l) as [q|] eqn:F; [|reflexivity]. apply find_some in F. destruct F as [I Q]. apply String.eqb_eq in Q. exfalso. apply NI. rewrite in_map_iff. exists q. split; [congruence|exact I].
  - destruct (find _ l); reflexivity.
Qed.
Lemma update_name cur l x : update cur l [TName x] = match find_change l x with Some n => n | None => cur [TName x] end.
Proof. reflexivity. Qed.
Lemma update_merge cur l m k : distinct m -> update cur (merge_changes l m) k = update (update cur l) m k.
Proof.
  intro D. destruct k as [|t [|]]; try reflexivity; destruct t; try reflexivity. cbn [update]. rewrite find_merge, (find_rev m x D). unfold find_change. destruct (find _ m); reflexivity.
Qed.
Lemma update_set cur x n l k : update cur (set_change x n l) k = if text_eqb k [TName x] then n else update cur l k.
Proof.
  destruct k as [|t [|t' k]]; try reflexivity; destruct t; try reflexivity; cbn [update text_eqb token_eqb]; try (rewrite andb_false_r; reflexivity).
  - rewrite find_set, andb_true_r, String.eqb_sym. destruct (String.eqb x0 x); reflexivity.
Qed.
Section Bounds.
  Variable d : variables.
  Definition ok_changes (c : counts) (l : changes) : Prop := distinct l /\ Forall (fun p => find_var d [TName (fst p)] <> None /\ snd p <= c [TName (fst p)]) l.
  Lemma changes_le c c' l : le c c' -> ok_changes c l -> ok_changes c' l.
  Proof. intros L [D F]. split; [exact D|]. refine (Forall_impl _ _ F). intros [x n] [A B]. cbn [fst snd] in *. specialize (L [TName x]). split; [exact A|lia]. Qed.
  Lemma ok_nil c : ok_changes c []. Proof. split; [constructor|constructor]. Qed.
  Lemma ok_set c x n l : ok_changes c l -> find_var d [TName x] <> None -> n <= c [TName x] -> ok_changes c (set_change x n l).
  Proof.
    intros [D F] FV L. split; [apply set_distinct; exact D|]. unfold set_change. apply Forall_app. split; [|constructor; [split; assumption|constructor]].
    rewrite Forall_forall in *. intros p I. apply filter_In in I. apply F. tauto.
  Qed.
  Lemma ok_merge c m : forall l, ok_changes c l -> ok_changes c m -> ok_changes c (merge_changes l m).
  Proof.
    induction m as [|[x n] m IH]; intros l L [D M]; [exact L|]. inversion M as [|? ? [FV LN] M']; subst. inversion D as [|? ? NI D']; subst. cbn [merge_changes fold_left]. apply IH; [|split; assumption]. cbn [fst snd] in *. apply ok_set; assumption.
  Qed.
  Lemma update_le cur c l : le cur c -> ok_changes c l -> le (update cur l) c.
  Proof.
    intros L [_ F] k. specialize (L k). destruct k as [|t [|]]; try exact L; destruct t; try exact L. cbn [update]. unfold find_change. destruct (find _ l) as [p|] eqn:X; cbn [option_map]; [|exact L].
    apply find_some in X. destruct X as [I E]. apply String.eqb_eq in E. rewrite Forall_forall in F. destruct (F p I) as [_ B]. rewrite E in B. exact B.
  Qed.
End Bounds.
