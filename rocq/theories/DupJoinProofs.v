(** Joining identical branches, untwisted conditions, if expressions, and dictionaries. *)
From Coq Require Import String List Bool Arith ZArith Lia Sorted Permutation.
From Verif Require Import Base DupModel DupSpec DupProofs DupMoveProofs.
Import ListNotations.
Local Open Scope string_scope.
Local Open Scope list_scope.
Local Open Scope nat_scope.

(** ** Joining *)

Definition arm_of (s : stmt) (a : cond * list stmt) : Prop := exists o, s = If (fst a) (snd a) o.

Lemma arms_of : forall l arms, mapM test_of l = Ok (map fst arms) -> mapM body_of l = Ok (map snd arms) -> Forall2 arm_of l arms.
Proof.
  induction l as [|s l IH]; intros arms T B.
  - destruct arms; [constructor|discriminate].
  - cbn [mapM] in T, B. destruct s as [id|t b o]; [discriminate|]. cbn [test_of body_of bind] in T, B.
    destruct (mapM test_of l) as [ts|] eqn:ET; cbn [bind] in T; [|discriminate]. destruct (mapM body_of l) as [bs|] eqn:EB; cbn [bind] in B; [|discriminate].
    destruct arms as [|[t' b'] arms]; [discriminate|]. cbn [map fst snd] in T, B. injection T as -> ->. injection B as -> ->.
    constructor; [exists o; reflexivity|]. apply IH; reflexivity.
Qed.

Lemma same_texts_iff : forall src a b, same_texts src a b = true <-> same_code src a b.
Proof.
  intros src a. unfold same_code. induction a as [|x a IH]; intros [|y b]; cbn [same_texts map]; try (split; [discriminate|discriminate]); [split; reflexivity|].
  rewrite andb_true_iff, String.eqb_eq, IH. split; [intros (-> & ->); reflexivity|]. intros E. injection E as -> ->. split; reflexivity.
Qed.

Lemma joins_same : forall src f o t b e, joins src f o = Ok true -> snd f = If t b e -> exists t' b' e', snd o = If t' b' e' /\ same_code src b b'.
Proof.
  intros src f o t b e E Q. unfold joins in E. destruct (is_ancestor _ _); [|discriminate]. rewrite Q in E. cbn [body_of bind] in E.
  destruct (snd o) as [id|t' b' e']; [discriminate|]. cbn [body_of bind] in E. exists t', b', e'. split; [reflexivity|]. apply same_texts_iff. congruence.
Qed.

Lemma more_split : forall src f rest n, more_ifs src f rest = Ok n ->
  exists M B, rest = M ++ B /\ length M = n /\ Forall (fun o => joins src f o = Ok true) M.
Proof.
  intros src f rest. induction rest as [|o rest IH]; intros n E; cbn [more_ifs] in E.
  - injection E as <-. exists [], []. repeat split. constructor.
  - destruct (joins src f o) as [[|]|e] eqn:J; cbn [bind] in E; try discriminate.
    + destruct (more_ifs src f rest) as [m|e] eqn:M; cbn [bind] in E; [|discriminate]. injection E as <-.
      destruct (IH m eq_refl) as (M1 & B & -> & <- & F). exists (o :: M1), B. repeat split. constructor; assumption.
    + injection E as <-. exists [], (o :: rest). repeat split. constructor.
Qed.

Lemma seq_message_in : forall src el fuel ifs ms el' p q c, seq_messages src el fuel ifs = Ok ms -> List.In (SeqIfs el' p q c) ms ->
  el' = el /\ exists A f M B, ifs = A ++ f :: M ++ B /\ M <> [] /\ fst f = p /\ q = fst (last M f) /\ c = S (length M) /\ Forall (fun o => joins src f o = Ok true) M.
Proof.
  intros src el fuel. induction fuel as [|fuel IH]; intros ifs ms el' p q c E I; [discriminate|]. cbn [seq_messages] in E.
  destruct ifs as [|f [|o rest]]; [injection E as <-; destruct I|injection E as <-; destruct I|].
  destruct (more_ifs src f (o :: rest)) as [more|e] eqn:MO; cbn [bind] in E; [|discriminate].
  destruct (seq_messages src el fuel (skipn more (o :: rest))) as [ms'|e] eqn:S1; cbn [bind] in E; [|discriminate].
  destruct (more_split _ _ _ _ MO) as (M & B & EQ & LM & F). rewrite EQ in *.
  assert (SK : skipn more (M ++ B) = B) by (rewrite <- LM; rewrite skipn_app, skipn_all, Nat.sub_diag; reflexivity).
  assert (FN : firstn more (M ++ B) = M) by (rewrite <- LM, firstn_app, firstn_all, Nat.sub_diag; cbn [firstn]; apply app_nil_r).
  rewrite SK in S1. rewrite FN in E.
  assert (REST : List.In (SeqIfs el' p q c) ms' -> el' = el /\ exists A f' M' B', f :: M ++ B = A ++ f' :: M' ++ B' /\ M' <> [] /\ fst f' = p /\ q = fst (last M' f') /\
    c = S (length M') /\ Forall (fun o => joins src f' o = Ok true) M').
  { intros I'. destruct (IH _ _ _ _ _ _ S1 I') as (-> & A & f' & M' & B' & -> & H). split; [reflexivity|]. exists (f :: M ++ A), f', M', B'.
    split; [cbn [app]; rewrite <- app_assoc; reflexivity|exact H]. }
  injection E as <-. destruct (more =? 0) eqn:Z; [exact (REST I)|]. destruct I as [I|I]; [|exact (REST I)].
  injection I as <- <- <- <-. split; [reflexivity|]. exists [], f, M, B. split; [reflexivity|]. apply Nat.eqb_neq in Z.
  split; [intros ->; cbn in LM; lia|]. repeat split; [lia|exact F].
Qed.

(** The members of [seq_ifs] that belong to one statement. *)
Definition of_sibling (k : nat) (i : item) : bool := fst (fst i) =? k.

Lemma items_key : forall k l i, List.In i (items k l) -> fst (fst i) = k.
Proof. intros k l [p s] I. unfold items in I. apply in_map_iff in I. destruct I as ([d s'] & EQ & _). injection EQ as <- <-. reflexivity. Qed.
Lemma filter_all : forall (A : Type) (f : A -> bool) l, (forall x, List.In x l -> f x = true) -> filter f l = l.
Proof. intros A f l H. induction l as [|x l IH]; [reflexivity|]. cbn [filter]. rewrite (H x (or_introl eq_refl)), IH; [reflexivity|]. intros y I. apply H. right. exact I. Qed.
Lemma filter_none : forall (A : Type) (f : A -> bool) l, (forall x, List.In x l -> f x = false) -> filter f l = [].
Proof. intros A f l H. induction l as [|x l IH]; [reflexivity|]. cbn [filter]. rewrite (H x (or_introl eq_refl)), IH; [reflexivity|]. intros y I. apply H. right. exact I. Qed.
Lemma siblings_key : forall rest j i, List.In i (from_siblings j rest) -> j <= fst (fst i).
Proof.
  induction rest as [|s rest IH]; intros j i I; cbn [from_siblings] in I; [destruct I|]. destruct (is_if s); [|destruct I].
  apply in_app_or in I. destruct I as [I|I]; [rewrite (items_key _ _ _ I); lia|]. specialize (IH _ _ I). lia.
Qed.
Lemma filter_siblings : forall rest j k i, List.In i (from_siblings j rest) -> fst (fst i) = k ->
  exists s, nth_error rest (k - j) = Some s /\ is_if s = true /\ filter (of_sibling k) (from_siblings j rest) = items k (s :: elifs s).
Proof.
  induction rest as [|s rest IH]; intros j k i I K; cbn [from_siblings] in I |- *; [destruct I|]. destruct (is_if s) eqn:IS; [|destruct I].
  rewrite filter_app. destruct (Nat.eq_dec j k) as [->|N].
  - exists s. rewrite Nat.sub_diag. split; [reflexivity|]. split; [exact IS|].
    rewrite (filter_all _ _ (items k (s :: elifs s))) by (intros x X; unfold of_sibling; rewrite (items_key _ _ _ X); apply Nat.eqb_refl).
    rewrite (filter_none _ _ (from_siblings (S k) rest)); [apply app_nil_r|]. intros x X. unfold of_sibling. apply Nat.eqb_neq.
    pose proof (siblings_key _ _ _ X). lia.
  - apply in_app_or in I. destruct I as [I|I]; [rewrite (items_key _ _ _ I) in K; contradiction|].
    pose proof (siblings_key _ _ _ I) as LE. destruct (IH _ _ _ I K) as (s' & NT & IS' & FI). exists s'.
    replace (k - j) with (S (k - S j)) by lia. split; [exact NT|]. split; [exact IS'|].
    rewrite (filter_none _ _ (items j (s :: elifs s))); [exact FI|]. intros x X. unfold of_sibling. rewrite (items_key _ _ _ X). apply Nat.eqb_neq. lia.
Qed.

(** They come in order. *)
Definition keys (l : list item) : list nat := map (fun i => fst (fst i)) l.
Lemma sorted_app : forall a b, StronglySorted le a -> StronglySorted le b -> (forall x y, List.In x a -> List.In y b -> x <= y) -> StronglySorted le (a ++ b).
Proof.
  intros a b SA SB H. induction SA as [|x a SA IH F]; [exact SB|]. cbn [app]. constructor.
  - apply IH. intros u v U V. apply H; [right; exact U|exact V].
  - apply Forall_app. split; [exact F|]. rewrite Forall_forall. intros y Y. apply H; [left; reflexivity|exact Y].
Qed.
Lemma sorted_items : forall k l, StronglySorted le (keys (items k l)).
Proof.
  intros k l. assert (H : Forall (fun x => x = k) (keys (items k l))).
  { unfold keys. rewrite Forall_forall. intros x I. apply in_map_iff in I. destruct I as (i & <- & I). exact (items_key _ _ _ I). }
  induction H as [|x r E F IH]; [constructor|]. constructor; [exact IH|]. rewrite Forall_forall in F |- *. intros y Y. rewrite (F y Y). lia.
Qed.
Lemma sorted_siblings : forall rest j, StronglySorted le (keys (from_siblings j rest)).
Proof.
  induction rest as [|s rest IH]; intros j; cbn [from_siblings]; [constructor|]. destruct (is_if s); [|constructor]. unfold keys. rewrite map_app.
  apply sorted_app; [apply sorted_items|apply IH|]. intros x y X Y. apply in_map_iff in X, Y. destruct X as (i & <- & X). destruct Y as (i' & <- & Y).
  rewrite (items_key _ _ _ X). pose proof (siblings_key _ _ _ Y). lia.
Qed.
Lemma sorted_suffix : forall a b, StronglySorted le (a ++ b) -> StronglySorted le b.
Proof. induction a as [|x a IH]; intros b S1; [exact S1|]. inversion S1; subst. apply IH. assumption. Qed.
Lemma sorted_between : forall a b, StronglySorted le (a ++ b) -> forall x y, List.In x a -> List.In y b -> x <= y.
Proof.
  induction a as [|z a IH]; intros b S1 x y X Y; [destruct X|]. inversion S1 as [|? ? S2 F]; subst. destruct X as [->|X]; [|exact (IH _ S2 _ _ X Y)].
  rewrite Forall_forall in F. apply F. apply in_or_app. right. exact Y.
Qed.

(** Members from [f] to the last of [M], if they begin and end in one statement, all belong to it. *)
Lemma segment_sibling : forall A f M B k, StronglySorted le (keys (A ++ f :: M ++ B)) -> M <> [] -> fst (fst f) = k -> fst (fst (last M f)) = k ->
  filter (of_sibling k) (A ++ f :: M ++ B) = filter (of_sibling k) A ++ f :: M ++ filter (of_sibling k) B.
Proof.
  intros A f M B k S1 N KF KL. rewrite filter_app. f_equal. cbn [filter]. unfold of_sibling at 1. rewrite KF, Nat.eqb_refl. f_equal. rewrite filter_app. f_equal.
  apply filter_all. intros x X. unfold of_sibling. apply Nat.eqb_eq. unfold keys in S1. rewrite map_app in S1. apply sorted_suffix in S1. cbn [map] in S1.
  inversion S1 as [|? ? S2 F]; subst. rewrite map_app in S2, F. rewrite Forall_forall in F.
  assert (L1 : fst (fst f) <= fst (fst x)). { apply F, in_or_app. left. apply in_map_iff. exists x. split; [reflexivity|exact X]. }
  destruct (exists_last N) as (M' & z & ->). rewrite last_last in KL.
  apply in_app_or in X. destruct X as [X|[->|[]]]; [|congruence].
  rewrite map_app, <- app_assoc in S2.
  assert (L2 : fst (fst x) <= fst (fst z)).
  { apply (sorted_between _ _ S2); [apply in_map_iff; exists x; split; [reflexivity|exact X]|]. apply in_or_app. left. left. reflexivity. }
  lia.
Qed.

Lemma items_snd : forall k l, map snd (items k l) = l.
Proof.
  intros k l. unfold items. rewrite map_map. generalize 0 as n. induction l as [|s l IH]; intros n; [reflexivity|]. cbn [length seq combine map]. f_equal.
  exact (IH (S n)).
Qed.
Lemma items_nth : forall k l (A : list item) (f : item) (B : list item), items k l = A ++ f :: B -> fst f = (k, length A).
Proof.
  intros k l. unfold items.
  assert (G : forall (l : list stmt) n (A : list item) (f : item) (B : list item), map (fun '(d, s) => (k, d, s)) (combine (seq n (length l)) l) = A ++ f :: B -> fst f = (k, n + length A)).
  { clear. induction l as [|s l IH]; intros n A f B E; [destruct A; discriminate|]. cbn [length seq combine map] in E. destruct A as [|a A].
    - injection E as <- _. cbn. rewrite Nat.add_0_r. reflexivity.
    - injection E as _ E. rewrite (IH _ _ _ _ E). cbn [length]. f_equal. lia. }
  intros A f B E. rewrite (G _ _ _ _ _ E). reflexivity.
Qed.

Section Joining.
  Context {State : Type}.
  Variable P : python State.
  Variable src : source.
  Hypothesis decides : text_decides P src.

  Lemma joined_arms pre t b more post e : Forall (fun a => same_code src b (snd a)) more ->
    same_run P (as_ifs (pre ++ (t, b) :: more ++ post) e) (as_ifs (pre ++ (any_of t (map fst more), b) :: post) e).
  Proof.
    intros F st. revert st. induction pre as [|[u c] pre IH]; intros st.
    - cbn [app]. revert t st. induction F as [|[u c] more SC F IH]; intros t st; [reflexivity|]. cbn [app map fst any_of as_ifs].
      rewrite !run_one, !run_if. cbn [truth]. destruct (truth P t st) as [st' [[|]|]]; [reflexivity| |reflexivity].
      specialize (IH u st'). cbn [as_ifs] in IH. rewrite !run_one, !run_if in IH. rewrite run_one, run_if.
      rewrite <- IH. destruct (truth P u st') as [st2 [[|]|]]; [|reflexivity|reflexivity]. symmetry. apply (same_code_run P src decides). exact SC.
    - cbn [app as_ifs]. rewrite !run_one, !run_if. destruct (truth P u st) as [st' [[|]|]]; [reflexivity|apply IH|reflexivity].
  Qed.

  (** One statement whose members are joined. *)
  Lemma joined_chain s ifs k A f M B : Forall2 arm_of ifs s -> items k ifs = A ++ f :: M ++ B -> Forall (fun o => joins src f o = Ok true) M ->
    exists pre t b more post, s = pre ++ (t, b) :: more ++ post /\ fst f = (k, length pre) /\ length more = length M /\
      Forall (fun a => same_code src b (snd a)) more /\ forall e, same_run P (as_ifs s e) (as_ifs (pre ++ (any_of t (map fst more), b) :: post) e).
  Proof.
    intros F2 E FJ. assert (EI : ifs = map snd A ++ snd f :: map snd M ++ map snd B).
    { rewrite <- (items_snd k ifs), E, map_app. cbn [map]. rewrite map_app. reflexivity. }
    pose proof (items_nth _ _ _ _ _ E) as PF. rewrite EI in F2. apply Forall2_app_inv_l in F2. destruct F2 as (pre & r & FA & F2 & ->).
    inversion F2 as [|? [t b] ? r' (o & SF) F2']; subst. cbn [fst snd] in SF. apply Forall2_app_inv_l in F2'. destruct F2' as (more & post & FM & FB & ->).
    assert (LA : length pre = length A).
    { clear - FA. rewrite <- (map_length snd A). generalize (map snd A) FA. clear. intros l H. induction H; cbn [length]; congruence. }
    assert (LM : length more = length M).
    { clear - FM. rewrite <- (map_length snd M). generalize (map snd M) FM. clear. intros l H. induction H; cbn [length]; congruence. }
    assert (SC : Forall (fun a => same_code src b (snd a)) more).
    { clear - FM FJ SF. revert more FM. induction FJ as [|x M J FJ IH]; intros more FM; cbn [map] in FM; inversion FM as [|? [u c] ? m (o' & SX) FM']; subst; constructor.
      - destruct (joins_same _ _ _ _ _ _ J SF) as (t' & b' & e' & EX & S1). rewrite SX in EX. cbn [fst snd] in EX |- *. congruence.
      - apply IH. exact FM'. }
    exists pre, t, b, more, post. split; [reflexivity|]. split; [rewrite PF, LA; reflexivity|]. split; [exact LM|]. split; [exact SC|].
    intros e. apply joined_arms. exact SC.
  Qed.

  Lemma items_sorted_seq prev node rest l : seq_ifs prev node rest = Some l ->
    l = items 0 (snd (extract_from_elif node)) ++ from_siblings 1 rest.
  Proof.
    unfold seq_ifs. destruct prev as [p|]; [destruct (is_if p && negb (fst (extract_from_elif p))); [discriminate|]|]; intros E; congruence.
  Qed.

  Lemma whole_chain s : is_if s = true -> exists arms e, [s] = as_ifs arms e /\ Forall2 arm_of (s :: elifs s) arms.
  Proof.
    intros I. destruct (chain_arms (length (elifs s)) s I) as (arms & e & A & _ & _ & T & B & _); [cbn; lia|].
    change (S (length (elifs s))) with (length (s :: elifs s)) in T, B. rewrite firstn_all in T, B. exists arms, e. split; [exact A|exact (arms_of _ _ T B)].
  Qed.

  Theorem joined prev node rest ms el k d k' d' c : is_if node = true -> identical_in_if src prev node rest = Ok ms -> List.In (SeqIfs el (k, d) (k', d') c) ms ->
    (el = true -> k = 0 /\ k' = 0) /\
    (k = k' -> exists s pre t b more post e, nth_error (node :: rest) k = Some s /\ [s] = as_ifs (pre ++ (t, b) :: more ++ post) e /\
      length pre = d /\ S (length more) = c /\ Forall (fun a => same_code src b (snd a)) more /\
      same_run P [s] (as_ifs (pre ++ (any_of t (map fst more), b) :: post) e)).
  Proof.
    intros I E IN. unfold identical_in_if in E. destruct (extract_from_elif node) as [ewe ifs] eqn:X.
    destruct (extract_arms _ _ _ I X) as (arms & e & A & NA & G & T & B & _). rewrite G in E. cbn [bind] in E.
    assert (SQ : identical_seq_ifs src ewe ifs (seq_ifs prev node rest) = Ok ms).
    { destruct ewe; cbn [bind] in E; [|exact E].
      destruct (identical_before_after_branch src (branches_of arms e)) as [ms'|x] eqn:BA; cbn [bind] in E; [|discriminate].
      destruct ms' as [|m' ms']; [exact E|]. exfalso. injection E as <-.
      clear - BA IN. destruct (branch_messages _ _ _ BA) as (n & _ & H).
      assert (AF : forall ms0, Forall (fun m => is_part m = true) ms0 -> identical_after src (branches_of arms e) ms0 = Ok (m' :: ms') -> False).
      { intros ms0 F0 AF. destruct (after_messages _ _ _ _ AF) as (j & _ & [(EQ & _)|(_ & m & PM & EQ)]).
        - rewrite <- EQ in F0. rewrite Forall_forall in F0. specialize (F0 _ IN). discriminate.
        - rewrite EQ in IN. apply in_app_or in IN. rewrite Forall_forall in F0. destruct IN as [IN|[IN|[]]]; [specialize (F0 _ IN); discriminate|].
          subst m. destruct (part_is_part _ _ _ _ _ PM) as (l & Q). discriminate. }
      destruct H as [(_ & H)|[(_ & _ & EQ)|(_ & m & PM & [EQ|H])]].
      - exact (AF [] (Forall_nil _) H).
      - rewrite EQ in IN. destruct IN as [IN|[]]. discriminate.
      - rewrite EQ in IN. destruct IN as [IN|[]]. subst m. destruct (part_is_part _ _ _ _ _ PM) as (l & Q). discriminate.
      - destruct (part_is_part _ _ _ _ _ PM) as (l & ->). apply (AF [BranchesPart l true]); [constructor; [reflexivity|constructor]|exact H]. }
    pose proof (arms_of _ _ T B) as F2. clear E. unfold identical_seq_ifs in SQ.
    assert (NODE : forall A' f M B' k0, items 0 ifs = A' ++ f :: M ++ B' -> M <> [] -> fst f = (k, d) -> c = S (length M) -> Forall (fun o => joins src f o = Ok true) M -> k0 = k ->
      exists s pre t b more post e, nth_error (node :: rest) k0 = Some s /\ [s] = as_ifs (pre ++ (t, b) :: more ++ post) e /\
      length pre = d /\ S (length more) = c /\ Forall (fun a => same_code src b (snd a)) more /\
      same_run P [s] (as_ifs (pre ++ (any_of t (map fst more), b) :: post) e)).
    { intros A' f M B' k0 EQ NM PF LC FJ ->. destruct (joined_chain _ _ _ _ _ _ _ F2 EQ FJ) as (pre & t & b & more & post & EA & PF' & LM & SC & SR).
      rewrite PF in PF'. injection PF' as -> ->. exists node, pre, t, b, more, post, e. split; [reflexivity|]. split; [rewrite <- EA; exact A|].
      split; [reflexivity|]. split; [lia|]. split; [exact SC|]. rewrite A. apply SR. }
    destruct ewe.
    - destruct (seq_message_in _ _ _ _ _ _ _ _ _ SQ IN) as (-> & A' & f & M & B' & EQ & NM & PF & PL & LC & FJ).
      assert (K0 : forall x, List.In x (f :: M) -> fst (fst x) = 0).
      { intros x Ix. apply (items_key 0 ifs). rewrite EQ. apply in_or_app. right. destruct Ix as [<-|Ix]; [left; reflexivity|right; apply in_or_app; left; exact Ix]. }
      assert (Z1 : k = 0) by (specialize (K0 f (or_introl eq_refl)); rewrite PF in K0; exact K0).
      split.
      + intros _. split; [exact Z1|]. destruct (exists_last NM) as (M' & z & EM). rewrite EM, last_last in PL.
        assert (Iz : List.In z (f :: M)) by (right; rewrite EM; apply in_or_app; right; left; reflexivity). specialize (K0 z Iz). rewrite <- PL in K0. exact K0.
      + intros _. exact (NODE A' f M B' k EQ NM PF LC FJ eq_refl).
    - destruct (seq_ifs prev node rest) as [l|] eqn:SI; [|injection SQ as <-; destruct IN].
      pose proof (items_sorted_seq _ _ _ _ SI) as EL. rewrite X in EL. cbn [snd] in EL.
      destruct (seq_message_in _ _ _ _ _ _ _ _ _ SQ IN) as (-> & A' & f & M & B' & EQ & NM & PF & PL & LC & FJ).
      split; [discriminate|]. intros <-.
      assert (SO : StronglySorted le (keys (A' ++ f :: M ++ B'))).
      { rewrite <- EQ, EL. unfold keys. rewrite map_app. apply sorted_app; [apply sorted_items|apply sorted_siblings|].
        intros x y Ix Iy. apply in_map_iff in Ix, Iy. destruct Ix as (i & <- & Ix). destruct Iy as (j & <- & Iy). rewrite (items_key _ _ _ Ix). lia. }
      pose proof (segment_sibling A' f M B' k SO NM) as SG. rewrite PF in SG. rewrite <- PL in SG. specialize (SG eq_refl eq_refl).
      rewrite <- EQ, EL, filter_app in SG.
      destruct k as [|k].
      + rewrite (filter_all _ _ (items 0 ifs)) in SG by (intros x Ix; unfold of_sibling; rewrite (items_key _ _ _ Ix); reflexivity).
        rewrite (filter_none _ _ (from_siblings 1 rest)) in SG.
        2: { intros x Ix. unfold of_sibling. apply Nat.eqb_neq. pose proof (siblings_key _ _ _ Ix). lia. }
        rewrite app_nil_r in SG. exact (NODE _ f M _ 0 SG NM PF LC FJ eq_refl).
      + rewrite (filter_none _ _ (items 0 ifs)) in SG by (intros x Ix; unfold of_sibling; rewrite (items_key _ _ _ Ix); reflexivity). cbn [app] in SG.
        assert (IF : List.In f (from_siblings 1 rest)).
        { assert (If_ : List.In f (filter (of_sibling (S k)) (from_siblings 1 rest))) by (rewrite SG; apply in_or_app; right; left; reflexivity).
          apply filter_In in If_. apply If_. }
        destruct (filter_siblings _ _ (S k) _ IF) as (s & NT & IS & FI); [rewrite PF; reflexivity|]. rewrite FI in SG.
        destruct (whole_chain s IS) as (sarms & se & SA & SF2).
        destruct (joined_chain _ _ _ _ _ _ _ SF2 SG FJ) as (pre & t & b & more & post & EA & PF' & LM & SC & SR).
        rewrite PF in PF'. injection PF' as ->. exists s, pre, t, b, more, post, se.
        split; [replace (S k - 1) with k in NT by lia; exact NT|]. split; [rewrite <- EA; exact SA|]. split; [reflexivity|]. split; [lia|]. split; [exact SC|].
        rewrite SA. apply SR.
  Qed.

  (** [if]s one after another, none with an [elif] or an [else], can be joined if after the body no later condition is true. *)
  Lemma joined_siblings t b more : Forall (fun a => same_code src b (snd a)) more -> 
    (forall st st' c, run_block P b st = (st', true) -> List.In c (map fst more) -> truth P c st' = (st', Some false)) ->
    same_run P (If t b [] :: map (fun '(u, c) => If u c []) more) [If (any_of t (map fst more)) b []].
  Proof.
    intros F QUIET st. rewrite run_one.
    assert (SK : forall l, incl l more -> forall st, (forall c, List.In c (map fst l) -> truth P c st = (st, Some false)) ->
      run_block P (map (fun '(u, c) => If u c []) l) st = (st, true)).
    { clear st. induction l as [|[u c] l IH]; intros I st H; [reflexivity|]. cbn [map]. change (If u c [] :: map (fun '(u, c) => If u c []) l) with ([If u c []] ++ map (fun '(u, c) => If u c []) l).
      rewrite run_app, run_one, run_if, (H u (or_introl eq_refl)). change (run_block P [] st) with (st, true). cbn.
      apply IH; [intros x Ix; apply I; right; exact Ix|]. intros x Ix. apply H. right. exact Ix. }
    revert t st. assert (GEN : forall l, incl l more -> Forall (fun a => same_code src b (snd a)) l -> forall t b', same_code src b b' -> forall st,
      run_block P (If t b' [] :: map (fun '(u, c) => If u c []) l) st = run P (If (any_of t (map fst l)) b []) st).
    { induction l as [|[u c] l IH]; intros I FL t b' SB st.
      - cbn [map any_of]. rewrite run_one, !run_if. destruct (truth P t st) as [st' [[|]|]]; [|reflexivity|reflexivity]. symmetry. apply (same_code_run P src decides). exact SB.
      - inversion FL as [|? ? SC FL']; subst. cbn [snd] in SC. set (tl := map (fun '(u, c) => If u c []) ((u, c) :: l)) in *.
        change (If t b' [] :: tl) with ([If t b' []] ++ tl). rewrite run_app, run_one, !run_if. cbn [map fst any_of truth].
        destruct (truth P t st) as [st' [[|]|]]; [| |reflexivity].
        + rewrite <- (same_code_run P src decides b b' SB). destruct (run_block P b st') as [st2 [|]] eqn:R; [|reflexivity].
          apply SK; [exact I|]. intros x Ix. apply (QUIET st'); [exact R|]. apply in_map_iff in Ix. destruct Ix as (y & <- & Iy). apply in_map_iff. exists y. split; [reflexivity|exact (I _ Iy)].
        + change (run_block P [] st') with (st', true). cbn [tl map]. unfold tl. cbn [map].
          rewrite (IH (fun x Ix => I x (or_intror Ix)) FL' u c SC st'), run_if. reflexivity. }
    intros t st. apply GEN; [intros x Ix; exact Ix|exact F|apply same_code_refl].
  Qed.
End Joining.

(** ** Untwisted conditions *)

Lemma untwisted : forall (State : Type) (P : python State) src tests branches fixed outer, text_decides P src ->
  untwist src tests branches = Some fixed -> tests = [outer] ->
  exists inner body orelse, fixed = If inner body orelse /\
  forall pos neg, branches = [[pos]; [neg]] ->
  (forall st, fst (truth P outer st) = st) ->
  (forall t b o st, pos = If t b o -> snd (truth P outer (fst (truth P t st))) = snd (truth P outer st)) ->
  same_run P [If outer [pos] [neg]] [fixed].
Proof.
  intros State P src tests branches fixed outer D U ->. unfold untwist in U.
  destruct branches as [|[|[id|pi pp pn] [|? ?]] [|[|[id'|ni np nn] [|? ?]] [|? ?]]]; try discriminate.
  destruct pn as [|x pn]; [discriminate|]. destruct nn as [|y nn]; [discriminate|].
  set (pneg := x :: pn) in *. set (nneg := y :: nn) in *.
  assert (CORE : forall neg, 
    (forall st, run P (If ni np nneg) st = match truth P neg st with (st', Some true) => run_block P pp st' | (st', Some false) => run_block P pneg st' | (st', None) => (st', false) end) ->
    (forall st, fst (truth P outer st) = st) -> (forall st, snd (truth P outer (fst (truth P pi st))) = snd (truth P outer st)) ->
    same_run P [If outer [If pi pp pneg] [If ni np nneg]] [If (Or (And outer pi) (And (Not outer) neg)) pp pneg]).
  { intros neg NEG PU KEEP st. rewrite !run_one, !run_if. cbn [truth]. pose proof (PU st) as P1.
    destruct (truth P outer st) as [st' [[|]|]] eqn:T; cbn [fst] in P1; subst st'.
    - rewrite run_one, run_if. specialize (KEEP st). rewrite T in KEEP. cbn [snd] in KEEP.
      destruct (truth P pi st) as [st2 [[|]|]] eqn:TI; [reflexivity| |reflexivity]. cbn [fst] in KEEP. pose proof (PU st2) as P2.
      destruct (truth P outer st2) as [st3 o3] eqn:T2. cbn [fst snd] in KEEP, P2. subst st3 o3. reflexivity.
    - rewrite T. cbn [negb]. rewrite run_one, NEG. reflexivity.
    - reflexivity. }
  destruct (are_identical src pp nneg && are_identical src pneg np) eqn:C1.
  - apply andb_true_iff in C1. destruct C1 as (C1 & C2). apply same_texts_iff in C1, C2. injection U as <-. do 3 eexists. split; [reflexivity|].
    intros pos neg EQ PU KEEP. injection EQ as <- <-. apply CORE; [|exact PU|intros st; exact (KEEP pi pp pneg st eq_refl)].
    intros st. rewrite run_if. cbn [truth]. destruct (truth P ni st) as [st' [[|]|]]; cbn [negb]; [|symmetry|reflexivity].
    + symmetry. apply (same_code_run P src D). exact C2.
    + apply (same_code_run P src D). exact C1.
  - destruct (are_identical src pp np && are_identical src pneg nneg) eqn:C3; [|discriminate].
    apply andb_true_iff in C3. destruct C3 as (C3 & C4). apply same_texts_iff in C3, C4. injection U as <-. do 3 eexists. split; [reflexivity|].
    intros pos neg EQ PU KEEP. injection EQ as <- <-. apply CORE; [|exact PU|intros st; exact (KEEP pi pp pneg st eq_refl)].
    intros st. rewrite run_if. destruct (truth P ni st) as [st' [[|]|]]; [symmetry|symmetry|reflexivity]; apply (same_code_run P src D); assumption.
Qed.

(** ** If expressions *)

Section Ternary.
  Context {State Value : Type}.
  Variable P : python State.
  Variable node_value : nat -> State -> State * option Value.
  Variable name_value : string -> State -> State * option Value.
  Variable const_value : string -> State -> State * option Value.

  Lemma to_node_value parent s e : has_value parent s -> to_node parent s = Ok e -> forall st, value P node_value name_value const_value e st = worth_of node_value name_value const_value parent s st.
  Proof.
    intros H E st. destruct s as [id|x|l]; cbn [to_node] in E; [injection E as <-; reflexivity| |discriminate]. cbn [worth_of].
    destruct H as [-> |[-> |(id & Q)]]; [injection E as <-; reflexivity|injection E as <-; reflexivity|discriminate].
  Qed.

  Lemma wrap_value parent last_ e0 : has_value parent last_ -> to_node parent last_ = Ok e0 -> forall tests subs e, Forall (has_value parent) subs -> length subs = length tests ->
    wrap parent (combine tests subs) e0 = Ok e -> forall st,
    value P node_value name_value const_value e st = selected P (worth_of node_value name_value const_value parent) tests (subs ++ [last_]) st.
  Proof.
    intros HL L. induction tests as [|t tests IH]; intros [|s subs] e F LE W st; try discriminate.
    - cbn [combine wrap] in W. injection W as <-. cbn [app selected]. apply to_node_value; [exact HL|exact L].
    - cbn [combine wrap] in W. destruct (wrap parent (combine tests subs) e0) as [inner|x] eqn:WI; cbn [bind] in W; [|discriminate].
      destruct (to_node parent s) as [body|x] eqn:TN; cbn [bind] in W; [|discriminate]. injection W as <-. cbn [value app selected]. inversion F as [|? ? F1 F2]; subst.
      destruct (truth P t st) as [st' [[|]|]]; [exact (to_node_value _ _ _ F1 TN st')| |reflexivity]. apply IH; [exact F2|cbn [length] in LE; lia|exact WI].
  Qed.

  Theorem ternary_value tests parent subs e : Forall (has_value parent) subs -> ternary tests parent subs = Ok e -> forall st,
    value P node_value name_value const_value e st = selected P (worth_of node_value name_value const_value parent) tests subs st.
  Proof.
    intros FS. unfold ternary. destruct (length subs =? length tests + 1) eqn:L; [|discriminate]. apply Nat.eqb_eq in L. intros E st.
    destruct (rev subs) as [|last_ r] eqn:R; [discriminate|]. assert (EQ : subs = rev r ++ [last_]) by (rewrite <- (rev_involutive subs), R; reflexivity).
    destruct (to_node parent last_) as [e0|x] eqn:TN; cbn [bind] in E; [|discriminate]. rewrite EQ in *. rewrite app_length in L. cbn [length] in L.
    assert (C : combine tests (rev r ++ [last_]) = combine tests (rev r)).
    { assert (LR : length tests = length (rev r)) by lia. clear - LR. revert LR. generalize (rev r) as q. induction tests as [|t ts IH]; intros [|x q] LR; try discriminate; [reflexivity|].
      cbn [app combine]. f_equal. apply IH. cbn in LR. lia. }
    rewrite C in E. apply Forall_app in FS. destruct FS as (F1 & F2). inversion F2; subst. apply (wrap_value parent last_ e0); try assumption. lia.
  Qed.

  (** The expression can always be made when there is one value for each branch and none is a list. *)
  Theorem ternary_made tests parent subs : length subs = S (length tests) -> (forall l, ~ List.In (SubList l) subs) -> exists e, ternary tests parent subs = Ok e.
  Proof.
    intros L NL. unfold ternary. replace (length subs =? length tests + 1) with true by (symmetry; apply Nat.eqb_eq; lia).
    assert (TN : forall s, List.In s subs -> exists e, to_node parent s = Ok e).
    { intros [id|x|l] I; [eexists; reflexivity|eexists; reflexivity|destruct (NL l I)]. }
    destruct (rev subs) as [|last_ r] eqn:R.
    - apply (f_equal (@length sub)) in R. rewrite rev_length in R. cbn in R. lia.
    - assert (IL : List.In last_ subs) by (apply in_rev; rewrite R; left; reflexivity). destruct (TN last_ IL) as (e0 & ->). cbn [bind].
      assert (G : forall ts ss, (forall s, List.In s ss -> List.In s subs) -> exists e, wrap parent (combine ts ss) e0 = Ok e).
      { induction ts as [|t ts IH]; intros [|s ss] H; try (eexists; reflexivity). cbn [combine wrap].
        destruct (IH ss) as (inner & ->); [intros x Ix; apply H; right; exact Ix|]. cbn [bind]. destruct (TN s (H s (or_introl eq_refl))) as (b & ->). eexists. reflexivity. }
      apply G. auto.
  Qed.
End Ternary.

(** ** Statements one after another *)

Lemma plain_siblings : forall arms others k, exists tail, from_siblings k (map plain arms ++ others) =
  map (fun '(i, a) => ((i, 0), plain a)) (combine (seq k (length arms)) arms) ++ tail /\ Forall (fun i => k + length arms <= fst (fst i)) tail.
Proof.
  induction arms as [|[t b] arms IH]; intros others k.
  - exists (from_siblings k others). split; [reflexivity|]. rewrite Forall_forall. intros i I. cbn [length]. rewrite Nat.add_0_r. exact (siblings_key _ _ _ I).
  - destruct (IH others (S k)) as (tail & E & F). exists tail. cbn [map app]. change (plain (t, b)) with (If t b []). cbn [from_siblings is_if elifs].
    rewrite E. split; [reflexivity|]. cbn [length]. rewrite Forall_forall in F |- *. intros i I. specialize (F i I). lia.
Qed.

Lemma joined_plain : forall (State : Type) (P : python State) src prev node rest arms others ms el k k' d' c, text_decides P src ->
  node :: rest = map plain arms ++ others -> arms <> [] -> identical_in_if src prev node rest = Ok ms -> List.In (SeqIfs el (k, 0) (k', d') c) ms -> k' < length arms ->
  el = false /\ d' = 0 /\ exists pre t b more post, arms = pre ++ (t, b) :: more ++ post /\ length pre = k /\ k' = k + length more /\ S (length more) = c /\
    Forall (fun a => same_code src b (snd a)) more /\
    ((forall st st' u, run_block P b st = (st', true) -> List.In u (map fst more) -> truth P u st' = (st', Some false)) ->
     same_run P (map plain ((t, b) :: more)) [If (any_of t (map fst more)) b []]).
Proof.
  intros State P src prev node rest arms others ms el k k' d' c D EQ NA E IN LT.
  destruct arms as [|[t0 b0] arms]; [congruence|]. cbn [map app] in EQ. assert (EN : node = If t0 b0 []) by (unfold plain in EQ; cbn [fst snd] in EQ; congruence).
  assert (ER : rest = map plain arms ++ others) by congruence.
  assert (X : extract_from_elif node = (false, [node])).
  { rewrite EN. unfold extract_from_elif. cbn [has_else_block elifs]. unfold last_if. cbn [elifs last has_else_block length].
    destruct (count_nested_ifs b0) as [|n]; cbn [Nat.eqb Nat.leb orb]; reflexivity. }
  unfold identical_in_if in E. rewrite X in E. cbn [bind] in E.
  assert (G : get_bodies [node] = Ok [b0]) by (rewrite EN; reflexivity). rewrite G in E. cbn [bind] in E. unfold identical_seq_ifs in E.
  destruct (seq_ifs prev node rest) as [l|] eqn:SI; [|injection E as <-; destruct IN].
  pose proof (items_sorted_seq _ _ _ _ SI) as EL. rewrite X in EL. cbn [snd] in EL.
  destruct (plain_siblings arms others 1) as (tail & ES & FT). rewrite ER, ES in EL.
  assert (EL' : l = map (fun '(i, a) => ((i, 0), plain a)) (combine (seq 0 (length ((t0, b0) :: arms))) ((t0, b0) :: arms)) ++ tail).
  { rewrite EL, EN. reflexivity. }
  clear EL. set (all := (t0, b0) :: arms) in *.
  assert (FT' : Forall (fun i => length all <= fst (fst i)) tail) by (unfold all; cbn [length]; exact FT). clear FT.
  destruct (seq_message_in _ _ _ _ _ _ _ _ _ E IN) as (-> & A & f & M & B & EQL & NM & PF & PL & LC & FJ).
  split; [reflexivity|]. rewrite EL' in EQL. clear EL'.
  assert (LEN : forall i (l : list (cond * list stmt)), length (map (fun '(i, a) => ((i, 0), plain a)) (combine (seq i (length l)) l)) = length l).
  { intros i l0. rewrite map_length, combine_length, seq_length. lia. }
  assert (NTH : forall l i j, nth_error (map (fun '(i, a) => ((i, 0), plain a)) (combine (seq i (length l)) l)) j = option_map (fun a => ((i + j, 0), plain a)) (nth_error l j)).
  { clear. induction l as [|a l IH]; intros i j; [destruct j; reflexivity|]. cbn [length seq combine map]. destruct j as [|j]; [cbn; rewrite Nat.add_0_r; reflexivity|].
    cbn [nth_error]. rewrite IH. destruct (nth_error l j); cbn [option_map]; [|reflexivity]. do 3 f_equal. lia. }
  set (Lall := map (fun '(i, a) => ((i, 0), plain a)) (combine (seq 0 (length all)) all) ++ tail) in *.
  assert (IDX : forall j i, nth_error Lall j = Some i -> fst (fst i) < length all -> exists a, nth_error all j = Some a /\ i = ((j, 0), plain a)).
  { intros j i N L. unfold Lall in N. destruct (Nat.lt_ge_cases j (length all)) as [LJ|GJ].
    - rewrite nth_error_app1 in N by (rewrite LEN; exact LJ). rewrite NTH in N. destruct (nth_error all j) as [a|]; [|discriminate]. exists a. split; [reflexivity|].
      cbn [option_map Nat.add] in N. congruence.
    - exfalso. rewrite nth_error_app2 in N by (rewrite LEN; exact GJ). apply nth_error_In in N. rewrite Forall_forall in FT'. specialize (FT' _ N). lia. }
  destruct (exists_last NM) as (M' & z & EM). rewrite EM, last_last in PL.
  assert (NZ : nth_error Lall (length A + S (length M')) = Some z).
  { rewrite EQL, EM. rewrite nth_error_app2 by lia. replace (length A + S (length M') - length A) with (S (length M')) by lia. cbn [nth_error].
    rewrite <- app_assoc. rewrite nth_error_app2 by lia. rewrite Nat.sub_diag. reflexivity. }
  destruct (IDX _ _ NZ) as (az & NAZ & EZ); [rewrite <- PL; exact LT|]. rewrite EZ in PL. cbn [fst] in PL. injection PL as -> ->. split; [reflexivity|].
  assert (LA : length A + S (length M') < length all) by (apply nth_error_Some; congruence).
  assert (NF : nth_error Lall (length A) = Some f) by (rewrite EQL, nth_error_app2 by lia; rewrite Nat.sub_diag; reflexivity).
  assert (SO : forall j i, j <= length A + S (length M') -> nth_error Lall j = Some i -> exists a, nth_error all j = Some a /\ i = ((j, 0), plain a)).
  { intros j i LJ N. apply IDX; [exact N|]. unfold Lall in N. rewrite nth_error_app1 in N by (rewrite LEN; lia). rewrite NTH in N.
    destruct (nth_error all j); [|discriminate]. cbn [option_map Nat.add] in N. injection N as <-. cbn [fst]. lia. }
  destruct (SO _ _ (Nat.le_add_r _ _) NF) as ([t b] & NT & EF). rewrite EF in PF. cbn [fst] in PF. injection PF as <-.
  set (m := length M) in *. assert (LM : m = S (length M')) by (unfold m; rewrite EM, app_length; cbn [length]; lia).
  destruct (nth_error_split _ _ NT) as (pre & post0 & EALL & LPRE).
  exists pre, t, b, (firstn m post0), (skipn m post0).
  assert (LP : m <= length post0). { apply (f_equal (@length _)) in EALL. rewrite app_length in EALL. cbn [length] in EALL. lia. }
  assert (SC : Forall (fun a => same_code src b (snd a)) (firstn m post0)).
  { rewrite Forall_forall. intros a I. destruct (In_nth_error _ _ I) as (q & Q). assert (LQ : q < m). { assert (q < length (firstn m post0)) by (apply nth_error_Some; congruence). rewrite firstn_length in H. lia. }
    assert (Q2 : nth_error post0 q = Some a). { rewrite <- Q. symmetry. rewrite <- (firstn_skipn m post0) at 2. rewrite nth_error_app1; [reflexivity|]. rewrite firstn_length. lia. }
    destruct (nth_error M q) as [o|] eqn:NQ; [|apply nth_error_None in NQ; unfold m in LQ; lia].
    assert (N2 : nth_error Lall (length A + S q) = Some o).
    { rewrite EQL, nth_error_app2 by lia. replace (length A + S q - length A) with (S q) by lia. cbn [nth_error]. rewrite nth_error_app1 by (unfold m in LQ; lia). exact NQ. }
    destruct (SO (length A + S q) o) as (a' & NA' & EO); [lia|exact N2|].
    assert (a' = a) as ->. { rewrite EALL in NA'. rewrite nth_error_app2 in NA' by lia. replace (length A + S q - length pre) with (S q) in NA' by lia. cbn [nth_error] in NA'. congruence. }
    rewrite Forall_forall in FJ. specialize (FJ o (nth_error_In _ _ NQ)).
    destruct (joins_same _ _ _ t b [] FJ) as (t' & b' & e' & EX & S1); [rewrite EF; reflexivity|]. rewrite EO in EX. unfold plain in EX. cbn [snd] in EX.
    assert (b' = snd a) as -> by congruence. exact S1. }
  split; [rewrite firstn_skipn; exact EALL|]. split; [exact LPRE|]. split; [rewrite firstn_length; lia|]. split; [rewrite firstn_length; lia|]. split; [exact SC|].
  intros Q. pose proof (joined_siblings P src D t b (firstn m post0) SC Q) as J. unfold same_run in *. intros st. rewrite <- J. cbn [map]. unfold plain at 1. cbn [fst snd].
  f_equal. f_equal. apply map_ext. intros [u w]. reflexivity.
Qed.

Lemma untwisted_run : forall (State : Type) (P : python State) src outer pos neg fixed, text_decides P src ->
  untwist src [outer] [[pos]; [neg]] = Some fixed -> (forall st, fst (truth P outer st) = st) ->
  (forall t b o st, pos = If t b o -> snd (truth P outer (fst (truth P t st))) = snd (truth P outer st)) ->
  same_run P [If outer [pos] [neg]] [fixed].
Proof.
  intros State P src outer pos neg fixed D U PU KEEP. destruct (untwisted State P src _ _ _ outer D U eq_refl) as (i & b & o & _ & H). exact (H pos neg eq_refl PU KEEP).
Qed.
Lemma untwisted_shape : forall src tests branches fixed, untwist src tests branches = Some fixed ->
  exists outer pos neg inner other b e, tests = [outer] /\ branches = [[pos]; [neg]] /\ (exists b' e', pos = If inner b' e') /\
    fixed = If (Or (And outer inner) (And (Not outer) other)) b e.
Proof.
  intros src tests branches fixed U. unfold untwist in U. destruct tests as [|outer [|? ?]]; try discriminate.
  destruct branches as [|[|[id|pi pp pn] [|? ?]] [|[|[id'|ni np nn] [|? ?]] [|? ?]]]; try discriminate.
  destruct pn as [|x pn]; [discriminate|]. destruct nn as [|y nn]; [discriminate|].
  destruct (are_identical src pp (y :: nn) && are_identical src (x :: pn) np).
  - injection U as <-. do 7 eexists. split; [reflexivity|]. split; [reflexivity|]. split; [do 2 eexists; reflexivity|reflexivity].
  - destruct (are_identical src pp np && are_identical src (x :: pn) (y :: nn)); [|discriminate]. injection U as <-. do 7 eexists.
    split; [reflexivity|]. split; [reflexivity|]. split; [do 2 eexists; reflexivity|reflexivity].
Qed.
