(** Proofs that anti-unification raises nothing. *)
From Coq Require Import String List Bool Arith Lia.
From Verif Require Import Base AuModel AuSpec AuProofs AuMergeProofs AuResultProofs AuNameProofs AuWholeProofs.
Import ListNotations.
Local Open Scope string_scope.
Local Open Scope list_scope.
Local Open Scope nat_scope.

Fixpoint depth (v : val) : nat :=
  match v with
  | VAtom _ | VVar _ _ => 1
  | VList l | VTup l => S (fold_right (fun x n => Nat.max (depth x) n) 0 l)
  | VNode _ attrs _ => S (fold_right (fun '(_, x) n => Nat.max (depth x) n) 0 attrs)
  end.

Lemma depth_elements : forall v w, List.In w (elements v) -> depth w < depth v.
Proof.
  assert (G : forall l w, List.In w l -> depth w <= fold_right (fun x n => Nat.max (depth x) n) 0 l).
  { induction l as [|x l IH]; intros w I; [destruct I|]. cbn [fold_right]. destruct I as [<-|I]; [lia|]. specialize (IH _ I). lia. }
  intros v w I. destruct v; cbn [elements] in I; try destruct I; cbn [depth]; apply le_n_S; apply G; exact I.
Qed.
Lemma depth_attr : forall k attrs s a w, holds attrs a w -> depth w < depth (VNode k attrs s).
Proof.
  intros k attrs s a w H. apply holds_iff in H. cbn [depth]. apply le_n_S. revert H.
  induction attrs as [|[b x] attrs IH]; intros H; [discriminate|]. cbn [attr_of fold_right] in *.
  destruct (String.eqb a b); [injection H as ->; lia|]. specialize (IH H). lia.
Qed.

Section Total.
  Variable astroid_fields : string -> list string.
  Variable is_subclass : string -> string -> bool.
  Variable class_of : string -> node_class.
  Variable stop_on : list val -> res bool.
  Variable shape_of : string -> string -> shape.
  Variable used : string -> Prop.
  Variable plain : atom -> Prop.
  Hypothesis classes_ok : classes astroid_fields is_subclass shape_of used.
  Hypothesis makable_ok : makable astroid_fields class_of used.
  Hypothesis stop_ok : decides stop_on.
  Hypothesis real : forall re im, ~ plain (AComplex re im).
  Notation fields := (all_fields astroid_fields).
  Notation unify := (unify astroid_fields is_subclass class_of stop_on).
  Notation well := (well fields shape_of used plain).

  (** The core is nothing whose parents cannot be set. *)
  Definition settable (v : val) : Prop := parents_settable v = true.

  Definition fine (r : res (val * list val * nat)) : Prop :=
    match r with Ok (core, avars, _) => settable core /\ Forall usable avars | Raise e => e = Disallowed end.

  Lemma well_settable : forall s v, well s v -> settable v.
  Proof.
    intros s v. revert s. induction v as [a|l IH|l IH|k attrs s0 IH|n subs] using val_ind2; intros s W; unfold settable; cbn [parents_settable]; try reflexivity.
    - inversion W as [? P|?|?|?]; subst. destruct a; try reflexivity. exfalso. exact (real _ _ P).
    - inversion W as [|?|? ? F|?]; subst. apply forallb_forall. intros x Ix. rewrite Forall_forall in IH, F. exact (IH _ Ix _ (F _ Ix)).
    - inversion W as [|?|?|? ? x y Wx Wy]; subst. cbn [forallb]. inversion IH as [|? ? Ax IH']; subst. inversion IH' as [|? ? Ay ?]; subst.
      unfold settable in *. rewrite (Ax _ Wx), (Ay _ Wy). reflexivity.
  Qed.

  Lemma new_aunifier_fine : forall subs num, usable (VVar (S num) subs) ->
    new_aunifier stop_on subs num = Ok (VVar (S num) subs, [VVar (S num) subs], S num) \/ new_aunifier stop_on subs num = Raise Disallowed.
  Proof.
    intros subs num U. unfold new_aunifier, check_stop. destruct (proj1 stop_ok [VVar (S num) subs]) as (b & ->); [constructor; [exact U|constructor]|].
    destruct b; [right|left]; reflexivity.
  Qed.
  Lemma new_fine : forall subs num, usable (VVar (S num) subs) -> fine (new_aunifier stop_on subs num).
  Proof.
    intros subs num U. destruct (new_aunifier_fine subs num U) as [-> | ->]; [|reflexivity]. split; [reflexivity|]. constructor; [exact U|constructor].
  Qed.

  Lemma new_node_total : forall k cores, used k -> map fst cores = fields k -> exists attrs, new_node class_of k cores = Ok attrs.
  Proof.
    intros k cores U EF. unfold new_node. destruct (makable_ok k U) as (G & X & R).
    set (after_ := postinit_params (class_of k)) in *. set (before_ := filter _ cores).
    set (added := filter (fun '(a, _) => negb (str_in a (map fst before_))) [("kwarg", VAtom (AStr "")); ("vararg", VAtom (AStr ""))]).
    assert (IB : forall a c, List.In (a, c) before_ -> List.In a (fields k) /\ ~ List.In a (map fst after_)).
    { intros a c I. unfold before_ in I. apply filter_In in I. destruct I as (I & N). split.
      - rewrite <- EF. exact (in_map fst _ _ I).
      - intros K. apply str_in_iff in K. rewrite K in N. discriminate. }
    assert (BI : forall a, List.In a (fields k) -> ~ List.In a (map fst after_) -> List.In a (map fst before_)).
    { intros a I N. rewrite <- EF in I. apply in_map_iff in I. destruct I as ((b & c) & E & I). cbn [fst] in E. subst b.
      apply in_map_iff. exists (a, c). split; [reflexivity|]. apply filter_In. split; [exact I|].
      destruct (str_in a (map fst after_)) eqn:S; [|reflexivity]. exfalso. apply N, str_in_iff. exact S. }
    assert (AI : forall a, List.In a ["kwarg"; "vararg"] -> List.In a (map fst before_) \/ List.In a (map fst added)).
    { intros a I. destruct (str_in a (map fst before_)) eqn:S; [left; apply str_in_iff; exact S|right].
      apply in_map_iff. exists (a, VAtom (AStr "")). split; [reflexivity|]. apply filter_In. rewrite S.
      split; [destruct I as [<-|[<-|[]]]; [left|right; left]; reflexivity|reflexivity]. }
    assert (IA : forall a c, List.In (a, c) added -> List.In a ["kwarg"; "vararg"]).
    { intros a c I. apply filter_In in I. destruct I as ([E|[E|[]]] & _); injection E as <- <-; [left|right; left]; reflexivity. }
    clearbody before_ added.
    match goal with |- context [if ?x && ?y then _ else _] => assert (C1 : x = true); [|assert (C2 : y = true); [|rewrite C1, C2; cbn [andb]; eauto]] end.
    - apply forallb_forall. intros [a c] I. apply str_in_iff. destruct (String.eqb k "Arguments").
      + apply in_app_or in I. destruct I as [I|I].
        * destruct (IB _ _ I) as (A & B). apply G; [apply in_or_app; left; exact A|exact B].
        * apply IA in I. apply G; [apply in_or_app; right; exact I|exact (X _ I)].
      + destruct (IB _ _ I) as (A & B). apply G; [apply in_or_app; left; exact A|exact B].
    - apply forallb_forall. intros a I. apply str_in_iff. destruct (R _ I) as (A & B). destruct (String.eqb k "Arguments").
      + rewrite map_app, in_app_iff. apply in_app_or in A. destruct A as [A|A]; [left; exact (BI _ A B)|exact (AI _ A)].
      + rewrite app_nil_r in A. exact (BI _ A B).
  Qed.

  Lemma make_core_fine : forall k vs cores avars num, used k -> map fst cores = fields k -> Forall (fun '(_, c) => settable c) cores ->
    Forall usable avars -> fine (make_core class_of stop_on k vs cores avars num).
  Proof.
    intros k vs cores avars num U EF S A. unfold make_core. destruct (new_node_total k cores U EF) as (attrs & ->). cbn [bind].
    replace (forallb (fun '(_, c) => parents_settable c) cores) with true.
    2:{ symmetry. apply forallb_forall. intros [a c] I. rewrite Forall_forall in S. exact (S _ I). }
    unfold check_stop. destruct (proj1 stop_ok avars A) as (b & ->). destruct b; cbn [bind]; [reflexivity|split; [reflexivity|exact A]].
  Qed.

  Definition total_at (fuel : nat) : Prop :=
    forall s v0 vs num, depth v0 <= fuel -> Forall (well s) (v0 :: vs) -> fine (unify fuel (v0 :: vs) num).

  Lemma positions_fine : forall fuel, total_at fuel -> forall (ss : list shape) columns num,
    Forall2 (fun s column => exists v0 vs, column = v0 :: vs /\ depth v0 <= fuel /\ Forall (well s) column) ss columns ->
    match positions (unify fuel) columns num with
    | Ok (cores, avars, _) => Forall settable cores /\ Forall usable avars
    | Raise e => e = Disallowed
    end.
  Proof.
    intros fuel T ss columns num F. revert num. induction F as [|s c ss columns (v0 & vs & -> & D & W) F IH]; intros num; cbn [positions].
    - split; constructor.
    - pose proof (T s v0 vs num D W) as R. destruct (unify fuel (v0 :: vs) num) as [[[core av] n1]|e] eqn:U; cbn [bind]; [|exact R].
      destruct R as (SC & UA).
      assert (exists core', as_tuple (v0 :: vs) core = Ok core' /\ settable core') as (core' & -> & SC').
      { unfold as_tuple. destruct v0 as [a|l|l|k at_ sb|m sb]; try (exists core; split; [reflexivity|exact SC]).
        destruct s as [|t|t t']; [exfalso; pose proof (Forall_inv W) as Q; inversion Q|exfalso; pose proof (Forall_inv W) as Q; inversion Q|].
        destruct (unify_gives_back astroid_fields is_subclass class_of stop_on shape_of used plain (fun _ _ => True) (fun _ _ => True) classes_ok (fun _ _ _ _ _ => Logic.I) fuel (Pair t t')
          (VTup l :: vs) num core av n1 ltac:(discriminate) W U) as ((l' & ->) & _).
        exists (VTup l'). split; [reflexivity|exact SC]. }
      cbn [bind]. specialize (IH n1). destruct (positions (unify fuel) columns n1) as [[[cs more] n2]|e]; cbn [bind]; [|exact IH].
      destruct IH as (SS & UU). split; [constructor; assumption|apply Forall_app; split; assumption].
  Qed.

  Lemma many_fine : forall fuel, total_at fuel -> forall k v0 vs, depth v0 <= S fuel ->
    (forall v, List.In v (v0 :: vs) -> exists attrs, v = VNode k attrs None /\
       forall a, List.In a (fields k) -> exists w, holds attrs a w /\ well (shape_of k a) w) ->
    forall attrs num, incl attrs (fields k) ->
    match many (unify fuel) (v0 :: vs) attrs num with
    | Ok (cores, avars, _) => map fst cores = attrs /\ Forall (fun '(_, c) => settable c) cores /\ Forall usable avars
    | Raise e => e = Disallowed
    end.
  Proof.
    intros fuel T k v0 vs D W. induction attrs as [|a attrs IHa]; intros num IN; cbn [many].
    - repeat split; constructor.
    - assert (Ia : List.In a (fields k)) by (apply IN; left; reflexivity).
      assert (exists w0 ws, mapM (fun v => getattr v a) (v0 :: vs) = Ok (w0 :: ws) /\ depth w0 <= fuel /\ Forall (well (shape_of k a)) (w0 :: ws)) as (w0 & ws & -> & Dw & Ww).
      { destruct (W v0 (or_introl eq_refl)) as (at0 & -> & A0). destruct (A0 _ Ia) as (w0 & H0 & W0).
        assert (exists ws, mapM (fun v => getattr v a) vs = Ok ws /\ Forall (well (shape_of k a)) ws) as (ws & MM & Ws).
        { assert (W' : forall v, List.In v vs -> exists attrs, v = VNode k attrs None /\
            forall a, List.In a (fields k) -> exists w, holds attrs a w /\ well (shape_of k a) w) by (intros v I; apply W; right; exact I).
          clear - W' Ia. induction vs as [|v vs IH]; [exists []; split; [reflexivity|constructor]|].
          destruct (W' v (or_introl eq_refl)) as (at_ & -> & A). destruct (A _ Ia) as (w & H & Ww).
          destruct IH as (ws & MM & Ws); [intros v I; apply W'; right; exact I|].
          exists (w :: ws). cbn [mapM getattr]. rewrite holds_iff in H. rewrite H. cbn [bind]. rewrite MM. split; [reflexivity|constructor; assumption]. }
        exists w0, ws. refine (conj _ (conj _ _)).
        - cbn [mapM getattr]. pose proof H0 as H0'. rewrite holds_iff in H0'. rewrite H0'. cbn [bind]. rewrite MM. reflexivity.
        - pose proof (depth_attr k at0 None a w0 H0). lia.
        - constructor; assumption. }
      cbn [bind]. pose proof (T _ w0 ws num Dw Ww) as R. destruct (unify fuel (w0 :: ws) num) as [[[core av] n1]|e]; cbn [bind]; [|exact R].
      destruct R as (SC & UA). specialize (IHa n1 (fun x Ix => IN x (or_intror Ix))).
      destruct (many (unify fuel) (v0 :: vs) attrs n1) as [[[cs more] n2]|e]; cbn [bind]; [|exact IHa].
      destruct IHa as (E & SS & UU). split; [cbn [map fst]; congruence|]. split; [constructor; assumption|apply Forall_app; split; assumption].
  Qed.

  Lemma one_not_seq : forall v, well One v -> is_seq v = false.
  Proof. intros v W. inversion W; reflexivity. Qed.

  Lemma unify_total : forall fuel, total_at fuel.
  Proof.
    induction fuel as [|fuel IH]; intros s v0 vs num D W; [destruct v0; cbn [depth] in D; lia|].
    cbn [AuModel.unify]. rewrite (wells_not_var _ _ _ _ _ _ W).
    pose proof (Forall_inv W) as W0. remember (v0 :: vs) as all eqn:EA.
    assert (WA : forall v, List.In v all -> well s v) by (rewrite Forall_forall in W; exact W).
    destruct s as [|t|t t'].
    - assert (NS : forall v, List.In v all -> is_seq v = false) by (intros v I; exact (one_not_seq _ (WA _ I))).
      assert (UV : usable (VVar (S num) all)). { rewrite EA in *. exists (S num), v0, vs. split; [reflexivity|]. right. exact NS. }
      rewrite (one_not_seq _ W0). destruct (existsb is_node all) eqn:EN; cbn [negb].
      + destruct v0 as [a|l|l|kind at0 s0|m subs0]; try (exact (new_fine _ _ UV)).
        destruct (forallb (instance_of is_subclass kind) all) eqn:IK; [|exact (new_fine _ _ UV)].
        assert (U0 : used kind) by (inversion W0; subst; assumption).
        assert (AT : forall v, List.In v all -> exists attrs, v = VNode kind attrs None /\ (well One v) /\
            forall a, List.In a (fields kind) -> exists w, holds attrs a w /\ well (shape_of kind a) w).
        { intros v I. rewrite forallb_forall in IK. specialize (IK _ I). pose proof (WA _ I) as Wv.
          destruct v as [|?|?|k at_ sb|?]; try discriminate. cbn [instance_of] in IK. inversion Wv; subst.
          rewrite <- (unrelated _ _ _ _ classes_ok k kind) by assumption. exists at_. refine (conj eq_refl (conj Wv _)). assumption. }
        destruct (str_in kind ["Name"; "AssignName"]) eqn:NK.
        * assert (NC : name_class kind) by (apply namek_iff; exact NK).
          assert (exists n names, mapM (fun v => getattr v "name") all = Ok (n :: names) /\ forall t, List.In t (n :: names) -> is_seq t = false) as (n & names & -> & NN).
          { subst all. assert (G : forall l, incl l (VNode kind at0 s0 :: vs) -> exists names, mapM (fun v => getattr v "name") l = Ok names /\ length names = length l /\
              forall t, List.In t names -> is_seq t = false).
            { induction l as [|v l IHl]; intros IN; [exists []; repeat split; intros t []|].
              destruct (AT v (IN _ (or_introl eq_refl))) as (at_ & -> & Wv & _). inversion Wv as [|? ? ? ? N|?|?]; subst. destruct (N NC) as (x & Hx & _).
              destruct (IHl (fun y Iy => IN y (or_intror Iy))) as (names & MM & LN & NS').
              exists (VAtom (AStr x) :: names). cbn [mapM getattr]. rewrite holds_iff in Hx. rewrite Hx. cbn [bind]. rewrite MM. refine (conj eq_refl (conj _ _)).
              - cbn [length]. congruence.
              - intros t [<-|I]; [reflexivity|exact (NS' _ I)]. }
            destruct (G _ (incl_refl _)) as (names & MM & LN & NS'). destruct names as [|n names]; [discriminate|]. exists n, names. split; assumption. }
          cbn [bind].
          assert (UN : usable (VVar (S num) (n :: names))) by (exists (S num), n, names; split; [reflexivity|right; exact NN]).
          destruct (new_aunifier_fine _ _ UN) as [-> | ->]; cbn [bind]; [|reflexivity].
          apply make_core_fine; [exact U0| |repeat constructor|constructor; [exact UN|constructor]].
          unfold all_fields. rewrite (name_fields _ _ _ _ classes_ok kind U0 NC). destruct NC as [-> | ->]; reflexivity.
        * subst all. pose proof (many_fine fuel IH kind _ vs D (fun v I => match AT v I with ex_intro _ a (conj E (conj _ H)) => ex_intro _ a (conj E H) end)
            (fields kind) num (incl_refl _)) as R.
          destruct (many (unify fuel) _ (fields kind) num) as [[[cs av] n1]|e]; cbn [bind]; [|exact R]. destruct R as (E & SS & UU).
          apply make_core_fine; assumption.
      + subst all. cbn [aunify_consts]. destruct (forallb _ (v0 :: vs)); [|exact (new_fine _ _ UV)].
        split; [exact (well_settable _ _ W0)|constructor].
    - assert (LI : forall v, List.In v all -> exists l, v = VList l /\ Forall (well t) l).
      { intros v I. pose proof (WA _ I) as Wv. inversion Wv; subst. eauto. }
      destruct (LI v0) as (l0 & E0 & WL0); [rewrite EA; left; reflexivity|]. rewrite E0. cbn [is_seq elements].
      replace (forallb is_seq all) with true.
      2:{ symmetry. apply forallb_forall. intros v I. destruct (LI _ I) as (l & -> & _). reflexivity. }
      destruct (forallb (fun v => Nat.eqb (length (elements v)) (length l0)) all) eqn:LEN.
      + assert (P : match positions (unify fuel) (map (fun i => map (fun v => nth i (elements v) (VAtom ANone)) all) (seq 0 (length l0))) num with
          | Ok (cores, avars, _) => Forall settable cores /\ Forall usable avars | Raise e => e = Disallowed end).
        { apply (positions_fine fuel IH (map (fun _ => t) (seq 0 (length l0)))).
          assert (B : forall j, List.In j (seq 0 (length l0)) -> j < length l0) by (intros j Ij; apply in_seq in Ij; lia).
          revert B. generalize (seq 0 (length l0)) as js. induction js as [|j js IHj]; intros B; cbn [map]; constructor.
          - subst all. cbn [map]. exists (nth j (elements v0) (VAtom ANone)), (map (fun v => nth j (elements v) (VAtom ANone)) vs).
            assert (Lj : j < length l0) by (apply B; left; reflexivity).
            refine (conj eq_refl (conj _ _)).
            + pose proof (depth_elements v0 (nth j (elements v0) (VAtom ANone))) as DE. rewrite E0 in DE. cbn [elements] in DE.
              specialize (DE (nth_In _ _ Lj)). rewrite E0. cbn [elements]. rewrite E0 in D. lia.
            + change (Forall (well t) (map (fun v => nth j (elements v) (VAtom ANone)) (v0 :: vs))). apply Forall_forall. intros w Iw. apply in_map_iff in Iw. destruct Iw as (v & <- & Iv).
              rewrite forallb_forall in LEN. specialize (LEN _ Iv). apply Nat.eqb_eq in LEN. destruct (LI _ Iv) as (l & -> & WL). cbn [elements] in *.
              rewrite Forall_forall in WL. apply WL, nth_In. lia.
          - apply IHj. intros j' I'. apply B. right. exact I'. }
        destruct (positions (unify fuel) _ num) as [[[cs av] n1]|e]; cbn [bind]; [|exact P]. destruct P as (SS & UU). split; [|exact UU].
        unfold settable. cbn [parents_settable]. apply forallb_forall. intros c Ic. rewrite Forall_forall in SS. exact (SS _ Ic).
      + assert (UV : usable (VVar (S num) all)).
        { rewrite EA in *. exists (S num), v0, vs. split; [reflexivity|]. left. intros v I. destruct (LI _ I) as (l & -> & _). reflexivity. }
        assert (exists v, List.In v all /\ Nat.eqb (length (elements v)) (length l0) = false) as (v1 & I1 & L1).
        { clear - LEN. induction all as [|v all IHl]; [discriminate|]. cbn [forallb] in LEN. apply andb_false_iff in LEN. destruct LEN as [E|E].
          - exists v. split; [left; reflexivity|exact E].
          - destruct (IHl E) as (w & I & F). exists w. split; [right; exact I|exact F]. }
        destruct (LI _ I1) as (l1 & -> & WL1). cbn [elements] in L1. apply Nat.eqb_neq in L1.
        assert (I0 : List.In v0 all) by (rewrite EA; left; reflexivity). rewrite E0 in I0.
        destruct (new_aunifier_fine _ _ UV) as [NA|NA]; rewrite NA; cbn [bind]; [|reflexivity].
        assert (TW : forall f, List.In f (flat_map elements all) -> well t f).
        { intros f If. apply in_flat_map in If. destruct If as (v & Iv & If). destruct (LI _ Iv) as (l & -> & WL). rewrite Forall_forall in WL. exact (WL _ If). }
        destruct (flat_map elements all) as [|first rest] eqn:FM.
        { exfalso. assert (Z : forall v, List.In v all -> elements v = []).
          { intros v Iv. destruct (elements v) as [|x l] eqn:Ev; [reflexivity|]. exfalso. assert (K : List.In x (flat_map elements all)).
            { apply in_flat_map. exists v. rewrite Ev. split; [exact Iv|left; reflexivity]. } rewrite FM in K. destruct K. }
          pose proof (Z _ I0) as Z0. pose proof (Z _ I1) as Z1. cbn [elements] in *. subst l0 l1. apply L1. reflexivity. }
        assert (LC : match list_core stop_on (VVar (S num) all) first (S num) with Ok (c, _) => settable c | Raise e => e = Disallowed end).
        { specialize (TW first (or_introl eq_refl)).
          assert (NEW : match new_aunifier stop_on [] (S num) with Ok (o, _, _) => exists m, o = VVar m [] | Raise e => e = Disallowed end).
          { destruct (proj2 stop_ok) as [H|H].
            - destruct (H (S (S num))) as (b & Hb). unfold new_aunifier, check_stop. rewrite Hb. cbn [bind]. destruct b; cbn [bind]; [reflexivity|eauto].
            - exfalso. unfold new_aunifier, check_stop in NA. rewrite (H (S num) l0 l1 all I0 I1) in NA; [discriminate|congruence|].
              intros v I. destruct (LI _ I) as (l & -> & _). reflexivity. }
          unfold list_core. inversion TW as [a P|k at_ U A N|s' l F|sx sy x y Wx Wy]; subst first; try reflexivity.
          assert (TWO : match (do (other, _, num0) <- new_aunifier stop_on [] (S num); Ok (VList [VTup [VVar (S num) all; other]], num0)) with
                        | Ok (c, _) => settable c | Raise e => e = Disallowed end).
          { destruct (new_aunifier stop_on [] (S num)) as [[[o av] n]|e]; cbn [bind]; [|exact NEW]. destruct NEW as (m & ->). reflexivity. }
          destruct x as [[]| | | |]; destruct y as [[]| | | |]; cbn [is_node andb]; first [reflexivity | exact TWO]. }
        destruct (list_core stop_on _ first (S num)) as [[c n]|e]; cbn [bind]; [|exact LC]. split; [exact LC|constructor; [exact UV|constructor]].
    - assert (LI : forall v, List.In v all -> exists x y, v = VTup [x; y] /\ well t x /\ well t' y).
      { intros v I. pose proof (WA _ I) as Wv. inversion Wv; subst. eauto. }
      destruct (LI v0) as (x0 & y0 & E0 & Wx0 & Wy0); [rewrite EA; left; reflexivity|]. rewrite E0. cbn [is_seq elements length].
      replace (forallb is_seq all) with true.
      2:{ symmetry. apply forallb_forall. intros v I. destruct (LI _ I) as (x & y & -> & _). reflexivity. }
      replace (forallb (fun v => Nat.eqb (length (elements v)) 2) all) with true.
      2:{ symmetry. apply forallb_forall. intros v I. destruct (LI _ I) as (x & y & -> & _). reflexivity. }
      cbn [seq map].
      assert (P : match positions (unify fuel) [map (fun v => nth 0 (elements v) (VAtom ANone)) all; map (fun v => nth 1 (elements v) (VAtom ANone)) all] num with
          | Ok (cores, avars, _) => Forall settable cores /\ Forall usable avars | Raise e => e = Disallowed end).
      { apply (positions_fine fuel IH [t; t']). subst all. constructor; [|constructor; [|constructor]]; cbn [map]; do 2 eexists; (split; [reflexivity|]).
        - split.
          + rewrite E0. cbn [elements nth]. pose proof (depth_elements (VTup [x0; y0]) x0 (or_introl eq_refl)). rewrite E0 in D. lia.
          + apply (proj2 (Forall_forall _ (map (fun v => nth 0 (elements v) (VAtom ANone)) (v0 :: vs)))). intros w Iw. apply in_map_iff in Iw. destruct Iw as (v & <- & Iv).
            destruct (LI _ Iv) as (x & y & -> & Wx & Wy). exact Wx.
        - split.
          + rewrite E0. cbn [elements nth]. pose proof (depth_elements (VTup [x0; y0]) y0 (or_intror (or_introl eq_refl))). rewrite E0 in D. lia.
          + apply (proj2 (Forall_forall _ (map (fun v => nth 1 (elements v) (VAtom ANone)) (v0 :: vs)))). intros w Iw. apply in_map_iff in Iw. destruct Iw as (v & <- & Iv).
            destruct (LI _ Iv) as (x & y & -> & Wx & Wy). exact Wy. }
      destruct (positions (unify fuel) _ num) as [[[cs av] n1]|e]; cbn [bind]; [|exact P]. destruct P as (SS & UU). split; [|exact UU].
      unfold settable. cbn [parents_settable]. apply forallb_forall. intros c Ic. rewrite Forall_forall in SS. exact (SS _ Ic).
  Qed.

  Variable stop_after : val -> list val -> res bool.
  Variable scopes_allow : val -> list val -> list avar -> bool.
  Hypothesis stop_after_ok : forall core avars, exists b, stop_after core avars = Ok b.
  Hypothesis fields_once : forall k, NoDup (all_fields astroid_fields k).

  Lemma merge_loop_total : forall consistent avars o g forced, Forall (fun a => avar_subs a <> []) avars -> exists r, merge_loop consistent avars o g forced = Ok r.
  Proof.
    intros consistent. induction avars as [|a avars IH]; intros o g forced F; cbn [merge_loop]; [eauto|].
    pose proof (Forall_inv F) as NE. pose proof (Forall_inv_tail F) as F'. destruct (avar_subs a) as [|s subs] eqn:ES; [congruence|]. rewrite <- ES.
    assert (G : exists r, (if negb consistent && all_same (avar_subs a) then merge_loop consistent avars o g (extend_group forced (avar_subs a) [a])
              else match canonicals o a with
                   | [] => merge_loop consistent avars (rev (map (fun p => (p, avar_subs a)) (combine (seq 0 (length (avar_subs a))) (avar_subs a))) ++ o)
                               (if named a then extend_group g (avar_subs a) [a] else g) forced
                   | [canon] =>
                       if named a && keys_eq canon (avar_subs a) && in_groups g canon
                       then merge_loop consistent avars o (extend_group g canon [a]) forced
                       else if consistent then Ok None else merge_loop consistent avars o (pop_group g canon) forced
                   | canons => if consistent then Ok None else merge_loop consistent avars o (fold_left pop_group canons g) forced
                   end) = Ok r).
    { destruct (negb consistent && all_same (avar_subs a)); [apply IH, F'|]. destruct (canonicals o a) as [|canon [|]]; [apply IH, F'| |].
      - destruct (named a && keys_eq canon (avar_subs a) && in_groups g canon); [apply IH, F'|]. destruct consistent; [eauto|apply IH, F'].
      - destruct consistent; [eauto|apply IH, F']. }
    destruct s; try exact G. apply IH, F'.
  Qed.

  Lemma concatM_total : forall l, Forall (fun r => exists x, r = Ok x) l -> exists x, concatM l = Ok x.
  Proof.
    induction l as [|r l IH]; intros F; cbn [concatM]; [eauto|]. destruct (Forall_inv F) as (x & ->). destruct (IH (Forall_inv_tail F)) as (y & ->). cbn [bind]. eauto.
  Qed.

  Lemma get_avars_total : forall M core s v, fills fields (fun _ _ => True) (fun _ _ => False) 0 core v -> well s v ->
    exists r, get_avars astroid_fields (rename M core) = Ok r.
  Proof.
    intros M. induction core as [a|l IH|l IH|k attrs s0 IH|n subs] using val_ind2; intros s v F W.
    - cbn [rename get_avars]. eauto.
    - assert (ST : forall c subs, l = [c] -> stands c subs -> exists r, get_avars astroid_fields (rename M (VList l)) = Ok r).
      { intros c subs -> ST. cbn [rename map]. rewrite (rename_stands _ _ _ ST). destruct ST; cbn; eauto. }
      inversion F as [|?|cs vs0 FF E1 E2|?|? ? ? ST1 ? E1|?|?]; subst; [|exact (ST _ _ eq_refl ST1)].
      inversion W as [|?|sh ? WW|?]; subst. cbn [rename get_avars]. apply concatM_total. clear ST F W. rewrite map_map.
      induction FF as [|c w cs vs Fc FF IHF]; cbn [map]; [constructor|]. inversion IH; subst. inversion WW; subst. constructor; eauto.
    - inversion F as [|?|?|cs vs0 FF E1 E2|?|?|?]; subst. inversion W as [|?|?|sa sb x y Wx Wy]; subst. cbn [rename get_avars]. apply concatM_total. rewrite map_map.
      inversion FF as [|cx ? cs1 ? Fx FF1]; subst. inversion FF1 as [|cy ? cs2 ? Fy FF2]; subst. inversion FF2; subst.
      inversion IH as [|? ? IHx IH1]; subst. inversion IH1 as [|? ? IHy IH2]; subst. cbn [map]. repeat constructor; eauto.
    - inversion F as [|?|?|?|?|?|? ? at0 ? t0 H0]; subst; [contradiction|]. inversion W as [|? ? U0 A0 N0|?|?]; subst.
      rewrite rename_node. cbn [get_avars]. apply concatM_total. apply Forall_forall. intros r Ir. apply in_map_iff in Ir. destruct Ir as (a & <- & Ia).
      destruct (H0 _ Ia) as (c & w & Hc & Hw & Fw). destruct (A0 _ Ia) as (w' & Hw' & Ww). rewrite (holds_fun _ _ _ _ Hw' Hw) in Ww.
      assert (Q : exists x, get_avars astroid_fields (renamed M k a c) = Ok x).
      { assert (IC : List.In c (map snd attrs)).
        { rewrite holds_iff in Hc. clear - Hc. induction attrs as [|[b u] attrs IH]; [discriminate|]. cbn [attr_of map snd] in *.
          destruct (String.eqb a b); [left; congruence|right; exact (IH Hc)]. }
        apply in_map_iff in IC. destruct IC as (p & <- & Ip). rewrite Forall_forall in IH. specialize (IH _ Ip _ _ Fw Ww).
        destruct (namek k) eqn:NK.
        - assert (NC : name_class k) by (apply namek_iff; exact NK).
          apply (name_field astroid_fields shape_of used (name_fields _ _ _ _ classes_ok)) in Ia; [|assumption|assumption]. subst a.
          destruct (N0 NC) as (x & Hx & _). rewrite (holds_fun _ _ _ _ Hw Hx) in Fw.
          destruct (snd p) as [|?|?|?|m [|s1 subs]]; try exact IH. cbn [renamed]. destruct (_ && _ && _).
          + inversion Fw as [? ? ? E0|?|?|?|?|?|?]; subst. cbn [nth_error] in E0. injection E0 as ->. cbn [get_avars]. eauto.
          + cbn [get_avars]. eauto.
        - rewrite renamed_other; [exact IH|]. intros N. apply namek_iff in N. congruence. }
      rewrite holds_iff in Hc. pose proof (rename_attr M k attrs a) as RA. rewrite Hc in RA. clear - RA Q.
      revert RA. generalize (map (fun '(b, v) => (b, renamed M k b v)) attrs) as l. induction l as [|[b u] l IH]; intros RA; [discriminate|].
      cbn [attr_of map find] in *. destruct (String.eqb a b); [injection RA as ->; exact Q|exact (IH RA)].
    - cbn [rename get_avars]. eauto.
  Qed.

  Lemma antiunify_total : forall fuel s v0 vs consistent, direct s -> depth v0 <= fuel -> Forall (well s) (v0 :: vs) ->
    exists r, antiunify astroid_fields is_subclass class_of stop_on stop_after scopes_allow fuel (v0 :: vs) consistent = Ok r.
  Proof.
    intros fuel s v0 vs consistent DS D W. unfold antiunify. pose proof (unify_total fuel s v0 vs 0 D W) as T.
    destruct (unify fuel (v0 :: vs) 0) as [[[core avars] num]|e] eqn:U.
    2:{ cbn [fine] in T. subst e. cbn. eauto. }
    destruct T as (_ & UA). unfold merge_indistinguishable_vars, get_merge_candidates.
    destruct (merge_loop_total consistent (map (with_parent core) avars) [] [] []) as (r & ->).
    { apply Forall_forall. intros a Ia. apply in_map_iff in Ia. destruct Ia as (v & <- & Iv). rewrite Forall_forall in UA.
      destruct (UA _ Iv) as (n & x & subs & -> & _). discriminate. }
    cbn [bind]. destruct r as [[g forced]|]; cbn [bind]; [|eauto].
    match goal with |- context [get_avars astroid_fields (rename ?M core)] =>
      destruct (get_avars_total M core s v0) as (av & ->) end.
    - refine (unify_exact astroid_fields is_subclass class_of stop_on shape_of used plain classes_ok fuel s (v0 :: vs) 0 core avars num (fun _ _ => True) DS _ W _ U 0 v0 eq_refl);
        [discriminate|auto].
    - exact (Forall_inv W).
    - cbn [bind]. match goal with |- context [stop_after ?c ?a] => destruct (stop_after_ok c a) as (b & ->) end. cbn [bind]. eauto.
  Qed.
End Total.

Lemma if_stop_on_decides : decides if_stop_on.
Proof.
  assert (DI : forall n0 l, (forall t, List.In t l -> is_list t = true) -> exists b, differs n0 l = Ok b /\ ((exists v, List.In (VList v) l /\ length v <> n0) -> b = true)).
  { intros n0. induction l as [|x l IHl]; intros K; [exists false; split; [reflexivity|intros (v & [] & _)]|].
    destruct (IHl (fun t I => K t (or_intror I))) as (b & E & B). specialize (K x (or_introl eq_refl)). destruct x as [|xs|?|?|?]; try discriminate. cbn [differs is_seq elements].
    destruct (Nat.eqb_spec (length xs) n0) as [EQ|NE].
    - exists b. split; [exact E|]. intros (v & [I|I] & N); [congruence|]. apply B. eauto.
    - exists true. split; reflexivity. }
  assert (LM : forall avars, Forall usable avars -> exists b, length_mismatch avars = Ok b).
  { induction avars as [|v avars IH]; intros F; [exists false; reflexivity|].
    destruct (Forall_inv F) as (n & s & subs & -> & K). specialize (IH (Forall_inv_tail F)).
    change (exists b, (if negb (is_list s) && existsb is_list (s :: subs) then Ok true
      else if is_list s then do b <- differs (length (elements s)) (s :: subs); if b then Ok true else length_mismatch avars else length_mismatch avars) = Ok b).
    destruct K as [K|K].
    - rewrite (K s (or_introl eq_refl)). cbn [negb andb].
      destruct (DI (length (elements s)) _ K) as (b & -> & _). cbn [bind]. destruct b; [eauto|exact IH].
    - assert (NL : forall t, List.In t (s :: subs) -> is_list t = false).
      { intros t I. specialize (K t I). destruct t; try discriminate; reflexivity. }
      rewrite (NL s (or_introl eq_refl)). cbn [negb andb].
      replace (existsb is_list (s :: subs)) with false; [exact IH|]. symmetry.
      destruct (existsb is_list (s :: subs)) eqn:E; [|reflexivity]. apply existsb_exists in E. destruct E as (t & I & L). rewrite (NL _ I) in L. discriminate. }
  split.
  - intros avars F. unfold if_stop_on. destruct (LM _ F) as (b & ->). cbn [bind]. eauto.
  - right. intros n us vs ws Iu Iv NE AL. unfold if_stop_on.
    assert (E : length_mismatch [VVar n ws] = Ok true).
    { destruct ws as [|s ws]; [destruct Iu|].
      change ((if negb (is_list s) && existsb is_list (s :: ws) then Ok true
        else if is_list s then do b <- differs (length (elements s)) (s :: ws); if b then Ok true else length_mismatch [] else length_mismatch []) = Ok true).
      rewrite (AL s (or_introl eq_refl)). cbn [negb andb].
      destruct (DI (length (elements s)) _ AL) as (b & -> & B). cbn [bind]. rewrite B; [reflexivity|].
      destruct (Nat.eq_dec (length us) (length (elements s))) as [E|E]; [|eauto].
      destruct (Nat.eq_dec (length vs) (length (elements s))) as [E'|E']; [congruence|eauto]. }
    rewrite E. reflexivity.
Qed.

Lemma identical_decided : forall astroid_fields is_subclass class_of scopes_allow shape_of used plain fuel s v0 branches others,
  classes astroid_fields is_subclass shape_of used -> makable astroid_fields class_of used ->
  (forall re im, ~ plain (AComplex re im)) -> direct s -> depth v0 <= fuel -> Forall (well (all_fields astroid_fields) shape_of used plain s) (v0 :: branches) ->
  exists b, reports_identical astroid_fields is_subclass class_of scopes_allow fuel (v0 :: branches) others = Ok b.
Proof.
  intros af isub co sa sh us pl fuel s v0 branches others C MK RE D DP W. unfold reports_identical, core_avars.
  destruct (antiunify_total af isub co if_stop_on sh us pl C MK if_stop_on_decides RE assignment_to_aunify_var sa
    (fun core avars => ex_intro _ _ eq_refl) fuel s v0 branches false D DP W) as (r & ->).
  cbn [bind]. eauto.
Qed.
