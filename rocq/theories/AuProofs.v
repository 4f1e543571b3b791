(** Proofs about anti-unification: filling in the variables of a core gives back the fragments. *)
From Coq Require Import String List Bool Arith ZArith QArith Lia.
From Verif Require Import Base AuModel AuSpec.
Import ListNotations.
Local Open Scope string_scope.
Local Open Scope list_scope.
Local Open Scope nat_scope.

(** ** Induction over values *)

Section ValInd.
  Variable P : val -> Prop.
  Hypothesis Hatom : forall a, P (VAtom a).
  Hypothesis Hlist : forall l, Forall P l -> P (VList l).
  Hypothesis Htup : forall l, Forall P l -> P (VTup l).
  Hypothesis Hnode : forall k attrs s, Forall (fun p => P (snd p)) attrs -> P (VNode k attrs s).
  Hypothesis Hvar : forall n s, P (VVar n s).
  Fixpoint val_ind2 (v : val) : P v :=
    match v with
    | VAtom a => Hatom a
    | VList l => Hlist l ((fix go l : Forall P l := match l with [] => Forall_nil _ | x :: l => Forall_cons _ (val_ind2 x) (go l) end) l)
    | VTup l => Htup l ((fix go l : Forall P l := match l with [] => Forall_nil _ | x :: l => Forall_cons _ (val_ind2 x) (go l) end) l)
    | VNode k attrs s =>
        Hnode k attrs s ((fix go (l : list (string * val)) : Forall (fun p => P (snd p)) l :=
          match l with [] => Forall_nil _ | x :: l => Forall_cons _ (val_ind2 (snd x)) (go l) end) attrs)
    | VVar n s => Hvar n s
    end.
End ValInd.

(** ** Attributes *)

Lemma holds_iff : forall attrs a v, holds attrs a v <-> attr_of attrs a = Some v.
Proof.
  unfold holds. induction attrs as [|[b w] attrs IH]; intros a v.
  - split; [intros (p & q & E & _)|discriminate]. destruct p; discriminate.
  - cbn [attr_of]. destruct (String.eqb_spec a b) as [->|N].
    + split.
      * intros (p & q & E & NI). destruct p as [|x p]; cbn [app] in E.
        -- congruence.
        -- exfalso. apply NI. injection E as <- _. left. reflexivity.
      * intros E. injection E as ->. exists [], attrs. split; [reflexivity|intros []].
    + rewrite <- IH. split.
      * intros (p & q & E & NI). destruct p as [|x p]; cbn [app] in E.
        -- congruence.
        -- injection E as <- E. exists p, q. split; [exact E|]. intros K. apply NI. right. exact K.
      * intros (p & q & E & NI). exists ((b, w) :: p), q. split; [cbn; congruence|].
        cbn. intros [K|K]; [congruence|exact (NI K)].
Qed.

Lemma holds_fun : forall attrs a v w, holds attrs a v -> holds attrs a w -> v = w.
Proof. intros attrs a v w. rewrite !holds_iff. congruence. Qed.

Lemma attr_of_app : forall l m a, attr_of (l ++ m) a = match attr_of l a with Some v => Some v | None => attr_of m a end.
Proof. induction l as [|[b w] l IH]; intros m a; cbn [app attr_of]; [reflexivity|]. destruct (String.eqb a b); [reflexivity|apply IH]. Qed.

Lemma str_in_iff : forall s l, str_in s l = true <-> List.In s l.
Proof.
  intros s l. unfold str_in. rewrite existsb_exists. split.
  - intros (x & I & E). apply String.eqb_eq in E. congruence.
  - intros I. exists s. split; [exact I|apply String.eqb_refl].
Qed.

Lemma attr_of_filter : forall (f : string -> bool) attrs a, f a = true -> attr_of (filter (fun '(b, _) => f b) attrs) a = attr_of attrs a.
Proof.
  intros f. induction attrs as [|[b w] attrs IH]; intros a F; [reflexivity|]. cbn [filter attr_of].
  destruct (String.eqb_spec a b) as [->|N].
  - rewrite F. cbn [attr_of]. rewrite String.eqb_refl. reflexivity.
  - destruct (f b); [cbn [attr_of]; destruct (String.eqb_spec a b) as [E|_]; [congruence|]|]; apply IH; exact F.
Qed.

Lemma attr_of_defaults : forall (after_ : list (string * bool)) attrs a c, attr_of attrs a = Some c ->
  attr_of (map (fun '(b, list_) => (b, match attr_of attrs b with Some v => v | None => if list_ : bool then VList [] else VAtom ANone end)) after_) a =
    if str_in a (map fst after_) then Some c else None.
Proof.
  intros after_ attrs a c E. induction after_ as [|[b d] after_ IH]; [reflexivity|].
  cbn [map attr_of fst]. unfold str_in in *. cbn [existsb]. destruct (String.eqb_spec a b) as [->|N].
  - rewrite E. reflexivity.
  - rewrite IH. reflexivity.
Qed.

Lemma mapM_ok : forall A B (f : A -> res B) l r, mapM f l = Ok r -> Forall2 (fun a b => f a = Ok b) l r.
Proof.
  intros A B f. induction l as [|a l IH]; intros r E; cbn [mapM] in E.
  - injection E as <-. constructor.
  - destruct (f a) as [b|e] eqn:F; [cbn [bind] in E|discriminate]. destruct (mapM f l) as [bs|e] eqn:M; [cbn [bind] in E|discriminate].
    injection E as <-. constructor; [exact F|exact (IH _ eq_refl)].
Qed.

Lemma Forall2_nth : forall A B (R : A -> B -> Prop) l m i x, Forall2 R l m -> nth_error l i = Some x -> exists y, nth_error m i = Some y /\ R x y.
Proof.
  intros A B R l m i x F. revert i. induction F as [|a b l m Rab F IH]; intros i E.
  - destruct i; discriminate.
  - destruct i as [|i]; cbn [nth_error] in *; [injection E as <-; exists b; split; [reflexivity|exact Rab]|exact (IH _ E)].
Qed.

Lemma Forall_nth : forall A (P : A -> Prop) l i x, Forall P l -> nth_error l i = Some x -> P x.
Proof. intros A P l i x F E. apply nth_error_In in E. rewrite Forall_forall in F. exact (F _ E). Qed.

Section Correct.
  Variable astroid_fields : string -> list string.
  Variable is_subclass : string -> string -> bool.
  Variable class_of : string -> node_class.
  Variable stop_on : list val -> res bool.
  Variable shape_of : string -> string -> shape.
  Variable used : string -> Prop.
  Variable plain : atom -> Prop.
  Variable same same_name : atom -> atom -> Prop.

  Hypothesis classes_ok : classes astroid_fields is_subclass shape_of used.
  Hypothesis same_ok : forall a b, plain a -> plain b -> atom_eq b a = true -> same a b.

  Notation fields := (all_fields astroid_fields).
  Notation unify := (unify astroid_fields is_subclass class_of stop_on).
  Notation well := (well fields shape_of used plain).
  Notation fills := (fills fields same same_name).

  (** [new_node] sets what it is given. *)
  Lemma new_node_attr : forall kind cores attrs a c, new_node class_of kind cores = Ok attrs -> attr_of cores a = Some c -> attr_of attrs a = Some c.
  Proof.
    intros kind cores attrs a c E A. unfold new_node in E.
    set (after_ := postinit_params (class_of kind)) in *.
    set (before_ := filter _ cores) in E.
    assert (B : str_in a (map fst after_) = false -> attr_of before_ a = Some c).
    { intros N. unfold before_. rewrite (attr_of_filter (fun b => negb (str_in b (map fst after_)))); [exact A|]. rewrite N. reflexivity. }
    clearbody before_.
    destruct (_ && _) in E; [|discriminate].
    apply (f_equal (fun r => match r with Ok x => attr_of x a | Raise _ => None end)) in E. rewrite <- E.
    rewrite attr_of_app, (attr_of_defaults _ _ _ _ A).
    destruct (str_in a (map fst after_)); [reflexivity|].
    destruct (String.eqb kind "Arguments"); [rewrite attr_of_app|]; rewrite (B eq_refl); reflexivity.
  Qed.

  Definition retuple (s : shape) (core : val) : val := match s, core with Pair _ _, VList l => VTup l | _, _ => core end.

  Lemma well_not_var : forall s v, well s v -> is_var v = false.
  Proof. intros s v W. destruct W; reflexivity. Qed.
  Lemma wells_not_var : forall s vs, Forall (well s) vs -> existsb is_var vs = false.
  Proof. intros s vs F. induction F as [|v vs W F IH]; [reflexivity|]. cbn [existsb]. rewrite (well_not_var _ _ W), IH. reflexivity. Qed.

  Lemma check_stop_ok : forall avars u, check_stop stop_on avars = Ok u -> stop_on avars = Ok false.
  Proof. intros avars u E. unfold check_stop in E. destruct (stop_on avars) as [[|]|e]; cbn [bind] in E; congruence. Qed.

  Lemma new_aunifier_ok : forall subs num core avars num', new_aunifier stop_on subs num = Ok (core, avars, num') ->
    core = VVar (S num) subs /\ avars = [VVar (S num) subs] /\ num' = S num.
  Proof. intros subs num core avars num' E. unfold new_aunifier in E. destruct (check_stop _ _); cbn [bind] in E; [|discriminate]. repeat split; congruence. Qed.

  Lemma make_core_ok : forall kind vs cores avars num core avars' num', make_core class_of stop_on kind vs cores avars num = Ok (core, avars', num') ->
    exists attrs, new_node class_of kind cores = Ok attrs /\ core = VNode kind attrs (Some vs) /\ avars' = avars /\ num' = num /\
      forallb (fun '(_, c) => parents_settable c) cores = true.
  Proof.
    intros kind vs cores avars num core avars' num' E. unfold make_core in E.
    destruct (new_node class_of kind cores) as [attrs|e]; cbn [bind] in E; [|discriminate].
    destruct (forallb _ cores); [|discriminate].
    destruct (check_stop stop_on avars); cbn [bind] in E; [|discriminate]. exists attrs. repeat split; congruence.
  Qed.

  (** What the recursive calls give. *)
  Definition gives_back (run : list val -> nat -> res (val * list val * nat)) : Prop :=
    forall s vs num core avars num', vs <> [] -> Forall (well s) vs -> run vs num = Ok (core, avars, num') ->
      (match s with Pair _ _ => exists l, core = VList l | _ => True end) /\
      forall i v, nth_error vs i = Some v -> fills i (retuple s core) v.

  Lemma many_ok : forall run, gives_back run -> forall k vs, vs <> [] -> used k ->
    (forall v, List.In v vs -> exists attrs, v = VNode k attrs None /\
       forall a, List.In a (fields k) -> exists w, holds attrs a w /\ well (shape_of k a) w) ->
    forall attrs num cores avars num', incl attrs (fields k) -> many run vs attrs num = Ok (cores, avars, num') ->
    forall a, List.In a attrs -> exists c, attr_of cores a = Some c /\
      forall i v, nth_error vs i = Some v -> exists w, getattr v a = Ok w /\ fills i c w.
  Proof.
    intros run IH k vs NE U W. induction attrs as [|b attrs IHa]; intros num cores avars num' IN E a Ia; [destruct Ia|].
    cbn [many] in E.
    destruct (mapM (fun v => getattr v b) vs) as [vals|e] eqn:M; cbn [bind] in E; [|discriminate].
    destruct (run vals num) as [[[c av] n1]|e] eqn:R; cbn [bind] in E; [|discriminate].
    destruct (many run vs attrs n1) as [[[cs more] n2]|e] eqn:MM; cbn [bind] in E; [|discriminate].
    injection E as <- <- <-. cbn [attr_of].
    apply mapM_ok in M.
    destruct (String.eqb_spec a b) as [->|N].
    - exists c. split; [reflexivity|].
      assert (NE' : vals <> []) by (intros ->; inversion M; subst; congruence).
      assert (WV : Forall (well (shape_of k b)) vals).
      { clear R NE NE' MM IHa. induction M as [|v w vs vals G M IHM]; constructor.
        - destruct (W v (or_introl eq_refl)) as (at_ & -> & H). destruct (H b (IN b (or_introl eq_refl))) as (x & Hx & Wx).
          cbn [getattr] in G. rewrite holds_iff in Hx. rewrite Hx in G. congruence.
        - apply IHM. intros v' I'. apply W. right. exact I'. }
      destruct (IH _ _ _ _ _ _ NE' WV R) as (_ & F).
      intros i v Ei. destruct (Forall2_nth _ _ _ _ _ _ _ M Ei) as (w & Ew & G). exists w. split; [exact G|].
      specialize (F i w Ew). pose proof (shapes_direct _ _ _ _ classes_ok k b U) as D.
      destruct (shape_of k b); [exact F|exact F|destruct D].
    - destruct Ia as [->|Ia]; [congruence|].
      refine (IHa n1 cs more n2 _ MM a Ia). intros x Ix. apply IN. right. exact Ix.
  Qed.

  Lemma positions_ok : forall run, gives_back run -> forall (ss : list shape) columns num cores avars num',
    Forall2 (fun s c => c <> [] /\ Forall (well s) c) ss columns -> positions run columns num = Ok (cores, avars, num') ->
    Forall2 (fun column c => forall i v, nth_error column i = Some v -> fills i c v) columns cores.
  Proof.
    intros run IH ss columns num cores avars num' F. revert num cores avars num'.
    induction F as [|s c ss columns [NE W] F IHF]; intros num cores avars num' E; cbn [positions] in E.
    - injection E as <- <- <-. constructor.
    - destruct (run c num) as [[[core av] n1]|e] eqn:R; cbn [bind] in E; [|discriminate].
      destruct (as_tuple c core) as [core'|e] eqn:T; cbn [bind] in E; [|discriminate].
      destruct (positions run columns n1) as [[[cs more] n2]|e] eqn:P; cbn [bind] in E; [|discriminate].
      injection E as <- <- <-. constructor; [|exact (IHF _ _ _ _ P)].
      destruct (IH _ _ _ _ _ _ NE W R) as (L & FI).
      assert (core' = retuple s core) as ->.
      { destruct c as [|v c]; [congruence|]. apply Forall_inv in W. unfold as_tuple in T.
        destruct W; cbn [retuple]; try congruence.
        destruct L as (l & ->). congruence. }
      exact FI.
  Qed.

  Lemma columns_fill : forall vs n cores,
    Forall2 (fun column c => forall i v, nth_error column i = Some v -> fills i c v)
      (map (fun j => map (fun v => nth j (elements v) (VAtom ANone)) vs) (seq 0 n)) cores ->
    forall i v, nth_error vs i = Some v -> length (elements v) = n -> Forall2 (fills i) cores (elements v).
  Proof.
    intros vs n cores F i v Ei L.
    assert (E : elements v = map (fun j => nth j (elements v) (VAtom ANone)) (seq 0 n)).
    { rewrite <- L. apply (nth_ext _ _ (VAtom ANone) (VAtom ANone)).
      - rewrite map_length, seq_length. reflexivity.
      - intros j Lj. rewrite (nth_indep (map _ _) (VAtom ANone) (nth 0 (elements v) (VAtom ANone))) by (rewrite map_length, seq_length; exact Lj).
        rewrite (map_nth (fun j => nth j (elements v) (VAtom ANone)) (seq 0 (length (elements v))) 0 j), seq_nth by exact Lj. reflexivity. }
    rewrite E. clear E L. revert F. generalize (seq 0 n). intros js. revert cores.
    induction js as [|j js IH]; intros cores F; cbn [map] in F; inversion F; subst; cbn [map]; constructor.
    - match goal with H : forall i v, _ |- _ => apply H end. apply (map_nth_error (fun v => nth j (elements v) (VAtom ANone)) _ _ Ei).
    - apply IH. assumption.
  Qed.

  Lemma list_core_stands : forall num num0 subs first s core num', well s first ->
    list_core stop_on (VVar num0 subs) first num = Ok (core, num') -> exists c, core = VList [c] /\ stands c subs.
  Proof.
    intros num num0 subs first s core num' W E. unfold list_core in E.
    destruct W as [a Pa|k at_ U H H'|s l F|s t x y Wx Wy]; try (injection E as <- <-; eexists; split; [reflexivity|constructor]).
    destruct (new_aunifier stop_on [] num) as [[[o av] n]|e] eqn:NA; cbn [bind] in E.
    - apply new_aunifier_ok in NA. destruct NA as (-> & _ & _).
      destruct x as [[]| | | |]; destruct y as [[]| | | |]; cbn [is_node andb] in E; injection E as <- <-; eexists; (split; [reflexivity|constructor]).
    - destruct x as [[]| | | |]; destruct y as [[]| | | |]; cbn [is_node andb] in E; try discriminate; injection E as <- <-; eexists; (split; [reflexivity|constructor]).
  Qed.

  Lemma unify_gives_back : forall fuel, gives_back (unify fuel).
  Proof.
    induction fuel as [|fuel IH]; intros s vs num core avars num' NE W E; [discriminate|].
    cbn [AuModel.unify] in E. rewrite (wells_not_var _ _ W) in E.
    destruct vs as [|v0 vs]; [congruence|]. set (all := v0 :: vs) in *.
    assert (W0 : well s v0) by exact (Forall_inv W).
    assert (S : s = One \/ exists t, s = Many t \/ exists t', s = Pair t t').
    { destruct s; [left; reflexivity|right; eexists; left; reflexivity|right; eexists; right; eexists; reflexivity]. }
    destruct S as [->|(t & [->|(t' & ->)])].
    - (* a node or a plain value *)
      split; [exact Logic.I|]. cbn [retuple].
      replace (is_seq v0) with false in E by (inversion W0; reflexivity).
      destruct (existsb is_node all) eqn:EN; cbn [negb] in E.
      + assert (NEW : forall r, new_aunifier stop_on all num = Ok r -> forall i v, nth_error all i = Some v -> fills i (fst (fst r)) v).
        { intros [[c av] n] NA i v Ei. apply new_aunifier_ok in NA. destruct NA as (-> & _). constructor. exact Ei. }
        inversion W0 as [a Pa Ea|k at0 U0 H0 H0' E0|?|?]; subst v0.
        * exact (NEW _ E).
        * destruct (forallb (instance_of is_subclass k) all) eqn:FI; [|exact (NEW _ E)].
          rewrite forallb_forall in FI.
          assert (ALL : forall v, List.In v all -> exists attrs, v = VNode k attrs None /\
            (forall a, List.In a (fields k) -> exists w, holds attrs a w /\ well (shape_of k a) w) /\
            (name_class k -> exists x, holds attrs "name" (VAtom (AStr x)) /\ plain (AStr x))).
          { intros v Iv. specialize (FI _ Iv). rewrite Forall_forall in W. specialize (W _ Iv).
            inversion W as [a Pa Ea|k' at' U' H' H'' E'|?|?]; subst v; [discriminate|].
            cbn [instance_of] in FI. apply (unrelated _ _ _ _ classes_ok) in FI; [|assumption|assumption]. subst k'.
            exists at'. repeat split; assumption. }
          destruct (str_in k ["Name"; "AssignName"]) eqn:NM.
          -- assert (NC : name_class k).
             { apply str_in_iff in NM. destruct NM as [<-|[<-|[]]]; [left|right]; reflexivity. }
             destruct (mapM (fun v => getattr v "name") all) as [names|e] eqn:M; cbn [bind] in E; [|discriminate].
             destruct (new_aunifier stop_on names num) as [[[c av] n1]|e] eqn:NA; cbn [bind] in E; [|discriminate].
             apply new_aunifier_ok in NA. destruct NA as (-> & -> & ->).
             apply make_core_ok in E. destruct E as (attrs & NN & -> & _).
             intros i v Ei. destruct (ALL v (nth_error_In _ _ Ei)) as (at_ & -> & H & _).
             apply fills_node. intros a Ia.
             assert (a = "name") as ->.
             { unfold all_fields in Ia. rewrite (name_fields _ _ _ _ classes_ok k U0 NC) in Ia. cbn [app] in Ia.
               destruct NC as [-> | ->]; cbn in Ia; destruct Ia as [<-|[]]; reflexivity. }
             apply mapM_ok in M. destruct (Forall2_nth _ _ _ _ _ _ _ M Ei) as (w & Ew & G).
             cbn [getattr] in G. destruct (attr_of at_ "name") as [w'|] eqn:AT; [|discriminate]. injection G as ->.
             exists (VVar (S num) names), w. rewrite !holds_iff. refine (conj _ (conj AT _)).
             ++ refine (new_node_attr _ _ _ _ _ NN _). reflexivity.
             ++ constructor. exact Ew.
          -- destruct (many (unify fuel) all (fields k) num) as [[[cs av] n1]|e] eqn:M; cbn [bind] in E; [|discriminate].
             apply make_core_ok in E. destruct E as (attrs & NN & -> & _).
             assert (MO := many_ok _ IH k all NE U0 (fun v Iv => match ALL v Iv with ex_intro _ at_ (conj E (conj H _)) => ex_intro _ at_ (conj E H) end)
                             _ _ _ _ _ (incl_refl _) M).
             intros i v Ei. destruct (ALL v (nth_error_In _ _ Ei)) as (at_ & -> & H & _).
             apply fills_node. intros a Ia. destruct (MO a Ia) as (c & Ac & F). destruct (F i _ Ei) as (w & G & Fw).
             cbn [getattr] in G. destruct (attr_of at_ a) as [w'|] eqn:AT; [|discriminate]. injection G as ->.
             exists c, w. rewrite !holds_iff. exact (conj (new_node_attr _ _ _ _ _ NN Ac) (conj AT Fw)).
      + unfold aunify_consts in E. unfold all in E at 1. fold all in E.
        destruct (forallb (fun w => const_eq w v0) all) eqn:FC.
        * injection E as <- <- <-. intros i v Ei.
          rewrite forallb_forall in FC. specialize (FC _ (nth_error_In _ _ Ei)).
          pose proof (Forall_nth _ _ _ _ _ W Ei) as Wv.
          inversion Wv as [b Pb Eb|?|?|?]; subst v; [|discriminate].
          inversion W0 as [a Pa Ea|?|?|?]; subst v0; [|discriminate].
          constructor. apply same_ok; assumption.
        * apply new_aunifier_ok in E. destruct E as (-> & _). intros i v Ei. constructor. exact Ei.
    - (* lists *)
      split; [exact Logic.I|]. cbn [retuple].
      assert (ALL : forall v, List.In v all -> exists l, v = VList l /\ Forall (well t) l).
      { intros v Iv. rewrite Forall_forall in W. specialize (W _ Iv). inversion W; subst. eexists. split; [reflexivity|assumption]. }
      replace (is_seq v0) with true in E by (destruct (ALL v0 (or_introl eq_refl)) as (l & -> & _); reflexivity).
      destruct (forallb is_seq all); [|discriminate].
      destruct (forallb (fun v => Nat.eqb (length (elements v)) (length (elements v0))) all) eqn:FL.
      + rewrite forallb_forall in FL.
        destruct (positions _ _ num) as [[[cs av] n1]|e] eqn:P; cbn [bind] in E; [|discriminate]. injection E as <- <- <-.
        assert (PO := fun H => positions_ok _ IH (map (fun _ => t) (seq 0 (length (elements v0)))) _ _ _ _ _ H P).
        assert (CF := PO ltac:(
          clear - ALL FL;
          assert (B : forall j, List.In j (seq 0 (length (elements v0))) -> j < length (elements v0)) by (intros j Ij; apply in_seq in Ij; lia);
          revert B; generalize (seq 0 (length (elements v0))) as js; induction js as [|j js IHj]; intros B; cbn [map]; constructor;
          [ split; [discriminate|]; apply Forall_forall; intros x Ix; apply in_map_iff in Ix; destruct Ix as (v & <- & Iv);
            destruct (ALL v Iv) as (l & -> & F); specialize (FL _ Iv); apply Nat.eqb_eq in FL; cbn [elements] in *;
            rewrite Forall_forall in F; apply F, nth_In; rewrite FL; apply B; left; reflexivity
          | apply IHj; intros j' Ij'; apply B; right; exact Ij' ])).
        intros i v Ei. pose proof (FL _ (nth_error_In _ _ Ei)) as L. apply Nat.eqb_eq in L.
        destruct (ALL v (nth_error_In _ _ Ei)) as (l & -> & F).
        constructor. exact (columns_fill _ _ _ CF i (VList l) Ei L).
      + destruct (new_aunifier stop_on all num) as [[[c av] n1]|e] eqn:NA; cbn [bind] in E; [|discriminate].
        apply new_aunifier_ok in NA. destruct NA as (-> & -> & ->).
        destruct (flat_map elements all) as [|first rest] eqn:FM; [discriminate|].
        destruct (list_core stop_on (VVar (S num) all) first (S num)) as [[c n2]|e] eqn:LC; cbn [bind] in E; [|discriminate].
        injection E as <- <- <-.
        assert (Wf : well t first).
        { assert (I : List.In first (flat_map elements all)) by (rewrite FM; left; reflexivity).
          apply in_flat_map in I. destruct I as (v & Iv & If). destruct (ALL v Iv) as (l & -> & F).
          rewrite Forall_forall in F. exact (F _ If). }
        destruct (list_core_stands _ _ _ _ _ _ _ Wf LC) as (c' & -> & ST).
        intros i v Ei. destruct (ALL v (nth_error_In _ _ Ei)) as (l & -> & _).
        exact (fills_whole_list _ _ _ _ _ _ _ ST Ei).
    - (* pairs *)
      assert (ALL : forall v, List.In v all -> exists x y, v = VTup [x; y] /\ well t x /\ well t' y).
      { intros v Iv. rewrite Forall_forall in W. specialize (W _ Iv). inversion W; subst. do 2 eexists. split; [reflexivity|split; assumption]. }
      assert (E0 : exists x0 y0, v0 = VTup [x0; y0]) by (destruct (ALL v0 (or_introl eq_refl)) as (x & y & -> & _); do 2 eexists; reflexivity).
      destruct E0 as (x0 & y0 & E0).
      replace (is_seq v0) with true in E by (rewrite E0; reflexivity).
      destruct (forallb is_seq all); [|discriminate].
      replace (elements v0) with [x0; y0] in E by (rewrite E0; reflexivity).
      assert (FL : forall v, List.In v all -> length (elements v) = 2).
      { intros v Iv. destruct (ALL v Iv) as (x & y & -> & _). reflexivity. }
      replace (forallb (fun v => Nat.eqb (length (elements v)) (length [x0; y0])) all) with true in E.
      2:{ symmetry. apply forallb_forall. intros v Iv. rewrite (FL v Iv). reflexivity. }
      destruct (positions _ _ num) as [[[cs av] n1]|e] eqn:P; cbn [bind] in E; [|discriminate]. injection E as <- <- <-.
      split; [exists cs; reflexivity|]. cbn [retuple].
      assert (CF : Forall2 (fun column c => forall i v, nth_error column i = Some v -> fills i c v)
        (map (fun j => map (fun v => nth j (elements v) (VAtom ANone)) all) (seq 0 2)) cs).
      { refine (positions_ok _ IH [t; t'] _ _ _ _ _ _ P). cbn [seq map length].
        constructor; [|constructor; [|constructor]]; (split; [discriminate|]); apply Forall_forall; intros z Iz;
          apply in_map_iff in Iz; destruct Iz as (v & <- & Iv); destruct (ALL v Iv) as (x & y & -> & Wx & Wy); assumption. }
      intros i v Ei. pose proof (FL _ (nth_error_In _ _ Ei)) as L.
      assert (F2 := columns_fill _ _ _ CF i v Ei L).
      destruct (ALL v (nth_error_In _ _ Ei)) as (x & y & -> & _). constructor. exact F2.
  Qed.
End Correct.
