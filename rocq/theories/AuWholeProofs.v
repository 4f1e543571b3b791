(** Proofs about the whole of anti-unification: the core after merging, identical branches, consistent names, the variants of a core. *)
From Coq Require Import String List Bool Arith Lia.
From Verif Require Import Base AuModel AuSpec AuProofs AuMergeProofs AuResultProofs AuNameProofs.
Import ListNotations.
Local Open Scope string_scope.
Local Open Scope list_scope.
Local Open Scope nat_scope.

(** ** Variables in the place of names stand for names *)

Definition elsewhere (p : option string) : Prop := match p with Some k => ~ name_class k | None => True end.
Definition name_texts (places : option string -> list (nat * option string)) (avars : list val) : Prop :=
  forall p n k subs, elsewhere p -> List.In (VVar n subs) avars -> List.In (n, Some k) (places p) -> name_class k -> textual subs.

Lemma name_texts_app : forall num n1 n2 pl pl' vars vars' avars avars', made num n1 pl vars avars -> made n1 n2 pl' vars' avars' ->
  name_texts pl avars -> name_texts pl' avars' -> name_texts (fun p => pl p ++ pl' p) (avars ++ avars').
Proof.
  intros num n1 n2 pl pl' vars vars' avars avars' M M' T T' p n k subs P I J NC. apply in_app_or in I, J.
  destruct I as [I|I]; destruct J as [J|J].
  - exact (T _ _ _ _ P I J NC).
  - apply (made_avars _ _ _ _ _ M) in I. destruct I as (m & s & E & B). injection E as <- <-.
    apply (made_within _ _ _ _ _ M') in J. lia.
  - apply (made_avars _ _ _ _ _ M') in I. destruct I as (m & s & E & B). injection E as <- <-.
    apply (made_within _ _ _ _ _ M) in J. lia.
  - exact (T' _ _ _ _ P I J NC).
Qed.

Lemma name_texts_var : forall n subs, name_texts (fun p => parents_in p (VVar n subs)) [VVar n subs].
Proof.
  intros n subs p m k subs' P _ [E|[]] NC. injection E as _ ->. contradiction.
Qed.

Section Texts.
  Variable astroid_fields : string -> list string.
  Variable is_subclass : string -> string -> bool.
  Variable class_of : string -> node_class.
  Variable stop_on : list val -> res bool.
  Variable shape_of : string -> string -> shape.
  Variable used : string -> Prop.
  Variable plain : atom -> Prop.
  Hypothesis classes_ok : classes astroid_fields is_subclass shape_of used.
  Hypothesis fields_once : forall k, NoDup (all_fields astroid_fields k).
  Notation fields := (all_fields astroid_fields).
  Notation unify := (unify astroid_fields is_subclass class_of stop_on).
  Notation well := (well fields shape_of used plain).

  Definition texts_by (run : list val -> nat -> res (val * list val * nat)) : Prop :=
    forall s vs num core avars num', vs <> [] -> Forall (well s) vs -> run vs num = Ok (core, avars, num') ->
      made num num' (fun p => parents_in p core) (vars_in core) avars /\ name_texts (fun p => parents_in p core) avars.

  Lemma positions_texts : forall run, texts_by run -> forall (ss : list shape) columns num cores avars num',
    Forall2 (fun s column => column <> [] /\ Forall (well s) column) ss columns ->
    positions run columns num = Ok (cores, avars, num') ->
    made num num' (fun p => flat_map (parents_in p) cores) (flat_map vars_in cores) avars /\ name_texts (fun p => flat_map (parents_in p) cores) avars.
  Proof.
    intros run IH ss columns num cores avars num' F. revert num cores avars num'.
    induction F as [|s c ss columns (NE & W) F IHc]; intros num cores avars num' E; cbn [positions] in E.
    - injection E as <- <- <-. split; [exact (made_nil num)|]. intros p n k subs _ [].
    - destruct (run c num) as [[[core av] n1]|e] eqn:R; cbn [bind] in E; [|discriminate].
      destruct (as_tuple c core) as [core'|e] eqn:T; cbn [bind] in E; [|discriminate].
      destruct (positions run columns n1) as [[[cs more] n2]|e] eqn:P; cbn [bind] in E; [|discriminate]. injection E as <- <- <-.
      destruct (IH _ _ _ _ _ _ NE W R) as (M1 & T1). destruct (IHc _ _ _ _ P) as (M2 & T2). cbn [flat_map].
      destruct (as_tuple_vars _ _ _ T) as (-> & PT).
      pose proof (made_app _ _ _ _ _ _ _ _ _ M1 M2) as [L W' F' V A O Pl]. split.
      + constructor; try assumption.
        * intros p. rewrite PT. apply W'.
        * intros p. rewrite PT. apply F'.
        * intros n s' I p. rewrite PT. exact (Pl _ _ I p).
      + intros p n k subs Pp I J. rewrite PT in J. exact (name_texts_app _ _ _ _ _ _ _ _ _ M1 M2 T1 T2 p n k subs Pp I J).
  Qed.

  Lemma many_texts : forall run, texts_by run -> forall k vs, vs <> [] ->
    (forall v, List.In v vs -> exists attrs, v = VNode k attrs None /\
       forall a, List.In a (fields k) -> exists w, holds attrs a w /\ well (shape_of k a) w) ->
    forall attrs num cores avars num', incl attrs (fields k) -> many run vs attrs num = Ok (cores, avars, num') ->
    made num num' (fun p => flat_map (fun '(_, v) => parents_in p v) cores) (flat_map (fun '(_, v) => vars_in v) cores) avars /\
    name_texts (fun p => flat_map (fun '(_, v) => parents_in p v) cores) avars.
  Proof.
    intros run IH k vs NE W. induction attrs as [|a attrs IHa]; intros num cores avars num' IN E; cbn [many] in E.
    - injection E as <- <- <-. split; [exact (made_nil num)|]. intros p n k' subs _ [].
    - destruct (mapM _ vs) as [vals|e] eqn:MM; cbn [bind] in E; [|discriminate].
      destruct (run vals num) as [[[core av] n1]|e] eqn:R; cbn [bind] in E; [|discriminate].
      destruct (many run vs attrs n1) as [[[cs more] n2]|e] eqn:P; cbn [bind] in E; [|discriminate]. injection E as <- <- <-.
      apply mapM_ok in MM.
      assert (WV : Forall (well (shape_of k a)) vals).
      { assert (Ia : List.In a (fields k)) by (apply IN; left; reflexivity). clear - MM W Ia.
        induction MM as [|v w vs vals G MM IH]; constructor.
        - destruct (W v (or_introl eq_refl)) as (attrs & -> & A). destruct (A _ Ia) as (u & Hu & Wu). cbn [getattr] in G.
          rewrite holds_iff in Hu. rewrite Hu in G. injection G as <-. exact Wu.
        - apply IH. intros v' I. apply W. right. exact I. }
      assert (NV : vals <> []) by (intros ->; inversion MM; subst; congruence).
      destruct (IH _ _ _ _ _ _ NV WV R) as (M1 & T1). destruct (IHa _ _ _ _ (fun x Ix => IN x (or_intror Ix)) P) as (M2 & T2). cbn [flat_map].
      split; [exact (made_app _ _ _ _ _ _ _ _ _ M1 M2)|exact (name_texts_app _ _ _ _ _ _ _ _ _ M1 M2 T1 T2)].
  Qed.

  Lemma unify_texts : forall fuel, texts_by (unify fuel).
  Proof.
    induction fuel as [|fuel IH]; intros s vs num core avars num' NE W E; [discriminate|].
    assert (MB : made num num' (fun p => parents_in p core) (vars_in core) avars).
    { exact (unify_made astroid_fields is_subclass class_of stop_on fields_once (S fuel) vs num (core, avars, num') E). }
    split; [exact MB|].
    cbn [AuModel.unify] in E. rewrite (wells_not_var _ _ _ _ _ _ W) in E.
    assert (NEW : forall subs, new_aunifier stop_on subs num = Ok (core, avars, num') -> name_texts (fun p => parents_in p core) avars).
    { intros subs NA. apply new_aunifier_ok in NA. destruct NA as (-> & -> & ->). apply name_texts_var. }
    destruct vs as [|v0 vs]; [congruence|]. remember (v0 :: vs) as all eqn:EA.
    assert (I0 : List.In v0 all) by (rewrite EA; left; reflexivity). clear EA.
    assert (W0 : well s v0) by (rewrite Forall_forall in W; exact (W _ I0)).
    destruct (is_seq v0) eqn:SQ.
    - destruct (forallb is_seq all) eqn:SQS; [|discriminate].
      destruct (forallb _ all) eqn:LEN in E.
      + destruct (positions _ _ num) as [[[cs av] n1]|e] eqn:P; cbn [bind] in E; [|discriminate]. injection E as <- <- <-.
        set (n := length (elements v0)) in *.
        assert (exists ss, length ss = n /\ forall v, List.In v all -> Forall2 well ss (elements v)) as (ss & LS & FS).
        { rewrite forallb_forall in LEN. rewrite Forall_forall in W. destruct s as [|t|t t'].
          - exfalso. inversion W0; subst; discriminate.
          - exists (repeat t n). split; [apply repeat_length|]. intros v I. specialize (W _ I). specialize (LEN _ I). apply Nat.eqb_eq in LEN.
            inversion W as [|?|? l FF|?]; subst. cbn [elements] in *. rewrite <- LEN. clear - FF. induction FF; cbn [length repeat]; constructor; auto.
          - exists [t; t']. split; [unfold n; inversion W0; subst; reflexivity|]. intros v I. specialize (W _ I). inversion W; subst. cbn [elements]. repeat constructor; assumption. }
        refine (proj2 (positions_texts _ IH ss _ _ _ _ _ _ P)).
        assert (G : forall b pre ss', ss = pre ++ ss' -> length pre = b ->
          Forall2 (fun s column => column <> [] /\ Forall (well s) column) ss' (map (fun i => map (fun v => nth i (elements v) (VAtom ANone)) all) (seq b (length ss')))).
        { intros b pre ss'. revert b pre. induction ss' as [|t ss' IHs]; intros b pre EQ LP; cbn [length seq map]; constructor.
          - split; [intros Z; apply map_eq_nil in Z; congruence|]. apply Forall_forall. intros w Iw. apply in_map_iff in Iw. destruct Iw as (v & <- & Iv).
            specialize (FS _ Iv). rewrite EQ in FS. apply Forall2_app_inv_l in FS. destruct FS as (l1 & l2 & F1 & F2 & ->).
            assert (LL : length l1 = b). { rewrite <- LP. clear - F1. induction F1; cbn [length]; congruence. }
            rewrite app_nth2 by lia. rewrite LL, Nat.sub_diag. inversion F2; subst. assumption.
          - apply (IHs (S b) (pre ++ [t])); [rewrite <- app_assoc; exact EQ|rewrite app_length; cbn [length]; lia]. }
        rewrite <- LS. exact (G 0 [] ss eq_refl eq_refl).
      + destruct (new_aunifier stop_on all num) as [[[c av] n1]|e] eqn:NA; cbn [bind] in E; [|discriminate].
        destruct (flat_map elements all) as [|first rest]; [discriminate|].
        destruct (list_core stop_on c first n1) as [[c' n2]|e] eqn:LC; cbn [bind] in E; [|discriminate]. injection E as <- <- <-.
        apply new_aunifier_ok in NA. destruct NA as (-> & -> & ->).
        assert (PL : forall p m q, List.In (m, q) (parents_in p c') -> q = p).
        { intros p m q. unfold list_core in LC. clear - LC.
          destruct (new_aunifier stop_on [] (S num)) as [[[o av] n]|e] eqn:NA; cbn [bind] in LC.
          - apply new_aunifier_ok in NA. destruct NA as (-> & -> & ->).
            repeat match type of LC with
            | Ok _ = Ok _ => injection LC as <- <-; cbn; intuition congruence
            | Raise _ = _ => discriminate LC
            | context [if ?b then _ else _] => destruct b
            | context [match ?x with _ => _ end] => destruct x
            end.
          - repeat match type of LC with
            | Ok _ = Ok _ => injection LC as <- <-; cbn; intuition congruence
            | Raise _ = _ => discriminate LC
            | context [if ?b then _ else _] => destruct b
            | context [match ?x with _ => _ end] => destruct x
            end. }
        intros p m k subs P _ J NC. apply PL in J. subst p. contradiction.
    - destruct (existsb is_node all) eqn:EN; cbn [negb] in E.
      + destruct v0 as [a|l|l|kind at0 s0|m subs0]; try (exact (NEW _ E)).
        destruct (forallb (instance_of is_subclass kind) all) eqn:IK; [|exact (NEW _ E)].
        assert (U0 : used kind) by (inversion W0; subst; assumption).
        assert (KINDS : forall v, List.In v all -> exists attrs, v = VNode kind attrs None /\ well One v).
        { intros v I. rewrite forallb_forall in IK. specialize (IK _ I). rewrite Forall_forall in W. specialize (W _ I).
          destruct v as [|?|?|k at_ sb|?]; try discriminate. cbn [instance_of] in IK. inversion W; subst.
          rewrite <- (unrelated _ _ _ _ classes_ok k kind) by assumption. exists at_. split; [reflexivity|assumption]. }
        destruct (str_in kind ["Name"; "AssignName"]) eqn:NK.
        * destruct (mapM _ all) as [names|e] eqn:MM; cbn [bind] in E; [|discriminate].
          destruct (new_aunifier stop_on names num) as [[[c av] n1]|e] eqn:NA; cbn [bind] in E; [|discriminate].
          apply new_aunifier_ok in NA. destruct NA as (-> & -> & ->).
          apply make_core_ok in E. destruct E as (attrs & NN & -> & -> & -> & _).
          intros p m k subs P [I|[]] J NC. injection I as <- <-. split.
          -- intros ->. apply mapM_ok in MM. inversion MM; subst. exact (NE eq_refl).
          -- apply mapM_ok in MM. apply namek_iff in NK. clear - MM KINDS NK. induction MM as [|v w l names G MM IH]; constructor.
             ++ destruct (KINDS v (or_introl eq_refl)) as (at_ & -> & Wv). inversion Wv as [|? ? U A N|?|?]; subst. destruct (N NK) as (x & Hx & _).
                cbn [getattr] in G. rewrite holds_iff in Hx. rewrite Hx in G. injection G as <-. eauto.
             ++ apply IH. intros v' I. apply KINDS. right. exact I.
        * destruct (many _ all _ num) as [[[cs av] n1]|e] eqn:MM; cbn [bind] in E; [|discriminate].
          assert (NC0 : ~ name_class kind) by (intros N; apply namek_iff in N; unfold namek in N; congruence).
          assert (AT : forall v, List.In v all -> exists attrs, v = VNode kind attrs None /\
            forall a, List.In a (fields kind) -> exists w, holds attrs a w /\ well (shape_of kind a) w).
          { intros v I. destruct (KINDS v I) as (at_ & -> & Wv). exists at_. split; [reflexivity|]. inversion Wv; subst. assumption. }
          destruct (many_texts _ IH kind all NE AT _ _ _ _ _ (incl_refl _) MM) as (_ & T).
          apply make_core_ok in E. destruct E as (attrs & NN & -> & -> & -> & _).
          intros p m k subs P I J NC. refine (T (Some kind) m k subs NC0 I _ NC).
          cbn [parents_in] in J. apply in_flat_map in J. destruct J as ([a c] & Ic & J).
          destruct (new_node_places _ _ _ _ NN _ _ Ic) as [K|[_ K]]; [|rewrite K in J; destruct J].
          apply in_flat_map. exists (a, c). split; assumption.
      + destruct all as [|w0 all']; [congruence|]. cbn [aunify_consts] in E. destruct (forallb _ (w0 :: all')).
        * injection E as <- <- <-. intros p m k subs _ [].
        * exact (NEW _ E).
  Qed.
End Texts.

(** ** The whole *)

Section Antiunify.
  Variable astroid_fields : string -> list string.
  Variable is_subclass : string -> string -> bool.
  Variable class_of : string -> node_class.
  Variable stop_on : list val -> res bool.
  Variable stop_after : val -> list val -> res bool.
  Variable scopes_allow : val -> list val -> list avar -> bool.
  Variable shape_of : string -> string -> shape.
  Variable used : string -> Prop.
  Variable plain : atom -> Prop.
  Hypothesis classes_ok : classes astroid_fields is_subclass shape_of used.
  Hypothesis fields_once : forall k, NoDup (all_fields astroid_fields k).
  Notation fields := (all_fields astroid_fields).
  Notation unify := (unify astroid_fields is_subclass class_of stop_on).
  Notation antiunify := (antiunify astroid_fields is_subclass class_of stop_on stop_after scopes_allow).
  Notation well := (well fields shape_of used plain).
  Notation equal := (fun a b => atom_eq a b = true).

  Lemma antiunify_steps : forall fuel vs consistent core avars, antiunify fuel vs consistent = Ok (Some (core, avars)) ->
    exists core0 avars0 num g, unify fuel vs 0 = Ok (core0, avars0, num) /\
      get_merge_candidates consistent (map (with_parent core0) avars0) = Ok (Some g) /\
      core = rename (flat_map (fun '(_, l) => map avar_num l) (merged_groups scopes_allow core0 g)) core0 /\
      get_avars astroid_fields core = Ok avars /\ stop_after core avars = Ok false.
  Proof.
    intros fuel vs consistent core avars E. unfold AuModel.antiunify in E.
    destruct (unify fuel vs 0) as [[[core0 avars0] num]|e] eqn:U.
    2:{ destruct e as [| | | | | | | | |w]; try discriminate. destruct (String.eqb w "DisallowedAntiunification"); discriminate. }
    unfold merge_indistinguishable_vars in E.
    destruct (get_merge_candidates consistent _) as [[g|]|e] eqn:G; cbn [bind] in E; try discriminate.
    destruct (get_avars astroid_fields _) as [av|e] eqn:GA in E; cbn [bind] in E; [|discriminate].
    destruct (stop_after _ av) as [b|e] eqn:SA in E; cbn [bind] in E; [|discriminate]. destruct b; [discriminate|].
    injection E as E1 E2. exists core0, avars0, num, g. subst. repeat (split; [solve [reflexivity|assumption]|]). assumption.
  Qed.

  Lemma merged_in : forall consistent core avars num g n, made_by 0 (core, avars, num) ->
    get_merge_candidates consistent (map (with_parent core) avars) = Ok (Some g) ->
    existsb (Nat.eqb n) (flat_map (fun '(_, l) => map avar_num l) (merged_groups scopes_allow core g)) = true ->
    exists k l a, List.In a l /\ avar_num a = n /\ belongs k a /\ vars_can_be_merged scopes_allow core k l = true /\
      List.In (VVar n (avar_subs a)) avars.
  Proof.
    intros consistent core avars num g n M G E. apply existsb_exists in E. destruct E as (m & I & E). apply Nat.eqb_eq in E. subst m.
    apply in_flat_map in I. destruct I as ([k l] & Ik & I). apply in_map_iff in I. destruct I as (a & En & Ia).
    unfold merged_groups in Ik. apply filter_In in Ik. destruct Ik as (Ik & V).
    destruct (candidates_members _ _ _ G _ _ _ Ik Ia) as (Im & B). exists k, l, a. refine (conj Ia (conj En (conj B (conj V _)))).
    apply in_map_iff in Im. destruct Im as (v & <- & Iv). destruct (made_avars _ _ _ _ _ M _ Iv) as (m & subs & -> & _).
    cbn [with_parent avar_num avar_subs] in *. subst m. exact Iv.
  Qed.

  Lemma merging_well : forall consistent core avars num g i, made_by 0 (core, avars, num) ->
    get_merge_candidates consistent (map (with_parent core) avars) = Ok (Some g) ->
    merged_well (interchangeable scopes_allow core i) i (flat_map (fun '(_, l) => map avar_num l) (merged_groups scopes_allow core g)) core.
  Proof.
    intros consistent core avars num g i M G n s subs x y I E -> Y.
    destruct (merged_in _ _ _ _ _ _ M G E) as (k & l & a & Ia & _ & B & V & Iv).
    destruct (made_vars _ _ _ _ _ M _ _ I) as [I'|?]; [|discriminate].
    pose proof (made_once _ _ _ _ _ M _ _ _ Iv I') as ES. unfold vars_can_be_merged in V.
    destruct (all_same k) eqn:AS.
    - left. assert (C : const_eq (VAtom y) (VAtom x) = true).
      { destruct B as [-> | B].
        - refine (all_same_nth _ i _ _ AS _ _); rewrite ES; [reflexivity|exact Y].
        - refine (all_same_keys _ _ i _ _ B AS _ _); rewrite ES; [reflexivity|exact Y]. }
      apply atom_eq_sym. exact C.
    - right. exists k, l, a. rewrite ES. refine (conj V (conj Ia (conj eq_refl Y))).
  Qed.

  Lemma interchangeable_eq : forall core i x y, atom_eq x y = true -> interchangeable scopes_allow core i x y.
  Proof. intros core i x y E. left. exact E. Qed.

  Lemma unify_exact : forall fuel s vs num core avars num' (same : atom -> atom -> Prop), direct s -> vs <> [] -> Forall (well s) vs ->
    (forall a b, plain a -> plain b -> atom_eq b a = true -> same a b) ->
    unify fuel vs num = Ok (core, avars, num') -> forall i v, nth_error vs i = Some v -> fills fields same (fun _ _ => False) i core v.
  Proof.
    intros fuel s vs num core avars num' same D NE W SO E i v N.
    destruct (unify_gives_back astroid_fields is_subclass class_of stop_on shape_of used plain same (fun _ _ => False) classes_ok SO fuel s vs num core avars num' NE W E) as (_ & F).
    specialize (F _ _ N). destruct s; [exact F|exact F|destruct D].
  Qed.

  Lemma antiunify_fills : forall fuel s vs consistent core avars, direct s -> vs <> [] -> Forall (well s) vs ->
    antiunify fuel vs consistent = Ok (Some (core, avars)) ->
    exists core0 avars0 num, unify fuel vs 0 = Ok (core0, avars0, num) /\
      forall i v, nth_error vs i = Some v -> fills fields equal (interchangeable scopes_allow core0 i) i core v.
  Proof.
    intros fuel s vs consistent core avars D NE W E. apply antiunify_steps in E. destruct E as (core0 & avars0 & num & g & U & G & -> & GA & _).
    exists core0, avars0, num. split; [exact U|]. intros i v N.
    assert (F : forall j w, nth_error vs j = Some w -> fills fields equal (fun _ _ => False) j core0 w).
    { refine (unify_exact _ _ _ _ _ _ _ _ D NE W _ U). intros a b _ _. apply atom_eq_sym. }
    destruct vs as [|v0 vs]; [congruence|].
    refine (rename_fills astroid_fields shape_of used plain (name_fields _ _ _ _ classes_ok) _ i _ core0 s v0 v (F 0 v0 eq_refl) (F _ _ N) _ _ _).
    - exact (Forall_inv W).
    - exact (Forall_nth _ _ _ _ _ W N).
    - exact (merging_well _ _ _ _ _ _ (unify_made astroid_fields is_subclass class_of stop_on fields_once _ _ _ _ U) G).
  Qed.

  Lemma antiunify_none_left : forall fuel s vs consistent core v0, direct s -> nth_error vs 0 = Some v0 -> Forall (well s) vs ->
    antiunify fuel vs consistent = Ok (Some (core, [])) ->
    exists core0 avars0 num, unify fuel vs 0 = Ok (core0, avars0, num) /\
      forall i v, nth_error vs i = Some v -> alike fields equal (interchangeable scopes_allow core0 i) v0 v.
  Proof.
    intros fuel s vs consistent core v0 D N0 W E. apply antiunify_steps in E. destruct E as (core0 & avars0 & num & g & U & G & EC & GA & _). rewrite EC in GA. clear EC core.
    exists core0, avars0, num. split; [exact U|]. intros i v N.
    assert (NE : vs <> []) by (intros ->; discriminate).
    assert (F : forall j w, nth_error vs j = Some w -> fills fields equal (fun _ _ => False) j core0 w).
    { refine (unify_exact _ _ _ _ _ _ _ _ D NE W _ U). intros a b _ _. apply atom_eq_sym. }
    refine (no_vars_alike astroid_fields shape_of used plain (name_fields _ _ _ _ classes_ok) _ (interchangeable_eq core0 i) i _ core0 s v0 v (F 0 v0 N0) (F _ _ N) _ _ _ GA).
    - exact (Forall_nth _ _ _ _ _ W N0).
    - exact (Forall_nth _ _ _ _ _ W N).
    - exact (merging_well _ _ _ _ _ _ (unify_made astroid_fields is_subclass class_of stop_on fields_once _ _ _ _ U) G).
  Qed.

  Lemma antiunify_one_to_one : forall fuel s vs core avars, vs <> [] -> Forall (well s) vs ->
    antiunify fuel vs true = Ok (Some (core, avars)) -> one_to_one (name_place fields vs).
  Proof.
    intros fuel s vs core avars NE W E. apply antiunify_steps in E. destruct E as (core0 & avars0 & num & g & U & G & _).
    destruct (unify_texts _ _ _ _ _ _ _ classes_ok fields_once _ _ _ _ _ _ _ NE W U) as (M & T).
    assert (PARENT : forall n subs, List.In (VVar n subs) avars0 -> List.In (n, avar_parent (with_parent core0 (VVar n subs))) (parents_in None core0)).
    { intros n subs I. cbn [with_parent avar_parent]. destruct (made_placed _ _ _ _ _ M _ _ I None) as (q & J).
      destruct (find (fun '(m, _) => Nat.eqb n m) (parents_in None core0)) as [[m p]|] eqn:FD.
      - apply find_some in FD. destruct FD as (J' & EQ). apply Nat.eqb_eq in EQ. subst m. exact J'.
      - exfalso. apply (find_none _ _ FD) in J. rewrite Nat.eqb_refl in J. discriminate. }
    assert (TX : forall a, List.In a (map (with_parent core0) avars0) -> named a = true -> textual (avar_subs a)).
    { intros a Ia Na. apply in_map_iff in Ia. destruct Ia as (v & <- & Iv). destruct (made_avars _ _ _ _ _ M _ Iv) as (n & subs & -> & _).
      unfold named in Na. pose proof (PARENT _ _ Iv) as PP. destruct (avar_parent (with_parent core0 (VVar n subs))) as [k|]; [|discriminate].
      cbn [with_parent avar_subs]. exact (T None n k subs Logic.I Iv PP (proj1 (namek_iff k) Na)). }
    assert (FOUND : forall ns, name_place fields vs ns -> exists a, List.In a (map (with_parent core0) avars0) /\ named a = true /\
      avar_subs a = map (fun x => VAtom (AStr x)) ns).
    { intros ns P. destruct (place_found _ _ _ _ _ _ _ classes_ok fields_once _ _ P _ _ _ _ _ _ NE W U) as (n & I & NI).
      exists (with_parent core0 (VVar n (map (fun x => VAtom (AStr x)) ns))). refine (conj (in_map _ _ _ I) (conj _ eq_refl)).
      destruct (NI None) as (k & NC & J). pose proof (made_functional _ _ _ _ _ M None _ _ _ J (PARENT _ _ I)) as EQ.
      unfold named. rewrite <- EQ. apply namek_iff. exact NC. }
    assert (ONE : forall ns ns' i x, name_place fields vs ns -> name_place fields vs ns' -> nth_error ns i = Some x -> nth_error ns' i = Some x -> ns = ns').
    { intros ns ns' i x P P' Ni Ni'. destruct (FOUND _ P) as (a & Ia & Na & Ea). destruct (FOUND _ P') as (b & Ib & Nb & Eb).
      assert (EQ : avar_subs a = avar_subs b).
      { refine (consistent_candidates _ _ TX G a b i (VAtom (AStr x)) Ia Ib Na Nb _ _); [rewrite Ea|rewrite Eb];
          apply (map_nth_error (fun x => VAtom (AStr x))); assumption. }
      rewrite Ea, Eb in EQ. clear - EQ. revert ns' EQ. induction ns as [|n ns IH]; intros [|m ns'] EQ; try discriminate; [reflexivity|].
      cbn [map] in EQ. injection EQ as -> EQ. f_equal. exact (IH _ EQ). }
    intros ns ns' i j x y x' y' P P' Hi Hj Hi' Hj'. split; intros <-.
    - pose proof (ONE _ _ _ _ P P' Hi Hi') as EN. congruence.
    - pose proof (ONE _ _ _ _ P P' Hj Hj') as EN. congruence.
  Qed.
End Antiunify.

(** Branches reported as identical. *)
Lemma identical_alike : forall astroid_fields is_subclass class_of scopes_allow shape_of used plain fuel s branches others v0,
  classes astroid_fields is_subclass shape_of used -> (forall k, NoDup (all_fields astroid_fields k)) -> direct s ->
  nth_error branches 0 = Some v0 -> Forall (well (all_fields astroid_fields) shape_of used plain s) branches ->
  reports_identical astroid_fields is_subclass class_of scopes_allow fuel branches others = Ok true ->
  exists core0 avars0 num, unify astroid_fields is_subclass class_of if_stop_on fuel branches 0 = Ok (core0, avars0, num) /\
    forall i v, nth_error branches i = Some v ->
      alike (all_fields astroid_fields) (fun a b => atom_eq a b = true) (interchangeable scopes_allow core0 i) v0 v.
Proof.
  intros af isub co sa sh us pl fuel s branches others v0 C FO D N0 W E. unfold reports_identical in E.
  destruct (core_avars af isub co sa fuel branches) as [[[core avars]|]|e] eqn:CA; cbn [bind] in E; try discriminate.
  destruct avars; [|discriminate]. unfold core_avars in CA.
  exact (antiunify_none_left _ _ _ _ _ _ _ _ _ C FO _ _ _ _ _ _ D N0 W CA).
Qed.

(** ** Variants of a core *)

Definition program_node (v : val) : Prop := exists k attrs, v = VNode k attrs None.

Section Variants.
  Variable astroid_fields : string -> list string.
  Variable is_subclass : string -> string -> bool.
  Variable class_of : string -> node_class.
  Variable stop_on : list val -> res bool.
  Notation unify := (unify astroid_fields is_subclass class_of stop_on).

  Definition made_from (core : val) (vs : list val) : Prop := (exists k attrs, core = VNode k attrs (Some vs)) \/ exists n, core = VVar n vs.

  Lemma nodes_made_from : forall fuel vs num core avars num', Forall program_node vs -> unify fuel vs num = Ok (core, avars, num') -> made_from core vs.
  Proof.
    intros [|fuel] vs num core avars num' F E; [discriminate|]. cbn [AuModel.unify] in E.
    replace (existsb is_var vs) with false in E.
    2:{ symmetry. clear - F. induction F as [|v vs (k & at_ & ->) F IH]; [reflexivity|exact IH]. }
    destruct vs as [|v0 vs]; [discriminate|]. pose proof (Forall_inv F) as (k & at_ & ->). cbn [is_seq existsb is_node orb negb] in E.
    set (all := VNode k at_ None :: vs) in *.
    assert (MC : forall cs av n, make_core class_of stop_on k all cs av n = Ok (core, avars, num') -> made_from core all).
    { intros cs av n M. apply make_core_ok in M. destruct M as (attrs & _ & -> & _). left. eauto. }
    assert (NA : new_aunifier stop_on all num = Ok (core, avars, num') -> made_from core all).
    { intros N. apply new_aunifier_ok in N. destruct N as (-> & _). right. eauto. }
    destruct (forallb (instance_of is_subclass k) all); [|exact (NA E)].
    destruct (str_in k ["Name"; "AssignName"]).
    - destruct (mapM _ all) as [names|e]; cbn [bind] in E; [|discriminate].
      destruct (new_aunifier stop_on names num) as [[[c av] n1]|e]; cbn [bind] in E; [|discriminate]. exact (MC _ _ _ E).
    - destruct (many _ all _ num) as [[[cs av] n1]|e]; cbn [bind] in E; [|discriminate]. exact (MC _ _ _ E).
  Qed.

  Lemma made_from_sub : forall M core vs i v, made_from core vs -> nth_error vs i = Some v -> sub_of i (rename M core) = Ok v.
  Proof.
    intros M core vs i v [(k & attrs & ->)|(n & ->)] N; cbn [rename sub_of]; rewrite N; reflexivity.
  Qed.
  Lemma made_from_variant : forall M core vs i v, made_from core vs -> nth_error vs i = Some v -> get_sub_variant (rename M core) i = Ok v.
  Proof.
    intros M core vs i v F N. rewrite <- (made_from_sub M core vs i v F N). destruct F as [(k & attrs & ->)|(n & ->)]; reflexivity.
  Qed.

  Lemma lists_made_from : forall fuel vs n num core avars num', vs <> [] ->
    Forall (fun v => exists l, v = VList l /\ length l = n /\ Forall program_node l) vs -> unify fuel vs num = Ok (core, avars, num') ->
    exists cs, core = VList cs /\ Forall2 (fun c j => made_from c (map (fun v => nth j (elements v) (VAtom ANone)) vs)) cs (seq 0 n).
  Proof.
    intros [|fuel] vs n num core avars num' NE F E; [discriminate|]. cbn [AuModel.unify] in E.
    rewrite Forall_forall in F.
    replace (existsb is_var vs) with false in E.
    2:{ symmetry. destruct (existsb is_var vs) eqn:EV; [|reflexivity]. apply existsb_exists in EV. destruct EV as (x & I & V).
        destruct (F _ I) as (l & -> & _). discriminate. }
    destruct vs as [|v0 vs]; [discriminate|]. set (all := v0 :: vs) in *.
    destruct (F v0 (or_introl eq_refl)) as (l0 & EV0 & L0 & _). rewrite EV0 in E. cbn [is_seq elements] in E. rewrite L0 in E.
    replace (forallb is_seq all) with true in E.
    2:{ symmetry. apply forallb_forall. intros v I. destruct (F _ I) as (l & -> & _). reflexivity. }
    replace (forallb (fun v => Nat.eqb (length (elements v)) n) all) with true in E.
    2:{ symmetry. apply forallb_forall. intros v I. destruct (F _ I) as (l & -> & <- & _). apply Nat.eqb_refl. }
    destruct (positions _ _ num) as [[[cs av] n1]|e] eqn:P; cbn [bind] in E; [|discriminate]. injection E as <- <- <-.
    exists cs. split; [reflexivity|].
    assert (B : forall j, List.In j (seq 0 n) -> j < n) by (intros j Ij; apply in_seq in Ij; lia).
    revert P B. generalize (seq 0 n) as js. intros js. revert num cs av n1.
    induction js as [|j js IH]; intros num cs av n1 P B; cbn [map positions] in P.
    - injection P as <- <- <-. constructor.
    - set (column := map (fun v => nth j (elements v) (VAtom ANone)) all) in *.
      destruct (unify fuel column num) as [[[core av1] m1]|e] eqn:R; cbn [bind] in P; [|discriminate].
      destruct (as_tuple column core) as [core'|e] eqn:T; cbn [bind] in P; [|discriminate].
      destruct (positions _ _ m1) as [[[cs' more] m2]|e] eqn:P'; cbn [bind] in P; [|discriminate]. injection P as <- <- <-.
      assert (CN : Forall program_node column).
      { apply Forall_forall. intros w Iw. apply in_map_iff in Iw. destruct Iw as (v & <- & Iv). destruct (F _ Iv) as (l & -> & L & PN). cbn [elements].
        rewrite Forall_forall in PN. apply PN. apply nth_In. rewrite L. apply B. left. reflexivity. }
      assert (EQ : core' = core).
      { unfold as_tuple in T. destruct column as [|c column]; [congruence|]. pose proof (Forall_inv CN) as (k & at_ & ->). congruence. }
      subst core'. constructor; [exact (nodes_made_from _ _ _ _ _ _ CN R)|].
      refine (IH _ _ _ _ P' _). intros j' I'. apply B. right. exact I'.
  Qed.

  Lemma lists_variant : forall M fuel vs n num core avars num' i v,
    Forall (fun v => exists l, v = VList l /\ length l = n /\ Forall program_node l) vs -> unify fuel vs num = Ok (core, avars, num') ->
    nth_error vs i = Some v -> get_sub_variant (rename M core) i = Ok v.
  Proof.
    intros M fuel vs n num core avars num' i v F E N.
    assert (NE : vs <> []) by (intros ->; destruct i; discriminate).
    destruct (lists_made_from _ _ _ _ _ _ _ NE F E) as (cs & -> & FM). cbn [rename get_sub_variant].
    pose proof (Forall_nth _ _ _ _ _ F N) as (l & -> & L & PN).
    assert (MM : mapM (sub_of i) (map (rename M) cs) = Ok l).
    { assert (G : forall b js, js = seq b (length js) -> b + length js = n -> forall cs,
        Forall2 (fun c j => made_from c (map (fun v => nth j (elements v) (VAtom ANone)) vs)) cs js ->
        mapM (sub_of i) (map (rename M) cs) = Ok (skipn b l)).
      { clear - N L. intros b js. revert b. induction js as [|j js IH]; intros b EJ BJ cs FM.
        - inversion FM; subst. cbn [map mapM]. cbn [length] in BJ. rewrite skipn_all2 by lia. reflexivity.
        - cbn [length seq] in EJ. injection EJ as -> EJ. inversion FM as [|c ? cs' ? Mc FM']; subst. cbn [map mapM].
          cbn [length] in BJ. rewrite (made_from_sub M _ _ i (nth b l (VAtom ANone)) Mc).
          2:{ rewrite (map_nth_error (fun v => nth b (elements v) (VAtom ANone)) i vs N). reflexivity. }
          cbn [bind]. rewrite (IH (S b) EJ) by (try lia; exact FM'). cbn [bind]. f_equal.
          assert (Lb : b < length l) by lia. clear - Lb. revert b Lb. induction l as [|x l IH]; intros b Lb; [cbn in Lb; lia|].
          destruct b as [|b]; [reflexivity|]. cbn [skipn nth]. cbn [length] in Lb. destruct l as [|y l]; [cbn in Lb; lia|]. apply IH. lia. }
      refine (G 0 (seq 0 n) _ _ _ FM); rewrite seq_length; reflexivity. }
    rewrite MM. reflexivity.
  Qed.
End Variants.
