(** Proofs about the messages for if/elif/else chains. *)
From Coq Require Import String List Bool Arith NArith ZArith QArith Lia.
From Verif Require Import Base PyModel PySpec PyProofs IfModel IfSpec IfProofs FoldModel FoldSpec FoldProofs TypeModel LocalModel LocalSpec LocalProofs LetterProofs MergeSpec MergeProofs SolverModel SolverSpec SolverProofs RedundantProofs ChainModel ChainSpec ChainProofs.
Import ListNotations.
Local Open Scope string_scope.
Local Open Scope list_scope.
Local Open Scope nat_scope.

(** ** The names of variables are texts of numbers *)
Section Keys.
  Variables (H : host) (G : inspection) (mk : bool).
  Definition named (ns : list expr) (k : text) : Prop := exists s, List.In s ns /\ as_string s = k /\ 5 < prec s.
  Definition adds (ns : list expr) (d0 d1 : variables) : Prop := forall k, List.In k (map fst d1) -> List.In k (map fst d0) \/ named ns k.
  Lemma adds_refl ns d : adds ns d d. Proof. intros k I. left. exact I. Qed.
  Lemma adds_trans ns a b c : adds ns a b -> adds ns b c -> adds ns a c.
  Proof. intros A B k I. destruct (B k I) as [J|J]; [exact (A k J)|right; exact J]. Qed.
  Lemma adds_incl ns ns' a b : incl ns ns' -> adds ns a b -> adds ns' a b.
  Proof. intros I A k K. destruct (A k K) as [J|(s & S1 & S2)]; [left; exact J|]. right. exists s. split; [exact (I s S1)|exact S2]. Qed.
  Lemma set_adds d k i : forall k', List.In k' (map fst (set_var d k i)) -> List.In k' (map fst d) \/ k' = k.
  Proof.
    intros k' I. unfold set_var in I. destruct (find_var d k); [destruct i|].
    - left. rewrite map_map in I. rewrite (map_ext _ fst) in I; [exact I|]. intros [x y]. cbn. destruct (text_eqb x k); reflexivity.
    - left. exact I.
    - rewrite map_app in I. apply in_app_or in I. destruct I as [I|[<-|[]]]; [left; exact I|right; reflexivity].
  Qed.
  Lemma variable_adds e d i b d1 : 5 < prec e -> initialize_variable G e d i = (b, d1) -> adds [e] d d1.
  Proof.
    intros L V k I. unfold initialize_variable in V. destruct (guess G e); [|left; congruence].
    assert (d1 = set_var d (as_string e) i) by congruence. subst d1. destruct (set_adds _ _ _ _ I) as [J| ->]; [left; exact J|].
    right. exists e. split; [left; reflexivity|]. split; [reflexivity|exact L].
  Qed.
  Definition keyed (e : expr) : Prop := forall int_op bp d0 b d1, initialize H G mk int_op bp e d0 = Ok (b, d1) -> adds (numbers e) d0 d1.
  Lemma all_keyed vs : Forall keyed vs -> forall int_op bp d0 b d1, init_all H G mk int_op bp vs d0 = Ok (b, d1) -> adds (flat_map numbers vs) d0 d1.
  Proof.
    induction 1 as [|x l X F IH]; intros int_op bp d0 b d1 I; cbn [init_all] in I; [assert (d1 = d0) by congruence; subst; apply adds_refl|].
    destruct (initialize H G mk int_op bp x d0) as [[bx dx]|] eqn:IX; [|discriminate]. cbn [bind fst snd] in I.
    pose proof (adds_incl _ (flat_map numbers (x :: l)) _ _ (incl_appl _ (incl_refl _)) (X _ _ _ _ _ IX)) as A. destruct bx.
    - refine (adds_trans _ _ _ _ A (adds_incl _ _ _ _ _ (IH _ _ _ _ _ I))). apply incl_appr, incl_refl.
    - assert (d1 = dx) by congruence. subst d1. exact A.
  Qed.
  Lemma incl_cons_r {A} (x : A) l m : incl l m -> incl l (x :: m).
  Proof. intros I y Y. right. exact (I y Y). Qed.
  Theorem keys_named e : keyed e.
  Proof.
    induction e as [x|k|o a IHa|o a b IHa IHb|o vs IHvs|a ops IHa IHops|g args IHg IHargs|a x IHa|a i IHa IHi|c a b IHc IHa IHb|n] using expr_ind';
      intros int_op bp d0 r d1 I.
    - cbn in I. rewrite andb_false_r in I. injection I as I1. exact (variable_adds (Name x) d0 int_op r d1 ltac:(cbn; lia) I1).
    - cbn [initialize not_allowed bind] in I. assert (d1 = d0); [|subst; apply adds_refl].
      destruct (match k with CNone => true | CBool _ => negb bp | CInt _ => false | CFloat _ => int_op | CStr _ => true end); cbn [nonlinear bind is_variable orb] in I; rewrite ?andb_false_r in I; congruence.
    - rewrite init_unary in I. destruct o.
      + destruct bp; [exact (IHa _ _ _ _ _ I)|assert (d1 = d0) by congruence; subst; apply adds_refl].
      + exact (adds_incl _ _ _ _ (incl_cons_r _ _ _ (incl_refl _)) (IHa _ _ _ _ _ I)).
      + exact (adds_incl _ _ _ _ (incl_cons_r _ _ _ (incl_refl _)) (IHa _ _ _ _ _ I)).
      + assert (d1 = d0) by congruence; subst; apply adds_refl.
    - rewrite init_binary in I. destruct (not_allowed H G (Binary o a b) int_op bp) as [[]|]; try discriminate; cbn [bind] in I.
      + assert (d1 = d0) by congruence; subst; apply adds_refl.
      + destruct (nonlinear H (Binary o a b)) as [[]|]; try discriminate; cbn [bind] in I.
        * destruct mk; [|assert (d1 = d0) by congruence; subst; apply adds_refl]. injection I as I1.
          refine (adds_incl _ _ _ _ _ (variable_adds (Binary o a b) d0 int_op r d1 _ I1)); [|destruct o; cbn; lia]. intros y [<-|[]]. left. reflexivity.
        * assert (X : adds (flat_map numbers [a; b]) d0 d1).
          { assert (AL : forall i b0 D0 D1, init_all H G mk i false [a; b] D0 = Ok (b0, D1) -> adds (flat_map numbers [a; b]) D0 D1).
            { intros. eapply all_keyed; [constructor; [exact IHa|constructor; [exact IHb|constructor]]|eassumption]. }
            destruct o; try exact (AL _ _ _ _ I); refine (adds_incl _ _ _ _ _ (IHa _ _ _ _ _ I)); apply incl_appl, incl_refl. }
          refine (adds_incl _ _ _ _ _ X). cbn [flat_map numbers]. rewrite app_nil_r. apply incl_cons_r, incl_refl.
    - rewrite init_bool in I. destruct bp; [|assert (d1 = d0) by congruence; subst; apply adds_refl]. exact (all_keyed vs IHvs _ _ _ _ _ I).
    - rewrite init_compare in I. match type of I with (if ?t then _ else _) = _ => destruct t end; [assert (d1 = d0) by congruence; subst; apply adds_refl|].
      assert (F : Forall keyed (a :: map snd ops)) by (constructor; [exact IHa|]; clear -IHops; induction IHops; constructor; assumption).
      refine (adds_incl _ _ _ _ _ (all_keyed _ F _ _ _ _ _ I)). cbn [flat_map numbers]. apply incl_app; [apply incl_appl, incl_refl|]. apply incl_appr.
      rewrite flat_map_concat_map, map_map, <- flat_map_concat_map. apply incl_refl.
    - assert (VA : forall D, initialize_variable G (Call g args) d0 int_op = (r, D) -> adds (numbers (Call g args)) d0 D).
      { intros D V. refine (adds_incl _ _ _ _ _ (variable_adds (Call g args) d0 int_op r D ltac:(cbn; lia) V)). intros y [<-|[]]. left. reflexivity. }
      assert (X : (is_abs g = true /\ exists a l, args = a :: l /\ initialize H G mk int_op false a d0 = Ok (r, d1)) \/ initialize_variable G (Call g args) d0 int_op = (r, d1) \/ d1 = d0).
      { destruct g; cbn [initialize not_allowed bind nonlinear is_variable orb andb] in I;
          try (destruct mk; cbn [negb andb] in I; [right; left; congruence|right; right; congruence]).
        cbn [is_abs]. destruct (String.eqb x "abs").
        - destruct args as [|a l]; [discriminate|]. left. split; [reflexivity|]. exists a, l. split; [reflexivity|exact I].
        - destruct mk; cbn [negb andb] in I; [right; left; congruence|right; right; congruence]. }
      destruct X as [(AB & a & l & -> & I1)|[V| ->]].
      + cbn [numbers]. rewrite AB. inversion IHargs as [|? ? Ka _]; subst. refine (adds_incl _ _ _ _ _ (Ka _ _ _ _ _ I1)). apply incl_cons_r. cbn [flat_map]. apply incl_appl, incl_refl.
      + exact (VA d1 V).
      + apply adds_refl.
    - assert (X : initialize_variable G (Attribute a x) d0 int_op = (r, d1) \/ d1 = d0).
      { cbn in I. destruct mk; cbn [negb andb] in I; [left; congruence|right; congruence]. }
      destruct X as [V| ->]; [exact (variable_adds (Attribute a x) d0 int_op r d1 ltac:(cbn; lia) V)|apply adds_refl].
    - assert (X : initialize_variable G (Subscript a i) d0 int_op = (r, d1) \/ d1 = d0).
      { cbn in I. destruct mk; cbn [negb andb] in I; [left; congruence|right; congruence]. }
      destruct X as [V| ->]; [exact (variable_adds (Subscript a i) d0 int_op r d1 ltac:(cbn; lia) V)|apply adds_refl].
    - assert (d1 = d0); [|subst; apply adds_refl]. cbn in I. rewrite ?andb_false_r in I. congruence.
    - assert (d1 = d0); [|subst; apply adds_refl]. cbn in I. destruct (is_collection G n); cbn in I; rewrite ?andb_false_r in I; congruence.
  Qed.
  Lemma tests_named I tests : forall d0 d1, initialize_tests I H G tests d0 = Ok (inl d1) -> mk = true ->
    adds (flat_map numbers tests) d0 d1 /\ Forall (fun t => exists da db, initialize H G true false true t da = Ok (true, db)) tests.
  Proof.
    induction tests as [|t tests IH]; intros d0 d1 X MK; cbn [initialize_tests] in X.
    - assert (d1 = d0) by congruence. subst. split; [apply adds_refl|constructor].
    - destruct (is_pure_expression I t); [|discriminate]. destruct (initialize H G true false true t d0) as [[[] dx]|] eqn:IX; try discriminate. cbn [bind fst snd] in X.
      destruct (initialize_tests I H G tests dx) as [[d2|k]|] eqn:R; try discriminate. cbn [bind] in X. assert (d2 = d1) by congruence. subst d2.
      destruct (IH dx d1 R MK) as [A F]. split; [|constructor; [exists d0, dx; exact IX|exact F]].
      refine (adds_trans _ _ _ _ _ (adds_incl _ _ _ _ _ A)); [|cbn [flat_map]; apply incl_appr, incl_refl].
      pose proof (keys_named t false true d0 true dx) as K. subst mk. refine (adds_incl _ _ _ _ _ (K IX)). cbn [flat_map]. apply incl_appl, incl_refl.
  Qed.
End Keys.

(** ** Tests and blocks *)
Section Right.
  Variable unsat : zexpr -> bool.
  Variable text_length : text -> nat.
  Hypothesis SOUND : sound unsat.
  Variables (H : host) (G : inspection).
  Hypothesis CH : closed_host H.
  Context {W : Type}.
  Variable P : python W.
  Variable w : W.
  Hypothesis AG : agrees P H.
  Hypothesis ABS : has_abs P w.

  Section Env.
  Variable E : environment.
  Definition usable (t : expr) : Prop :=
    fine t = true /\ whole P w t /\ int_divisions P w t /\ assigns E P w (numbers t) /\ exists da db, initialize H G true false true t da = Ok (true, db).
  Lemma converted d t z c : usable t -> convert H d true t = Ok (Some z, c) -> exists b, holds P w t b /\ ev E z b.
  Proof.
    intros (F & WH & DV & A & da & db & I) C. destruct (fine_split t F) as [WF _].
    destruct (means_cond P w E t z c (translated H G true CH P w AG ABS E t true false da db d z c I C WF WH DV A)) as (b & v & GV & TV & ZV & _).
    exists b. split; [exists v; split; assumption|exact ZV].
  Qed.
  Lemma usable_operands o vs : usable (BoolOp o vs) -> Forall usable vs.
  Proof.
    intros (F & WH & DV & A & da & db & I). destruct (fine_bool o vs F) as [FV _]. rewrite init_bool in I.
    assert (X : Forall (fun t => exists da db, initialize H G true false true t da = Ok (true, db)) vs).
    { clear -I. revert da I. induction vs as [|x vs IH]; intros da I; [constructor|]. cbn [init_all] in I.
      destruct (initialize H G true false true x da) as [[[] dx]|] eqn:IX; try discriminate. cbn [bind fst snd] in I. constructor; [exists da, dx; exact IX|exact (IH dx I)]. }
    cbn [int_divisions] in DV. apply divisions_forall in DV. rewrite Forall_forall in *. intros x IN.
    split; [exact (FV x IN)|]. split; [|split; [exact (DV x IN)|split; [|exact (X x IN)]]].
    - unfold whole in *. rewrite Forall_forall in *. intros s S1. apply WH. cbn [numbers]. apply in_flat_map. exists x. split; assumption.
    - intros s z S1. apply A. cbn [numbers]. apply in_flat_map. exists x. split; assumption.
  Qed.
  Lemma each_converted d vs : Forall usable vs -> forall ts, convert_each H d vs = Ok (Some ts) -> exists bs, Forall2 (ev E) ts bs /\ Forall2 (holds P w) vs bs.
  Proof.
    induction 1 as [|x l X F IH]; intros ts C; cbn [convert_each] in C.
    - assert (ts = []) by congruence. subst. exists []. split; constructor.
    - destruct (convert H d true x) as [[[z|] c]|] eqn:CX; try discriminate. cbn [bind fst] in C. destruct (convert_each H d l) as [[zs|]|]; try discriminate. cbn [bind] in C.
      assert (ts = z :: zs) by congruence. subst ts. destruct (IH zs eq_refl) as (bs & B1 & B2). destruct (converted d x z c X CX) as (b & HB & EB).
      exists (b :: bs). split; constructor; assumption.
  Qed.
  Lemma map_negb_ev ts bs : Forall2 (ev E) ts bs -> Forall2 (ev E) (map ZNot ts) (map negb bs).
  Proof. induction 1 as [|z b ts bs Z F IH]; [constructor|]. cbn [map]. constructor; [apply ev_not; exact Z|exact IH]. Qed.
  Lemma made d t p b : usable t -> make_block H d t p = Ok b -> condition b <> None -> okb P w E b /\ position b = p /\ holds P w t (tk E b).
  Proof.
    intros U M C.
    assert (X : (exists o vs, t = BoolOp o vs) \/ make_block H d t p = do r <- convert H d true t; Ok {| position := p; condition := fst r; negated := option_map ZNot (fst r); operands := [t]; terms := []; negated_terms := []; is_or := false |}).
    { destruct t; try (right; reflexivity). left. eauto. }
    destruct X as [(o & vs & ->)|X].
    - pose proof U as (F & _). destruct (fine_bool o vs F) as [FV L2]. pose proof (usable_operands o vs U) as UV.
      cbn [make_block] in M. destruct (convert_each H d vs) as [[ts|]|] eqn:CE; [| |discriminate]; cbn [bind] in M; [|assert (b = default_block p) by congruence; subst b; cbn in C; congruence].
      destruct (each_converted d vs UV ts CE) as (bs & B1 & B2).
      set (orr := match o with Or => true | And => false end) in *. assert (OO : (if orr then Or else And) = o) by (destruct o; reflexivity).
      assert (EC : ev E (bool_condition ts orr) (joined orr bs)) by (apply ev_bool; exact B1).
      assert (NE : vs <> []) by (intro K; rewrite K in L2; cbn in L2; lia).
      injection M as <-. split; [|split; [reflexivity|]].
      + apply (okb_some P w E _ (bool_condition ts orr) (ZNot (bool_condition ts orr)) bs); cbn [condition negated operands is_or terms negated_terms]; try reflexivity; try assumption.
        * apply ev_not. exact EC.
        * intros _. split; [exact B1|]. intros ->. apply map_negb_ev. exact B1.
      + unfold tk. cbn [condition]. unfold ev in EC. rewrite EC. unfold joined. rewrite OO. exact (bools_truth P w o vs bs B2 NE).
    - rewrite X in M. destruct (convert H d true t) as [[[z|] c]|] eqn:CT; [| |discriminate]; cbn [bind fst option_map] in M; [|assert (condition b = None) by (injection M as <-; reflexivity); congruence].
      destruct (converted d t z c U CT) as (v & HV & EV). injection M as <-.
      assert (J : joined false [v] = v) by (unfold joined; cbn [connect forallb]; apply andb_true_r).
      split; [|split; [reflexivity|]].
      + apply (okb_some P w E _ z (ZNot z) [v]); cbn [condition negated operands is_or terms negated_terms]; try reflexivity; rewrite ?J.
        * exact EV.
        * apply ev_not. exact EV.
        * discriminate.
        * constructor; [exact (proj1 U)|constructor].
        * constructor; [exact HV|constructor].
        * cbn [length]. lia.
      + unfold tk. cbn [condition]. unfold ev in EV. rewrite EV. exact HV.
  Qed.
  Lemma decomposed_tests d tests : Forall usable tests -> forall p l, decompose_tests H d tests p = Ok l -> l <> [] ->
    exists ts, Forall2 (holds P w) tests ts /\ Forall (okb P w E) l /\
      forall he r tail, (forall r', simp E he r' (p + length tests) [] tail) -> simp E he r p ts (l ++ tail).
  Proof.
    induction 1 as [|t tests U F IH]; intros p l D NE; cbn [decompose_tests] in D; [congruence|].
    destruct (make_block H d t p) as [b|] eqn:MB; [|discriminate]. cbn [bind] in D. destruct (condition b) as [z|] eqn:C; [|congruence].
    destruct (made d t p b U MB ltac:(congruence)) as (OB & PB & HB).
    destruct tests as [|t' tests].
    - assert (l = [b]) by congruence. subst l. exists [tk E b]. split; [constructor; [exact HB|constructor]|]. split; [constructor; [exact OB|constructor]|].
      intros he r tail T. cbn [app length] in *. apply simp_keep; [exact PB|reflexivity|]. replace (p + 1) with (S p) in T by lia. apply T.
    - destruct (decompose_tests H d (t' :: tests) (S p)) as [l'|] eqn:DT; [|discriminate]. cbn [bind] in D. destruct l' as [|b' l']; [congruence|].
      assert (l = b :: b' :: l') by congruence. subst l. destruct (IH (S p) _ DT ltac:(discriminate)) as (ts & T1 & T2 & T3).
      exists (tk E b :: ts). split; [constructor; assumption|]. split; [constructor; assumption|].
      intros he r tail T. cbn [app]. apply simp_keep; [exact PB|reflexivity|]. apply (T3 he _ tail). cbn [length] in T |- *. replace (S p + S (length tests)) with (p + S (S (length tests))) by lia. exact T.
  Qed.
  Lemma decomposed d tests he l : Forall usable tests -> decompose H d tests he = Ok l -> l <> [] ->
    exists ts, Forall2 (holds P w) tests ts /\ Forall (okb P w E) l /\ simp E he true 1 ts l.
  Proof.
    intros U D NE. unfold decompose in D. destruct (decompose_tests H d tests 1) as [l'|] eqn:DT; [|discriminate]. cbn [bind] in D.
    destruct l' as [|b l']; [congruence|]. destruct (decomposed_tests d tests U 1 _ DT ltac:(discriminate)) as (ts & T1 & T2 & T3).
    exists ts. split; [exact T1|]. destruct he.
    - assert (l = (b :: l') ++ [default_block (S (length tests))]) by congruence. subst l. split.
      + apply Forall_app. split; [exact T2|constructor; [apply okb_default|constructor]].
      + apply T3. intro r'. apply simp_else; reflexivity.
    - assert (l = b :: l') by congruence. subst l. split; [exact T2|]. specialize (T3 false true []). rewrite app_nil_r in T3. apply T3. intro r'. apply simp_end. discriminate.
  Qed.

  (** ** Suggestions *)
  Lemma text_reads b : okb P w E b -> condition b <> None -> exists e, reads (test_text b) e /\ test P e w = (w, Ok (tk E b)).
  Proof.
    intros [N N'|z n bs C G' EZ EN NE FI HO TM] CN; [congruence|].
    destruct (suggestion_reads (if is_or b then Or else And) (operands b) FI NE) as (e & RE & VE). exists e. split; [exact RE|].
    assert (TB : tk E b = joined (is_or b) bs) by (unfold tk; rewrite C; unfold ev in EZ; rewrite EZ; reflexivity). rewrite TB. unfold joined.
    destruct (bools_truth P w (if is_or b then Or else And) (operands b) bs HO NE) as (v & GV & TV). unfold test, andthen. unfold gives in GV. rewrite (VE W P w), GV. exact TV.
  Qed.
  Definition final (b : block) : Prop := condition b = None \/ okb P w E b.
  Lemma texts_read l : Forall final l -> exists es, Forall2 reading (map (fun b => match condition b with Some _ => Some (test_text b) | None => None end) l) es /\
    choose P (combine (map position l) es) w = (w, Ok (sel E l)).
  Proof.
    induction 1 as [|b l X F IH]; [exists []; split; [constructor|reflexivity]|]. destruct IH as (es & R1 & R2). cbn [map].
    destruct (condition b) as [z|] eqn:C.
    - destruct X as [X|X]; [congruence|]. destruct (text_reads b X ltac:(congruence)) as (e & RE & TE). exists (Some e :: es). split; [constructor; [exact RE|exact R1]|].
      cbn [combine choose]. rewrite TE. destruct (tk E b) eqn:T; [rewrite (sel_here E b l T); reflexivity|rewrite (sel_next E b l T); exact R2].
    - exists (None :: es). split; [constructor; [exact Logic.I|exact R1]|]. cbn [combine choose]. rewrite (sel_here E b l); [reflexivity|]. unfold tk. rewrite C. reflexivity.
  Qed.
  Lemma chosen he tests ts : Forall2 (holds P w) tests ts -> forall p, choose P (numbered p tests he) w = (w, Ok (first_true he p ts)).
  Proof.
    induction 1 as [|t b tests ts T F IH]; intro p; cbn [numbered first_true]; [destruct he; reflexivity|]. cbn [choose]. rewrite (holds_test P w t b T). destruct b; [reflexivity|apply IH].
  Qed.

  (** ** else as elif *)
  Lemma equivalent_in c l op z : equivalent unsat c l = Some (op, z) -> List.In (op, z) l /\ implies unsat c z = true.
  Proof.
    induction l as [|[o y] l IH]; cbn [equivalent]; [discriminate|]. destruct (implies unsat c y) eqn:I1; cbn [andb].
    - destruct (implies unsat y c).
      + intro X. assert (o = op /\ y = z) as [-> ->] by (split; congruence). split; [left; reflexivity|exact I1].
      + intro X. destruct (IH X). split; [right; assumption|assumption].
    - intro X. destruct (IH X). split; [right; assumption|assumption].
  Qed.
  Lemma else_compare extract ns k i k' i' op c : reader extract -> Forall (fun s => fine s = true) ns -> Forall (an_int P w) ns -> assigns E P w ns ->
    named ns k -> named ns k' -> op = Eq \/ op = Ne \/ op = Gt \/ op = Lt -> extract (k ++ [TRel op] ++ k') = Ok c ->
    fine c = true /\ exists b, holds P w c b /\ ev E (ZRel op (ZVar k i) (ZVar k' i')) b.
  Proof.
    intros RD FN IN AS (s & S1 & S2 & S3) (s' & S1' & S2' & S3') OP X. destruct (RD _ _ X) as (RC & WC & NC). split; [unfold fine; rewrite WC, NC; reflexivity|].
    rewrite Forall_forall in FN, IN. destruct (IN s S1) as (m & v & GV & NV). destruct (IN s' S1') as (n & v' & GV' & NV').
    destruct (AS s m S1 ltac:(exists v; split; assumption)) as [A1 A2]. destruct (AS s' n S1' ltac:(exists v'; split; assumption)) as [A1' A2'].
    assert (D : exists r, decided_by op m n = Some r) by (destruct OP as [->|[->|[->| ->]]]; eexists; reflexivity). destruct D as [r D]. exists r. split.
    - set (e := Compare s [(op, s')]).
      assert (TE : k ++ [TRel op] ++ k' = as_string e).
      { unfold e. cbn [as_string map fst snd concat]. unfold wrap. replace (Nat.ltb (prec s) 5 || Nat.eqb (prec s) 5 && false) with false.
        - replace (Nat.ltb (prec s') 5 || Nat.eqb (prec s') 5 && true) with false.
          + rewrite app_nil_r, S2, S2'. destruct OP as [->|[->|[->| ->]]]; reflexivity.
          + symmetry. apply orb_false_iff. split; [apply Nat.ltb_ge; lia|]. rewrite andb_true_r. apply Nat.eqb_neq. lia.
        - symmetry. rewrite andb_false_r, orb_false_r. apply Nat.ltb_ge. lia. }
      destruct (fine_split s (FN s S1)) as [WS NS]. destruct (fine_split s' (FN s' S1')) as [WS' NS'].
      assert (WF : well_formed e = true) by (unfold e; cbn [well_formed length Nat.leb forallb snd]; rewrite WS, WS'; reflexivity).
      assert (NN : no_nested_compare e = true).
      { unfold e. cbn [no_nested_compare forallb snd]. rewrite NS, NS'. destruct s; try reflexivity. cbn in S3. lia. }
      rewrite TE in RC. pose proof (reads_det _ _ _ RC (reads_as_string e WF)) as ->.
      exists (VBool r). split; [|reflexivity]. unfold gives. rewrite (norm_value P e WF NN w). unfold e. rewrite (eval_compare1 P w op s s' v v' GV GV'). exact (ints_compare P w op v v' m n r NV NV' D).
    - unfold ev. cbn [zeval znumbers]. subst k k'. rewrite (zcompare_int op _ _ m n); [rewrite D; reflexivity| |].
      + destruct i; rewrite ?A1, ?A2; reflexivity.
      + destruct i'; rewrite ?A1', ?A2'; reflexivity.
  Qed.
  Lemma else_converted extract ns d l l' e : reader extract -> Forall (fun s => fine s = true) ns -> Forall (an_int P w) ns -> assigns E P w ns ->
    (forall k, List.In k (map fst d) -> named ns k) -> Forall (okb P w E) l -> last_block l = Ok e -> condition e = None -> convert_else unsat extract d l = Ok l' ->
    leads P w E l l' /\ exists e', l' = removelast l ++ [e'] /\ position e' = position e.
  Proof.
    intros RD FN IN AS KN F LB CE C. pose proof (last_split l e LB) as SP.
    assert (SAME : l' = l -> leads P w E l l' /\ exists e', l' = removelast l ++ [e'] /\ position e' = position e).
    { intros ->. split; [apply leads_refl; exact F|]. exists e. split; [exact SP|reflexivity]. }
    unfold convert_else in C. destruct d as [|[k i] [|[k' i'] [|]]]; try (apply SAME; congruence).
    destruct (negations (removelast l)) as [zs|] eqn:NG; [|discriminate]. cbn [bind] in C.
    destruct (equivalent unsat (ZAnd zs) [(Eq, ZRel Eq (ZVar k i) (ZVar k' i')); (Ne, ZRel Ne (ZVar k i) (ZVar k' i')); (Gt, ZRel Gt (ZVar k i) (ZVar k' i')); (Lt, ZRel Lt (ZVar k i) (ZVar k' i'))]) as [[op z]|] eqn:EQ; [|apply SAME; congruence].
    rewrite LB in C. cbn [bind] in C. destruct (extract (k ++ [TRel op] ++ k')) as [c|] eqn:X; [|discriminate]. cbn [bind] in C.
    destruct (equivalent_in _ _ _ _ EQ) as [IL IM].
    assert (OP : (op = Eq \/ op = Ne \/ op = Gt \/ op = Lt) /\ z = ZRel op (ZVar k i) (ZVar k' i')).
    { cbn [List.In] in IL. destruct IL as [K|[K|[K|[K|[]]]]]; injection K as <- <-; tauto. }
    destruct OP as [OP ->].
    destruct (else_compare extract ns k i k' i' op c RD FN IN AS (KN k ltac:(left; reflexivity)) (KN k' ltac:(right; left; reflexivity)) OP X) as (FC & b & HB & EB).
    assert (FP : Forall (okb P w E) (removelast l)) by (rewrite SP in F; apply Forall_app in F; tauto).
    pose proof (negations_ok P w E _ _ FP NG) as EN. pose proof (implied unsat SOUND E _ _ _ _ IM EN EB) as TR.
    set (e' := {| position := position e; condition := Some (ZRel op (ZVar k i) (ZVar k' i')); negated := Some (ZNot (ZRel op (ZVar k i) (ZVar k' i'))); operands := [c]; terms := terms e; negated_terms := negated_terms e; is_or := is_or e |}) in *.
    assert (L' : l' = removelast l ++ [e']) by congruence. clear C. subst l'.
    assert (J : joined (is_or e) [b] = b) by (unfold joined; destruct (is_or e); cbn [connect existsb forallb]; [apply orb_false_r|apply andb_true_r]).
    assert (OE : okb P w E e').
    { apply (okb_some P w E e' (ZRel op (ZVar k i) (ZVar k' i')) (ZNot (ZRel op (ZVar k i) (ZVar k' i'))) [b]); cbn [e' condition negated operands is_or terms negated_terms]; rewrite ?J; try reflexivity.
      - exact EB.
      - apply ev_not. exact EB.
      - discriminate.
      - constructor; [exact FC|constructor].
      - constructor; [exact HB|constructor].
      - cbn [length]. lia. }
    assert (PE : position e' = position e) by reflexivity. assert (TE : tk E e' = b) by (unfold tk; cbn [e' condition]; unfold ev in EB; rewrite EB; reflexivity).
    clearbody e'. split; [|exists e'; split; [reflexivity|exact PE]].
    split; [apply Forall_app; split; [exact FP|constructor; [exact OE|constructor]]|].
    assert (PP : map position (removelast l ++ [e']) = map position l) by (rewrite SP at 2; rewrite !map_app; cbn [map]; rewrite PE; reflexivity).
    rewrite PP. split; [|split; [trivial|apply incl_refl]]. rewrite SP at 2. apply sel_app. intro N.
    rewrite (sel_here E e' []) by (rewrite TE; exact (TR N)). rewrite (sel_here E e []); [rewrite PE; reflexivity|]. unfold tk. rewrite CE. reflexivity.
  Qed.

  (** ** Messages in the same order *)
  Lemma numbered_length tests he : forall p, length (numbered p tests he) = length tests + (if he then 1 else 0).
  Proof. induction tests as [|t tests IH]; intro p; cbn [numbered length]; [destruct he; reflexivity|]. rewrite IH. reflexivity. Qed.
  Lemma reached_values before ds tests : Forall2 (holds P w) before ds -> reached P w (before ++ tests) (S (length before)) -> forallb negb ds = true.
  Proof.
    intros F R. unfold reached in R. replace (S (length before) - 1) with (length before) in R by lia. rewrite firstn_app, Nat.sub_diag, firstn_all in R. cbn [firstn] in R. rewrite app_nil_r in R.
    induction F as [|t d before ds T F IH]; [reflexivity|]. inversion R as [|? ? R1 R2]; subst. rewrite (holds_test P w t d T) in R1. cbn [forallb].
    assert (d = false) by congruence. subst d. cbn [negb andb]. exact (IH R2).
  Qed.
  Lemma nth_here {A} (before : list A) x l : nth_error (before ++ x :: l) (S (length before) - 1) = Some x.
  Proof. replace (S (length before) - 1) with (length before) by lia. rewrite nth_error_app2 by lia. rewrite Nat.sub_diag. reflexivity. Qed.
  Definition closed_end (l : list block) : Prop := match last_block l with Ok e => condition e = None | Raise _ => True end.
  Lemma closed_tail b c l : closed_end (b :: c :: l) -> closed_end (c :: l).
  Proof.
    unfold closed_end, last_block. cbn [rev]. destruct ((rev l ++ [c]) ++ [b]) as [|x m] eqn:K; [destruct (rev l); discriminate|].
    destruct (rev l ++ [c]) as [|y n] eqn:K2; [destruct (rev l); discriminate|]. cbn [app] in K. assert (x = y) by congruence. subst. trivial.
  Qed.
  Lemma same_order_right he open_end tests ts : Forall2 (holds P w) tests ts -> forall before ds l, Forall2 (holds P w) before ds ->
    simp E he (forallb negb ds) (S (length before)) ts l -> Forall final l -> (open_end = false -> closed_end l /\ (l = [] -> forallb negb ds = false)) ->
    Forall (right_chain P w (before ++ tests) he) (same_order tests (S (length before)) l open_end he).
  Proof.
    induction 1 as [|t b tests ts T F IH]; intros before ds l FD SM FN OE.
    - cbn [same_order]. destruct l as [|c l]; [|constructor]. destruct he; [|constructor]. constructor; [|constructor]. cbn [right_chain].
      rewrite numbered_length, app_length. cbn [length]. split; [lia|]. split; [lia|]. intro R. apply (reached_values before ds [] FD) in R. inversion SM as [? ? X| | |]; subst. rewrite (X eq_refl) in R. discriminate.
    - assert (STEP : forall l', simp E he (forallb negb ds && negb b) (S (S (length before))) ts l' -> Forall final l' ->
        (open_end = false -> closed_end l' /\ (l' = [] -> forallb negb ds && negb b = false)) ->
        Forall (right_chain P w (before ++ t :: tests) he) (same_order tests (S (S (length before))) l' open_end he)).
      { intros l' SM' FN' OE'. specialize (IH (before ++ [t]) (ds ++ [b]) l'). rewrite <- app_assoc, app_length in IH. cbn [app length] in IH. rewrite Nat.add_comm in IH. cbn [Nat.add] in IH.
        rewrite forallb_app in IH. cbn [forallb] in IH. rewrite andb_true_r in IH. apply IH; try assumption. apply Forall2_app; [exact FD|constructor; [exact T|constructor]]. }
      assert (RV := reached_values before ds (t :: tests) FD). pose proof (holds_test P w t b T) as TB. pose proof (nth_here before t tests) as NH.
      cbn [same_order]. destruct l as [|c l].
      + inversion SM as [| | |? ? ? ? ? X SM']; subst. constructor.
        * destruct open_end.
          -- split; [lia|]. exists t. split; [exact NH|]. intro R. rewrite TB. rewrite (X (RV R)). reflexivity.
          -- destruct (OE eq_refl) as [_ N]. split; [lia|]. rewrite numbered_length, app_length. cbn [length]. split; [lia|]. intro R. rewrite (N eq_refl) in RV. specialize (RV R). discriminate.
        * apply STEP; [exact SM'|constructor|]. intro O. destruct (OE O) as [C N]. split; [exact C|]. intros _. rewrite (N eq_refl). reflexivity.
      + inversion FN as [|? ? FC FL]; subst. destruct (Nat.eqb (S (length before)) (position c)) eqn:PC.
        * apply Nat.eqb_eq in PC. assert (K : (forallb negb ds = true -> tk E c = b) /\ simp E he (forallb negb ds && negb b) (S (S (length before))) ts l).
          { inversion SM as [| |? ? ? ? ? ? X1 X2 X3|? ? ? ? ? X SM']; subst; [split; assumption|]. pose proof (simp_from _ _ _ _ _ _ SM' c (or_introl eq_refl)). lia. }
          destruct K as [TC SM']. apply Forall_app. split.
          -- destruct (condition c) as [z|] eqn:CC.
             ++ destruct t as [| | | |o vs| | | | | |]; try constructor. destruct (Nat.ltb (length (operands c)) (length vs)); constructor; [|constructor].
                destruct FC as [FC|FC]; [congruence|]. destruct (text_reads c FC ltac:(congruence)) as (e & RE & TE).
                split; [lia|]. exists (BoolOp o vs), e. split; [exact NH|]. split; [exact RE|]. intro R. rewrite TB, TE, (TC (RV R)). reflexivity.
             ++ constructor; [|constructor]. split; [lia|]. exists t. split; [exact NH|]. intro R. rewrite TB. rewrite <- (TC (RV R)). unfold tk. rewrite CC. reflexivity.
          -- apply STEP; [exact SM'|exact FL|]. intro O. destruct (OE O) as [C N]. split.
             ++ destruct l as [|c' l]; [exact Logic.I|exact (closed_tail c c' l C)].
             ++ intros ->. unfold closed_end in C. cbn in C. destruct (forallb negb ds); [|reflexivity]. rewrite <- (TC eq_refl). unfold tk. rewrite C. reflexivity.
        * apply Nat.eqb_neq in PC. inversion SM as [| |? ? ? ? ? ? X1 X2 X3|? ? ? ? ? X SM']; subst; [congruence|]. constructor.
          -- split; [lia|]. exists t. split; [exact NH|]. intro R. rewrite TB. rewrite (X (RV R)). reflexivity.
          -- apply STEP; [exact SM'|exact FN|]. intro O. destruct (OE O) as [C N]. split; [exact C|]. intro K. discriminate K.
  Qed.

  (** ** One chain *)
  Lemma final_ok l : Forall (okb P w E) l -> Forall final l.
  Proof. intro F. eapply Forall_impl; [|exact F]. intros b X. right. exact X. Qed.
  Lemma else_final l e : Forall (okb P w E) l -> last_block l = Ok e -> Forall final (to_else l e).
  Proof.
    intros F LB. pose proof (last_split l e LB) as SP. unfold to_else. apply Forall_app. split; [|constructor; [left; reflexivity|constructor]].
    apply final_ok. rewrite SP in F. apply Forall_app in F. tauto.
  Qed.
  Lemma positions_names ts ts' he : length ts = length ts' -> forall p, map fst (numbered p (map (fun _ : bool => Name "") ts) he) = map fst (numbered p ts' he).
  Proof.
    revert ts'. induction ts as [|t ts IH]; intros [|t' ts'] L p; try discriminate; [reflexivity|]. cbn [map numbered fst]. injection L as L. rewrite (IH ts' L). reflexivity.
  Qed.
  Lemma chain_right fuel extract d skip tests he ms : reader extract -> Forall usable tests -> (forall k, List.In k (map fst d) -> named (flat_map numbers tests) k) ->
    simplify_chain unsat text_length fuel extract H d skip tests he = Ok ms -> Forall (right_chain P w tests he) ms.
  Proof.
    intros RD US KN S1. unfold simplify_chain in S1. destruct (decompose H d tests he) as [l0|] eqn:D; [|discriminate]. cbn [bind] in S1.
    destruct l0 as [|b0 l0]; [injection S1 as <-; constructor|].
    destruct (decomposed d tests he _ US D ltac:(discriminate)) as (ts & TS & F0 & SM0).
    destruct (immediate unsat text_length (b0 :: l0)) as [[[l made] else_now]|] eqn:IM; [|discriminate]. cbn [bind] in S1.
    destruct (immediate_simp unsat text_length SOUND P w E he ts _ _ SM0 F0 IM) as (SM & F & EN & NE). cbn [fst snd] in *.
    pose proof (chosen he tests ts TS 1) as CO.
    assert (NS : Forall (fun s => fine s = true) (flat_map numbers tests) /\ Forall (an_int P w) (flat_map numbers tests) /\ assigns E P w (flat_map numbers tests)).
    { clear -US. rewrite !Forall_forall. rewrite Forall_forall in US. split; [|split].
      - intros s I. apply in_flat_map in I. destruct I as (t & T & I). destruct (US t T) as (F & _). pose proof (fine_numbers t F) as N. rewrite Forall_forall in N. exact (N s I).
      - intros s I. apply in_flat_map in I. destruct I as (t & T & I). destruct (US t T) as (_ & WH & _). unfold whole in WH. rewrite Forall_forall in WH. exact (WH s I).
      - intros s z I. apply in_flat_map in I. destruct I as (t & T & I). destruct (US t T) as (_ & _ & _ & A & _). exact (A s z I). }
    destruct NS as (NS1 & NS2 & NS3).
    match type of S1 with (bind ?t _) = _ => destruct t as [[l1 changed]|] eqn:MV; [|discriminate] end. cbn [bind] in S1.
    (* either something was moved, or only the last block may have got another condition *)
    assert (K : leads P w E l l1 /\ (changed = false -> (l1 = l \/ exists e e', last_block l = Ok e /\ condition e = None /\ l1 = removelast l ++ [e'] /\ position e' = position e))).
    { destruct skip; [assert (l1 = l) by congruence; subst l1; split; [apply leads_refl; exact F|intros _; left; reflexivity]|].
      destruct (last_block l) as [e|] eqn:LB; [|discriminate]. cbn [bind] in MV.
      match type of MV with (bind ?t _) = _ => destruct t as [l2|] eqn:CE; [|discriminate] end. cbn [bind] in MV.
      destruct (elif_count l2) as [n|]; [|discriminate]. cbn [bind] in MV.
      assert (K2 : leads P w E l l2 /\ (l2 = l \/ condition e = None /\ exists e', l2 = removelast l ++ [e'] /\ position e' = position e)).
      { destruct (condition e) eqn:C; [assert (l2 = l) by congruence; subst l2; split; [apply leads_refl; exact F|left; reflexivity]|].
        destruct (else_converted extract _ d l l2 e RD NS1 NS2 NS3 KN F LB C CE) as [A B]. split; [exact A|right; split; [reflexivity|exact B]]. }
      destruct K2 as [LD SH]. split.
      - exact (leads_trans P w E _ _ _ LD (proj1 (moves_lead unsat SOUND P w E fuel) _ _ _ _ _ _ _ (proj1 LD) MV)).
      - intros ->. apply move_same in MV. subst l1. destruct SH as [->|(C & e' & X & Y)]; [left; reflexivity|]. right. exists e, e'. auto. }
    destruct K as [(F1 & SL1 & ND1 & IN1) SAME].
    destruct (negb (made || changed)); [injection S1 as <-; constructor|].
    destruct (last_block l1) as [e1|] eqn:LB1; [|discriminate]. cbn [bind] in S1.
    assert (SL : sel E l1 = first_true he 1 ts) by (rewrite SL1; apply (simp_sel E he true 1 ts l SM eq_refl)).
    set (l2 := if else_now then to_else l1 e1 else l1) in *. change (if else_now then removelast l1 ++ _ else l1) with l2 in S1.
    assert (L2 : Forall final l2 /\ sel E l2 = first_true he 1 ts /\ map position l2 = map position l1).
    { unfold l2. destruct else_now; [|split; [apply final_ok; exact F1|split; [exact SL|reflexivity]]].
      split; [exact (else_final l1 e1 F1 LB1)|]. split; [|exact (else_positions l1 e1 LB1)]. rewrite (else_sel E l1 e1 LB1); [exact SL|]. rewrite SL. exact (EN eq_refl). }
    destruct L2 as (FL2 & SL2 & PL2). destruct changed.
    - assert (ms = [changed_order l2]) by congruence. subst ms. constructor; [|constructor]. unfold changed_order. cbn [right_chain].
      destruct (simp_positions E he true 1 ts l SM) as [ND IN]. rewrite PL2. split; [exact (ND1 ND)|]. split.
      + rewrite <- (positions_names ts tests he); [exact (incl_tran IN1 IN)|symmetry; exact (length_two _ _ _ TS)].
      + split; [rewrite <- PL2, !map_length; reflexivity|]. destruct (texts_read l2 FL2) as (es & R1 & R2). exists es. split; [exact R1|]. rewrite <- PL2, R2, CO, SL2. reflexivity.
    - destruct (last_block l2) as [e2|] eqn:LB2; [|discriminate]. cbn [bind] in S1. injection S1 as <-.
      assert (SM2 : simp E he true 1 ts l2).
      { unfold l2. destruct (SAME eq_refl) as [->|(e & e' & LE & C & -> & PE)].
        - destruct else_now; [|exact SM]. exact (else_simp E he ts l e1 SM LB1 (EN eq_refl)).
        - assert (ELSE : else_now = true).
          { unfold immediate in IM. destruct (at_index (b0 :: l0) 0) as [bb|]; [|discriminate]. cbn [bind] in IM. destruct (need (negated bb)) as [g|]; [|discriminate]. cbn [bind] in IM.
            destruct (elif_count (b0 :: l0)) as [n|]; [|discriminate]. cbn [bind] in IM.
            match type of IM with (bind ?t _) = _ => destruct t as [[[lx mx] hx]|]; [|discriminate] end. cbn [bind] in IM.
            destruct (last_block lx) as [ex|] eqn:LX; [|discriminate]. cbn [bind] in IM. assert (lx = l) by congruence. subst lx. rewrite LE in LX. injection LX as <-. rewrite C in IM. congruence. }
          rewrite ELSE. rewrite last_block_app in LB1. injection LB1 as <-.
          pose proof (else_simp E he ts l e SM LE (EN ELSE)) as Q. unfold to_else in *. rewrite removelast_last. rewrite PE.
          refine (simp_replace E he true 1 ts _ _ _ _ Q _); [discriminate|]. intros r' p' ts' R S2. apply (simp_at _ _ _ _ _ _ _ _ S2).
          + intros r1 t ts1 R1 T S3. apply simp_keep; [reflexivity|exact T|exact S3].
          + intros r1 R1 HE CE _. apply simp_else; [exact HE|reflexivity|reflexivity]. }
      refine (same_order_right he _ tests ts TS [] [] l2 (Forall2_nil _) SM2 FL2 _). intro O. split.
      + unfold closed_end. rewrite LB2. destruct (condition e2); [discriminate|reflexivity].
      + intros ->. discriminate LB2.
  Qed.
  End Env.

  (** ** The whole check *)
  Lemma skip_skip {A} n : forall k (l : list A), skipn n (skipn k l) = skipn (k + n) l.
  Proof. induction k as [|k IH]; intros l; [reflexivity|]. destruct l as [|x l]; [apply skipn_nil|]. cbn [skipn Nat.add]. apply IH. Qed.
  Definition clear (t : expr) : Prop := fine t = true /\ whole P w t /\ int_divisions P w t.
  Lemma clear_usable E I d0 tests : initialize_tests I H G tests [] = Ok (inl d0) -> Forall clear tests -> assigns E P w (flat_map numbers tests) -> Forall (usable E) tests.
  Proof.
    intros IN F A. destruct (tests_named H G true I tests [] d0 IN eq_refl) as [_ K]. rewrite Forall_forall in *. intros t T.
    destruct (F t T) as (F1 & F2 & F3). refine (conj F1 (conj F2 (conj F3 (conj _ (K t T))))). intros s z X. apply A. apply in_flat_map. exists t. auto.
  Qed.
  Lemma rest_right depth fuel extract I skip he : reader extract -> forall p tests p' ms, check_rest unsat text_length depth fuel extract I H G skip p tests he = Ok (p', ms) ->
    p <= p' /\ (Forall clear (skipn (p' - p) tests) -> Forall (right_chain P w (skipn (p' - p) tests) he) ms).
  Proof.
    intro RD. revert skip. induction depth as [|depth IH]; intros skip p tests p' ms C; [discriminate|]. cbn [check_rest] in C.
    destruct (Nat.ltb (length tests) 2).
    { injection C as <- <-. split; [lia|]. intros _. constructor. }
    destruct (initialize_tests I H G tests []) as [[d|k]|] eqn:IN; [| |discriminate]; cbn [bind] in C.
    - destruct (simplify_chain unsat text_length fuel extract H d skip tests he) as [ms0|] eqn:S1; [|discriminate]. cbn [bind] in C.
      injection C as <- <-. split; [lia|]. rewrite Nat.sub_diag. cbn [skipn]. intro F.
      destruct (assigned P w (flat_map numbers tests)) as (E & A).
      + rewrite Forall_forall in *. intros s X. apply in_flat_map in X. destruct X as (t & T & X). destruct (F t T) as (F1 & _). pose proof (fine_numbers t F1) as N. rewrite Forall_forall in N. exact (N s X).
      + rewrite Forall_forall in *. intros s X. apply in_flat_map in X. destruct X as (t & T & X). destruct (F t T) as (_ & F2 & _). unfold whole in F2. rewrite Forall_forall in F2. exact (F2 s X).
      + refine (chain_right E fuel extract d skip tests he ms0 RD (clear_usable E I d tests IN F A) _ S1).
        intros k K. destruct (tests_named H G true I tests [] d IN eq_refl) as [AD _]. destruct (AD k K) as [[]|N]. exact N.
    - destruct (skipn k tests) as [|t rest] eqn:SK.
      + injection C as <- <-. split; [lia|]. intros _. constructor.
      + destruct (IH true (p + k) (t :: rest) p' ms C) as [L R]. split; [lia|]. rewrite <- SK in R.
        replace (skipn (p' - p) tests) with (skipn (p' - (p + k)) (skipn k tests)); [exact R|].
        rewrite skip_skip. f_equal. lia.
  Qed.

  Definition turned_apart (a b : expr) : Prop := is_negation H a b false = Ok true -> calm P w a /\ calm P w b /\ paired P w a b.
  Lemma elif_right I he tests : Forall (fun t => fine t = true) tests -> neighbours turned_apart tests -> forall before ms,
    elif_instead_of_else I H (S (length before)) tests he = Ok (Some ms) -> Forall (right_chain P w (before ++ tests) he) ms.
  Proof.
    induction tests as [|t tests IH]; intros F N before ms C; [discriminate|]. destruct tests as [|u rest]; [discriminate|].
    destruct N as [TA N]. inversion F as [|? ? F1 F']; subst. inversion F' as [|? ? F2 F3]; subst.
    change (elif_instead_of_else I H (S (length before)) (t :: u :: rest) he) with
      (do n <- (if is_pure_expression I t && is_pure_expression I u then is_negation H t u false else Ok false);
       if (n : bool) then Ok (Some (AlwaysTrue (S (S (length before))) :: unreachable_rest (S (S (S (length before)))) rest he))
       else elif_instead_of_else I H (S (S (length before))) (u :: rest) he) in C.
    match type of C with bind ?x _ = _ => destruct x as [n|] eqn:NE; [|discriminate] end. cbn [bind] in C. destruct n.
    - assert (ms = AlwaysTrue (S (S (length before))) :: unreachable_rest (S (S (S (length before)))) rest he) by congruence. subst ms. clear C.
      destruct (is_pure_expression I t && is_pure_expression I u); [|discriminate]. destruct (TA NE) as (C1 & C2 & PR).
      destruct (negation_turned H CH P AG w t u false NE F1 F2 C1 C2 PR) as (b & TB & UB). unfold tests, turned in *.
      assert (OUT : forall q, S (S (S (length before))) <= q -> ~ reached P w (before ++ t :: u :: rest) q).
      { intros q L R. unfold reached in R. rewrite firstn_app in R. apply Forall_app in R. destruct R as [_ R].
        replace (q - 1 - length before) with (S (S (q - 3 - length before))) in R by lia. cbn [firstn] in R. inversion R as [|? ? R1 R']; subst. inversion R' as [|? ? R2 R'']; subst.
        rewrite TB in R1. rewrite UB in R2. destruct b; discriminate. }
      constructor.
      + split; [lia|]. exists u. split.
        * replace (S (S (length before)) - 1) with (S (length before)) by lia. rewrite nth_error_app2 by lia. replace (S (length before) - length before) with 1 by lia. reflexivity.
        * intro R. unfold reached in R. rewrite firstn_app in R. apply Forall_app in R. destruct R as [_ R]. replace (S (S (length before)) - 1 - length before) with 1 in R by lia.
          inversion R as [|? ? R1 _]; subst. rewrite TB in R1. rewrite UB. destruct b; [discriminate|reflexivity].
      + unfold unreachable_rest. apply Forall_app. split.
        * apply Forall_forall. intros m X. apply in_map_iff in X. destruct X as (q & <- & X). apply in_seq in X. split; [lia|]. split; [|apply OUT; lia].
          rewrite numbered_length, app_length. cbn [length]. lia.
        * destruct he; [|constructor]. constructor; [|constructor]. split; [lia|]. split; [|apply OUT; lia]. rewrite numbered_length, app_length. cbn [length]. lia.
    - specialize (IH F' N (before ++ [t]) ms). rewrite <- app_assoc, app_length in IH. cbn [app length] in IH. rewrite Nat.add_comm in IH. exact (IH C).
  Qed.
  Theorem check_right fuel extract I tests he p ms : reader extract -> check_chain unsat text_length fuel extract I H G tests he = Ok (p, ms) ->
    neighbours turned_apart tests -> Forall clear (skipn p tests) -> Forall (right_chain P w (skipn p tests) he) ms.
  Proof.
    intros RD C N F. unfold check_chain in C. destruct (Nat.ltb (length tests) 2).
    { injection C as <- <-. constructor. }
    destruct (elif_instead_of_else I H 1 tests he) as [[m|]|] eqn:EL; [| |discriminate]; cbn [bind] in C.
    - injection C as <- <-. cbn [skipn] in *. refine (elif_right I he tests _ N [] m EL). eapply Forall_impl; [|exact F]. intros t X. exact (proj1 X).
    - destruct (rest_right _ fuel extract I false he RD 0 tests p ms C) as [_ R]. rewrite Nat.sub_0_r in R. exact (R F).
  Qed.

  (** ** Following several messages *)
  Lemma follow_from all he ms : Forall (right_chain P w all he) ms -> Forall (fun t => exists b, test P t w = (w, Ok b)) all ->
    forall p tests l, followed ms p tests he l -> forall before, all = before ++ tests -> p = S (length before) -> reached P w all p ->
    choose P l w = choose P (numbered p tests he) w.
  Proof.
    intros R D. rewrite Forall_forall in R. assert (D' := D). rewrite Forall_forall in D'.
    assert (HERE : forall (before : list expr) t tests, all = before ++ t :: tests -> nth_error all (S (length before) - 1) = Some t) by (intros before t tests ->; apply nth_here).
    assert (NEXT : forall before t tests, all = before ++ t :: tests -> reached P w all (S (length before)) -> test P t w = (w, Ok false) -> reached P w all (S (S (length before)))).
    { intros before t tests E RC TF. unfold reached in *. replace (S (S (length before)) - 1) with (S (length before)) by lia. replace (S (length before) - 1) with (length before) in RC by lia. subst all.
      rewrite firstn_app, firstn_all, Nat.sub_diag in RC. cbn [firstn] in RC. rewrite app_nil_r in RC. rewrite firstn_app. rewrite firstn_all2 by lia. replace (S (length before) - length before) with 1 by lia. cbn [firstn].
      apply Forall_app. split; [exact RC|]. constructor; [exact TF|constructor]. }
    assert (STEP : forall before t tests e' l he', all = before ++ t :: tests -> reached P w all (S (length before)) -> (test P e' w = test P t w) ->
      (forall b2, all = b2 ++ tests -> S (S (length before)) = S (length b2) -> reached P w all (S (S (length before))) -> choose P l w = choose P (numbered (S (S (length before))) tests he') w) ->
      choose P ((S (length before), Some e') :: l) w = choose P (numbered (S (length before)) (t :: tests) he') w).
    { intros before t tests e' l he' E RC TE IH. cbn [choose numbered]. rewrite TE. destruct (D' t) as (b & TB); [subst all; apply in_or_app; right; left; reflexivity|]. rewrite TB. destruct b; [reflexivity|].
      apply (IH (before ++ [t])); [rewrite <- app_assoc; exact E|rewrite app_length; cbn [length]; lia|exact (NEXT before t tests E RC TB)]. }
    induction 1 as [p t tests he l F IH|p t tests he l I F IH|p t tests he l I F IH|p t s e tests he l I RD F IH|p|p|p I]; intros before E PB RC; subst p.
    - exact (STEP before t tests t l he E RC eq_refl (IH R)).
    - assert (TF : test P t w = (w, Ok false)).
      { destruct I as [I|I]; specialize (R _ I); cbn [right_chain] in R.
        - destruct R as (_ & t' & N & T). rewrite (HERE before t tests E) in N. assert (t' = t) by congruence. subst t'. exact (T RC).
        - destruct R as (_ & _ & N). exfalso. exact (N RC). }
      cbn [numbered choose]. rewrite TF. apply (IH R (before ++ [t])); [rewrite <- app_assoc; exact E|rewrite app_length; cbn [length]; lia|exact (NEXT before t tests E RC TF)].
    - specialize (R _ I). destruct R as (_ & t' & N & T). rewrite (HERE before t tests E) in N. assert (t' = t) by congruence. subst t'. cbn [numbered choose]. rewrite (T RC). reflexivity.
    - pose proof (R _ I) as (_ & t' & e' & N & RE & T). rewrite (HERE before t tests E) in N. assert (t' = t) by congruence. subst t'. rewrite (reads_det _ _ _ RE RD) in T.
      exact (STEP before t tests e l he E RC (eq_sym (T RC)) (IH R)).
    - reflexivity.
    - reflexivity.
    - specialize (R _ I). destruct R as (_ & _ & N). exfalso. exact (N RC).
  Qed.
  Theorem followed_same tests he ms l : Forall (right_chain P w tests he) ms -> Forall (fun t => exists b, test P t w = (w, Ok b)) tests -> followed ms 1 tests he l ->
    choose P l w = choose P (numbered 1 tests he) w.
  Proof. intros R D F. refine (follow_from tests he ms R D 1 tests l F [] eq_refl eq_refl _). constructor. Qed.
  Theorem check_followed fuel extract I tests he p ms : reader extract -> check_chain unsat text_length fuel extract I H G tests he = Ok (p, ms) ->
    neighbours turned_apart tests -> Forall clear (skipn p tests) -> Forall (fun t => exists b, test P t w = (w, Ok b)) (skipn p tests) ->
    forall l, followed ms 1 (skipn p tests) he l -> choose P l w = choose P (numbered 1 (skipn p tests) he) w.
  Proof. intros RD C N F D l FL. exact (followed_same _ he ms l (check_right fuel extract I tests he p ms RD C N F) D FL). Qed.
End Right.
