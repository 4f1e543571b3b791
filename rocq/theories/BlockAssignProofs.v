(** Proofs about the analysis of blocks: assignments. *)
From Coq Require Import String List Bool Arith NArith ZArith QArith Qabs Qround Lia.
From Verif Require Import Base PyModel PySpec PyProofs IfModel IfSpec IfProofs FoldModel FoldSpec FoldProofs TypeModel LocalModel LocalSpec LocalProofs LetterProofs MergeSpec SolverModel SolverSpec SolverProofs BlockModel BlockSpec BlockProofs BlockEnvProofs BlockStepProofs BlockChoiceProofs.
Import ListNotations.
Local Open Scope string_scope.
Local Open Scope list_scope.
Local Open Scope nat_scope.

Lemma fine_binary o a b : fine (Binary o a b) = true -> fine a = true /\ fine b = true.
Proof. unfold fine. cbn [well_formed no_nested_compare]. destruct (well_formed a), (well_formed b), (no_nested_compare a), (no_nested_compare b); try discriminate; auto. Qed.
Lemma fine_ifexp c a b : fine (IfExp c a b) = true -> fine c = true /\ fine a = true /\ fine b = true.
Proof.
  unfold fine. cbn [well_formed no_nested_compare]. destruct (well_formed a), (well_formed b), (well_formed c), (no_nested_compare a), (no_nested_compare b), (no_nested_compare c); try discriminate; auto.
Qed.

Section Assign.
  Variables (H : host) (G : inspection) (I : purity).
  Hypothesis CH : closed_host H.
  Context {W : Type}.
  Variables (P : python W) (M : machine W) (d : variables) (hidden : nat -> list string) (A : list string).
  Hypothesis AG : agrees P H.
  Hypothesis RG : regular P M I hidden.
  (** Variables that are not names do not depend on what is assigned. *)
  Definition stable : Prop := forall s, fine s = true -> find_var d (as_string s) <> None ->
    (exists y, as_string s = [TName y]) \/
    (exists e, fine e = true /\ as_string e = as_string s /\ is_pure_expression I e = true /\ forall x, List.In x A -> ~ List.In x (vars hidden e)).
  Hypothesis ST : stable.

  Notation tracks := (tracks P d).
  Notation initialized := (initialized H G).

  Lemma text_same s e w : fine s = true -> fine e = true -> as_string s = as_string e -> eval P s w = eval P e w.
  Proof. intros F F' E. apply (same_text_same s e F F'). rewrite E. apply text_eqb_refl. Qed.
  Lemma int_unassigned s x v w z : fine s = true -> find_var d (as_string s) <> None -> List.In x A -> as_string s <> [TName x] -> is_int P (assign M x v w) s z -> is_int P w s z.
  Proof.
    intros F K IA NE (u & GU & NU). exists u. split; [|exact NU]. unfold gives in *. destruct (ST s F K) as [(y & E)|(e & FE & E & PE & NV)].
    - rewrite (text_same s (Name y) _ F eq_refl E) in GU. rewrite (text_same s (Name y) _ F eq_refl E). cbn [eval] in *. assert (x <> y) by (intros ->; exact (NE E)).
      rewrite (assign_other _ _ _ _ RG x y v w) in GU by assumption. congruence.
    - rewrite (text_same s e _ F FE (eq_sym E)) in GU. rewrite (text_same s e _ F FE (eq_sym E)). rewrite (surjective_pairing (eval P e w)), (pure_quiet _ _ _ _ RG e w PE).
      rewrite <- (pure_local _ _ _ _ RG e x v w PE (NV x IA)), GU. reflexivity.
  Qed.
  Lemma tracks_ext f cur cur' w : (forall k, cur' k = cur k) -> tracks f cur w -> tracks f cur' w.
  Proof. intros E T s z F K IS. rewrite E. exact (T s z F K IS). Qed.
  Lemma tracks_agree c f g cur w : le cur c -> agree c f g -> tracks f cur w -> tracks g cur w.
  Proof. intros L AGR T s z F K IS. rewrite (AGR _); [exact (T s z F K IS)|]. exists s, (cur (as_string s)). split; [reflexivity|apply L]. Qed.
  (** Storing in a variable of the analysis. *)
  Lemma tracks_store f cur x v w m c : List.In x A -> le cur c -> (forall z, as_int v = Some z -> z = m) -> tracks f cur w ->
    tracks (setf f (prefixed [TName x] (S (c [TName x]))) m) (fun k => if text_eqb k [TName x] then S (c [TName x]) else cur k) (assign M x v w).
  Proof.
    intros IA L V T s z F K IS. destruct (text_eqb (as_string s) [TName x]) eqn:E.
    - apply text_eqb_eq in E. rewrite E, setf_same. symmetry. apply V. destruct IS as (u & GU & NU). unfold gives in GU. rewrite (text_same s (Name x) _ F eq_refl E) in GU. cbn [eval] in GU.
      rewrite (assign_same _ _ _ _ RG) in GU. congruence.
    - assert (NE : as_string s <> [TName x]) by (intro X; rewrite X, text_eqb_refl in E; discriminate).
      rewrite setf_other; [exact (T s z F K (int_unassigned s x v w z F K IA NE IS))|]. change [TName x] with (as_string (Name x)). intro X. apply prefixed_inj in X. destruct X as [X _]. exact (NE X).
  Qed.
  (** Storing in another variable. *)
  Lemma tracks_skip f cur x v w : List.In x A -> find_var d [TName x] = None -> tracks f cur w -> tracks f cur (assign M x v w).
  Proof. intros IA N T s z F K IS. apply (T s z F K). apply (int_unassigned s x v w z F K IA); [intro E; rewrite E in K; congruence|exact IS]. Qed.

  (** ** Values *)
  Lemma translate_leaf cur bp e z c : translate H d cur bp e = Ok (Some z) -> le cur c -> no_fraction e = true -> leaf_ok c z.
  Proof.
    unfold translate. destruct (convert H d bp e) as [[[y|] cc]|] eqn:C; cbn [bind fst]; try discriminate. destruct (sort_of y) eqn:SY; [|discriminate]. destruct (bp && negb (is_bool_term y)); [discriminate|].
    intros E L N. injection E as <-. destruct (convert_product H d e bp y cc C) as [O R]. split; [|split; [rewrite sort_rename; congruence|rewrite no_real_rename; exact (R N)]].
    apply over_rename. refine (over_vars_impl _ _ _ _ O). intros k [_ (s' & ->)]. exists s', (cur (as_string s')). split; [reflexivity|apply L].
  Qed.
  Lemma translate_condition cur e z c : translate H d cur true e = Ok (Some z) -> le cur c -> condition c z.
  Proof.
    unfold translate. destruct (convert H d true e) as [[[y|] cc]|] eqn:C; cbn [bind fst]; try discriminate. destruct (sort_of y) eqn:SY; [|discriminate]. destruct (is_bool_term y) eqn:B; cbn [andb negb]; [|discriminate].
    intros E L. injection E as <-. destruct (convert_product H d e true y cc C) as [O R]. unfold is_bool_term in B. rewrite SY in B. destruct s; try discriminate. split; [|rewrite sort_rename; exact SY].
    apply over_rename. refine (over_vars_impl _ _ _ _ O). intros k [_ (s' & ->)]. exists s', (cur (as_string s')). split; [reflexivity|apply L].
  Qed.
  Lemma translate_cond_sort cur e z c : is_condition e = true -> translate H d cur false e = Ok (Some z) -> le cur c -> condition c z.
  Proof.
    intros IC. unfold translate. destruct (convert H d false e) as [[[y|] cc]|] eqn:C; cbn [bind fst]; try discriminate. destruct (sort_of y) eqn:SY; [|discriminate]. cbn [andb].
    intros E L. injection E as <-. destruct (convert_product H d e false y cc C) as [O R]. split.
    - apply over_rename. refine (over_vars_impl _ _ _ _ O). intros k [_ (s' & ->)]. exists s', (cur (as_string s')). split; [reflexivity|apply L].
    - rewrite sort_rename. destruct e as [x|k|o a|o a b|o vs|a ops|g args|a x|a i|t a b|n]; try discriminate.
      + destruct k; try discriminate. cbn in C. injection C as <- _. reflexivity.
      + destruct o; try discriminate. cbn [convert is_bool_node] in C. destruct (convert H d true a) as [[[z|] ca]|]; cbn [bind fst snd to_bool andb] in C; try discriminate.
        assert (y = ZNot z) by congruence. subst y. cbn [sort_of] in *. destruct (sort_of z) as [[]|]; try discriminate. reflexivity.
      + rewrite convert_bool in C. destruct (convert_all H d vs) as [[[zs c']|]|]; cbn [bind] in C; try discriminate. assert (y = match o with And => ZAnd zs | Or => ZOr zs end) by congruence. subst y.
        destruct o; cbn [sort_of] in *; destruct (forallb _ zs); try discriminate; reflexivity.
      + cbn [convert] in C. destruct (convert H d false a) as [[l cl]|]; cbn [bind fst snd] in C; [|discriminate]. destruct ops as [|[op b] ops]; [discriminate|].
        destruct (convert H d false b) as [[r cr]|]; cbn [bind fst snd] in C; [|discriminate]. destruct l as [u|]; [|discriminate]. destruct r as [v|]; [|discriminate].
        assert (y = ZRel op u v) by (destruct op; cbn [convert_rel] in C; try discriminate; congruence). subst y. cbn [sort_of] in *. destruct (common_sort _ _); try discriminate. reflexivity.
  Qed.
  (** What the value of an assignment is allowed to be. *)
  Definition value_ok (e : expr) : Prop :=
    tidy_value e = true /\
    (Forall initialized (pieces e) \/
     exists o x a, e = Binary o (Name x) a /\ Forall initialized (pieces a) /\ nonlinear H e = Ok false /\ is_connective a = false /\ (is_condition a = false \/ is_linear o = true)).
  Lemma tidy_parts e : tidy_value e = true -> fine e = true /\ no_fraction e = true.
  Proof. unfold tidy_value. rewrite !andb_true_iff. tauto. Qed.
  Lemma value_choice cur c e v : tidy_value e = true -> translate_value H d cur false e = Ok (Some v) -> le cur c -> choice_ok c v.
  Proof.
    intros TV T L. destruct (tidy_parts e TV) as [F N]. unfold translate_value in T.
    assert (DEF : (do r <- translate H d cur false e; Ok (option_map One r)) = Ok (Some v) -> choice_ok c v).
    { destruct (translate H d cur false e) as [[z|]|] eqn:TE; cbn [bind option_map]; try discriminate. intro E. injection E as <-. exact (translate_leaf cur false e z c TE L N). }
    destruct e as [x|k|o a|o a b|o vs|a ops|g args|a x|a i|t a b|n]; try exact (DEF T).
    - destruct a as [x| | | | | | | | | |]; try exact (DEF T). destruct (is_linear o && is_condition b) eqn:LC; [|exact (DEF T)]. apply andb_true_iff in LC. destruct LC as [LO IC].
      unfold translate_coerced in T. destruct (find_var d [TName x]) as [int|]; [|discriminate]. destruct (translate H d cur false b) as [[z|]|] eqn:TB; cbn [bind option_map] in T; try discriminate. injection T as <-.
      cbn [choice_ok]. split; [exact (translate_cond_sort cur b z c IC TB L)|].
      assert (K : old c (prefixed [TName x] (cur [TName x]))) by (exists (Name x), (cur [TName x]); split; [reflexivity|apply L]).
      split; destruct o; try discriminate; (split; [split; [exact K|exact Logic.I]|split; [destruct int; discriminate|reflexivity]]).
    - destruct (translate H d cur true t) as [x|] eqn:TT; cbn [bind] in T; [|discriminate]. destruct (translate H d cur false a) as [y|] eqn:TA; cbn [bind] in T; [|discriminate].
      destruct (translate H d cur false b) as [z|] eqn:TB; cbn [bind] in T; [|discriminate]. destruct x as [x|]; [|discriminate]. destruct y as [y|]; [|discriminate]. destruct z as [z|]; [|discriminate]. injection T as <-.
      cbn [no_fraction] in N. rewrite !andb_true_iff in N. destruct N as [[N1 N2] N3]. cbn [choice_ok]. split; [exact (translate_condition cur t x c TT L)|].
      split; [exact (translate_leaf cur false a y c TA L N2)|exact (translate_leaf cur false b z c TB L N3)].
  Qed.
  (** The integer for a value of Python. *)
  Definition stands (v : value) (n : Z) : Prop := forall z, as_int v = Some z -> z = n.
  Lemma leaf_fits f w e v z ab : leaf_means P f w e v z -> (is_connective e = false \/ ab = true) -> exists n, stands v n /\ fits f ab z n.
  Proof.
    intros [(n & q & NV & ZV & QV)|(b & TV & ZV & NC)] X.
    - exists n. split; [intros m E; congruence|]. left. exists q. auto.
    - exists (match as_int v with Some m => m | None => Z.b2z b end). split; [intros m E; rewrite E; reflexivity|]. right. exists b. split; [exact ZV|].
      destruct X as [X|X].
      + specialize (NC X). subst v. cbn [as_int]. split; [destruct b; reflexivity|reflexivity].
      + split; [|congruence]. destruct (as_int v) as [m|] eqn:E; [|destruct b; reflexivity]. rewrite (int_truth P w v m E) in TV. congruence.
  Qed.
  Lemma value_picks f cur c e v w u : value_ok e -> translate_value H d cur false e = Ok (Some v) -> le cur c -> tracks f cur w -> Forall (integral P) (evaluated_value P e w) -> gives P w e u ->
    exists z n, pick f v = Some z /\ stands u n /\ fits f (is_bool_choice v) z n.
  Proof.
    intros [TV VO] T L TR IN GU. destruct (tidy_parts e TV) as [F N]. pose proof T as T0. unfold translate_value in T.
    assert (DEF : Forall initialized [e] -> integral P (e, w) -> (do r <- translate H d cur false e; Ok (option_map One r)) = Ok (Some v) -> exists z n, pick f v = Some z /\ stands u n /\ fits f (is_bool_choice v) z n).
    { intros IE II. destruct (translate H d cur false e) as [[z|]|] eqn:TE; cbn [bind option_map]; try discriminate. intro E. injection E as <-. inversion IE as [|? ? IE' _]; subst.
      destruct (value_meaning H G CH P d AG e z f cur w IE' F II TR TE) as (u' & GU' & LM). assert (u' = u) by (unfold gives in *; congruence). subst u'.
      destruct (leaf_fits f w e u z (is_bool_term z) LM) as (n & S1 & FT); [|exists z, n; cbn [pick is_bool_choice]; auto].
      destruct (is_connective e) eqn:IC; [right|left; reflexivity]. destruct e; try discriminate.
      pose proof (translate_cond_sort cur (BoolOp o vs) z c eq_refl TE L) as [_ SZ]. unfold is_bool_term. rewrite SZ. reflexivity. }
    assert (SIMPLE : match e with IfExp _ _ _ | Binary _ _ _ => False | _ => True end -> Forall initialized [e] /\ integral P (e, w)).
    { intro X. split; [|destruct e; try contradiction; inversion IN; assumption]. destruct VO as [VO|(o & x & a & -> & _)]; [|contradiction]. destruct e; try contradiction; exact VO. }
    destruct e as [x|k|o a|o a b|o vs|a ops|g args|a x|a i|t a b|n]; try (destruct (SIMPLE Logic.I) as [S1 S2]; exact (DEF S1 S2 T)).
    - inversion IN as [|? ? II _]; subst. destruct VO as [VO|(o' & x & a' & E & IA & NL & NC & LC)].
      + (* an ordinary sum: the right operand is no condition *)
        destruct a as [x| | | | | | | | | |]; try exact (DEF VO II T). destruct (is_linear o && is_condition b) eqn:LC; [|exact (DEF VO II T)]. exfalso.
        apply andb_true_iff in LC. destruct LC as [LO IC]. inversion VO as [|? ? (mk & d0 & d1 & IB) _]; subst. rewrite init_binary in IB.
        destruct (not_allowed H G (Binary o (Name x) b) false true) as [[]|]; cbn [bind] in IB; try discriminate. unfold nonlinear in IB. destruct (is_number H (Binary o (Name x) b)) as [[]|]; cbn [bind] in IB; try discriminate.
        * destruct o; try discriminate; cbn [init_all] in IB; destruct (initialize H G mk false false (Name x) d0) as [[[] da]|]; cbn [bind fst snd] in IB; try discriminate;
            destruct b as [| []|[]| | | | | | | |]; try discriminate; rewrite ?init_bool, ?init_unary, ?init_compare, ?orb_true_r in IB; cbn in IB; try discriminate.
        * destruct o; try discriminate; cbn [bind init_all] in IB; destruct (initialize H G mk false false (Name x) d0) as [[[] da]|]; cbn [bind fst snd] in IB; try discriminate;
            destruct b as [| []|[]| | | | | | | |]; try discriminate; rewrite ?init_bool, ?init_unary, ?init_compare, ?orb_true_r in IB; cbn in IB; try discriminate.
      + injection E as <- -> <-. destruct (is_linear o && is_condition b) eqn:LC'.
        * (* a condition is added *)
          apply andb_true_iff in LC'. destruct LC' as [LO IC]. unfold translate_coerced in T. destruct (find_var d [TName x]) as [int|] eqn:FV; [|discriminate].
          destruct (translate H d cur false b) as [[z|]|] eqn:TB; cbn [bind option_map] in T; try discriminate. injection T as <-.
          assert (IB : initialized b) by (destruct b; try discriminate; inversion IA; assumption). destruct (fine_binary _ _ _ F) as [_ FB].
          destruct II as (AB & WH & DV). cbn [fst snd] in AB, WH, DV. unfold whole in WH. cbn [numbers] in WH. inversion WH as [|? ? _ WX]; subst. inversion WX as [|? ? (nx & vx & GX & NX) WB]; subst.
          assert (IIB : integral P (b, w)) by (split; [exact AB|]; split; [exact WB|]; destruct DV as (_ & _ & DV); exact DV).
          destruct (value_meaning H G CH P d AG b z f cur w IB FB IIB TR TB) as (vb & GB & LM). pose proof (translate_cond_sort cur b z c IC TB L) as CZ.
          destruct LM as [(n' & q & _ & ZV & _)|(bb & TVB & ZV & NCB)]; [destruct (condition_value c z f CZ) as (bb & X); congruence|]. specialize (NCB NC). subst vb.
          set (var := ZVar (prefixed [TName x] (cur [TName x])) int) in *.
          assert (VV : zeval (env f) var = Some (ZN (inject_Z nx))).
          { unfold var. cbn [zeval env int_var real_var]. assert (E : f (prefixed [TName x] (cur [TName x])) = nx) by (apply (TR (Name x) nx eq_refl); [cbn [as_string]; congruence|exists vx; auto]). rewrite E. destruct int; reflexivity. }
          set (change := fun n => match o with Add => ZAdd var (ZInt n) | Sub => ZSub var (ZInt n) | _ => ZMul var (ZInt n) end).
          exists (change (Z.b2z bb)). assert (RES : exists m, u = VInt m /\ exists q, zeval (env f) (change (Z.b2z bb)) = Some (ZN q) /\ (q == inject_Z m)%Q).
          { unfold gives in GU. cbn [eval] in GU. unfold gives in GX. cbn [eval] in GX. assert (LX : lookup P x w = Ok vx) by congruence. unfold andthen at 1 in GU. rewrite LX in GU. unfold andthen at 1 in GU. unfold gives in GB. rewrite GB in GU.
            unfold binary in GU. rewrite NX in GU. cbn [as_int] in GU.
            destruct o; try discriminate; cbn [int_op] in GU; unfold pure, bool_result in GU; eexists; (split; [symmetry; injection GU as E; exact E|]); eexists; unfold change; cbn [zeval]; rewrite VV; cbn [znumbers]; (split; [reflexivity|]).
            - rewrite inject_Z_plus. reflexivity.
            - unfold Qminus, Z.sub. rewrite inject_Z_plus, inject_Z_opp. reflexivity.
            - rewrite inject_Z_mult. reflexivity. }
          destruct RES as (m & -> & q & ZQ & QM). exists m. split; [cbn [pick]; rewrite ZV; destruct bb; reflexivity|]. split; [intros y E; cbn in E; congruence|]. left. exists q. auto.
        * (* a number *)
          assert (IC : is_condition b = false) by (destruct LC as [LC|LC]; [exact LC|rewrite LC in LC'; exact LC']).
          destruct (translate H d cur false (Binary o (Name x) b)) as [[z|]|] eqn:TB; cbn [bind option_map] in T; try discriminate. injection T as <-.
          assert (ND : o <> Div) by (intros ->; discriminate N).
          assert (IB : initialized b).
          { destruct b as [| | | | | | | | |t' a' b'|]; try (inversion IA; assumption). exfalso. unfold translate in TB. cbn [convert] in TB. rewrite NL in TB. cbn [bind] in TB.
            assert (K : get_const_value H (IfExp t' a' b') = Ok VNone \/ exists r, get_const_value H (IfExp t' a' b') = Raise r).
            { unfold get_const_value. destruct (fold H (IfExp t' a' b')) as [y|r] eqn:FD; [pose proof (closed_fold H _ y FD); discriminate|]. destruct (caught r); [left; reflexivity|right; exists r; reflexivity]. }
            destruct (find_var d (as_string (Name x))) as [int|]; cbn [bind] in TB; [|discriminate]. cbn [to_bool andb fst snd] in TB.
            destruct o; cbn [bind fst snd to_bool] in TB; try discriminate; try congruence.
            all: destruct (is_int_term _); try discriminate; unfold convert_by_constant in TB; destruct K as [K|(r & K)]; rewrite K in TB; discriminate. }
          assert (CE : is_cond b = false) by (destruct b as [| []|[]| | | | | | | |]; try discriminate IC; reflexivity).
          destruct (augmented_meaning H G CH P d AG o x b z f cur w IB CE ND F II TR NL TB) as (u' & GU' & LM). assert (u' = u) by (unfold gives in *; congruence). subst u'.
          destruct (leaf_fits f w _ u z (is_bool_term z) LM) as (m & S1 & FT); [left; reflexivity|]. exists z, m. cbn [pick is_bool_choice]. auto.
    - (* conditional expression *)
      destruct VO as [VO|(o & x & a' & E & _)]; [|discriminate E]. cbn [pieces] in VO. inversion VO as [|? ? IT VO2]; subst. inversion VO2 as [|? ? IA VO3]; subst. inversion VO3 as [|? ? IB _]; subst.
      destruct (translate H d cur true t) as [x|] eqn:TT; cbn [bind] in T; [|discriminate]. destruct (translate H d cur false a) as [y|] eqn:TA; cbn [bind] in T; [|discriminate].
      destruct (translate H d cur false b) as [z|] eqn:TB; cbn [bind] in T; [|discriminate]. destruct x as [x|]; [|discriminate]. destruct y as [y|]; [|discriminate]. destruct z as [z|]; [|discriminate]. injection T as <-.
      destruct (fine_ifexp _ _ _ F) as (FT & FA & FB). cbn [evaluated_value] in IN. inversion IN as [|? ? I1 IN2]; subst. inversion IN2 as [|? ? I2 _]; subst.
      destruct (condition_meaning H G CH P d AG t x f cur w IT FT I1 TR TT) as (bt & vt & GT & TVT & ZT).
      assert (HN : holds_now P t w = bt) by (unfold holds_now, test, andthen; unfold gives in GT; rewrite GT, TVT; destruct bt; reflexivity). rewrite HN in I2.
      assert (GU' : gives P w (if bt then a else b) u).
      { unfold gives in *. cbn [eval] in GU. unfold andthen at 1 in GU. rewrite GT in GU. unfold andthen in GU. rewrite TVT in GU. destruct bt; exact GU. }
      unfold tidy_value in TV. apply andb_true_iff in TV. destruct TV as [_ TV]. apply andb_true_iff in TV. destruct TV as [NA NB]. apply negb_true_iff in NA, NB.
      cbn [pick is_bool_choice]. rewrite ZT. destruct bt.
      + destruct (value_meaning H G CH P d AG a y f cur w IA FA I2 TR TA) as (u' & GV & LM). assert (u' = u) by (unfold gives in *; congruence). subst u'.
        destruct (leaf_fits f w a u y (is_bool_term y && is_bool_term z) LM (or_introl NA)) as (n & S1 & FT'). exists y, n. auto.
      + destruct (value_meaning H G CH P d AG b z f cur w IB FB I2 TR TB) as (u' & GV & LM). assert (u' = u) by (unfold gives in *; congruence). subst u'.
        destruct (leaf_fits f w b u z (is_bool_term y && is_bool_term z) LM (or_introl NB)) as (n & S1 & FT'). exists z, n. auto.
  Qed.

  (** ** Several targets *)
  Lemma assign_static cur ts : forall values st done l st', Forall (fun e => tidy_value e = true) values -> le cur (count st) -> ok_st st -> ok_changes d (count st) done ->
    assign_all H d cur false ts values st done = Ok (Some (l, st')) ->
    le (count st) (count st') /\ ok_st st' /\ ok_changes d (count st') l /\ forall f, sat f (relations st) -> exists f', agree (count st) f f' /\ sat f' (relations st').
  Proof.
    induction ts as [|[x|] ts IH]; intros values st done l st' VS L OK OC AS; cbn [assign_all] in AS; [|destruct (find_var d [TName x]) as [int|] eqn:FV|discriminate].
    - injection AS as <- <-. split; [apply le_refl'|]. split; [exact OK|]. split; [exact OC|]. intros f S1. exists f. split; [apply agree_refl|exact S1].
    - destruct values as [|e values]; [discriminate|]. inversion VS as [|? ? TV VS']; subst. destruct (translate_value H d cur false e) as [[v|]|] eqn:T; cbn [bind] in AS; try discriminate.
      destruct (update_relations x int v st) as [n s1] eqn:U. assert (V := value_choice cur (count st) e v TV T L). destruct (write_count x int v st s1 n U) as (E1 & E2 & L1).
      destruct (IH values s1 (set_change x n done) l st' VS' (le_trans' _ _ _ L L1) (write_ok x int v st s1 n U OK V)) as (L2 & OK2 & OC2 & X).
      + apply ok_set; [exact (changes_le d _ _ _ L1 OC)|congruence|rewrite E2, bump_same; lia].
      + exact AS.
      + split; [exact (le_trans' _ _ _ L1 L2)|]. split; [exact OK2|]. split; [exact OC2|]. intros f S1. destruct (write_static x int v st s1 n U OK V f S1) as (f1 & A1 & S2). destruct (X f1 S2) as (f2 & A2 & S3).
        exists f2. split; [exact (agree_trans _ _ _ _ _ L1 A1 A2)|exact S3].
    - apply (IH (tl values) st done l st'); try assumption. destruct values; [exact VS|]. inversion VS; assumption.
  Qed.
  Lemma assign_dynamic cur ts w w' : forall values us st done l st' f w1,
    Forall value_ok values -> Forall (fun e => Forall (integral P) (evaluated_value P e w)) values -> Forall2 (gives P w) values us ->
    le cur (count st) -> ok_st st -> ok_changes d (count st) done -> incl (target_names ts) A ->
    assign_all H d cur false ts values st done = Ok (Some (l, st')) ->
    sat f (relations st) -> tracks f cur w -> tracks f (update cur done) w1 -> store_all M ts us w1 = (w', Done) ->
    exists f', agree (count st) f f' /\ sat f' (relations st') /\ tracks f' (update cur l) w'.
  Proof.
    induction ts as [|[x|] ts IH]; intros values us st done l st' f w1 VS IS GS L OK OC IA AS S1 T0 T1 SR; cbn [assign_all] in AS; [|destruct (find_var d [TName x]) as [int|] eqn:FV|discriminate].
    - injection AS as <- <-. exists f. split; [apply agree_refl|]. split; [exact S1|]. destruct us; [|discriminate SR]. cbn [store_all] in SR. assert (w1 = w') by congruence. subst w'. exact T1.
    - destruct values as [|e values]; [discriminate|]. inversion VS as [|? ? VE VS']; subst. inversion IS as [|? ? IE IS']; subst. inversion GS as [|? u ? us' GE GS']; subst. pose proof (proj1 VE) as TV.
      destruct (translate_value H d cur false e) as [[v|]|] eqn:T; cbn [bind] in AS; try discriminate.
      destruct (update_relations x int v st) as [n s1] eqn:U. assert (V := value_choice cur (count st) e v TV T L). destruct (write_count x int v st s1 n U) as (E1 & E2 & L1).
      destruct (value_picks f cur (count st) e v w u VE T L T0 IE GE) as (z & m & PK & SM & FT).
      assert (AX : List.In x A) by (apply IA; left; reflexivity).
      assert (S2 := write_sat x int v st s1 n U OK V f z m S1 PK FT). assert (A1 : agree (count st) f (setf f (prefixed [TName x] n) m)) by (rewrite E1; apply agree_fresh).
      cbn [store_all store] in SR.
      assert (UL : le (update cur done) (count st)) by (apply (update_le d); assumption).
      destruct (IH values us' s1 (set_change x n done) l st' (setf f (prefixed [TName x] n) m) (assign M x u w1)) as (f' & A2 & S3 & T3); try assumption.
      + exact (le_trans' _ _ _ L L1).
      + exact (write_ok x int v st s1 n U OK V).
      + apply ok_set; [exact (changes_le d _ _ _ L1 OC)|congruence|rewrite E2, bump_same; lia].
      + intros y Y. apply IA. right. exact Y.
      + exact (tracks_agree _ _ _ _ _ L A1 T0).
      + refine (tracks_ext _ _ _ _ _ _); [intro k; apply update_set|]. rewrite E1. exact (tracks_store f (update cur done) x u w1 m (count st) AX UL SM T1).
      + exists f'. split; [exact (agree_trans _ _ _ _ _ L1 A1 A2)|]. split; [exact S3|exact T3].
    - assert (AX : List.In x A) by (apply IA; left; reflexivity). destruct us as [|u us]; [discriminate SR|]. cbn [store_all store] in SR. inversion GS as [|e ? ? ? GE GS' EV]; subst. cbn [tl] in AS.
      inversion VS; subst. inversion IS; subst. destruct (IH l0 us st done l st' f (assign M x u w1)) as (f' & X); try assumption; [intros y Y; apply IA; right; exact Y|exact (tracks_skip f (update cur done) x u w1 AX FV T1)|].
      exists f'. exact X.
  Qed.
End Assign.
