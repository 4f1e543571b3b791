From Coq Require Import String List Bool Arith NArith ZArith Lia.
From Verif Require Import Base PyModel PySpec PyProofs IfModel IfSpec IfProofs FoldModel FoldSpec.
Import ListNotations.
Local Open Scope string_scope.
Local Open Scope list_scope.

(** ** Folding *)
Section Fold.
  Variable H : host.
  Hypothesis CH : closed_host H.

  Lemma const_constant c : constant (const_value c).
  Proof. destruct c; exact I. Qed.
  Lemma unary_constant o v r : constant v -> unary_operator H o v = Ok r -> constant r.
  Proof.
    intros C. unfold unary_operator, unary. destruct o; [destruct v; cbn; try (intro K; injection K as <-; exact I); destruct C| | |];
    (destruct (as_int v); [cbn; intro K; injection K as <-; exact I|]; cbn; apply (closed_unary H CH)).
  Qed.
  Lemma binary_constant o f v u r : binary_operator H o = Ok f -> f v u = Ok r -> constant r.
  Proof.
    intros F. assert (E : f = fun v w => snd (binary (host_python H) o v w tt)) by (destruct o; try discriminate F; injection F as <-; reflexivity).
    subst f. unfold binary. destruct (as_int v), (as_int u); try apply (closed_binary H CH).
    destruct (int_op o z z0) as [[]|]; [|discriminate|apply (closed_binary H CH)]. cbn. intro K. injection K as <-.
    destruct o; try exact I; destruct v, u; exact I.
  Qed.
  Lemma compare_constant c f v u r : compare_operator H c = Ok f -> f v u = Ok r -> constant r.
  Proof.
    intros F. assert (E : f = fun v w => snd (compare (host_python H) c v w tt)) by (destruct c; try discriminate F; injection F as <-; reflexivity).
    subst f. unfold compare.
    assert (O : forall lt eq, snd (match decide c lt eq with Some b => pure (VBool b) | None => compare_op (host_python H) c v u end tt) = Ok r -> constant r).
    { intros lt eq. destruct (decide c lt eq); [|apply (closed_compare H CH)]. cbn. intro K. injection K as <-. exact I. }
    destruct (as_int v), (as_int u); try apply O; destruct v; try apply (closed_compare H CH); destruct u; try apply (closed_compare H CH); apply O.
  Qed.

  Section Agree.
    Context {W : Type}.
    Variable P : python W.
    Hypothesis AG : agrees P H.

    Lemma unary_agrees o v w : constant v -> is_num v = true -> unary P o v w = (w, unary_operator H o v).
    Proof.
      intros C N. unfold unary_operator, unary. destruct o; [destruct v; try reflexivity; destruct C| | |];
      (destruct (as_int v); [reflexivity|]; cbn; apply (agree_unary _ _ AG); exact C).
    Qed.
    Lemma binary_agrees o f v u w : binary_operator H o = Ok f -> constant v -> constant u -> binary P o v u w = (w, f v u).
    Proof.
      intros F C D. assert (E : f = fun v w => snd (binary (host_python H) o v w tt)) by (destruct o; try discriminate F; injection F as <-; reflexivity).
      subst f. unfold binary. destruct (as_int v), (as_int u); try (cbn; apply (agree_binary _ _ AG); assumption).
      destruct (int_op o z z0) as [[]|]; try reflexivity. cbn. apply (agree_binary _ _ AG); assumption.
    Qed.
    Lemma compare_agrees c f v u w : compare_operator H c = Ok f -> constant v -> constant u -> compare P c v u w = (w, f v u).
    Proof.
      intros F C D. assert (E : f = fun v w => snd (compare (host_python H) c v w tt)) by (destruct c; try discriminate F; injection F as <-; reflexivity).
      subst f. unfold compare.
      assert (O : forall lt eq, match decide c lt eq with Some b => pure (VBool b) | None => compare_op P c v u end w =
        (w, snd (match decide c lt eq with Some b => pure (VBool b) | None => compare_op (host_python H) c v u end tt))).
      { intros lt eq. destruct (decide c lt eq); [reflexivity|]. cbn. apply (agree_compare _ _ AG); assumption. }
      assert (O' : compare_op P c v u w = (w, snd (compare_op (host_python H) c v u tt))) by (cbn; apply (agree_compare _ _ AG); assumption).
      destruct (as_int v), (as_int u); try apply O; destruct v; try apply O'; destruct u; try apply O'; apply O.
    Qed.
    Lemma truth_const v w : constant v -> truth P v w = (w, Ok (const_truth v)).
    Proof. destruct v; intro C; try reflexivity. destruct C. Qed.
  End Agree.

  Definition good_fold (e : expr) : Prop := forall v, fold H e = Ok v ->
    constant v /\ forall W (P : python W), agrees P H -> forall w, eval P e w = (w, Ok v).

  Definition reduce (o : boolop) : value -> list expr -> res value := fix go acc l :=
    match l with
    | [] => Ok acc
    | x :: l => do u <- fold H x; go (bool_operator o acc u) l
    end.
  Lemma fold_bool o vs : fold H (BoolOp o vs) =
    match vs with a :: b :: r => do v <- fold H a; reduce o v (b :: r) | _ => Raise AssertionError end.
  Proof. reflexivity. Qed.
  Lemma operator_neutral o a u : const_truth a = neutral o -> bool_operator o a u = u.
  Proof. destruct o; cbn; intros ->; reflexivity. Qed.
  Lemma operator_other o a u : const_truth a <> neutral o -> bool_operator o a u = a.
  Proof. destruct o; cbn; destruct (const_truth a); congruence. Qed.
  Lemma reduce_stuck o l : forall acc r, const_truth acc <> neutral o -> reduce o acc l = Ok r -> r = acc.
  Proof.
    induction l as [|x l IH]; intros acc r N E; cbn [reduce] in E; [congruence|]. destruct (fold H x) as [u|]; [|discriminate].
    cbn [bind] in E. rewrite (operator_other o acc u N) in E. apply IH; assumption.
  Qed.
  Lemma reduce_value o l : Forall good_fold l -> forall acc r, constant acc -> reduce o acc l = Ok r ->
    constant r /\ forall W (P : python W), agrees P H -> forall w (m : comp value), m w = (w, Ok acc) -> shortcut P o (m :: map (eval P) l) w = (w, Ok r).
  Proof.
    induction 1 as [|x l G F IH]; intros acc r C E; cbn [reduce] in E.
    - injection E as <-. split; [exact C|]. intros W P AG w m M. exact M.
    - destruct (fold H x) as [u|] eqn:FX; [|discriminate]. cbn [bind] in E. destruct (G u FX) as [CU EU].
      destruct (bool_dec (const_truth acc) (neutral o)) as [T|T].
      + rewrite (operator_neutral o acc u T) in E. destruct (IH u r CU E) as [CR ER]. split; [exact CR|].
        intros W P AG w m M. cbn [map shortcut]. unfold andthen at 1. rewrite M. unfold andthen at 1. rewrite (truth_const P acc w C), T, Bool.eqb_reflx.
        apply (ER W P AG). apply EU. exact AG.
      + rewrite (operator_other o acc u T) in E. rewrite (reduce_stuck o l acc r T E). split; [exact C|].
        intros W P AG w m M. cbn [map shortcut]. unfold andthen at 1. rewrite M. unfold andthen at 1. rewrite (truth_const P acc w C).
        rewrite (proj2 (eqb_false_iff _ _) T). reflexivity.
  Qed.

  Theorem fold_good e : good_fold e.
  Proof.
    induction e as [x|c|o a IHa|o a b IHa IHb|o vs IHvs|a ops IHa IHops|g args IHg IHargs|a x IHa|a i IHa IHi|c a b IHc IHa IHb|n] using expr_ind';
      intros v E; try discriminate E.
    - cbn in E. injection E as <-. split; [apply const_constant|]. reflexivity.
    - cbn [fold] in E. destruct (fold H a) as [u|] eqn:FA; [|discriminate]. cbn [bind] in E. destruct (is_num u) eqn:N; [|discriminate].
      destruct (IHa u FA) as [C EV]. split; [eapply unary_constant; eassumption|]. intros W P AG w. cbn [eval]. unfold andthen.
      rewrite (EV W P AG w). rewrite (unary_agrees P AG o u w C N). rewrite E. reflexivity.
    - cbn [fold] in E. destruct (fold H b) as [u|] eqn:FB; [|discriminate]. cbn [bind] in E. destruct (no_division o || not_zero u); [|discriminate].
      destruct (binary_operator H o) as [f|] eqn:F; [|discriminate]. cbn [bind] in E. destruct (fold H a) as [t|] eqn:FA; [|discriminate]. cbn [bind] in E.
      destruct (IHa t FA) as [CT ET], (IHb u FB) as [CU EU]. split; [eapply binary_constant; eassumption|]. intros W P AG w. cbn [eval]. unfold andthen.
      rewrite (ET W P AG w), (EU W P AG w), (binary_agrees P AG o f t u w F CT CU), E. reflexivity.
    - rewrite fold_bool in E. destruct vs as [|a [|b r]]; try discriminate. destruct (fold H a) as [u|] eqn:FA; [|discriminate]. cbn [bind] in E.
      inversion IHvs as [|? ? G1 G2]; subst. destruct (G1 u FA) as [CU EU]. destruct (reduce_value o (b :: r) G2 u v CU E) as [CR ER]. split; [exact CR|].
      intros W P AG w. rewrite eval_bool. apply (ER W P AG). apply EU. exact AG.
    - cbn [fold] in E. destruct ops as [|[c b] [|]]; try discriminate. destruct (compare_operator H c) as [f|] eqn:F; [|discriminate]. cbn [bind] in E.
      destruct (fold H a) as [t|] eqn:FA; [|discriminate]. cbn [bind] in E. destruct (fold H b) as [u|] eqn:FB; [|discriminate]. cbn [bind] in E.
      inversion IHops as [|? ? IHb _]; subst. cbn in IHb.
      destruct (IHa t FA) as [CT ET], (IHb u FB) as [CU EU]. split; [eapply compare_constant; eassumption|]. intros W P AG w. cbn [eval]. unfold andthen.
      rewrite (ET W P AG w), (EU W P AG w), (compare_agrees P AG c f t u w F CT CU), E. reflexivity.
  Qed.

  Theorem folded_value e v : get_const_value H e = Ok v -> v <> VNone -> forall W (P : python W), agrees P H -> forall w, eval P e w = (w, Ok v).
  Proof.
    unfold get_const_value. destruct (fold H e) as [u|x] eqn:F.
    - intros E _. injection E as ->. apply (fold_good e v F).
    - destruct (caught x); [|discriminate]. congruence.
  Qed.
End Fold.

(** ** Exceptions *)
Definition tame {A} (r : res A) : Prop := match r with Ok _ => True | Raise x => caught x = true end.
Lemma tame_bind {A B} (r : res A) (k : A -> res B) : tame r -> (forall a, r = Ok a -> tame (k a)) -> tame (bind r k).
Proof. destruct r; cbn; intros T K; [apply K; reflexivity|exact T]. Qed.

Section Tame.
  Variable H : host.
  Hypothesis TH : tame_host H.
  Lemma host_tame (r : res value) : (forall x, r = Raise x -> x = TypeError \/ x = ValueError) -> tame r.
  Proof. destruct r; cbn; intro K; [exact I|]. destruct (K _ eq_refl) as [-> | ->]; reflexivity. Qed.
  Lemma unary_tame o v : is_num v = true -> tame (unary_operator H o v).
  Proof.
    intro N. unfold unary_operator, unary. destruct o; [destruct v; try discriminate; exact I| | |];
    (destruct (as_int v); [exact I|]; cbn; apply host_tame, (tame_unary H TH)).
  Qed.
  Lemma zero_int v z : as_int v = Some z -> not_zero v = true -> z <> 0%Z.
  Proof.
    destruct v; cbn; try discriminate; intros E N; injection E as <-.
    - destruct b; [discriminate|discriminate].
    - intros ->. discriminate.
  Qed.
  Lemma binary_tame o f v u : binary_operator H o = Ok f -> no_division o || not_zero u = true -> o <> Pow -> tame (f v u).
  Proof.
    intros F N NP. assert (E : f = fun v w => snd (binary (host_python H) o v w tt)) by (destruct o; try discriminate F; injection F as <-; reflexivity).
    subst f. unfold binary. destruct (as_int v) as [a|], (as_int u) as [b|] eqn:U; try (cbn; apply host_tame, (tame_binary H TH)).
    destruct o; try discriminate F; cbn in N |- *; try exact I; try congruence.
    all: try (assert (b <> 0%Z) by (eapply zero_int; eassumption); destruct (Z.eqb_spec b 0); [contradiction|]; cbn; try exact I; apply host_tame, (tame_binary H TH)).
    all: destruct (Z.leb 0 b); exact I || reflexivity.
  Qed.
  Lemma compare_tame c f v u : compare_operator H c = Ok f -> tame (f v u).
  Proof.
    intros F. assert (E : f = fun v w => snd (compare (host_python H) c v w tt)) by (destruct c; try discriminate F; injection F as <-; reflexivity).
    subst f. unfold compare.
    assert (O : forall lt eq, tame (snd (match decide c lt eq with Some b => pure (VBool b) | None => compare_op (host_python H) c v u end tt))).
    { intros lt eq. destruct (decide c lt eq); [exact I|]. cbn. apply host_tame, (tame_compare H TH). }
    assert (O' : tame (snd (compare_op (host_python H) c v u tt))) by (cbn; apply host_tame, (tame_compare H TH)).
    destruct (as_int v), (as_int u); try apply O; destruct v; try apply O'; destruct u; try apply O'; apply O.
  Qed.
  Lemma reduce_tame o l : Forall (fun e => tame (fold H e)) l -> forall acc, tame (reduce H o acc l).
  Proof.
    induction 1 as [|x l T F IH]; intro acc; [exact I|]. cbn [reduce]. apply tame_bind; [exact T|]. intros u _. apply IH.
  Qed.
  Theorem fold_tame e : well_formed e = true -> no_power e = true -> tame (fold H e).
  Proof.
    induction e as [x|c|o a IHa|o a b IHa IHb|o vs IHvs|a ops IHa IHops|g args IHg IHargs|a x IHa|a i IHa IHi|c a b IHc IHa IHb|n] using expr_ind';
      intros WF NP; try exact I; try reflexivity; cbn [well_formed no_power] in WF, NP.
    - cbn [fold]. apply tame_bind; [auto|]. intros u _. destruct (is_num u) eqn:N; [apply unary_tame; exact N|reflexivity].
    - apply andb_true_iff in WF, NP. destruct WF as [W1 W2], NP as [NP N3]. apply andb_true_iff in NP. destruct NP as [N1 N2].
      cbn [fold]. apply tame_bind; [auto|]. intros u _. destruct (no_division o || not_zero u) eqn:N; [|reflexivity].
      apply tame_bind; [destruct o; exact I || reflexivity|]. intros f F. apply tame_bind; [auto|]. intros v _.
      eapply binary_tame; [exact F|exact N|]. intros ->. discriminate.
    - apply andb_true_iff in WF. destruct WF as [L WF]. rewrite fold_bool. destruct vs as [|a [|b r]]; try discriminate L.
      assert (A : Forall (fun e => tame (fold H e)) (a :: b :: r)).
      { rewrite Forall_forall in *. intros e Hin. rewrite forallb_forall in WF, NP. apply IHvs; auto. }
      inversion A as [|? ? A1 A2]; subst. apply tame_bind; [exact A1|]. intros v _. apply reduce_tame. exact A2.
    - apply andb_true_iff in WF, NP. destruct WF as [WF W3], NP as [N1 N2]. apply andb_true_iff in WF. destruct WF as [W1 W2].
      cbn [fold]. destruct ops as [|[c b] [|]]; try reflexivity. apply tame_bind; [destruct c; exact I || reflexivity|]. intros f F.
      apply tame_bind; [auto|]. intros v _. inversion IHops as [|? ? IHb _]; subst. cbn [snd forallb] in *. rewrite andb_true_r in *.
      apply tame_bind; [auto|]. intros u _. eapply compare_tame. exact F.
  Qed.
  Theorem folding_ends e : well_formed e = true -> no_power e = true -> exists v, get_const_value H e = Ok v.
  Proof.
    intros WF NP. pose proof (fold_tame e WF NP) as T. unfold get_const_value. destruct (fold H e) as [v|x]; [eauto|]. cbn in T. rewrite T. eauto.
  Qed.
End Tame.

(** ** Negations *)
Section Negation.
  Variable H : host.
  Hypothesis CH : closed_host H.
  Context {W : Type}.
  Variable P : python W.
  Hypothesis AG : agrees P H.
  Variable w : W.
  Notation gives := (gives P w). Notation calm := (calm P w). Notation paired := (paired P w).
  Definition tests (e : expr) (b : bool) : Prop := test P e w = (w, Ok b).

  Lemma tests_gives e v b : gives e v -> truth P v w = (w, Ok b) -> tests e b.
  Proof. intros G T. unfold tests, test, andthen. rewrite G. exact T. Qed.
  Lemma tests_inv e b : tests e b -> exists v, gives e v /\ truth P v w = (w, Ok b).
  Proof.
    unfold tests, test, andthen. destruct (eval P e w) as [w1 [v|]] eqn:E; [|discriminate]. intro K.
    assert (w1 = w) by (pose proof (truth_state P v w1) as S; rewrite K in S; symmetry; exact S). subst w1. exists v. split; [exact E|exact K].
  Qed.
  Lemma tests_not a b : tests a b -> tests (Unary Not a) (negb b).
  Proof.
    intro T. destruct (tests_inv _ _ T) as (v & G & TV). eapply tests_gives with (v := VBool (negb b)).
    - unfold FoldSpec.gives. cbn [eval]. unfold andthen. rewrite G. cbn [unary]. unfold andthen. rewrite TV. reflexivity.
    - reflexivity.
  Qed.
  Definition joined (o : boolop) (bs : list bool) : bool := match o with And => forallb (fun b => b) bs | Or => existsb (fun b => b) bs end.
  Lemma tests_bool o vs bs : Forall2 tests vs bs -> vs <> [] -> tests (BoolOp o vs) (joined o bs).
  Proof.
    intros F. unfold tests, test. rewrite eval_bool. induction F as [|v b vs bs T F IH]; intro NE; [congruence|].
    destruct (tests_inv _ _ T) as (x & G & TV). cbn [map shortcut].
    destruct vs as [|v' vs].
    - inversion F; subst. cbn [map]. unfold andthen. rewrite G. rewrite TV. destruct o, b; reflexivity.
    - specialize (IH ltac:(discriminate)). set (tail := shortcut P o (map (eval P) (v' :: vs))) in *.
      change (shortcut P o (map (eval P) (v' :: vs))) with tail.
      assert (E : andthen (andthen (eval P v) (fun v0 => andthen (truth P v0) (fun b0 => if Bool.eqb b0 (neutral o) then tail else pure v0))) (truth P) w =
        (if Bool.eqb b (neutral o) then andthen tail (truth P) w else (w, Ok b))).
      { unfold andthen at 1 2. rewrite G. unfold andthen at 1. rewrite TV. destruct (Bool.eqb b (neutral o)); [reflexivity|]. cbn [pure]. exact TV. }
      unfold andthen at 1. unfold andthen at 1 in E. cbn [map] in *. rewrite E. destruct (Bool.eqb b (neutral o)) eqn:B.
      + rewrite IH. destruct o, b; try discriminate; reflexivity.
      + destruct o, b; try discriminate; reflexivity.
  Qed.

  (** *** Conditions that differ by "not" only *)
  Definition not_not (e : expr) : Prop := match e with Unary Not _ => False | _ => True end.
  Definition turned (neg b : bool) : bool := if neg then b else negb b.
  Lemma strip_ok e : forall neg e' neg', strip_nots e neg = (e', neg') ->
    not_not e' /\ (calm e -> calm e') /\ (fine e = true -> fine e' = true) /\ remainders e' = remainders e /\
    forall b, tests e' (turned neg' b) -> tests e (turned neg b).
  Proof.
    induction e; intros neg e' neg' E; try (cbn in E; injection E as <- <-; cbn; auto).
    destruct o; [|cbn in E; injection E as <- <-; cbn; auto ..].
    cbn [strip_nots] in E. destruct (IHe _ _ _ E) as (A & B & C & D & F). split; [exact A|]. split; [exact B|]. split; [exact C|]. split; [exact D|].
    intros b T. apply F in T. apply tests_not in T. destruct neg, b; exact T.
  Qed.

  Lemma same_gives a b v : fine a = true -> fine b = true -> have_same_value a b = true -> gives a v -> gives b v.
  Proof. intros Fa Fb S G. unfold FoldSpec.gives. rewrite <- (same_text_same a b Fa Fb S W P w). exact G. Qed.
  Lemma gives_det e v u : gives e v -> gives e u -> v = u.
  Proof. unfold FoldSpec.gives. congruence. Qed.

  (** Operands are only compared by their texts. *)
  Lemma operand_negation a b neg r : operand a = true -> operand b = true -> is_negation H a b neg = Ok r -> r = true -> neg = true /\ have_same_value a b = true.
  Proof.
    intros Oa Ob E R. subst r.
    assert (SB : strip_nots b neg = (b, neg)) by (destruct b; try reflexivity; destruct o; try discriminate Ob; reflexivity).
    destruct a; try discriminate Oa.
    3: (destruct o; try discriminate Oa).
    all: cbn [is_negation] in E; rewrite SB in E;
      destruct b; try discriminate Ob; cbn [same_type negb] in E; try discriminate E;
      injection E as E; apply andb_true_iff in E; exact E.
  Qed.

  Lemma cmpop_eqb_eq a b : cmpop_eqb a b = true -> a = b.
  Proof. destruct a, b; cbn; congruence. Qed.

  Lemma compare_tests c a b v u r : gives a v -> gives b u -> compare P c v u w = (w, Ok (VBool r)) -> tests (Compare a [(c, b)]) r.
  Proof.
    intros A B C. eapply tests_gives with (v := VBool r); [|reflexivity]. unfold FoldSpec.gives. cbn [eval]. unfold andthen. rewrite A, B, C. reflexivity.
  Qed.
  Definition int_cmp (c : cmpop) (x y : Z) : option bool := decide c (Z.ltb x y) (Z.eqb x y).
  Lemma decided_negated c v u : decided P w c v u -> exists r, compare P c v u w = (w, Ok (VBool r)) /\ compare P (negated_cmp c) v u w = (w, Ok (VBool (negb r))).
  Proof.
    destruct c; cbn [decided negated_cmp].
    1-6: intros (x & y & -> & ->); unfold compare; cbn [as_int decide]; eexists; split; reflexivity || (rewrite ?negb_involutive; reflexivity).
    1,3: intros (r & A & B); exists r; auto.
    all: intros (r & A & B); exists (negb r); rewrite negb_involutive; auto.
  Qed.

  Lemma calm_bool o vs : calm (BoolOp o vs) -> Forall calm vs.
  Proof. cbn [FoldSpec.calm]. induction vs as [|v vs IH]; [constructor|]. intros [A B]. constructor; auto. Qed.
  Lemma calm_tests e : well_formed e = true -> calm e -> exists b, tests e b.
  Proof.
    induction e as [x|c|o a IHa|o a b IHa IHb|o vs IHvs|a ops IHa IHops|g args IHg IHargs|a x IHa|a i IHa IHi|c a b IHc IHa IHb|n] using expr_ind'; intros WF C;
      try (destruct C as (v & b' & G & T); exists b'; eapply tests_gives; eassumption).
    - destruct o; [|destruct C as (v & b' & G & T); exists b'; eapply tests_gives; eassumption ..].
      destruct (IHa WF C) as (b & T). exists (negb b). apply tests_not. exact T.
    - apply calm_bool in C. cbn [well_formed] in WF. apply andb_true_iff in WF. destruct WF as [L WF].
      assert (exists bs, Forall2 tests vs bs).
      { clear L. induction vs as [|v vs IH]; [eexists; constructor|]. inversion IHvs; subst. inversion C; subst. cbn [forallb] in WF. apply andb_true_iff in WF.
        destruct WF as [W1 W2]. destruct IH as (bs & F); try assumption. destruct H2 as (b & T); try assumption. exists (b :: bs). constructor; assumption. }
      destruct H0 as (bs & F). eexists. apply tests_bool; [exact F|]. intros ->. discriminate L.
    - destruct ops as [|[c b] [|]]; try contradiction. destruct C as (_ & _ & v & u & A & B & D). destruct (decided_negated _ _ _ D) as (r & R & _).
      exists r. eapply compare_tests; eassumption.
  Qed.

  Lemma fine_sub o vs v : fine (BoolOp o vs) = true -> List.In v vs -> fine v = true.
  Proof.
    unfold fine. cbn [well_formed no_nested_compare]. rewrite !andb_true_iff. intros [[_ A] B] I. rewrite forallb_forall in A, B. rewrite A, B; auto.
  Qed.
  Lemma fine_cmp a c b : fine (Compare a [(c, b)]) = true -> fine a = true /\ fine b = true.
  Proof. unfold fine. cbn [well_formed no_nested_compare forallb snd]. rewrite !andb_true_iff. tauto. Qed.
  Lemma fine_bin o a b : fine (Binary o a b) = true -> fine a = true /\ fine b = true.
  Proof. unfold fine. cbn [well_formed no_nested_compare]. rewrite !andb_true_iff. tauto. Qed.

  (** *** Remainders *)
  Lemma mod_two_inv e : is_mod_two H e = Ok true -> exists x y v, e = Binary Mod x y /\ get_const_value H y = Ok v /\ is_two v = true.
  Proof.
    destruct e; cbn; try discriminate. destruct o; try discriminate. destruct (get_const_value H e2) as [v|] eqn:E; [|discriminate]. cbn [bind].
    intro K. injection K as K. exists e1, e2, v. auto.
  Qed.
  Lemma mod_two_value x y v i j k : get_const_value H y = Ok v -> is_two v = true -> gives x (VInt i) -> gives y (VInt j) -> gives (Binary Mod x y) k -> k = VInt (i mod 2).
  Proof.
    intros G T X Y K. assert (E : eval P y w = (w, Ok v)) by (apply (folded_value H CH y v G); [intros ->; discriminate T|exact AG]).
    unfold FoldSpec.gives in *. rewrite Y in E. injection E as <-. cbn [is_two] in T. apply Z.eqb_eq in T. subst j.
    cbn [eval] in K. unfold andthen in K. rewrite X, Y in K. cbn in K. injection K as <-. reflexivity.
  Qed.
  Lemma gives_const e v : zero_or_one e -> gives e v -> exists d, v = VInt d /\ (d = 0 \/ d = 1)%Z /\ e = Const (CInt (Z.to_N d)).
  Proof. intros [-> | ->] G; cbn in G; injection G as <-; eexists; split; try reflexivity; split; auto. Qed.
  Definition sides c a b (m o : expr) : Prop := (m = a /\ o = b \/ m = b /\ o = a) /\ (c = Eq \/ c = Ne).
  Lemma sides_remainder c a b x y o : sides c a b (Binary Mod x y) o -> List.In (c, x, y, o) (remainders (Compare a [(c, b)])).
  Proof.
    intros [[[<- <-]|[<- <-]] [-> | ->]]; cbn [remainders]; apply in_or_app; [left|left|right|right]; cbn; auto.
  Qed.
  Lemma eq_compare c x y : c = Eq \/ c = Ne -> compare P c (VInt x) (VInt y) w = (w, Ok (VBool (Bool.eqb (match c with Eq => true | _ => false end) (Z.eqb x y)))).
  Proof. intros [-> | ->]; unfold compare; cbn; unfold pure; destruct (Z.eqb x y); reflexivity. Qed.

  Lemma mod_sides a c b o2 : is_eq_mod_two H a [(c, b)] = Ok true -> mod_and_value H a [(c, b)] = Ok o2 ->
    exists x y v, fst o2 = Binary Mod x y /\ get_const_value H y = Ok v /\ is_two v = true /\ sides c a b (fst o2) (snd o2).
  Proof.
    unfold is_eq_mod_two, mod_and_value. destruct (is_eq_op c) eqn:Q; [|discriminate].
    assert (C : c = Eq \/ c = Ne) by (destruct c; try discriminate Q; auto).
    destruct (is_mod_two H a) as [x|] eqn:A; [|discriminate]. cbn [bind]. destruct (is_mod_two H b) as [y|] eqn:B; [|discriminate]. cbn [bind].
    intros E O. injection E as E. injection O as <-. destruct x.
    - destruct (mod_two_inv a A) as (x & z & v & -> & G & T). exists x, z, v. cbn [fst snd]. unfold sides. tauto.
    - destruct y; [|discriminate E]. destruct (mod_two_inv b B) as (x & z & v & -> & G & T). exists x, z, v. cbn [fst snd]. unfold sides. tauto.
  Qed.
  Lemma have_same_refl e : have_same_value e e = true.
  Proof.
    unfold have_same_value. assert (T : forall t, token_eqb t t = true).
    { destruct t; cbn; auto using String.eqb_refl, Nat.eqb_refl. destruct c; cbn; auto using String.eqb_refl, N.eqb_refl, Bool.eqb_reflx. destruct o; reflexivity. destruct c; reflexivity. }
    induction (as_string e); cbn; [reflexivity|]. rewrite T, IHt. reflexivity.
  Qed.

  Lemma mod_negation a c b a2 c2 b2 : ops_match negated_cmp [(c, b)] [(c2, b2)] = false -> mod_two_negation H a [(c, b)] a2 [(c2, b2)] = Ok true ->
    fine (Compare a [(c, b)]) = true -> fine (Compare a2 [(c2, b2)]) = true ->
    calm (Compare a [(c, b)]) -> calm (Compare a2 [(c2, b2)]) -> paired (Compare a [(c, b)]) (Compare a2 [(c2, b2)]) ->
    exists t, tests (Compare a [(c, b)]) t /\ tests (Compare a2 [(c2, b2)]) (negb t).
  Proof.
    intros OM E F1 F2 C1 C2 PR. unfold mod_two_negation in E.
    destruct (is_eq_mod_two H a [(c, b)]) as [e1|] eqn:E1; [|discriminate]. cbn [bind] in E. destruct e1; [|discriminate]. cbn [negb] in E.
    destruct (is_eq_mod_two H a2 [(c2, b2)]) as [e2|] eqn:E2; [|discriminate]. cbn [bind] in E. destruct e2; [|discriminate]. cbn [negb] in E.
    destruct (mod_and_value H a [(c, b)]) as [p|] eqn:M1; [|discriminate]. cbn [bind] in E.
    destruct (mod_and_value H a2 [(c2, b2)]) as [q|] eqn:M2; [|discriminate]. cbn [bind] in E.
    destruct (mod_sides _ _ _ _ E1 M1) as (x & y & v & X1 & G1 & T1 & S1). destruct (mod_sides _ _ _ _ E2 M2) as (x2 & y2 & v2 & X2 & G2 & T2 & S2).
    rewrite X1, X2 in *. cbn [mod_left bind] in E. injection E as E. apply andb_true_iff in E. destruct E as [SX NV]. apply negb_true_iff in NV.
    destruct p as [m o], q as [m2 o2]. cbn [fst snd] in *. subst m m2.
    destruct (PR _ _ _ _ _ _ _ _ (sides_remainder _ _ _ _ _ _ S1) (sides_remainder _ _ _ _ _ _ S2)) as [V (i & j & i2 & j2 & GX & GY & GX2' & GY2)].
    destruct V as [->|(Z1 & Z2)]; [rewrite have_same_refl in NV; discriminate|].
    assert (c2 = c) by (destruct S1 as [_ [-> | ->]], S2 as [_ [-> | ->]]; reflexivity || (cbn in OM; discriminate OM)). subst c2.
    destruct (fine_cmp _ _ _ F1) as [Fa Fb], (fine_cmp _ _ _ F2) as [Fa2 Fb2].
    assert (FX : fine x = true) by (destruct S1 as [[[<- _]|[<- _]] _]; [apply fine_bin in Fa|apply fine_bin in Fb]; tauto).
    assert (FX2 : fine x2 = true) by (destruct S2 as [[[<- _]|[<- _]] _]; [apply fine_bin in Fa2|apply fine_bin in Fb2]; tauto).
    assert (GX2 : gives x2 (VInt i)) by (eapply same_gives; [exact FX|exact FX2|exact SX|exact GX]).
    destruct C1 as (_ & _ & va & vb & A & B & D), C2 as (_ & _ & va2 & vb2 & A2 & B2 & D2).
    assert (Q : c = Eq \/ c = Ne) by exact (proj2 S1).
    assert (exists p q, va = VInt p /\ vb = VInt q) as (p & q & -> & ->) by (destruct Q as [-> | ->]; exact D).
    assert (exists p q, va2 = VInt p /\ vb2 = VInt q) as (p2 & q2 & -> & ->) by (destruct Q as [-> | ->]; exact D2).
    eexists. split; [eapply compare_tests; [exact A|exact B|apply eq_compare; exact Q]|].
    eapply compare_tests; [exact A2|exact B2|]. rewrite (eq_compare c p2 q2 Q). do 3 f_equal.
    assert (L1 : exists d, (d = 0 \/ d = 1)%Z /\ o = Const (CInt (Z.to_N d)) /\ Z.eqb p q = Z.eqb (i mod 2) d).
    { destruct S1 as [[[<- <-]|[<- <-]] _].
      - destruct (gives_const _ _ Z1 B) as (d & E & D0 & OE). injection E as ->. exists d. split; [exact D0|]. split; [exact OE|].
        pose proof (mod_two_value _ _ _ _ _ _ G1 T1 GX GY A) as K. injection K as ->. reflexivity.
      - destruct (gives_const _ _ Z1 A) as (d & E & D0 & OE). injection E as ->. exists d. split; [exact D0|]. split; [exact OE|].
        pose proof (mod_two_value _ _ _ _ _ _ G1 T1 GX GY B) as K. injection K as ->. apply Z.eqb_sym. }
    assert (L2 : exists d, (d = 0 \/ d = 1)%Z /\ o2 = Const (CInt (Z.to_N d)) /\ Z.eqb p2 q2 = Z.eqb (i mod 2) d).
    { destruct S2 as [[[<- <-]|[<- <-]] _].
      - destruct (gives_const _ _ Z2 B2) as (d & E & D0 & OE). injection E as ->. exists d. split; [exact D0|]. split; [exact OE|].
        pose proof (mod_two_value _ _ _ _ _ _ G2 T2 GX2 GY2 A2) as K. injection K as ->. reflexivity.
      - destruct (gives_const _ _ Z2 A2) as (d & E & D0 & OE). injection E as ->. exists d. split; [exact D0|]. split; [exact OE|].
        pose proof (mod_two_value _ _ _ _ _ _ G2 T2 GX2 GY2 B2) as K. injection K as ->. apply Z.eqb_sym. }
    destruct L1 as (d & D1 & O1 & ->), L2 as (d2 & D2' & O2 & ->).
    assert (DD : d <> d2) by (intros <-; rewrite O1, O2, have_same_refl in NV; discriminate).
    pose proof (Z.mod_pos_bound i 2 ltac:(lia)) as R.
    assert (I : (i mod 2 = 0 \/ i mod 2 = 1)%Z) by lia.
    destruct D1 as [-> | ->], D2' as [-> | ->], I as [-> | ->]; try congruence; destruct Q as [-> | ->]; reflexivity.
  Qed.

  Lemma paired_sub o vs o2 us v u : paired (BoolOp o vs) (BoolOp o2 us) -> List.In v vs -> List.In u us -> paired v u.
  Proof.
    intros PR I J c x y z c' x' y' z' A B. eapply PR; cbn [remainders]; apply in_flat_map; eauto.
  Qed.

  Lemma plain_case lt rt neg : fine lt = true -> fine rt = true -> (exists v b, gives lt v /\ truth P v w = (w, Ok b)) ->
    neg && have_same_value lt rt = true -> exists b, tests lt b /\ tests rt (turned neg b).
  Proof.
    intros F1 F2 (v & b & G & T) K. apply andb_true_iff in K. destruct K as [-> S]. exists b. split; [eapply tests_gives; eassumption|].
    cbn [turned]. eapply tests_gives; [exact (same_gives lt rt v F1 F2 S G)|exact T].
  Qed.

  Theorem negation_turned lt : forall rt neg, is_negation H lt rt neg = Ok true -> fine lt = true -> fine rt = true ->
    calm lt -> calm rt -> paired lt rt -> exists b, tests lt b /\ tests rt (turned neg b).
  Proof.
    induction lt as [x|c|o a IHa|o a b IHa IHb|o vs IHvs|a ops IHa IHops|g args IHg IHargs|a x IHa|a i IHa IHi|c a b IHc IHa IHb|n] using expr_ind';
      intros rt neg E F1 F2 C1 C2 PR.
    3: destruct o; [destruct (IHa _ _ E F1 F2 C1 C2 PR) as (b & T & U); exists (negb b); split; [apply tests_not; exact T|destruct neg, b; exact U]| | |].
    all: cbn [is_negation] in E; destruct (strip_nots rt neg) as [rt' neg'] eqn:SR;
      destruct (strip_ok _ _ _ _ SR) as (NN & SC & SF & SM & ST); specialize (SC C2); specialize (SF F2);
      match type of E with context [same_type ?a ?b] => destruct (same_type a b) eqn:TY; [|discriminate E] end; cbn [negb] in E.
    7: {
      destruct rt' as [| | | |o2 us| | | | | |]; try discriminate TY.
      destruct (Nat.eqb (length vs) (length us)) eqn:LN; [|discriminate E]. apply Nat.eqb_eq in LN. cbn [andb] in E.
      destruct ((neg' && boolop_eqb o o2) || (negb neg' && boolop_eqb (negated_bool o) o2)) eqn:OP; [|discriminate E].
      assert (PR' : paired (BoolOp o vs) (BoolOp o2 us)) by (intros c x y z c' x' y' z' A B; eapply PR; [exact A|rewrite <- SM; exact B]).
      assert (K : exists bs, Forall2 tests vs bs /\ Forall2 tests us (map (turned neg') bs)).
      { apply calm_bool in C1, SC. assert (FV : forall v, List.In v vs -> fine v = true) by (intros v I; exact (fine_sub _ _ _ F1 I)).
        assert (FU : forall v, List.In v us -> fine v = true) by (intros v I; exact (fine_sub _ _ _ SF I)).
        assert (PP : forall v u, List.In v vs -> List.In u us -> paired v u) by (intros v u I J; exact (paired_sub _ _ _ _ _ _ PR' I J)).
        clear SR NN PR PR' F1 F2 SF SM ST TY OP C2. revert us LN E SC FU PP. induction vs as [|v vs IH]; intros us LN E SC FU PP.
        - destruct us; [|discriminate LN]. exists []. split; constructor.
        - destruct us as [|u us]; [discriminate LN|]. injection LN as LN. inversion IHvs as [|? ? Q1 Q2]; subst. inversion C1 as [|? ? D1 D2]; subst. inversion SC as [|? ? S1 S2]; subst.
          destruct (is_negation H v u neg') as [r|] eqn:EV; [|discriminate E]. cbn [bind] in E. destruct r; [|discriminate E].
          destruct (Q1 _ _ EV) as (b & T & U); auto using in_eq.
          destruct (IH Q2 D2 (fun x I => FV x (in_cons _ _ _ I)) us LN E S2 (fun x I => FU x (in_cons _ _ _ I)) (fun x y I J => PP x y (in_cons _ _ _ I) (in_cons _ _ _ J))) as (bs & A & B).
          exists (b :: bs). split; constructor; assumption. }
      destruct K as (bs & A & B).
      assert (NV : vs <> []) by (intros ->; unfold fine in F1; cbn in F1; discriminate F1).
      assert (NU : us <> []) by (intros ->; destruct vs; [congruence|discriminate LN]).
      exists (joined o bs). split; [apply tests_bool; assumption|]. apply ST. pose proof (tests_bool o2 _ _ B NU) as R.
      assert (JE : joined o2 (map (turned neg') bs) = turned neg' (joined o bs)).
      { destruct neg'; cbn [turned] in *.
        - rewrite map_id. destruct o, o2; try discriminate OP; reflexivity.
        - destruct o, o2; try discriminate OP; cbn [joined]; clear; induction bs as [|[] bs IH]; cbn; try reflexivity; exact IH. }
      rewrite JE in R. exact R. }
    7: {
      destruct rt' as [| | | | |a2 ops2| | | | |]; try discriminate TY.
      destruct ops as [|[c b] [|]]; try contradiction. destruct ops2 as [|[c2 b2] [|]]; try contradiction. pose proof C1 as C1'. pose proof SC as SC'.
      cbn [length Nat.eqb negb] in E. destruct (fine_cmp _ _ _ F1) as [Fa Fb], (fine_cmp _ _ _ SF) as [Fa2 Fb2].
      destruct C1 as (OA & OB & va & vb & A & B & D), SC as (OA2 & OB2 & va2 & vb2 & A2 & B2 & D2).
      inversion IHops as [|? ? IHb _]; subst. cbn [snd] in IHb.
      assert (ALL : forall ng, (do x <- is_negation H a a2 ng; if x then (do b' <- is_negation H b b2 ng; if b' then Ok true else Ok false) else Ok false) = Ok true ->
        gives a2 va /\ gives b2 vb).
      { intros ng Q. destruct (is_negation H a a2 ng) as [r|] eqn:N1; [|discriminate]. cbn [bind] in Q. destruct r; [|discriminate].
        destruct (is_negation H b b2 ng) as [r|] eqn:N2; [|discriminate]. cbn [bind] in Q. destruct r; [|discriminate].
        destruct (operand_negation _ _ _ _ OA OA2 N1 eq_refl) as [_ S1]. destruct (operand_negation _ _ _ _ OB OB2 N2 eq_refl) as [_ S2].
        split; [exact (same_gives a a2 va Fa Fa2 S1 A)|exact (same_gives b b2 vb Fb Fb2 S2 B)]. }
      destruct (decided_negated _ _ _ D) as (r & R1 & R2).
      assert (TL : tests (Compare a [(c, b)]) r) by (eapply compare_tests; eassumption).
      destruct neg'; cbn [andb negb] in E.
      - destruct (ops_match (fun c => c) [(c, b)] [(c2, b2)]) eqn:OM; [|cbn in E; discriminate E].
        destruct (ALL true E) as [G1 G2]. cbn [ops_match] in OM. rewrite andb_true_r in OM. apply cmpop_eqb_eq in OM. subst c2.
        exists r. split; [exact TL|]. apply ST. cbn [turned]. eapply compare_tests; eassumption.
      - destruct (ops_match negated_cmp [(c, b)] [(c2, b2)]) eqn:OM.
        + assert (E' : (do x <- is_negation H a a2 true; if x then (do b' <- is_negation H b b2 true; if b' then Ok true else Ok false) else Ok false) = Ok true).
          { destruct (is_negation H a a2 true) as [x|]; [|discriminate E]. cbn [bind] in E |- *. destruct x; [|discriminate E].
            destruct (is_negation H b b2 true) as [x|]; [|discriminate E]. cbn [bind] in E |- *. destruct x; [reflexivity|discriminate E]. }
          destruct (ALL true E') as [G1 G2]. cbn [ops_match] in OM. rewrite andb_true_r in OM. apply cmpop_eqb_eq in OM. subst c2.
          exists r. split; [exact TL|]. apply ST. cbn [turned]. eapply compare_tests; eassumption.
        + cbn [bind] in E.
          assert (PR' : paired (Compare a [(c, b)]) (Compare a2 [(c2, b2)])) by (intros k x y z c' x' y' z' I J; eapply PR; [exact I|rewrite <- SM; exact J]).
          destruct (mod_negation a c b a2 c2 b2 OM E F1 SF) as (t & T1 & T2); [exact C1'|exact SC'|exact PR'|].
          exists t. split; [exact T1|]. apply ST. exact T2. }
    all: match type of SR with _ = (?r, ?n) => match type of TY with same_type ?l _ = _ =>
      assert (K : n && have_same_value l r = true) by (destruct r; try discriminate TY; injection E as E; exact E);
      destruct (plain_case l r n F1 SF C1 K) as (t & T & U); exists t; split; [exact T|apply ST; exact U] end end.
  Qed.
End Negation.
