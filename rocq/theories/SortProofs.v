(** The translation for the solver does not fail. *)
From Coq Require Import String Ascii List Bool Arith NArith ZArith QArith Lia.
From Verif Require Import Base PyModel PySpec PyProofs IfModel IfSpec IfProofs FoldModel FoldSpec FoldProofs TypeModel LocalModel LocalSpec LocalProofs MergeSpec SolverModel SolverSpec SolverProofs RedundantProofs.
Import ListNotations.
Local Open Scope string_scope.
Local Open Scope list_scope.
Local Open Scope nat_scope.

(** ** Variables stay known *)
Definition keeps (d d' : variables) : Prop := forall k, find_var d k <> None -> find_var d' k <> None.
Lemma keeps_refl d : keeps d d.
Proof. intros k X. exact X. Qed.
Lemma keeps_trans a b c : keeps a b -> keeps b c -> keeps a c.
Proof. intros X Y k K. apply Y, X, K. Qed.
Lemma find_app (d : variables) p k : find_var d k <> None -> find_var (d ++ [p]) k <> None.
Proof. unfold find_var. induction d as [|q d IH]; cbn; [congruence|]. destruct (text_eqb (fst q) k); [intros _; discriminate|exact IH]. Qed.
Lemma find_last (d : variables) k i : find_var (d ++ [(k, i)]) k <> None.
Proof. unfold find_var. induction d as [|q d IH]; cbn; [rewrite text_eqb_refl; discriminate|]. destruct (text_eqb (fst q) k); [discriminate|exact IH]. Qed.
Lemma find_map (d : variables) (g : text * bool -> text * bool) k : (forall p, fst (g p) = fst p) -> find_var d k <> None -> find_var (map g d) k <> None.
Proof.
  intro G. unfold find_var. induction d as [|q d IH]; cbn; [congruence|]. rewrite (G q). destruct (text_eqb (fst q) k); [intros _; discriminate|exact IH].
Qed.
Lemma set_keeps d k i : keeps d (set_var d k i).
Proof.
  intros k' X. unfold set_var. destruct (find_var d k); [destruct i|].
  - apply find_map; [|exact X]. intro p. destruct (text_eqb (fst p) k); reflexivity.
  - exact X.
  - apply find_app. exact X.
Qed.
Lemma set_known d k i : find_var (set_var d k i) k <> None.
Proof.
  unfold set_var. destruct (find_var d k) eqn:F; [destruct i|apply find_last].
  - apply find_map; [|congruence]. intro p. destruct (text_eqb (fst p) k); reflexivity.
  - congruence.
Qed.

Section Init.
  Variables (H : host) (G : inspection) (mk : bool).
  Lemma variable_keeps e d i r : initialize_variable G e d i = r -> keeps d (snd r).
  Proof. unfold initialize_variable. intros <-. destruct (guess G e); cbn [snd]; [apply set_keeps|apply keeps_refl]. Qed.
  Definition keeping (e : expr) : Prop := forall int_op bp d r, initialize H G mk int_op bp e d = Ok r -> keeps d (snd r).
  Lemma all_keeps l : Forall keeping l -> forall int_op bp d r, init_all H G mk int_op bp l d = Ok r -> keeps d (snd r).
  Proof.
    induction 1 as [|x l X F IH]; intros int_op bp d r R; cbn [init_all] in R; [injection R as <-; apply keeps_refl|].
    destruct (initialize H G mk int_op bp x d) as [[[] d']|] eqn:I; try discriminate; cbn [bind fst snd] in R.
    - eapply keeps_trans; [apply (X _ _ _ _ I)|exact (IH _ _ _ _ R)].
    - injection R as <-. exact (X _ _ _ _ I).
  Qed.
  Lemma variable_case e : (forall int_op bp d, initialize H G mk int_op bp e d = if mk then Ok (initialize_variable G e d int_op) else Ok (false, d)) -> keeping e.
  Proof. intros X int_op bp d r R. rewrite X in R. destruct mk; injection R as R; [eapply variable_keeps; exact R|subst r; apply keeps_refl]. Qed.
  Theorem initialize_keeps e : keeping e.
  Proof.
    induction e as [x|k|o a IHa|o a b IHa IHb|o vs IHvs|a ops IHa IHops|g args IHg IHargs|a x IHa|a i IHa IHi|c a b IHc IHa IHb|n] using expr_ind'.
    - intros int_op bp d r R. cbn in R. rewrite andb_false_r in R. injection R as R. eapply variable_keeps. exact R.
    - intros int_op bp d r R. cbn in R. destruct k; cbn in R; try (injection R as <-; apply keeps_refl); try (destruct bp); try (destruct int_op); cbn in R; rewrite ?andb_false_r in R; injection R as <-; apply keeps_refl.
    - intros int_op bp d r R. rewrite init_unary in R. destruct o; try exact (IHa _ _ _ _ R); [destruct bp; [exact (IHa _ _ _ _ R)|]|]; injection R as <-; apply keeps_refl.
    - intros int_op bp d r R. rewrite init_binary in R. destruct (not_allowed H G (Binary o a b) int_op bp) as [[]|]; try discriminate; cbn [bind] in R; [injection R as <-; apply keeps_refl|].
      destruct (nonlinear H (Binary o a b)) as [[]|]; try discriminate; cbn [bind] in R.
      + destruct mk; injection R as R; [eapply variable_keeps; exact R|subst r; apply keeps_refl].
      + assert (AB := all_keeps [a; b] (Forall_cons _ IHa (Forall_cons _ IHb (Forall_nil _)))). destruct o; try exact (AB _ _ _ _ R); exact (IHa _ _ _ _ R).
    - intros int_op bp d r R. rewrite init_bool in R. destruct bp; [exact (all_keeps vs IHvs _ _ _ _ R)|injection R as <-; apply keeps_refl].
    - intros int_op bp d r R. rewrite init_compare in R. match goal with R : (if ?t then _ else _) = _ |- _ => destruct t; [injection R as <-; apply keeps_refl|] end.
      apply (all_keeps (a :: map snd ops)) in R; [exact R|]. constructor; [exact IHa|]. clear -IHops. induction IHops; constructor; assumption.
    - intros int_op bp d r R. rewrite init_call in R. destruct (is_abs g).
      + destruct args as [|a args]; [discriminate|]. inversion IHargs; subst. eauto.
      + destruct mk; injection R as R; [eapply variable_keeps; exact R|subst r; apply keeps_refl].
    - apply variable_case. intros. cbn. rewrite andb_true_r. destruct mk; reflexivity.
    - apply variable_case. intros. cbn. rewrite andb_true_r. destruct mk; reflexivity.
    - intros int_op bp d r R. cbn in R. rewrite andb_false_r in R. injection R as <-. apply keeps_refl.
    - intros int_op bp d r R. cbn in R. destruct (is_collection G n); [|rewrite andb_false_r in R]; injection R as <-; apply keeps_refl.
  Qed.
End Init.

(** ** No exceptions *)
Section Total.
  Variables (H : host) (G : inspection) (mk : bool).
  Hypothesis TH : tame_host H.
  Hypothesis NH : numeric_host H.

  Definition fit (e : expr) : Prop := well_formed e = true /\ no_power e = true /\ plain_abs e = true.
  Lemma nonlinear_ends o a b : well_formed (Binary o a b) = true -> no_power (Binary o a b) = true -> exists n, nonlinear H (Binary o a b) = Ok n.
  Proof.
    intros WF NP. destruct (folding_ends H TH _ WF NP) as (v & V).
    assert (B : exists u, get_const_value H b = Ok u).
    { apply folding_ends; [exact TH| |]; cbn [well_formed no_power] in WF, NP; [apply andb_true_iff in WF; tauto|apply andb_true_iff in NP; tauto]. }
    destruct B as (u & U). unfold nonlinear, is_number, is_integer. rewrite V. cbn [bind].
    match goal with |- exists n, (if ?t then _ else _) = _ => destruct t end; [eexists; reflexivity|]. rewrite U. cbn [bind]. destruct o; eexists; reflexivity.
  Qed.
  Lemma allowed_ends e int_op bp : well_formed e = true -> no_power e = true -> exists b, not_allowed H G e int_op bp = Ok b.
  Proof.
    intros WF NP. destruct e; try (eexists; reflexivity); [destruct o; eexists; reflexivity|].
    assert (B : exists u, get_const_value H e2 = Ok u).
    { apply folding_ends; [exact TH| |]; cbn [well_formed no_power] in WF, NP; [apply andb_true_iff in WF; tauto|apply andb_true_iff in NP; tauto]. }
    destruct B as (u & U). cbn [not_allowed]. unfold is_float. rewrite U. destruct o; eexists; reflexivity.
  Qed.
  Definition ends (e : expr) : Prop := fit e -> forall int_op bp d, exists r, initialize H G mk int_op bp e d = Ok r.
  Lemma all_ends l : Forall ends l -> Forall fit l -> forall int_op bp d, exists r, init_all H G mk int_op bp l d = Ok r.
  Proof.
    induction 1 as [|x l X F IH]; intros FT int_op bp d; [eexists; reflexivity|]. inversion FT as [|? ? Fx FT']; subst. cbn [init_all].
    destruct (X Fx int_op bp d) as ([[] d'] & ->); cbn [bind fst snd]; [apply IH; exact FT'|eexists; reflexivity].
  Qed.
  Lemma fit_unary o a : fit (Unary o a) -> fit a.
  Proof. intros F. exact F. Qed.
  Lemma fit_binary o a b : fit (Binary o a b) -> fit a /\ fit b.
  Proof.
    unfold fit. cbn [well_formed no_power plain_abs]. rewrite !andb_true_iff. tauto.
  Qed.
  Lemma fit_bool o vs : fit (BoolOp o vs) -> Forall fit vs.
  Proof.
    unfold fit. cbn [well_formed no_power plain_abs]. rewrite andb_true_iff, !forallb_forall, Forall_forall. intros ((_ & A) & B & C) x I. auto.
  Qed.
  Lemma fit_compare a ops : fit (Compare a ops) -> fit a /\ Forall (fun cv => fit (snd cv)) ops.
  Proof.
    unfold fit. cbn [well_formed no_power plain_abs]. rewrite !andb_true_iff, !forallb_forall, Forall_forall. intros (((_ & A) & A') & (B & B') & (C & C')).
    split; [auto|]. intros x I. auto.
  Qed.
  Lemma linear_plain e : linear e = true -> plain_abs e = true.
  Proof.
    induction e as [x|k|o a IHa|o a b IHa IHb|o vs IHvs|a ops IHa IHops|g args IHg IHargs|a x IHa|a i IHa IHi|c a b IHc IHa IHb|n] using expr_ind'; cbn [linear plain_abs]; intro L; try discriminate; try reflexivity.
    - destruct o; try discriminate; auto.
    - destruct o; try discriminate; apply andb_true_iff in L; rewrite IHa, IHb by tauto; reflexivity.
    - rewrite L. reflexivity.
  Qed.
  Lemma fit_abs f args : fit (Call f args) -> is_abs f = true -> exists a r, args = a :: r /\ fit a /\ linear a = true.
  Proof.
    unfold fit. cbn [well_formed no_power plain_abs]. rewrite !andb_true_iff. intros ((_ & A) & (_ & B) & C) AB. rewrite AB in C. cbn [negb orb] in C.
    destruct args as [|a r]; [discriminate|]. exists a, r. cbn [forallb] in A, B. apply andb_true_iff in A, B. split; [reflexivity|]. split; [|exact C].
    split; [tauto|]. split; [tauto|apply linear_plain; exact C].
  Qed.
  Theorem initialize_ends e : ends e.
  Proof.
    induction e as [x|k|o a IHa|o a b IHa IHb|o vs IHvs|a ops IHa IHops|g args IHg IHargs|a x IHa|a i IHa IHi|c a b IHc IHa IHb|n] using expr_ind'; intros F int_op bp d.
    - cbn. rewrite andb_false_r. eexists; reflexivity.
    - cbn. match goal with |- exists r, (if ?t then _ else _) = _ => destruct t end; [|rewrite andb_false_r]; eexists; reflexivity.
    - rewrite init_unary. destruct o; try destruct bp; try (apply IHa; exact F); eexists; reflexivity.
    - destruct (fit_binary o a b F) as [Fa Fb]. rewrite init_binary. destruct F as (WF & NP & PA). destruct (allowed_ends (Binary o a b) int_op bp WF NP) as ([] & ->); cbn [bind]; [eexists; reflexivity|].
      destruct (nonlinear_ends o a b WF NP) as ([] & ->); cbn [bind]; [destruct mk; eexists; reflexivity|].
      assert (AB := all_ends [a; b] (Forall_cons _ IHa (Forall_cons _ IHb (Forall_nil _))) (Forall_cons _ Fa (Forall_cons _ Fb (Forall_nil _)))).
      destruct o; try apply AB; apply IHa; exact Fa.
    - rewrite init_bool. destruct bp; [apply all_ends; [exact IHvs|apply (fit_bool o); exact F]|eexists; reflexivity].
    - rewrite init_compare. match goal with |- exists r, (if ?t then _ else _) = _ => destruct t; [eexists; reflexivity|] end. destruct (fit_compare a ops F) as [Fa Fo].
      apply all_ends; constructor; try assumption; [clear -IHops; induction IHops; constructor; assumption|clear -Fo; induction Fo; constructor; assumption].
    - rewrite init_call. destruct (is_abs g) eqn:AB; [|destruct mk; eexists; reflexivity]. destruct (fit_abs g args F AB) as (a & r & -> & Fa & _).
      inversion IHargs; subst. auto.
    - cbn. match goal with |- exists r, (if ?t then _ else _) = _ => destruct t end; eexists; reflexivity.
    - cbn. match goal with |- exists r, (if ?t then _ else _) = _ => destruct t end; eexists; reflexivity.
    - cbn. rewrite andb_false_r. eexists; reflexivity.
    - cbn. destruct (is_collection G n); [|rewrite andb_false_r]; eexists; reflexivity.
  Qed.

  (** ** Sorts *)
  Lemma bool_sorted e bp z : sorted false z -> is_cond e = false -> exists z' c, to_bool e bp (Some z) = (Some z', c) /\ sorted bp z'.
  Proof.
    intros S1 C. rewrite numeral_term by (destruct e as [| []|[]| | | | | | | |]; discriminate || reflexivity). destruct bp; eexists; eexists; (split; [reflexivity|]); [|exact S1].
    cbn [sorted sort_of] in *. destruct S1 as [-> | ->]; reflexivity.
  Qed.
  Lemma arith_sorted f : f = ZAdd \/ f = ZSub \/ f = ZMul -> forall x y, sorted false x -> sorted false y -> sorted false (f x y).
  Proof.
    intros F x y X Y. cbn [sorted] in *. destruct F as [->|[->| ->]]; cbn [sort_of]; destruct X as [-> | ->], Y as [-> | ->]; cbn; auto.
  Qed.
  Lemma numeric_right o a b v : fold H (Binary o a b) = Ok v -> match v with VInt _ | VFloat _ => True | _ => False end ->
    exists u, fold H b = Ok u /\ numeric u = true.
  Proof.
    cbn [fold]. intros F N. destruct (fold H b) as [u|]; [|discriminate]. cbn [bind] in F. exists u. split; [reflexivity|].
    destruct (no_division o || not_zero u); [|discriminate]. unfold binary_operator in F.
    assert (F' : exists x, snd (binary (host_python H) o x u tt) = Ok v) by (destruct o; try discriminate; cbn [bind] in F; destruct (fold H a) as [x|]; try discriminate; cbn [bind] in F; exists x; exact F).
    destruct F' as (x & F'). unfold binary in F'. destruct (as_int x) as [i|].
    - destruct u; try reflexivity; cbn [as_int] in F'; cbn in F'; specialize (NH o x) as K; apply K in F'; destruct v; try contradiction; discriminate.
    - cbn in F'. apply NH in F'. destruct v; try contradiction; exact F'.
  Qed.
  Lemma constant_right o a b int_op bp : well_formed b = true -> no_power b = true ->
    match o with Mod | FloorDiv | Div => True | _ => False end ->
    nonlinear H (Binary o a b) = Ok false -> not_allowed H G (Binary o a b) int_op bp = Ok false ->
    exists v, get_const_value H b = Ok v /\ match o, v with Div, VFloat _ | _, VBool _ | _, VInt _ => True | _, _ => False end.
  Proof.
    intros WF NP O NL NA. destruct (folding_ends H TH b WF NP) as (v & V). exists v. split; [exact V|].
    unfold nonlinear in NL. destruct (is_number H (Binary o a b)) as [n|] eqn:N; [|discriminate]. cbn [bind] in NL.
    assert (X : numeric v = true).
    { destruct n.
      - unfold is_number in N. destruct (get_const_value H (Binary o a b)) as [u|] eqn:U; [|discriminate]. cbn [bind] in N.
        unfold get_const_value in U. destruct (fold H (Binary o a b)) as [u'|x] eqn:FU; [|destruct (caught x); [|discriminate]; injection U as <-; discriminate N].
        injection U as ->. destruct (numeric_right o a b u FU) as (u2 & F2 & N2); [destruct u; try discriminate; exact I|].
        unfold get_const_value in V. rewrite F2 in V. congruence.
      - unfold is_number, is_integer in NL. rewrite V in NL. cbn [bind] in NL. destruct o; try contradiction; destruct v; try discriminate; reflexivity. }
    cbn [not_allowed] in NA. unfold is_float in NA. rewrite V in NA. cbn [bind] in NA. destruct o; try contradiction; destruct v; try discriminate; exact I.
  Qed.

  Definition translatable (e : expr) : Prop := fit e -> forall bp int_op d0 d1 d, initialize H G mk int_op bp e d0 = Ok (true, d1) -> keeps d1 d ->
    exists z c, convert H d bp e = Ok (z, c) /\ (forall z', z = Some z' -> sorted bp z') /\ (linear e = true -> z <> None).
  Lemma variable_translatable e int_op bp d0 d1 d : is_cond e = false -> initialize_variable G e d0 int_op = (true, d1) -> keeps d1 d ->
    exists z c, as_variable d bp e = Ok (z, c) /\ (forall z', z = Some z' -> sorted bp z') /\ (linear e = true -> z <> None).
  Proof.
    intros C I K. unfold as_variable. unfold initialize_variable in I. destruct (guess G e); [|discriminate].
    assert (D : d1 = set_var d0 (as_string e) int_op) by congruence. subst d1.
    destruct (find_var d (as_string e)) as [i|] eqn:F; [|exfalso; exact (K _ (set_known d0 (as_string e) int_op) F)].
    destruct (bool_sorted e bp (ZVar (as_string e) i)) as (z' & c & T & S1); [destruct i; cbn; auto|exact C|].
    exists (Some z'), c. rewrite T. split; [reflexivity|]. split; [intros ? [= <-]; exact S1|discriminate].
  Qed.

  Theorem convert_ends e : translatable e.
  Proof.
    induction e as [x|k|o a IHa|o a b IHa IHb|o vs IHvs|a ops IHa IHops|g args IHg IHargs|a x IHa|a i IHa IHi|c a b IHc IHa IHb|n] using expr_ind'; intros F bp int_op d0 d1 d I K.
    - cbn in I. rewrite andb_false_r in I. injection I as I. exact (variable_translatable (Name x) int_op bp d0 d1 d eq_refl I K).
    - cbn [convert]. cbn in I. destruct k; cbn in I; try discriminate.
      + destruct bp; [|discriminate]. exists (Some (ZBool b)), false. split; [reflexivity|]. split; [intros z' E; injection E as <-; reflexivity|discriminate].
      + destruct (bool_sorted (Const (CInt n)) bp (ZInt (Z.of_N n))) as (z' & c & T & S1); [left; reflexivity|reflexivity|].
        exists (Some z'), c. cbn [convert_const]. rewrite T. split; [reflexivity|]. split; [intros z2 E; injection E as <-; exact S1|discriminate].
      + destruct (bool_sorted (Const (CFloat repr)) bp (ZReal repr)) as (z' & c & T & S1); [right; reflexivity|reflexivity|].
        exists (Some z'), c. cbn [convert_const]. rewrite T. split; [reflexivity|]. split; [intros z2 E; injection E as <-; exact S1|discriminate].
    - cbn [convert]. rewrite init_unary in I. destruct o; try discriminate.
      + destruct bp; [|discriminate]. destruct (IHa F _ _ _ _ d I K) as ([z|] & c & C & S1 & _); cbn [is_bool_node]; rewrite C; cbn [bind fst snd].
        * exists (Some (ZNot z)), (false || c). split; [reflexivity|]. split; [|discriminate]. intros z' E. injection E as <-. cbn [sorted sort_of]. specialize (S1 z eq_refl). cbn [sorted] in S1. rewrite S1. reflexivity.
        * exists None, false. split; [reflexivity|]. split; discriminate.
      + destruct (IHa F _ _ _ _ d I K) as ([z|] & c & C & S1 & L); cbn [is_bool_node]; rewrite C; cbn [bind fst snd].
        * destruct (bool_sorted (Unary Neg a) bp (ZNeg z)) as (z' & c' & T & S2); [|reflexivity|].
          { specialize (S1 z eq_refl). cbn [sorted sort_of] in *. destruct S1 as [-> | ->]; auto. }
          rewrite T. exists (Some z'), (c' || c). split; [reflexivity|]. split; [intros z2 E; injection E as <-; exact S2|discriminate].
        * exists None, false. split; [reflexivity|]. split; [discriminate|]. cbn [linear]. intros LL _. exact (L LL eq_refl).
      + destruct (IHa F _ _ _ _ d I K) as ([z|] & c & C & S1 & L); cbn [is_bool_node]; rewrite C; cbn [bind fst snd].
        * destruct (bool_sorted (Unary Pos a) bp z (S1 z eq_refl) eq_refl) as (z' & c' & T & S2).
          rewrite T. exists (Some z'), (c' || c). split; [reflexivity|]. split; [intros z2 E; injection E as <-; exact S2|discriminate].
        * exists None, false. split; [reflexivity|]. split; [discriminate|]. cbn [linear]. intros LL _. exact (L LL eq_refl).
    - destruct (fit_binary o a b F) as [Fa Fb]. rewrite init_binary in I.
      destruct (not_allowed H G (Binary o a b) int_op bp) as [[]|] eqn:NA; try discriminate. cbn [bind] in I.
      cbn [convert]. fold (as_variable d bp (Binary o a b)). destruct (nonlinear H (Binary o a b)) as [[]|] eqn:NL; try discriminate; cbn [bind] in I |- *.
      { destruct mk; [|discriminate]. injection I as I. exact (variable_translatable (Binary o a b) int_op bp d0 d1 d eq_refl I K). }
      assert (AR : forall f, f = ZAdd \/ f = ZSub \/ f = ZMul -> init_all H G mk int_op false [a; b] d0 = Ok (true, d1) ->
        exists z c, (do l <- convert H d false a; do r <- convert H d false b;
          match fst l, fst r with
          | Some x, Some y => let r' := to_bool (Binary o a b) bp (Some (f x y)) in Ok (fst r', snd r' || (snd l || snd r))
          | _, _ => Ok (None, false)
          end) = Ok (z, c) /\ (forall z', z = Some z' -> sorted bp z') /\ (linear a && linear b = true -> z <> None)).
      { intros f Ff I'. cbn [init_all] in I'. destruct (initialize H G mk int_op false a d0) as [[[] da]|] eqn:IA; try discriminate. cbn [bind fst snd] in I'.
        destruct (initialize H G mk int_op false b da) as [[[] db]|] eqn:IB; try discriminate. cbn [bind fst snd] in I'. assert (db = d1) by congruence. subst db.
        assert (KB : keeps da d) by (eapply keeps_trans; [exact (initialize_keeps H G mk b _ _ _ _ IB)|exact K]).
        destruct (IHa Fa _ _ _ _ d IA KB) as (za & ca & CA & SA & LA). destruct (IHb Fb _ _ _ _ d IB K) as (zb & cb & CB & SB & LB).
        rewrite CA, CB. cbn [bind fst snd]. destruct za as [za|], zb as [zb|]; try (exists None, false; split; [reflexivity|]; split; [discriminate|]; intros L _; apply andb_true_iff in L; tauto).
        destruct (bool_sorted (Binary o a b) bp (f za zb)) as (z' & c' & T & S2); [apply arith_sorted; auto|reflexivity|].
        rewrite T. cbn [fst snd]. exists (Some z'), (c' || (ca || cb)). split; [reflexivity|]. split; [intros z2 E; injection E as <-; exact S2|discriminate]. }
      assert (CO : match o with Mod | FloorDiv | Div => True | _ => False end -> forall io, initialize H G mk io false a d0 = Ok (true, d1) \/ (exists da, initialize H G mk io false a d0 = Ok (true, da) /\ keeps da d1) ->
        exists za ca v, convert H d false a = Ok (za, ca) /\ (forall z', za = Some z' -> sorted false z') /\ get_const_value H b = Ok v /\ match o, v with Div, VFloat _ | _, VBool _ | _, VInt _ => True | _, _ => False end).
      { intros O io IA. destruct Fb as (WB & NB & _). destruct (constant_right o a b int_op bp WB NB O NL NA) as (v & V & VV).
        assert (X : exists da, initialize H G mk io false a d0 = Ok (true, da) /\ keeps da d) by (destruct IA as [IA|(da & IA & KA)]; [exists d1|exists da]; (split; [exact IA|]); [exact K|eapply keeps_trans; eassumption]).
        destruct X as (da & IA' & KA). destruct (IHa Fa _ _ _ _ d IA' KA) as (za & ca & CA & SA & _). exists za, ca, v. auto. }
      assert (IA1 : init_all H G mk int_op false [a; b] d0 = Ok (true, d1) -> exists da, initialize H G mk int_op false a d0 = Ok (true, da) /\ keeps da d1).
      { intro I'. cbn [init_all] in I'. destruct (initialize H G mk int_op false a d0) as [[[] da]|] eqn:IA; try discriminate. cbn [bind fst snd] in I'. exists da. split; [reflexivity|].
        destruct (initialize H G mk int_op false b da) as [[[] db]|] eqn:IB; try discriminate. cbn [bind fst snd] in I'. assert (db = d1) by congruence. subst db. exact (initialize_keeps H G mk b _ _ _ _ IB). }
      destruct Fa as (WA & NPA & PAA). destruct F as (WF & NP & PA). cbn [no_power] in NP.
      destruct o; try discriminate.
      + destruct (AR ZAdd ltac:(auto) I) as (z & c & C & S1 & L). exists z, c. split; [|split; [exact S1|exact L]].
        destruct (convert H d false a) as [[za ca]|]; [|discriminate]. cbn [bind fst snd] in *. destruct (convert H d false b) as [[zb cb]|]; [|discriminate]. exact C.
      + destruct (AR ZSub ltac:(auto) I) as (z & c & C & S1 & L). exists z, c. split; [|split; [exact S1|exact L]].
        destruct (convert H d false a) as [[za ca]|]; [|discriminate]. cbn [bind fst snd] in *. destruct (convert H d false b) as [[zb cb]|]; [|discriminate]. exact C.
      + destruct (AR ZMul ltac:(auto) I) as (z & c & C & S1 & L). exists z, c. split; [|split; [exact S1|exact L]].
        destruct (convert H d false a) as [[za ca]|]; [|discriminate]. cbn [bind fst snd] in *. destruct (convert H d false b) as [[zb cb]|]; [|discriminate]. exact C.
      + (* / *) destruct (CO Logic.I int_op (or_intror (IA1 I))) as (za & ca & v & CA & SA & V & VV). rewrite CA. cbn [bind fst snd].
        destruct za as [za|]; [|exists None, false; split; [reflexivity|]; split; discriminate]. unfold convert_by_constant. rewrite V. cbn [bind].
        destruct (bool_sorted (Binary Div a b) bp (ZOver za v)) as (z' & c' & T & S2); [right; specialize (SA za eq_refl); cbn [sorted sort_of] in *; destruct SA as [-> | ->]; reflexivity|reflexivity|].
        destruct v; try contradiction; cbn [bind]; rewrite T; cbn [fst snd]; exists (Some z'), (c' || ca); (split; [reflexivity|]); (split; [intros z2 E; injection E as <-; exact S2|discriminate]).
      + (* // *) destruct (CO Logic.I true (or_introl I)) as (za & ca & v & CA & SA & V & VV). rewrite CA. cbn [bind fst snd].
        destruct za as [za|]; [|exists None, false; split; [reflexivity|]; split; discriminate].
        unfold is_int_term. destruct (sort_of za) as [[]|] eqn:SZ; try (exists None, false; split; [reflexivity|]; split; discriminate).
        unfold convert_by_constant. rewrite V. cbn [bind].
        assert (SQ : forall k, exists z' c', to_bool (Binary FloorDiv a b) bp (Some (ZQuot za k)) = (Some z', c') /\ sorted bp z') by (intro k; apply bool_sorted; [left; cbn [sort_of]; rewrite SZ; reflexivity|reflexivity]).
        destruct v; try contradiction; cbn [bind]; match goal with |- context [ZQuot za ?k] => destruct (SQ k) as (z' & c' & T & S2) end; rewrite T; cbn [fst snd]; exists (Some z'), (c' || ca); (split; [reflexivity|]); (split; [intros z2 E; injection E as <-; exact S2|discriminate]).
      + (* % *) destruct (CO Logic.I true (or_introl I)) as (za & ca & v & CA & SA & V & VV). rewrite CA. cbn [bind fst snd].
        destruct za as [za|]; [|exists None, false; split; [reflexivity|]; split; discriminate].
        unfold is_int_term. destruct (sort_of za) as [[]|] eqn:SZ; try (exists None, false; split; [reflexivity|]; split; discriminate).
        unfold convert_by_constant. rewrite V. cbn [bind].
        destruct v; try contradiction; cbn [bind]; [exists None, (false || ca); split; [reflexivity|]; split; discriminate|].
        destruct (Z.ltb 1 z); [|exists None, (false || ca); split; [reflexivity|]; split; discriminate].
        destruct (bool_sorted (Binary Mod a b) bp (ZMod za z)) as (z' & c' & T & S2); [left; cbn [sort_of]; rewrite SZ; reflexivity|reflexivity|].
        rewrite T. cbn [fst snd]. exists (Some z'), (c' || ca). split; [reflexivity|]. split; [intros z2 E; injection E as <-; exact S2|discriminate].
    - rewrite init_bool in I. destruct bp; [|discriminate]. rewrite convert_bool. assert (FV := fit_bool o vs F).
      assert (X : exists r, convert_all H d vs = Ok r /\ match r with Some (zs, c) => Forall (sorted true) zs | None => True end).
      { clear F. revert d0 I. induction IHvs as [|x l X IHl IH]; intros d0 I; [exists (Some ([], false)); split; [reflexivity|constructor]|].
        inversion FV as [|? ? Fx FV']; subst. cbn [init_all] in I. destruct (initialize H G mk int_op true x d0) as [[[] dx]|] eqn:IX; try discriminate. cbn [bind fst snd] in I.
        assert (KX : keeps dx d).
        { eapply keeps_trans; [|exact K]. refine (all_keeps H G mk l _ _ _ _ _ I). rewrite Forall_forall. intros y _. apply initialize_keeps. }
        destruct (X Fx _ _ _ _ d IX KX) as (z & c & C & S1 & _). cbn [convert_all]. rewrite C. cbn [bind fst snd].
        destruct z as [z|]; [|exists None; split; [reflexivity|exact Logic.I]]. destruct (IH FV' dx I) as (r & -> & R). cbn [bind]. eexists. split; [reflexivity|].
        destruct r as [[zs c']|]; [|exact Logic.I]. constructor; [exact (S1 z eq_refl)|exact R]. }
      destruct X as ([[zs c]|] & -> & R); cbn [bind]; [|exists None, false; split; [reflexivity|]; split; discriminate].
      eexists. exists c. split; [reflexivity|]. split; [|discriminate]. intros z' E. injection E as <-.
      assert (Y : forallb (fun z => match sort_of z with Some SBool => true | _ => false end) zs = true).
      { rewrite forallb_forall. intros z Z. rewrite Forall_forall in R. specialize (R z Z). cbn [sorted] in R. rewrite R. reflexivity. }
      destruct o; cbn [sorted sort_of]; rewrite Y; reflexivity.
    - rewrite init_compare in I. destruct ops as [|[op b] [|]]; try discriminate. destruct bp; [|rewrite !orb_true_r in I; discriminate].
      inversion IHops as [|? ? IHb _]; subst. cbn [snd] in IHb. destruct (fit_compare _ _ F) as [Fa Fo]. inversion Fo as [|? ? Fb _]; subst. cbn [snd] in Fb.
      assert (I' : init_all H G mk int_op false [a; b] d0 = Ok (true, d1)) by (destruct op; try discriminate I; exact I).
      cbn [init_all] in I'. destruct (initialize H G mk int_op false a d0) as [[[] da]|] eqn:IA; try discriminate. cbn [bind fst snd] in I'.
      destruct (initialize H G mk int_op false b da) as [[[] db]|] eqn:IB; try discriminate. cbn [bind fst snd] in I'. assert (db = d1) by congruence. subst db.
      assert (KB : keeps da d) by (eapply keeps_trans; [exact (initialize_keeps H G mk b _ _ _ _ IB)|exact K]).
      destruct (IHa Fa _ _ _ _ d IA KB) as (za & ca & CA & SA & _). destruct (IHb Fb _ _ _ _ d IB K) as (zb & cb & CB & SB & _).
      cbn [convert]. rewrite CA, CB. cbn [bind fst snd]. destruct za as [za|], zb as [zb|]; try (exists None, false; split; [reflexivity|]; split; discriminate).
      destruct (convert_rel op za zb) as [z|] eqn:CR; [|exists None, false; split; [reflexivity|]; split; discriminate].
      exists (Some z), (ca || cb). split; [reflexivity|]. split; [|discriminate]. intros z' E. injection E as <-.
      assert (Z : z = ZRel op za zb) by (destruct op; try discriminate CR; injection CR as <-; reflexivity). subst z.
      specialize (SA za eq_refl). specialize (SB zb eq_refl). cbn [sorted sort_of] in *. destruct SA as [-> | ->], SB as [-> | ->]; reflexivity.
    - rewrite init_call in I. rewrite convert_call. destruct (is_abs g) eqn:AB.
      + destruct (fit_abs g args F AB) as (a & r & -> & Fa & LA). inversion IHargs as [|? ? IHa _]; subst.
        destruct (IHa Fa _ _ _ _ d I K) as ([z|] & c & C & S1 & L); [|exfalso; exact (L LA eq_refl)]. rewrite C. cbn [bind fst snd].
        destruct (bool_sorted (Call g (a :: r)) bp (ZAbs z)) as (z' & c' & T & S2); [|reflexivity|].
        { specialize (S1 z eq_refl). cbn [sorted sort_of] in *. destruct S1 as [-> | ->]; auto. }
        cbv zeta. rewrite T. cbn [fst snd]. exists (Some z'), (c' || c). split; [reflexivity|]. split; [intros z2 E; injection E as <-; exact S2|discriminate].
      + destruct mk; [|discriminate]. injection I as I. exact (variable_translatable (Call g args) int_op bp d0 d1 d eq_refl I K).
    - cbn in I. rewrite andb_true_r in I. destruct mk; [|discriminate]. injection I as I. exact (variable_translatable (Attribute a x) int_op bp d0 d1 d eq_refl I K).
    - cbn in I. rewrite andb_true_r in I. destruct mk; [|discriminate]. injection I as I. exact (variable_translatable (Subscript a i) int_op bp d0 d1 d eq_refl I K).
    - exists None, false. split; [reflexivity|]. split; discriminate.
    - exists None, false. split; [reflexivity|]. split; discriminate.
  Qed.
End Total.

(** ** The checks *)
Section Removal.
  Variables (unsat : zexpr -> bool) (text_length : text -> nat) (vs : list expr) (cs : list zexpr) (is_or : bool).
  Hypothesis LENGTH : length vs = length cs.
  Lemma get_in {A} (l : list A) i : i < length l -> exists x, get l i = Ok x.
  Proof. intro L. unfold get. destruct (nth_error l i) as [x|] eqn:N; [eauto|]. apply nth_error_None in N. lia. Qed.
  Lemma compare_with_ends i js removed : length removed = length cs -> i < length cs -> Forall (fun j => j < length cs) js ->
    exists r, compare_with unsat text_length vs cs is_or i js removed = Ok r /\ length r = length cs.
  Proof.
    intros LR LI J. revert removed LR. induction J as [|j js LJ J IH]; intros removed LR; cbn [compare_with]; [eauto|].
    destruct (get_in removed j) as (rj & ->); [lia|]. cbn [bind]. destruct rj; [apply IH; exact LR|].
    destruct (get_in cs i LI) as (ci & ->). destruct (get_in cs j LJ) as (cj & ->). destruct (get_in vs i) as (x & ->); [lia|]. destruct (get_in vs j) as (y & ->); [lia|]. cbn [bind]. cbv zeta.
    match goal with |- exists r, (if ?t then _ else _) = _ /\ _ => destruct t end; [eexists; split; [reflexivity|]; rewrite mark_length; exact LR|].
    apply IH. match goal with |- length (if ?t then _ else _) = _ => destruct t end; rewrite ?mark_length; exact LR.
  Qed.
  Lemma compare_all_ends is_ removed : length removed = length cs -> Forall (fun j => j < length cs) is_ ->
    exists r, compare_all unsat text_length vs cs is_or is_ removed = Ok r /\ length r = length cs.
  Proof.
    intros LR J. revert removed LR. induction J as [|i is_ LI J IH]; intros removed LR; cbn [compare_all]; [eauto|].
    destruct (get_in removed i) as (ri & ->); [lia|]. cbn [bind]. destruct ri; cbn [bind]; [apply IH; exact LR|].
    destruct (compare_with_ends i (seq (S i) (length cs - S i)) removed LR LI) as (r & -> & L); [rewrite Forall_forall; intros j; rewrite in_seq; lia|]. cbn [bind]. apply IH. exact L.
  Qed.
  Lemma implied_ends is_ removed : length removed = length cs -> Forall (fun j => j < length cs) is_ ->
    exists r, implied_by_rest unsat cs is_or is_ removed = Ok r /\ length r = length cs.
  Proof.
    intros LR J. revert removed LR. induction J as [|i is_ LI J IH]; intros removed LR; cbn [implied_by_rest]; [eauto|].
    destruct (get_in removed i) as (ri & ->); [lia|]. cbn [bind]. destruct ri; [apply IH; exact LR|]. destruct (get_in cs i LI) as (ci & ->). cbn [bind]. cbv zeta.
    destruct (kept cs (mark removed i)); [eauto|]. apply IH. match goal with |- length (if ?t then _ else _) = _ => destruct t end; rewrite ?mark_length; exact LR.
  Qed.
  Lemma parts_end : exists r, redundant_parts unsat text_length vs cs is_or = Ok r.
  Proof.
    unfold redundant_parts. cbv zeta. assert (J : Forall (fun j => j < length cs) (seq 0 (length cs))) by (rewrite Forall_forall; intros j; rewrite in_seq; lia).
    destruct (compare_all_ends (seq 0 (length cs)) (map (fun c => (is_or && unsat c) || (negb is_or && unsat (ZNot c))) cs)) as (r & -> & L); [apply map_length|exact J|]. cbn [bind].
    destruct (implied_ends (seq 0 (length cs)) r L J) as (r' & -> & _). eauto.
  Qed.
End Removal.

Section Checks.
  Variables (H : host) (G : inspection) (unsat : zexpr -> bool) (text_length : text -> nat).
  Hypothesis TH : tame_host H.
  Hypothesis NH : numeric_host H.
  Lemma operands_end int_op d1 d vs bp : Forall fit vs -> forall d0, init_all H G true int_op true vs d0 = Ok (true, d1) -> keeps d1 d ->
    exists r, convert_operands H d bp vs = Ok r /\ forall cs, r = Some cs -> length vs = length cs.
  Proof.
    induction 1 as [|x l Fx F IH]; intros d0 I K; cbn [convert_operands]; [exists (Some []); split; [reflexivity|]; intros cs [= <-]; reflexivity|].
    cbn [init_all] in I. destruct (initialize H G true int_op true x d0) as [[[] dx]|] eqn:IX; try discriminate. cbn [bind fst snd] in I.
    assert (KX : keeps dx d).
    { eapply keeps_trans; [|exact K]. refine (all_keeps H G true l _ _ _ _ _ I). rewrite Forall_forall. intros y _. apply initialize_keeps. }
    destruct (convert_ends H G true TH NH x Fx _ _ _ _ d IX KX) as (z & c & -> & _). cbn [bind fst snd]. destruct z as [z|]; [|exists None; split; [reflexivity|discriminate]].
    match goal with |- exists r, (if ?t then _ else _) = _ /\ _ => destruct t end; [exists None; split; [reflexivity|discriminate]|].
    destruct (IH dx I K) as (r & -> & R). cbn [bind]. destruct r as [cs|]; eexists; (split; [reflexivity|]); [|discriminate]. intros cs' [= <-]. cbn [length]. rewrite (R cs eq_refl). reflexivity.
  Qed.
  Theorem redundant_ends e : fit e -> forall bp, exists ms, redundant_operands unsat text_length H G bp e = Ok ms.
  Proof.
    induction e as [x|k|o a IHa|o a b IHa IHb|o vs IHvs|a ops IHa IHops|g args IHg IHargs|a x IHa|a i IHa IHi|c a b IHc IHa IHb|n] using expr_ind'; intros F bp; try (eexists; reflexivity).
    assert (FV := fit_bool o vs F). destruct (initialize_ends H G true TH (BoolOp o vs) F false true []) as ([ok d] & I). cbn [redundant_operands]. rewrite I. cbn [bind fst snd]. destruct ok; cbn [negb]; [|eexists; reflexivity].
    rewrite init_bool in I. destruct (operands_end false d d vs bp FV [] I (keeps_refl d)) as (r & -> & R). cbn [bind]. destruct r as [cs|]; [|eexists; reflexivity].
    specialize (R cs eq_refl). destruct (parts_end unsat text_length vs cs (match o with Or => true | And => false end) R) as (rm & ->). cbn [bind].
    destruct (kept vs rm) as [|k0 ks]; [eexists; reflexivity|]. match goal with |- context [check_always unsat ?x ?y] => destruct (check_always unsat x y) end; [eexists; reflexivity|].
    match goal with |- exists ms, (if ?t then _ else _) = _ => destruct t end; [|eexists; reflexivity]. clear -IHvs FV.
    induction IHvs as [|x l X IHl IH]; [eexists; reflexivity|]. inversion FV; subst. destruct (X ltac:(assumption) true) as (a & ->). destruct IH as (b & ->); [assumption|]. cbn [bind]. eexists; reflexivity.
  Qed.
  Theorem check_boolop_ends I boolop_parent bp e : fit e -> exists ms, check_boolop unsat text_length I H G boolop_parent bp e = Ok ms.
  Proof. intro F. destruct e; try (eexists; reflexivity). unfold check_boolop. match goal with |- exists ms, (if ?t then _ else _) = _ => destruct t end; [apply redundant_ends; exact F|eexists; reflexivity]. Qed.
  Theorem check_compare_ends I boolop_parent e : fit e -> exists m, check_compare unsat I H G boolop_parent e = Ok m.
  Proof.
    intro F. destruct e as [| | | | |a ops| | | | |]; try (eexists; reflexivity). unfold check_compare. match goal with |- exists ms, (if ?t then _ else _) = _ => destruct t end; [eexists; reflexivity|].
    destruct (initialize_ends H G true TH _ F false true []) as ([ok d] & I1). rewrite I1. cbn [bind fst snd]. destruct ok; cbn [negb]; [|eexists; reflexivity].
    destruct (convert_ends H G true TH NH _ F _ _ _ _ d I1 (keeps_refl d)) as (z & c & -> & _). cbn [bind fst]. destruct z; eexists; reflexivity.
  Qed.
  Theorem translated_sorted e d z c : fit e -> initialize H G true false true e [] = Ok (true, d) -> convert H d true e = Ok (Some z, c) -> sort_of z = Some SBool.
  Proof.
    intros F I C. destruct (convert_ends H G true TH NH _ F _ _ _ _ d I (keeps_refl d)) as (z' & c' & C' & S1 & _). rewrite C in C'. injection C' as <- <-. exact (S1 z eq_refl).
  Qed.
End Checks.
