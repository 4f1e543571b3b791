(** Proofs about the analysis of blocks: translated expressions have the values Python gives them; assignments. *)
From Coq Require Import String List Bool Arith NArith ZArith QArith Qabs Qround Lia.
From Verif Require Import Base PyModel PySpec PyProofs IfModel IfSpec IfProofs FoldModel FoldSpec FoldProofs TypeModel LocalModel LocalSpec LocalProofs LetterProofs MergeSpec SolverModel SolverSpec SolverProofs BlockModel BlockSpec BlockProofs BlockEnvProofs.
Import ListNotations.
Local Open Scope string_scope.
Local Open Scope list_scope.
Local Open Scope nat_scope.

(** ** Initialization without guesses of types *)
Definition anything (G : inspection) : inspection := {| guess := fun _ => Some (only TInt); is_collection := is_collection G |}.
Section Anything.
  Variables (H : host) (G : inspection) (mk : bool).
  Lemma variable_any e d io : exists d1, initialize_variable (anything G) e d io = (true, d1).
  Proof. unfold initialize_variable. cbn [guess anything]. destruct io; eexists; reflexivity. Qed.
  Lemma init_any e : forall io bp d0 d1, initialize H G mk io bp e d0 = Ok (true, d1) -> forall d, exists d', initialize H (anything G) mk io bp e d = Ok (true, d').
  Proof.
    induction e as [x|k|o a IHa|o a b IHa IHb|o vs IHvs|a ops IHa IHops|g args IHg IHargs|a x IHa|a i IHa IHi|t a b IHt IHa IHb|n] using expr_ind'; intros io bp d0 d1 I d.
    - cbn [initialize not_allowed bind nonlinear is_variable orb] in *. destruct mk; destruct (variable_any (Name x) d io) as (d' & ->); exists d'; reflexivity.
    - cbn [initialize not_allowed bind nonlinear is_variable orb] in *. destruct k as [|b|z|r|s]; try discriminate; try (destruct bp; [|discriminate]); try (destruct io; [discriminate|]); rewrite ?andb_false_r in *; eexists; reflexivity.
    - rewrite init_unary in *. destruct o; try discriminate; [destruct bp; [|discriminate]| |]; exact (IHa _ _ _ _ I d).
    - rewrite init_binary in *. change (not_allowed H (anything G) (Binary o a b) io bp) with (not_allowed H G (Binary o a b) io bp).
      destruct (not_allowed H G (Binary o a b) io bp) as [[]|]; cbn [bind] in *; try discriminate. destruct (nonlinear H (Binary o a b)) as [[]|]; cbn [bind] in *; try discriminate.
      + destruct mk; [|discriminate]. destruct (variable_any (Binary o a b) d io) as (d' & ->). exists d'. reflexivity.
      + destruct o; cbn [init_all] in *; try exact (IHa _ _ _ _ I d);
          (destruct (initialize H G mk io false a d0) as [[[] da]|] eqn:IA; cbn [bind fst snd] in I; try discriminate;
           destruct (initialize H G mk io false b da) as [[[] db]|] eqn:IB; cbn [bind fst snd] in I; try discriminate;
           destruct (IHa _ _ _ _ IA d) as (da' & ->); cbn [bind fst snd]; destruct (IHb _ _ _ _ IB da') as (db' & ->); cbn [bind fst snd]; exists db'; reflexivity).
    - rewrite init_bool in *. destruct bp; [|discriminate]. revert d0 d1 I d. induction IHvs as [|x l X F IH]; intros d0 d1 I d; cbn [init_all] in *; [exists d; reflexivity|].
      destruct (initialize H G mk io true x d0) as [[[] dx]|] eqn:IX; cbn [bind fst snd] in I; try discriminate. destruct (X _ _ _ _ IX d) as (dx' & ->). cbn [bind fst snd]. exact (IH _ _ I dx').
    - rewrite init_compare in *. destruct (_ || _ || _); [discriminate|].
      assert (F : Forall (fun e => forall io bp d0 d1, initialize H G mk io bp e d0 = Ok (true, d1) -> forall d, exists d', initialize H (anything G) mk io bp e d = Ok (true, d')) (a :: map snd ops)).
      { constructor; [exact IHa|]. rewrite Forall_map. exact IHops. }
      clear IHa IHops. revert d0 d1 I d. induction F as [|x l X F IH]; intros d0 d1 I d; cbn [init_all] in *; [exists d; reflexivity|].
      destruct (initialize H G mk io false x d0) as [[[] dx]|] eqn:IX; cbn [bind fst snd] in I; try discriminate. destruct (X _ _ _ _ IX d) as (dx' & ->). cbn [bind fst snd]. exact (IH _ _ I dx').
    - rewrite init_call in *. destruct (is_abs g).
      + destruct args as [|a args]; [discriminate|]. inversion IHargs as [|? ? IHa _]; subst. exact (IHa _ _ _ _ I d).
      + destruct mk; [|discriminate]. destruct (variable_any (Call g args) d io) as (d' & ->). exists d'. reflexivity.
    - cbn [initialize not_allowed bind nonlinear is_variable orb] in *. destruct mk; cbn [negb andb] in *; [|discriminate]. destruct (variable_any (Attribute a x) d io) as (d' & ->). exists d'. reflexivity.
    - cbn [initialize not_allowed bind nonlinear is_variable orb] in *. destruct mk; cbn [negb andb] in *; [|discriminate]. destruct (variable_any (Subscript a i) d io) as (d' & ->). exists d'. reflexivity.
    - cbn [initialize not_allowed bind nonlinear is_variable orb] in *. rewrite !andb_false_r in *. exists d. reflexivity.
    - cbn [initialize not_allowed bind nonlinear is_variable orb anything is_collection] in *. destruct (is_collection G n); [discriminate|]. rewrite !andb_false_r in *. exists d. reflexivity.
  Qed.
End Anything.
Lemma init_number H G mk io e d : is_cond e = false -> initialize H G mk io true e d = initialize H G mk io false e d.
Proof.
  intro N. destruct e as [x|k|o a|o a b|o vs|a ops|g args|a x|a i|t a b|n]; try discriminate; try reflexivity.
  - destruct k; try discriminate; reflexivity.
  - rewrite !init_unary. destruct o; try discriminate; reflexivity.
Qed.
Lemma convert_cond H d e bp : is_cond e = true -> convert H d false e = convert H d bp e.
Proof.
  intro N. destruct e as [x|k|o a|o a b|o vs|a ops|g args|a x|a i|t a b|n]; try discriminate; try reflexivity.
  - destruct k; try discriminate. destruct bp; reflexivity.
  - destruct o; try discriminate. cbn [convert is_bool_node]. destruct (convert H d true a) as [[[z|] c]|]; cbn [bind fst snd]; try reflexivity. destruct bp; reflexivity.
Qed.

Section Values.
  Variables (H : host) (G : inspection).
  Hypothesis CH : closed_host H.
  Context {W : Type}.
  Variables (P : python W) (d : variables).
  Hypothesis AG : agrees P H.

  Definition tracks (f : text -> Z) (cur : counts) (w : W) : Prop := forall s z, fine s = true -> find_var d (as_string s) <> None -> is_int P w s z ->
    f (prefixed (as_string s) (cur (as_string s))) = z.
  Definition initialized (e : expr) : Prop := exists mk d0 d1, initialize H G mk false true e d0 = Ok (true, d1).

  Lemma environment_for f cur w e : fine e = true -> whole P w e -> tracks f cur w ->
    exists E, assigns E P w (numbers e) /\ forall z, over_vars (keys d) z -> zeval E z = zeval (env f) (rename cur z).
  Proof.
    intros F WH T. destruct (SolverProofs.assigned P w (numbers e) (fine_numbers e F) WH) as (E0 & A0).
    exists {| int_var := fun k => match find_var d k with Some _ => f (prefixed k (cur k)) | None => int_var E0 k end;
              real_var := fun k => match find_var d k with Some _ => inject_Z (f (prefixed k (cur k))) | None => real_var E0 k end;
              quot0 := fun _ => 0%Z; over0 := fun q => q |}.
    split.
    - intros s z IN IS. cbn [int_var real_var]. destruct (find_var d (as_string s)) as [i|] eqn:FV; [|exact (A0 s z IN IS)].
      assert (FS : fine s = true) by (pose proof (fine_numbers e F) as FN; rewrite Forall_forall in FN; exact (FN s IN)).
      rewrite (T s z FS ltac:(congruence) IS). split; reflexivity.
    - intros z O. rewrite zeval_rename. apply (zeval_ext _ _ (keys d)); try reflexivity; [|exact O].
      intros k [K _]. cbn [int_var real_var view env]. destruct (find_var d k); [split; reflexivity|congruence].
  Qed.
  (** With any guesses of types, in a context that wants a condition or a number. *)
  Lemma meaning G' mk bp e z c f cur w d0 d1 : initialize H G' mk false bp e d0 = Ok (true, d1) -> convert H d bp e = Ok (Some z, c) -> fine e = true ->
    integral P (e, w) -> tracks f cur w -> exists E, means P w E bp e z c /\ zeval E z = zeval (env f) (rename cur z).
  Proof.
    intros I C F (AB & WH & DV) T. cbn [fst snd] in *. destruct (environment_for f cur w e F WH T) as (E & A & Z). exists E. split; [|exact (Z z (proj1 (convert_product H d e bp z c C)))].
    apply andb_true_iff in F. destruct F as [WF _]. exact (translated H G' mk CH P w AG AB E e bp false d0 d1 d z c I C WF WH DV A).
  Qed.
  Lemma condition_meaning e z f cur w : initialized e -> fine e = true -> integral P (e, w) -> tracks f cur w -> translate H d cur true e = Ok (Some z) ->
    exists b v, gives P w e v /\ truth P v w = (w, Ok b) /\ zeval (env f) z = Some (ZB b).
  Proof.
    intros (mk & d0 & d1 & I) F IN T TR. unfold translate in TR. destruct (convert H d true e) as [[[y|] c]|] eqn:C; cbn [bind fst] in TR; try discriminate.
    destruct (sort_of y); [|discriminate]. destruct (true && negb (is_bool_term y)); [discriminate|]. injection TR as <-.
    destruct (meaning G mk true e y c f cur w d0 d1 I C F IN T) as (E & MN & <-). destruct (means_cond P w E e y c MN) as (b & v & GV & TV & ZV & _). exists b, v. auto.
  Qed.
  Lemma comparison_bool a ops w z c d0 d1 mk : initialize H G mk false true (Compare a ops) d0 = Ok (true, d1) -> convert H d true (Compare a ops) = Ok (Some z, c) ->
    fine (Compare a ops) = true -> integral P (Compare a ops, w) -> forall v, gives P w (Compare a ops) v -> exists b, v = VBool b.
  Proof.
    intros I C F (AB & WH & DV) v GV. cbn [fst snd] in *. pose proof (fine_numbers _ F) as FN. rewrite init_compare in I. destruct ops as [|[op b] [|]]; try discriminate.
    assert (I' : init_all H G mk false false [a; b] d0 = Ok (true, d1)) by (destruct op; try discriminate I; exact I).
    assert (OP : match op with In | NotIn | Is | IsNot => False | _ => True end) by (destruct op; try discriminate I; exact Logic.I).
    cbn [init_all] in I'. destruct (initialize H G mk false false a d0) as [[[] da]|] eqn:IA; try discriminate. cbn [bind fst snd] in I'.
    destruct (initialize H G mk false false b da) as [[[] db]|] eqn:IB; try discriminate.
    cbn [convert] in C. destruct (convert H d false a) as [[za ca]|] eqn:CA; try discriminate. cbn [bind] in C.
    destruct (convert H d false b) as [[zb cb]|] eqn:CB; try discriminate. cbn [bind fst snd] in C. destruct za as [za|], zb as [zb|]; try discriminate.
    apply andb_true_iff in F. destruct F as [WF _]. cbn [well_formed forallb snd] in WF. apply andb_true_iff in WF. destruct WF as [WF WB]. apply andb_true_iff in WF. destruct WF as [_ WA]. rewrite andb_true_r in WB.
    cbn [int_divisions map fold_right snd] in DV. destruct DV as (DA & DB & _). unfold whole in WH. destruct (SolverProofs.assigned P w _ FN WH) as (E & A).
    cbn [numbers flat_map snd] in WH, A. rewrite app_nil_r in WH, A. apply Forall_app in WH. destruct WH as [HA HB].
    assert (AA := assigns_incl P w E _ _ (incl_appl _ (incl_refl _)) A). assert (AB' := assigns_incl P w E _ _ (incl_appr _ (incl_refl _)) A).
    destruct (means_number P w E _ _ _ (translated H G mk CH P w AG AB E a _ _ _ _ _ _ _ IA CA WA HA DA AA)) as (m & p & (va & GA & NA) & _).
    destruct (means_number P w E _ _ _ (translated H G mk CH P w AG AB E b _ _ _ _ _ _ _ IB CB WB HB DB AB')) as (n & q & (vb & GB & NB) & _).
    assert (D : exists r, decided_by op m n = Some r) by (destruct op; try contradiction; eexists; reflexivity). destruct D as [r D].
    exists r. unfold gives in GV. rewrite (eval_compare1 P w op a b va vb GA GB), (ints_compare P w op va vb m n r NA NB D) in GV. congruence.
  Qed.
  (** The value of a leaf and of its term. *)
  Definition leaf_means (f : text -> Z) (w : W) (e : expr) (v : value) (z : zexpr) : Prop :=
    (exists n q, as_int v = Some n /\ zeval (env f) z = Some (ZN q) /\ (q == inject_Z n)%Q) \/
    (exists b, truth P v w = (w, Ok b) /\ zeval (env f) z = Some (ZB b) /\ (is_connective e = false -> v = VBool b)).
  Lemma value_meaning e z f cur w : initialized e -> fine e = true -> integral P (e, w) -> tracks f cur w -> translate H d cur false e = Ok (Some z) ->
    exists v, gives P w e v /\ leaf_means f w e v z.
  Proof.
    intros (mk & d0 & d1 & I) F IN T TR. unfold translate in TR. destruct (convert H d false e) as [[[y|] c]|] eqn:C; cbn [bind fst] in TR; try discriminate.
    destruct (sort_of y); [|discriminate]. cbn [andb] in TR. injection TR as <-. destruct (is_cond e) eqn:CE.
    - rewrite (convert_cond H d e true CE) in C. destruct (meaning G mk true e y c f cur w d0 d1 I C F IN T) as (E & MN & ZE). destruct (means_cond P w E e y c MN) as (b & v & GV & TV & ZV & _).
      exists v. split; [exact GV|]. right. exists b. split; [exact TV|]. split; [rewrite <- ZE; exact ZV|]. intro NC.
      assert (X : exists b', v = VBool b').
      { destruct e as [x|k|o a|o a b'|o vs|a ops|g args|a x|a i|t a b'|n]; try discriminate.
        - destruct k; try discriminate. cbn in GV. unfold gives in GV. cbn [eval const_value] in GV. unfold pure in GV. eexists. symmetry. injection GV as E1. exact E1.
        - destruct o; try discriminate. unfold gives in GV. cbn [eval] in GV. unfold andthen at 1 in GV. destruct (eval P a w) as [w' [va|]]; [|discriminate]. unfold unary, andthen, pure in GV.
          destruct (truth P va w') as [w2 [b'|]]; [|discriminate]. exists (negb b'). congruence.
        - exact (comparison_bool a ops w y c d0 d1 mk I C F IN v GV). }
      destruct X as (b' & ->). unfold truth in TV. congruence.
    - rewrite (init_number H G mk false e d0 CE) in I. destruct (meaning G mk false e y c f cur w d0 d1 I C F IN T) as (E & MN & ZE).
      destruct (means_number P w E e y c MN) as (n & q & (v & GV & NV) & ZV & QV). exists v. split; [exact GV|]. left. exists n, q. rewrite <- ZE. auto.
  Qed.
  (** [x += e] and so on, where [e] is a number. *)
  Lemma augmented_meaning o x e z f cur w : initialized e -> is_cond e = false -> o <> Div -> fine (Binary o (Name x) e) = true -> integral P (Binary o (Name x) e, w) -> tracks f cur w ->
    nonlinear H (Binary o (Name x) e) = Ok false ->
    translate H d cur false (Binary o (Name x) e) = Ok (Some z) -> exists v, gives P w (Binary o (Name x) e) v /\ leaf_means f w (Binary o (Name x) e) v z.
  Proof.
    intros (mk & d0 & d1 & I) CE ND F IN T NL TR. unfold translate in TR. destruct (convert H d false (Binary o (Name x) e)) as [[[y|] c]|] eqn:C; cbn [bind fst] in TR; try discriminate.
    destruct (sort_of y); [|discriminate]. cbn [andb] in TR. injection TR as <-. rewrite (init_number H G mk false e d0 CE) in I.
    destruct (init_any H G mk e false false d0 d1 I) with (d := set_var d0 [TName x] false) as (d' & I').
    assert (BIN : exists d0 d1, initialize H (anything G) mk false false (Binary o (Name x) e) d0 = Ok (true, d1)).
    { cbn [convert] in C. rewrite NL in C. cbn [bind] in C. assert (NAME : forall io d, initialize H (anything G) mk io false (Name x) d = Ok (true, set_var d [TName x] io)).
      { intros io d2. cbn [initialize not_allowed bind nonlinear is_variable orb]. unfold initialize_variable. cbn [guess anything]. destruct mk, io; reflexivity. }
      assert (CASE : match o with Add | Sub | Mul => True | Mod | FloorDiv => is_float H e = Ok false | _ => False end).
      { unfold nonlinear in NL. destruct (is_number H (Binary o (Name x) e)) as [[]|] eqn:NB; cbn [bind] in NL; try discriminate.
        - unfold is_number in NB. assert (K : get_const_value H (Binary o (Name x) e) = Ok VNone \/ exists r, get_const_value H (Binary o (Name x) e) = Raise r).
          { unfold get_const_value. destruct (fold H (Binary o (Name x) e)) as [v|r] eqn:FD; [pose proof (closed_fold H _ v FD); discriminate|]. destruct (caught r); [left; reflexivity|right; exists r; reflexivity]. }
          destruct K as [K|(r & K)]; rewrite K in NB; discriminate.
        - destruct o; try exact Logic.I; try discriminate; try congruence.
          all: try (destruct (find_var d (as_string (Name x))); cbn [bind to_bool fst snd] in C; discriminate).
          all: unfold is_float; unfold is_integer in NL; destruct (get_const_value H e) as [[]|]; cbn in *; congruence. }
      exists d0. destruct o; try contradiction.
      all: rewrite init_binary; unfold not_allowed; try rewrite CASE; cbn [bind]; rewrite NL; cbn [bind init_all]; rewrite NAME; cbn [bind fst snd]; try rewrite I'; cbn [bind fst snd]; eexists; reflexivity. }
    destruct BIN as (d2 & d3 & BIN). destruct (meaning (anything G) mk false _ y c f cur w d2 d3 BIN C F IN T) as (E & MN & ZE).
    destruct (means_number P w E _ y c MN) as (n & q & (v & GV & NV) & ZV & QV). exists v. split; [exact GV|]. left. exists n, q. rewrite <- ZE. auto.
  Qed.
End Values.
