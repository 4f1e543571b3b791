From Coq Require Import String List Bool Arith NArith ZArith Lia.
From Verif Require Import Base PyModel PySpec PyProofs IfModel IfSpec.
Import ListNotations.
Local Open Scope string_scope.
Local Open Scope list_scope.

(** ** Texts *)
Definition op_word (o : boolop) : word := match o with And => WAnd | Or => WOr end.
Definition piece (o : boolop) (e : expr) : text := if other_boolop (ANode e) (op_word o) then paren (as_string e) else as_string e.
Definition negated (e : expr) : text := TNegOpen :: (if is_boolop e then paren (as_string e) else as_string e) ++ [TNegClose].

Ltac fuels f H := do 6 (destruct f as [|f]; [cbn in H; try discriminate H|]).

Lemma ref_node f a t : get_refactored f [ANode a] = Ok t -> t = as_string a.
Proof.
  unfold get_refactored. destruct f as [|[|f]]; intro H; try discriminate H. cbn in H. injection H as <-. apply app_nil_r.
Qed.
Lemma ref_not f a t : get_refactored f [AWord WNot; ANode a] = Ok t -> t = negated a.
Proof.
  unfold get_refactored. destruct f as [|[|f]]; intro H; try discriminate H. cbn -[paren] in H. injection H as <-. unfold negated.
  rewrite app_nil_r. destruct (is_boolop a); reflexivity.
Qed.
Lemma ref_join f o a b t : get_refactored f [ANode a; AWord (op_word o); ANode b] = Ok t ->
  t = piece o a ++ bool_token o :: piece o b.
Proof.
  unfold get_refactored. intro H.
  destruct f as [|f]; [discriminate|]. destruct f as [|f]; [discriminate|].
  assert (E : other_boolop (ANode a) (op_word o) = other_boolop (ANode a) (op_word o)) by reflexivity.
  unfold piece. destruct o; cbn [op_word bool_token] in *;
  destruct (other_boolop (ANode a) _) eqn:EA; destruct (other_boolop (ANode b) _) eqn:EB;
    cbn [refactored_loop nth_error after before bind negb not_at Nat.add List.app length andb] in H; rewrite EA in H;
    cbn [negb andb wrap_last rev List.app bind] in H; rewrite EB in H;
    (destruct f as [|f]; [discriminate|]); cbn [refactored_loop nth_error Nat.add List.app bind] in H;
    try (destruct f as [|f]; [discriminate|]; cbn [refactored_loop nth_error Nat.add List.app bind] in H);
    injection H as <-; cbn [concat]; rewrite ?app_nil_r; reflexivity.
Qed.
Lemma ref_not_join f o a b t : get_refactored f [AWord WNot; ANode a; AWord (op_word o); ANode b] = Ok t ->
  t = negated a ++ bool_token o :: piece o b.
Proof.
  unfold get_refactored. intro H.
  destruct f as [|f]; [discriminate|]. destruct f as [|f]; [discriminate|].
  unfold piece. destruct o; cbn [op_word bool_token] in *;
  destruct (other_boolop (ANode b) _) eqn:EB;
    cbn [refactored_loop nth_error after before bind negb not_at Nat.add List.app length andb] in H;
    rewrite andb_false_r in H; cbn [bind] in H; rewrite EB in H;
    (destruct f as [|f]; [discriminate|]); cbn [refactored_loop nth_error Nat.add List.app bind] in H;
    try (destruct f as [|f]; [discriminate|]; cbn [refactored_loop nth_error Nat.add List.app bind] in H);
    injection H as <-; cbn [concat]; rewrite ?app_nil_r; unfold negated; destruct (is_boolop a); reflexivity.
Qed.

(** ** Reading them *)
Lemma good_neg t e q : good t e q -> good (TNegOpen :: t ++ [TNegClose]) (Unary Not e) 15.
Proof.
  intros G. split; try lia; try reflexivity; try discriminate.
  intros rest e'' r' T. cbn [List.app]. rewrite <- app_assoc. cbn [List.app].
  eapply p_neg; [|exact T]. eapply good_at; [exact G|pose proof (g_range _ _ _ G); lia|lia|cbn; lia].
Qed.

Lemma good_items_ne t e q o : good t e q -> bool_prec o <= q -> items o e <> [] \/ (bool_prec o < q /\ items o e = []).
Proof.
  intros G L. destruct e as [| | | |o' l| | | | | |]; try (left; discriminate). cbn [items]. destruct (boolop_eqb o o') eqn:E; [|left; discriminate].
  destruct l; [|left; discriminate]. assert (o = o') by (destruct o, o'; congruence || discriminate). subst o'.
  destruct (Nat.eq_dec (bool_prec o) q) as [<-|]; [|right; split; [lia|reflexivity]]. exfalso.
  pose proof (g_core _ _ _ G []) as K. unfold good_core in K. destruct o; cbn [bool_prec] in K; destruct K as (l & E2 & L2 & _);
    injection E2 as E3; subst l; cbn in L2; lia.
Qed.

Lemma good_join o t1 e1 q1 t2 e2 q2 :
  good t1 e1 q1 -> good t2 e2 q2 -> bool_prec o <= q1 -> bool_prec o <= q2 ->
  (bool_prec o < q1 -> items o e1 = [e1]) -> (bool_prec o < q2 -> items o e2 = [e2]) ->
  good (t1 ++ bool_token o :: t2) (BoolOp o (items o e1 ++ items o e2)) (bool_prec o).
Proof.
  intros G1 G2 L1 L2 I1 I2. set (p := bool_prec o) in *.
  assert (P23 : p = 2 \/ p = 3) by (subst p; destruct o; cbn; auto).
  assert (LO : level_op p = o) by (subst p; destruct o; reflexivity).
  assert (N1 : items o e1 <> []).
  { destruct (good_items_ne _ _ _ o G1 L1) as [|[K E]]; [assumption|]. rewrite (I1 K) in E. discriminate. }
  assert (N2 : items o e2 <> []).
  { destruct (good_items_ne _ _ _ o G2 L2) as [|[K E]]; [assumption|]. rewrite (I2 K) in E. discriminate. }
  split; try (fold p; lia).
  - intro K. apply app_eq_nil in K. exact (g_ne _ _ _ G1 (proj1 K)).
  - intro rest.
    assert (CORE : exists l, BoolOp o (items o e1 ++ items o e2) = BoolOp (level_op p) l /\ 2 <= length l /\
      (cont rest <= p -> forall vs0 r', Bl p rest vs0 r' ->
        exists a r1 vs1, Pr (S p) ((t1 ++ bool_token o :: t2) ++ rest) a r1 /\ Bl p r1 vs1 r' /\ l ++ vs0 = a :: vs1)).
    { rewrite LO. eexists. split; [reflexivity|]. split.
      - rewrite app_length. destruct (items o e1); [congruence|]. destruct (items o e2); [congruence|]. cbn [length]. lia.
      - intros C vs0 r' B. rewrite <- app_assoc. cbn [List.app].
        rewrite <- LO in I1, I2.
        destruct (good_items _ _ _ p rest vs0 r' G2 P23 L2 C B I2) as (a & r1 & vs1 & A1 & A2 & A3).
        assert (TL : Bl p (bool_token o :: t2 ++ rest) (items o e2 ++ vs0) r').
        { rewrite LO in A3. rewrite A3. subst p. eapply bl_more; eassumption. }
        assert (C1 : cont (bool_token o :: t2 ++ rest) <= p) by (clear; subst p; destruct o; cbn; lia).
        destruct (good_items _ _ _ p _ _ _ G1 P23 L1 C1 TL I1) as (a' & r1' & vs1' & B1 & B2 & B3).
        exists a', r1', vs1'. split; [exact B1|]. split; [exact B2|]. rewrite LO in B3. rewrite <- app_assoc. exact B3. }
    fold p. clearbody p. destruct P23 as [-> | ->]; exact CORE.
Qed.

Lemma fine_split e : fine e = true -> well_formed e = true /\ no_nested_compare e = true.
Proof. intro H. apply andb_true_iff in H. exact H. Qed.
Lemma norm_same e : fine e = true -> same (norm e) e.
Proof. intros F W P w. destruct (fine_split e F). apply norm_value; assumption. Qed.
Lemma norm_not_items o e : bool_prec o < prec e -> items o (norm e) = [norm e].
Proof.
  rewrite <- norm_prec. destruct (norm e) as [| | | |o' l| | | | | |]; try reflexivity. cbn [prec items]. intro L.
  destruct (boolop_eqb o o') eqn:E; [|reflexivity]. exfalso. assert (o = o') by (destruct o, o'; congruence || discriminate). subst. lia.
Qed.

(** A text that can stand as an operand of [o], read as [e]. *)
Definition operand (o : boolop) (t : text) (e : expr) : Prop :=
  exists q, good t e q /\ bool_prec o <= q /\ (bool_prec o < q -> items o e = [e]).
Lemma operand_piece o e : fine e = true -> is_ifexp e = false -> operand o (piece o e) (norm e).
Proof.
  intros F NI. destruct (fine_split e F) as [WF NC]. pose proof (round e WF) as G. unfold piece.
  destruct (other_boolop (ANode e) (op_word o)) eqn:OB.
  - exists 15. split; [eapply good_paren; exact G|]. split; [destruct o; cbn; lia|]. intros _.
    pose proof (norm_prec e) as NP. destruct e as [| | | |o' l| | | | | |]; try discriminate OB. cbn [norm items].
    destruct o, o'; try discriminate OB; reflexivity.
  - exists (prec e). split; [exact G|]. split; [|apply norm_not_items].
    clear - NI OB. destruct o.
    + destruct e as [| |u e|o' a b|o' l| | | | | |]; try discriminate NI; try (cbn; lia); [destruct u|destruct o'|destruct o']; cbn; try lia. discriminate OB.
    + destruct e as [| |u e|o' a b|o' l| | | | | |]; try discriminate NI; try (cbn; lia); [destruct u|destruct o'|destruct o']; cbn; lia.
Qed.
Lemma operand_neg o e : fine e = true -> operand o (negated e) (Unary Not (norm e)).
Proof.
  intros F. destruct (fine_split e F) as [WF NC]. pose proof (round e WF) as G. unfold negated. exists 15.
  split; [|split; [destruct o; cbn; lia|reflexivity]].
  destruct (is_boolop e); [apply good_neg with (q := 15); eapply good_paren; exact G|eapply good_neg; exact G].
Qed.
Lemma reads_good t e q : good t e q -> reads t e.
Proof.
  intro G. pose proof (good_at _ _ _ 1 [] G ltac:(pose proof (g_range _ _ _ G); lia) ltac:(lia) ltac:(cbn; lia)) as H.
  rewrite app_nil_r in H. exact H.
Qed.
Lemma reads_join o t1 e1 t2 e2 : operand o t1 e1 -> operand o t2 e2 ->
  reads (t1 ++ bool_token o :: t2) (BoolOp o (items o e1 ++ items o e2)).
Proof. intros (q1 & G1 & L1 & I1) (q2 & G2 & L2 & I2). eapply reads_good. eapply good_join; eassumption. Qed.
Lemma items_ne_of_operand o t e : operand o t e -> items o e <> [].
Proof. intros (q & G & L & I). destruct (good_items_ne _ _ _ o G L) as [|[K E]]; [assumption|]. rewrite (I K) in E. discriminate. Qed.
Lemma join_same o e1 e2 : items o e1 <> [] -> items o e2 <> [] -> same (BoolOp o (items o e1 ++ items o e2)) (BoolOp o [e1; e2]).
Proof.
  intros N1 N2 W P w. rewrite !eval_bool. rewrite map_app.
  assert (M1 : map (eval P) (items o e1) <> []) by (destruct (items o e1); [congruence|discriminate]).
  assert (M2 : map (eval P) (items o e2) <> []) by (destruct (items o e2); [congruence|discriminate]).
  rewrite (shortcut_app P o _ _ M1 M2 w). cbn [map].
  rewrite (shortcut_cons P o (eval P e1) [eval P e2] ltac:(discriminate) w).
  apply andthen_eq; [apply items_value|]. intro v. unfold gate. apply andthen_eq; [apply eqc_refl|]. intro b.
  destruct (Bool.eqb b (neutral o)); [apply items_value|apply eqc_refl].
Qed.
Lemma bool2_same o a b a' b' : same a a' -> same b b' -> same (BoolOp o [a; b]) (BoolOp o [a'; b']).
Proof.
  intros H K W P w. rewrite !eval_bool. apply shortcut_eq. constructor; [exact (H W P)|]. constructor; [exact (K W P)|constructor].
Qed.
Lemma not_same a b : same a b -> same (Unary Not a) (Unary Not b).
Proof. intros H W P w. cbn [eval]. apply andthen_eq; [exact (H W P)|]. intro; apply eqc_refl. Qed.
Lemma same_trans a b c : same a b -> same b c -> same a c.
Proof. intros H K W P w. rewrite H. apply K. Qed.

Lemma text_node a : fine a = true -> exists e, reads (as_string a) e /\ same e a.
Proof. intro F. exists (norm a). destruct (fine_split a F). split; [apply reads_as_string; assumption|apply norm_same; exact F]. Qed.
Lemma text_not a : fine a = true -> exists e, reads (negated a) e /\ same e (Unary Not a).
Proof.
  intro F. destruct (operand_neg And a F) as (q & G & _). eexists. split; [eapply reads_good; exact G|]. apply not_same, norm_same, F.
Qed.
Lemma text_join o a b : fine a = true -> fine b = true -> is_ifexp a = false -> is_ifexp b = false ->
  exists e, reads (piece o a ++ bool_token o :: piece o b) e /\ same e (BoolOp o [a; b]).
Proof.
  intros Fa Fb Na Nb. pose proof (operand_piece o a Fa Na) as A. pose proof (operand_piece o b Fb Nb) as B.
  eexists. split; [apply reads_join; eassumption|].
  eapply same_trans; [apply join_same; eapply items_ne_of_operand; eassumption|].
  apply bool2_same; apply norm_same; assumption.
Qed.
Lemma text_not_join o a b : fine a = true -> fine b = true -> is_ifexp b = false ->
  exists e, reads (negated a ++ bool_token o :: piece o b) e /\ same e (BoolOp o [Unary Not a; b]).
Proof.
  intros Fa Fb Nb. pose proof (operand_neg o a Fa) as A. pose proof (operand_piece o b Fb Nb) as B.
  eexists. split; [apply reads_join; eassumption|].
  eapply same_trans; [apply join_same; eapply items_ne_of_operand; eassumption|].
  apply bool2_same; [apply not_same|]; apply norm_same; assumption.
Qed.

(** ** Values *)
Section V.
  Context {W : Type}.
  Variable P : python W.
  Notation ev := (eval P).
  Definition pick (c a b : expr) : comp (W := W) value := andthen (test P c) (fun t => if t then ev a else ev b).
  Lemma pick_ifexp c a b : eqc (pick c a b) (ev (IfExp c a b)).
  Proof. intro w. unfold pick, test. rewrite (andthen_assoc (ev c) (truth P) (fun t => if t then ev a else ev b) w). reflexivity. Qed.
  Lemma truth_pure v w : exists r, truth P v w = (w, r).
  Proof. eexists. reflexivity. Qed.
  Lemma alike_refl m : alike P m m.
  Proof. intro w. reflexivity. Qed.
  Lemma alike_eq m n m' n' : eqc m m' -> eqc n n' -> alike P m' n' -> alike P m n.
  Proof. intros H K A w. unfold andthen. rewrite H, K. apply A. Qed.

  Lemma eval_or2 a b w : ev (BoolOp Or [a; b]) w = andthen (ev a) (fun v => andthen (truth P v) (fun t => if t then pure v else ev b)) w.
  Proof. rewrite eval_bool. cbn [map shortcut]. apply andthen_eq; [apply eqc_refl|]. intro v. apply andthen_eq; [apply eqc_refl|]. intros []; apply eqc_refl. Qed.
  Lemma eval_and2 a b w : ev (BoolOp And [a; b]) w = andthen (ev a) (fun v => andthen (truth P v) (fun t => if t then ev b else pure v)) w.
  Proof. rewrite eval_bool. cbn [map shortcut]. apply andthen_eq; [apply eqc_refl|]. intro v. apply andthen_eq; [apply eqc_refl|]. intros []; apply eqc_refl. Qed.
  Lemma eval_not a w : ev (Unary Not a) w = andthen (ev a) (fun v => andthen (truth P v) (fun t => pure (VBool (negb t)))) w.
  Proof. reflexivity. Qed.

  Definition lit b : expr := Const (CBool b).
  Lemma eval_lit b : ev (lit b) = pure (VBool b).
  Proof. reflexivity. Qed.
  Ltac step w' :=
    match goal with |- context [truth P ?v w'] =>
      let w2 := fresh "w2" in let r := fresh "r" in let T := fresh "T" in
      destruct (truth P v w') as [w2 r] eqn:T;
      assert (w2 = w') by (pose proof (truth_state P v w') as K; rewrite T in K; exact K); subst w2;
      destruct r as [[]|?]; cbn -[truth eval]; rewrite ?T; try reflexivity
    end.

  Lemma alike_test c : alike P (pick c (lit true) (lit false)) (ev c).
  Proof.
    intro w. unfold pick, test. unfold andthen. destruct (ev c w) as [w' [v|x]]; [|reflexivity]. step w'.
  Qed.
  Lemma same_neg c : eqc (pick c (lit false) (lit true)) (ev (Unary Not c)).
  Proof.
    intro w. unfold pick, test. rewrite eval_not. unfold andthen. destruct (ev c w) as [w' [v|x]]; [|reflexivity]. step w'.
  Qed.
  Lemma alike_or c v : alike P (pick c (lit true) v) (ev (BoolOp Or [c; v])).
  Proof.
    intro w. unfold pick, test. unfold andthen at 1 4. rewrite eval_or2. unfold andthen. destruct (ev c w) as [w' [u|x]]; [|reflexivity]. step w'.
  Qed.
  Lemma same_neg_and c v : eqc (pick c (lit false) v) (ev (BoolOp And [Unary Not c; v])).
  Proof.
    intro w. unfold pick, test. rewrite eval_and2. unfold andthen at 3. rewrite eval_not. unfold andthen. destruct (ev c w) as [w' [u|x]]; [|reflexivity]. step w'.
  Qed.
  Lemma same_neg_or c v : eqc (pick c v (lit true)) (ev (BoolOp Or [Unary Not c; v])).
  Proof.
    intro w. unfold pick, test. rewrite eval_or2. unfold andthen at 3. rewrite eval_not. unfold andthen. destruct (ev c w) as [w' [u|x]]; [|reflexivity]. step w'.
  Qed.
  Lemma alike_and c v : alike P (pick c v (lit false)) (ev (BoolOp And [c; v])).
  Proof.
    intro w. unfold pick, test. unfold andthen at 1 4. rewrite eval_and2. unfold andthen. destruct (ev c w) as [w' [u|x]]; [|reflexivity]. step w'.
  Qed.
End V.

(** ** Which message is emitted when *)
Lemma no_none f args i result : nth_error args i = Some ANone -> forall l, refactored_loop f args i result <> Ok l.
Proof. revert result. induction f as [|f IH]; intros result H l; cbn [refactored_loop]; [discriminate|]. rewrite H. apply IH. exact H. Qed.
Lemma ref_none f o a t : get_refactored f [ANode a; AWord (op_word o); ANone] <> Ok t.
Proof.
  unfold get_refactored. intro H.
  destruct (refactored_loop f [ANode a; AWord (op_word o); ANone] 0 []) as [l|] eqn:E; [|discriminate]. clear H.
  do 2 (destruct f as [|f]; [discriminate|]).
  assert (NO : forall f result l, refactored_loop f [ANode a; AWord (op_word o); ANone] 2 result <> Ok l) by (intros; apply no_none; reflexivity).
  destruct o; cbn [op_word refactored_loop nth_error after before bind Nat.add List.app] in E;
    destruct (_ && _) in E; cbn [wrap_last rev List.app bind other_boolop] in E; exact (NO _ _ _ E).
Qed.
Lemma ref_not_none f o a t : get_refactored f [AWord WNot; ANode a; AWord (op_word o); ANone] <> Ok t.
Proof.
  unfold get_refactored. intro H.
  destruct (refactored_loop f [AWord WNot; ANode a; AWord (op_word o); ANone] 0 []) as [l|] eqn:E; [|discriminate]. clear H.
  do 2 (destruct f as [|f]; [discriminate|]).
  assert (NO : forall f result l, refactored_loop f [AWord WNot; ANode a; AWord (op_word o); ANone] 3 result <> Ok l) by (intros; apply no_none; reflexivity).
  destruct o; cbn [op_word refactored_loop nth_error after before bind Nat.add List.app not_at negb] in E;
    rewrite andb_false_r in E; cbn [bind other_boolop] in E; exact (NO _ _ _ E).
Qed.

Lemma bind_ok {A B} (r : res A) (k : A -> res B) b : (do x <- r; k x) = Ok b -> exists a, r = Ok a /\ k a = Ok b.
Proof. destruct r; cbn; [eauto|discriminate]. Qed.

(** The forms of the suggestion. *)
Inductive form : expr -> expr -> expr -> text -> bool -> Prop :=
| fo_test : forall c, form c (lit true) (lit false) (as_string c) true
| fo_neg : forall c, form c (lit false) (lit true) (negated c) true
| fo_or : forall c v, form c (lit true) v (piece Or c ++ TOr :: piece Or v) false
| fo_neg_and : forall c v, form c (lit false) v (negated c ++ TAnd :: piece And v) false
| fo_neg_or : forall c v, form c v (lit true) (negated c ++ TOr :: piece Or v) false
| fo_and : forall c v, form c v (lit false) (piece And c ++ TAnd :: piece And v) false.

Lemma bool_value_some v b : bool_value v = Some b -> v = Some (lit b).
Proof. destruct v as [e|]; [|discriminate]. destruct e as [|k| | | | | | | | |]; try discriminate. destruct k; try discriminate. intro H. injection H as <-. reflexivity. Qed.

Lemma cond_form f c v w t only : refactored_cond f c v w = Ok (Some (t, only)) ->
  exists a b, v = Some a /\ w = Some b /\ form c a b t only.
Proof.
  unfold refactored_cond. intro H.
  destruct (bool_value v) as [[]|] eqn:V; destruct (bool_value w) as [[]|] eqn:U; try discriminate H;
    apply bind_ok in H; destruct H as (t' & H & E); injection E as <- <-.
  - apply bool_value_some in V, U. subst. apply ref_node in H. subst. eexists _, _. repeat split; constructor.
  - apply bool_value_some in V. subst. destruct w as [b|]; [|exfalso; exact (ref_none _ Or _ _ H)].
    apply (ref_join _ Or) in H. subst. eexists _, _. repeat split; constructor.
  - apply bool_value_some in V, U. subst. apply ref_not in H. subst. eexists _, _. repeat split; constructor.
  - apply bool_value_some in V. subst. destruct w as [b|]; [|exfalso; exact (ref_not_none _ And _ _ H)].
    apply (ref_not_join _ And) in H. subst. eexists _, _. repeat split; constructor.
  - apply bool_value_some in U. subst. destruct v as [b|]; [|exfalso; exact (ref_not_none _ Or _ _ H)].
    apply (ref_not_join _ Or) in H. subst. eexists _, _. repeat split; constructor.
  - apply bool_value_some in U. subst. destruct v as [b|]; [|exfalso; exact (ref_none _ And _ _ H)].
    apply (ref_join _ And) in H. subst. eexists _, _. repeat split; constructor.
Qed.

Definition joinable (only : bool) (c a b : expr) : Prop := only = false -> is_ifexp c = false /\ is_ifexp a = false /\ is_ifexp b = false.
Lemma alike_trans_same {W} (P : python W) m e a : alike P m (eval P a) -> same e a -> alike P m (eval P e).
Proof. intros A S0 w. rewrite (A w). unfold andthen. rewrite (S0 W P w). reflexivity. Qed.
Lemma alike_of_eqc {W} (P : python W) m n : eqc m n -> alike P m n.
Proof. intros H w. unfold andthen. rewrite H. reflexivity. Qed.

Lemma form_alike c a b t only : form c a b t only -> fine c = true -> fine a = true -> fine b = true -> joinable only c a b ->
  exists e, reads t e /\ forall W (P : python W), alike P (pick P c a b) (eval P e).
Proof.
  intros F Fc Fa Fb J. destruct F as [c|c|c v|c v|c v|c v].
  - destruct (text_node c Fc) as (e & R & S0). exists e. split; [exact R|]. intros W P. eapply alike_trans_same; [apply alike_test|exact S0].
  - destruct (text_not c Fc) as (e & R & S0). exists e. split; [exact R|]. intros W P. eapply alike_trans_same; [apply alike_of_eqc, same_neg|exact S0].
  - destruct (J eq_refl) as (J1 & J2 & J3). destruct (text_join Or c v Fc Fb J1 J3) as (e & R & S0). exists e. split; [exact R|]. intros W P. eapply alike_trans_same; [apply alike_or|exact S0].
  - destruct (J eq_refl) as (J1 & J2 & J3). destruct (text_not_join And c v Fc Fb J3) as (e & R & S0). exists e. split; [exact R|]. intros W P. eapply alike_trans_same; [apply alike_of_eqc, same_neg_and|exact S0].
  - destruct (J eq_refl) as (J1 & J2 & J3). destruct (text_not_join Or c v Fc Fa J2) as (e & R & S0). exists e. split; [exact R|]. intros W P. eapply alike_trans_same; [apply alike_of_eqc, same_neg_or|exact S0].
  - destruct (J eq_refl) as (J1 & J2 & J3). destruct (text_join And c v Fc Fa J1 J2) as (e & R & S0). exists e. split; [exact R|]. intros W P. eapply alike_trans_same; [apply alike_and|exact S0].
Qed.

(** The value of [c] is True or False. *)
Notation gives_bool := boolean.
Section V2.
  Context {W : Type}.
  Variable P : python W.
  Lemma same_test_bool c : gives_bool P c -> eqc (pick P c (lit true) (lit false)) (eval P c).
  Proof.
    intros G w. unfold pick, test, andthen. destruct (eval P c w) as [w' [v|x]] eqn:E; [|reflexivity].
    destruct (G _ _ _ E) as (b & ->). cbn. destruct b; reflexivity.
  Qed.
  Lemma same_or_bool c v : gives_bool P c -> eqc (pick P c (lit true) v) (eval P (BoolOp Or [c; v])).
  Proof.
    intros G w. rewrite eval_or2. unfold pick, test, andthen. destruct (eval P c w) as [w' [u|x]] eqn:E; [|reflexivity].
    destruct (G _ _ _ E) as (b & ->). cbn. destruct b; reflexivity.
  Qed.
  Lemma same_and_bool c v : gives_bool P c -> eqc (pick P c v (lit false)) (eval P (BoolOp And [c; v])).
  Proof.
    intros G w. rewrite eval_and2. unfold pick, test, andthen. destruct (eval P c w) as [w' [u|x]] eqn:E; [|reflexivity].
    destruct (G _ _ _ E) as (b & ->). cbn. destruct b; reflexivity.
  Qed.
End V2.
Lemma form_value c a b t only : form c a b t only -> fine c = true -> fine a = true -> fine b = true -> joinable only c a b ->
  exists e, reads t e /\ forall W (P : python W), (gives_bool P c \/ List.In TNegOpen t) -> (forall s, List.In s (as_string c ++ as_string a ++ as_string b) -> s <> TNegOpen) ->
    eqc (pick P c a b) (eval P e).
Proof.
  intros F Fc Fa Fb J. destruct F as [c|c|c v|c v|c v|c v].
  - destruct (text_node c Fc) as (e & R & S0). exists e. split; [exact R|]. intros W P [G|G] NN w; [|exfalso; apply (NN TNegOpen); [apply in_or_app; auto|reflexivity]].
    rewrite (S0 W P w). apply same_test_bool. exact G.
  - destruct (text_not c Fc) as (e & R & S0). exists e. split; [exact R|]. intros W P _ _ w. rewrite (S0 W P w). apply same_neg.
  - destruct (J eq_refl) as (J1 & J2 & J3). destruct (text_join Or c v Fc Fb J1 J3) as (e & R & S0). exists e. split; [exact R|]. intros W P [G|G] NN w.
    + rewrite (S0 W P w). apply same_or_bool. exact G.
    + exfalso. assert (K : forall o x, List.In TNegOpen (piece o x) -> List.In TNegOpen (as_string x)).
      { intros o x. unfold piece. destruct (other_boolop _ _); [|auto]. intros [K|K]; [discriminate|]. apply in_app_or in K. destruct K as [K|[K|[]]]; [exact K|discriminate]. }
      apply in_app_or in G. destruct G as [G|[G|G]]; [|discriminate|]; apply K in G; apply (NN TNegOpen); try reflexivity; rewrite !in_app_iff; auto.
  - destruct (J eq_refl) as (J1 & J2 & J3). destruct (text_not_join And c v Fc Fb J3) as (e & R & S0). exists e. split; [exact R|]. intros W P _ _ w. rewrite (S0 W P w). apply same_neg_and.
  - destruct (J eq_refl) as (J1 & J2 & J3). destruct (text_not_join Or c v Fc Fa J2) as (e & R & S0). exists e. split; [exact R|]. intros W P _ _ w. rewrite (S0 W P w). apply same_neg_or.
  - destruct (J eq_refl) as (J1 & J2 & J3). destruct (text_join And c v Fc Fa J1 J2) as (e & R & S0). exists e. split; [exact R|]. intros W P [G|G] NN w.
    + rewrite (S0 W P w). apply same_and_bool. exact G.
    + exfalso. assert (K : forall o x, List.In TNegOpen (piece o x) -> List.In TNegOpen (as_string x)).
      { intros o x. unfold piece. destruct (other_boolop _ _); [|auto]. intros [K|K]; [discriminate|]. apply in_app_or in K. destruct K as [K|[K|[]]]; [exact K|discriminate]. }
      apply in_app_or in G. destruct G as [G|[G|G]]; [|discriminate|]; apply K in G; apply (NN TNegOpen); try reflexivity; rewrite !in_app_iff; auto.
Qed.

(** The notation for a negation is not part of the text of a node. *)
Definition no_neg (t : text) : Prop := ~ List.In TNegOpen t.
Lemma no_neg_app a b : no_neg a -> no_neg b -> no_neg (a ++ b).
Proof. intros A B K. apply in_app_or in K. destruct K; auto. Qed.
Lemma no_neg_cons t b : t <> TNegOpen -> no_neg b -> no_neg (t :: b).
Proof. intros A B [K|K]; [congruence|auto]. Qed.
Lemma no_neg_nil : no_neg [].
Proof. intros []. Qed.
Lemma no_neg_wrap o i s t : no_neg t -> no_neg (wrap o i s t).
Proof. intro H. unfold wrap, paren. destruct (_ || _); [|exact H]. apply no_neg_cons; [discriminate|]. apply no_neg_app; [exact H|]. apply no_neg_cons; [discriminate|apply no_neg_nil]. Qed.
Lemma no_neg_sep s l : no_neg s -> Forall no_neg l -> no_neg (sep_by s l).
Proof.
  intros S0 F. induction F as [|a l A F IH]; [apply no_neg_nil|]. cbn [sep_by]. destruct l; [exact A|]. apply no_neg_app; [exact A|]. apply no_neg_app; [exact S0|exact IH].
Qed.
Lemma no_neg_concat l : Forall no_neg l -> no_neg (concat l).
Proof. induction 1; [apply no_neg_nil|]. cbn. apply no_neg_app; assumption. Qed.
Lemma as_string_no_neg e : no_neg (as_string e).
Proof.
  induction e as [x|c|o a IHa|o a b IHa IHb|o vs IHvs|a ops IHa IHops|g args IHg IHargs|a x IHa|a i IHa IHi|c a b IHc IHa IHb|n] using expr_ind'; cbn [as_string];
    repeat first [apply no_neg_app | apply no_neg_wrap; assumption | apply no_neg_nil | assumption | apply no_neg_cons; [discriminate|]].
  - apply no_neg_cons; [destruct o; discriminate|]. apply no_neg_wrap. exact IHa.
  - apply no_neg_sep; [apply no_neg_cons; [destruct o; discriminate|apply no_neg_nil]|]. apply Forall_map. eapply Forall_impl; [|exact IHvs]. intros v Hv. apply no_neg_wrap. exact Hv.
  - apply no_neg_concat. apply Forall_map. eapply Forall_impl; [|exact IHops]. intros [c v] Hv. cbn [fst snd] in *. apply no_neg_app; [|apply no_neg_wrap; exact Hv].
    destruct c; cbn; repeat (apply no_neg_cons; [discriminate|]); apply no_neg_nil.
  - apply no_neg_sep; [apply no_neg_cons; [discriminate|apply no_neg_nil]|]. apply Forall_map. exact IHargs.
  - destruct a as [|k| | | | | | | | |]; try (apply no_neg_wrap; assumption). destruct k; try (apply no_neg_wrap; assumption).
    unfold paren. apply no_neg_cons; [discriminate|]. apply no_neg_app; [exact IHa|]. apply no_neg_cons; [discriminate|apply no_neg_nil].
Qed.
Lemma form_keeps c a b t only : form c a b t only -> fine c = true -> fine a = true -> fine b = true -> joinable only c a b ->
  exists e, reads t e /\ forall W (P : python W), (gives_bool P c \/ List.In TNegOpen t) -> eqc (pick P c a b) (eval P e).
Proof.
  intros F Fc Fa Fb J. destruct (form_value _ _ _ _ _ F Fc Fa Fb J) as (e & R & H). exists e. split; [exact R|].
  intros W P G. apply H; [exact G|]. intros s K. rewrite !in_app_iff in K. intros ->.
  destruct K as [K|[K|K]]; eapply as_string_no_neg; exact K.
Qed.

(** ** Statements *)
Section S.
  Context {W : Type}.
  Variable P : program W.
  Lemma exec_if c b o : eqc (exec P (If c b o)) (andthen (test (py P) c) (fun t => block P (if t then b else o))).
  Proof.
    cbn [exec]. assert (E : forall l, (fix block (l : list stmt) : comp flow :=
      match l with
      | [] => pure Next
      | s :: r => andthen (exec P s) (fun f => match f with Next => block r | _ => pure f end)
      end) l = block P l).
    { induction l as [|s l IH]; [reflexivity|]. cbn [block]. rewrite <- IH. reflexivity. }
    apply andthen_eq; [apply eqc_refl|]. intros t w. rewrite E. reflexivity.
  Qed.
  Definition goes (rest : list stmt) (f : flow) : comp (W := W) flow := match f with Next => block P rest | _ => pure f end.
  Lemma block_cons s rest : block P (s :: rest) = andthen (exec P s) (goes rest).
  Proof. reflexivity. Qed.
  Lemma block_one s : eqc (block P [s]) (exec P s).
  Proof. intro w. cbn [block]. unfold andthen. destruct (exec P s w) as [w' [[|v|n]|x]]; reflexivity. Qed.
  Lemma block_if c b o rest : eqc (block P (If c b o :: rest)) (andthen (test (py P) c) (fun t => andthen (block P (if t then b else o)) (goes rest))).
  Proof. rewrite block_cons. eapply eqc_trans; [apply andthen_eq; [apply exec_if|intro; apply eqc_refl]|]. apply andthen_assoc. Qed.

  Lemma pick_k {A} c a b (k : value -> comp (W := W) A) :
    eqc (andthen (test (py P) c) (fun t => andthen (eval (py P) (if t then a else b)) k)) (andthen (pick (py P) c a b) k).
  Proof.
    eapply eqc_sym, eqc_trans; [apply andthen_assoc|]. apply andthen_eq; [apply eqc_refl|]. intros []; apply eqc_refl.
  Qed.
  Lemma returns_pick c a b rest : eqc (block P (If c [Return (Some a)] [Return (Some b)] :: rest)) (andthen (pick (py P) c a b) (fun v => pure (Returned v))).
  Proof.
    eapply eqc_trans; [apply block_if|]. eapply eqc_trans; [|apply pick_k]. apply andthen_eq; [apply eqc_refl|].
    intros [] w; cbn [block exec]; unfold andthen; [destruct (eval (py P) a w) as [w' [v|x]]|destruct (eval (py P) b w) as [w' [v|x]]]; reflexivity.
  Qed.
  Lemma returns_pick_next c a b rest : eqc (block P (If c [Return (Some a)] [] :: Return (Some b) :: rest)) (andthen (pick (py P) c a b) (fun v => pure (Returned v))).
  Proof.
    eapply eqc_trans; [apply block_if|]. eapply eqc_trans; [|apply pick_k]. apply andthen_eq; [apply eqc_refl|].
    intros [] w; cbn [block exec]; unfold andthen.
    - destruct (eval (py P) a w) as [w' [v|x]]; reflexivity.
    - cbn -[eval]. unfold andthen. destruct (eval (py P) b w) as [w' [v|x]]; reflexivity.
  Qed.
  Lemma block_return e rest : eqc (block P (Return (Some e) :: rest)) (andthen (eval (py P) e) (fun v => pure (Returned v))).
  Proof. intro w. cbn [block exec]. unfold andthen. destruct (eval (py P) e w) as [w' [v|x]]; reflexivity. Qed.

  Definition assigns (x : expr) (rest : list stmt) (v : value) : comp (W := W) flow := andthen (store P x v) (fun _ => block P rest).
  Lemma block_assign x e rest : eqc (block P (Assign [x] e :: rest)) (andthen (eval (py P) e) (assigns x rest)).
  Proof.
    intro w. cbn [block exec each]. unfold assigns, andthen. destruct (eval (py P) e w) as [w' [v|y]]; [|reflexivity].
    destruct (store P x v w') as [w2 [[]|y]]; reflexivity.
  Qed.
  Lemma store_norm x v : fine x = true -> eqc (store P (norm x) v) (store P x v).
  Proof.
    intro F. destruct (fine_split x F) as [WF NC].
    destruct x as [x|k|u a|o a b|o vs|a ops|g args|a y|a i|c a b|n]; try apply eqc_refl; cbn [norm store].
    - destruct (onto_compare (norm a) (map (fun cv => (fst cv, norm (snd cv))) ops)) as (a' & l' & ->). apply eqc_refl.
    - apply andthen_eq; [apply norm_value; assumption|]. intro; apply eqc_refl.
    - cbn [well_formed no_nested_compare] in WF, NC. apply andb_true_iff in WF, NC.
      apply andthen_eq; [apply norm_value; tauto|]. intro. apply andthen_eq; [apply norm_value; tauto|]. intro; apply eqc_refl.
  Qed.
End S.

Lemma token_eqb_eq a b : token_eqb a b = true -> a = b.
Proof.
  destruct a, b; cbn; try discriminate; try reflexivity; intro H.
  - apply String.eqb_eq in H. congruence.
  - destruct c, c0; cbn in H; try discriminate; try reflexivity.
    + apply Bool.eqb_prop in H. congruence.
    + apply N.eqb_eq in H. congruence.
    + apply String.eqb_eq in H. congruence.
    + apply String.eqb_eq in H. congruence.
  - apply Nat.eqb_eq in H. congruence.
  - destruct o, o0; try discriminate; reflexivity.
  - destruct c, c0; try discriminate; reflexivity.
Qed.
Lemma text_eqb_eq a b : text_eqb a b = true -> a = b.
Proof.
  revert b. induction a as [|x a IH]; intros [|y b]; cbn; try discriminate; [reflexivity|]. intro H. apply andb_true_iff in H. destruct H as [H1 H2].
  apply token_eqb_eq in H1. rewrite H1, (IH _ H2). reflexivity.
Qed.
Lemma same_text_norm x y : fine x = true -> fine y = true -> text_eqb (as_string x) (as_string y) = true -> norm x = norm y.
Proof.
  intros Fx Fy E. apply text_eqb_eq in E. destruct (fine_split x Fx) as [Wx _], (fine_split y Fy) as [Wy _].
  eapply reads_det; [apply reads_as_string; exact Wx|]. rewrite E. apply reads_as_string. exact Wy.
Qed.
Lemma same_text_same x y : fine x = true -> fine y = true -> text_eqb (as_string x) (as_string y) = true -> same x y.
Proof. intros Fx Fy E W P w. rewrite <- (norm_same x Fx W P w), <- (norm_same y Fy W P w). rewrite (same_text_norm x y Fx Fy E). reflexivity. Qed.

(** ** Inversion of the checks *)
Lemma vc_return f c orelse prev v w m : value_checks f c orelse prev (Return v) (Return w) = Ok (Some m) ->
  exists k t, m = MReturn k t /\ refactored_cond f c v w = Ok (Some (t, negb k)).
Proof.
  unfold value_checks. destruct (negb _); [discriminate|]. destruct (_ && _); [discriminate|]. cbn [value_of bind].
  intro H. apply bind_ok in H. destruct H as ([[t only]|] & H & K); [|discriminate]. cbn in K. injection K as <-. eexists _, _. split; [reflexivity|]. rewrite negb_involutive. exact H.
Qed.
Lemma vc_other f c orelse prev s1 s2 m : value_checks f c orelse prev s1 s2 = Ok (Some m) -> is_return s1 = false ->
  exists k t x y v w, m = MAssign k (as_string x) t /\ refactored_cond f c v w = Ok (Some (t, negb k)) /\
    same_kind s1 s2 = true /\ get_assigned_to s1 = [x] /\ get_assigned_to s2 = [y] /\ is_for s1 = false /\
    value_of s1 = Ok v /\ value_of s2 = Ok w /\ text_eqb (as_string x) (as_string y) = true.
Proof.
  unfold value_checks. intros H NR. destruct (mergeable s1 s2) eqn:M; [|discriminate]. cbn [negb] in H. destruct (_ && _) in H; [discriminate|].
  apply bind_ok in H. destruct H as (v & Hv & H). apply bind_ok in H. destruct H as (w & Hw & H). apply bind_ok in H. destruct H as ([[t only]|] & H & K); [|discriminate].
  apply bind_ok in K. destruct K as (m' & K & E). injection E as <-.
  unfold mergeable in M. destruct (same_kind s1 s2) eqn:SK; [|discriminate]. cbn [negb] in M.
  assert (M' : (if is_any_assign s1 && negb (is_for s1)
           then match get_assigned_to s1, get_assigned_to s2 with
                | [x], [y] => same_target_kind x y && negb (is_subscript x) && text_eqb (as_string x) (as_string y)
                | _, _ => false
                end
           else false) = true) by (destruct s1; try exact M; discriminate NR).
  clear M. destruct (is_any_assign s1) eqn:A; [|discriminate]. destruct (is_for s1) eqn:NF; [discriminate|]. cbn [negb andb] in M'.
  destruct (get_assigned_to s1) as [|x [|? ?]] eqn:G1; try discriminate. destruct (get_assigned_to s2) as [|y [|? ?]] eqn:G2; try discriminate.
  apply andb_true_iff in M'. destruct M' as [_ TE].
  assert (m' = MAssign (negb only) (as_string x) t) by (unfold if_message in K; rewrite G1 in K; destruct s1; try discriminate NR; injection K as <-; reflexivity).
  subst m'. exists (negb only), t, x, y, v, w. rewrite negb_involutive. auto 10.
Qed.

Lemma bc_cases f c body orelse prev next pb m : basic_checks f c body orelse prev next pb = Ok (Some m) ->
  (exists t, m = MPass t /\ body = [Pass] /\ orelse <> [] /\ get_refactored f [AWord WNot; ANode c] = Ok t) \/
  (exists t c2 b2, m = MNested t /\ body = [If c2 b2 []] /\ orelse = [] /\ get_refactored f [ANode c; AWord WAnd; ANode c2] = Ok t) \/
  (exists t c2 v w, m = MSeq t /\ body = [Return v] /\ orelse = [] /\ next = Some (If c2 [Return w] []) /\ same_values v w = true /\
     get_refactored f [ANode c; AWord WOr; ANode c2] = Ok t) \/
  (exists s1 s2, m = MNoValue /\ body = [s1] /\ (orelse = [s2] \/ orelse = [] /\ next = Some s2) /\ no_value s1 s2 = true) \/
  (exists v w k t, m = MReturn k t /\ body = [Return v] /\ (orelse = [Return w] \/ orelse = [] /\ next = Some (Return w)) /\
     refactored_cond f c v w = Ok (Some (t, negb k))) \/
  (exists s1 s2 k t x y v w, m = MAssign k (as_string x) t /\ body = [s1] /\ orelse = [s2] /\ is_return s1 = false /\
    refactored_cond f c v w = Ok (Some (t, negb k)) /\
    same_kind s1 s2 = true /\ get_assigned_to s1 = [x] /\ get_assigned_to s2 = [y] /\ is_for s1 = false /\
    value_of s1 = Ok v /\ value_of s2 = Ok w /\ text_eqb (as_string x) (as_string y) = true).
Proof.
  intro H.
  assert (BR : branch_checks f c body orelse prev next = Ok (Some m) ->
    (exists t, m = MPass t /\ body = [Pass] /\ orelse <> [] /\ get_refactored f [AWord WNot; ANode c] = Ok t) \/
    (exists s1 s2, m = MNoValue /\ body = [s1] /\ (orelse = [s2] \/ orelse = [] /\ next = Some s2) /\ no_value s1 s2 = true) \/
    (exists v w k t, m = MReturn k t /\ body = [Return v] /\ (orelse = [Return w] \/ orelse = [] /\ next = Some (Return w)) /\
     refactored_cond f c v w = Ok (Some (t, negb k))) \/
    (exists s1 s2 k t x y v w, m = MAssign k (as_string x) t /\ body = [s1] /\ orelse = [s2] /\ is_return s1 = false /\
    refactored_cond f c v w = Ok (Some (t, negb k)) /\
    same_kind s1 s2 = true /\ get_assigned_to s1 = [x] /\ get_assigned_to s2 = [y] /\ is_for s1 = false /\
    value_of s1 = Ok v /\ value_of s2 = Ok w /\ text_eqb (as_string x) (as_string y) = true)).
  { clear H. intro H. unfold branch_checks in H.
    assert (K : (exists t, m = MPass t /\ body = [Pass] /\ orelse <> [] /\ get_refactored f [AWord WNot; ANode c] = Ok t) \/
      match get_then_orelse body orelse next with
      | None => Ok None
      | Some (then_, else_) => if no_value then_ else_ then Ok (Some MNoValue) else value_checks f c orelse prev then_ else_
      end = Ok (Some m)).
    { destruct body as [|s [|s' b']]; [right; exact H| |destruct s; right; exact H].
      destruct s; try (right; exact H). destruct orelse as [|o os]; [right; exact H|]. left.
      apply bind_ok in H. destruct H as (t & H & E). injection E as <-. exists t. repeat split; auto. discriminate. }
    clear H. destruct K as [K|K]; [left; exact K|]. right.
    destruct (get_then_orelse body orelse next) as [[s1 s2]|] eqn:GT; [|discriminate].
    assert (SH : body = [s1] /\ (orelse = [s2] \/ orelse = [] /\ next = Some s2 /\ is_return s1 = true /\ is_return s2 = true)).
    { unfold get_then_orelse in GT. destruct body as [|s [|s' b']]; try discriminate. destruct orelse as [|o [|o' os]]; try discriminate.
      - destruct s; try discriminate. destruct next as [n|]; [|discriminate]. destruct n; try discriminate. injection GT as <- <-. split; [reflexivity|]. right. auto.
      - injection GT as <- <-. auto. }
    destruct SH as [-> SH].
    destruct (no_value s1 s2) eqn:NV.
    - left. injection K as <-. exists s1, s2. repeat split; auto. destruct SH as [SH|(S1 & S2 & _)]; auto.
    - right. destruct (is_return s1) eqn:R1.
      + left. destruct s1 as [v| | | | | | | |]; try discriminate R1.
        destruct (is_return s2) eqn:R2.
        * destruct s2 as [w| | | | | | | |]; try discriminate R2. destruct (vc_return _ _ _ _ _ _ _ K) as (k & t & -> & RC).
          exists v, w, k, t. repeat split; auto. destruct SH as [SH|(S1 & S2 & _)]; auto.
        * exfalso. unfold value_checks in K. assert (M : mergeable (Return v) s2 = false) by (unfold mergeable; destruct s2; try discriminate R2; reflexivity).
          rewrite M in K. discriminate.
      + right. destruct (vc_other _ _ _ _ _ _ _ K R1) as (k & t & x & y & v & w & E & RC & SK & G1 & G2 & NF & V1 & V2 & TE).
        exists s1, s2, k, t, x, y, v, w. destruct SH as [SH|(S1 & S2 & S3 & _)]; [|congruence]. auto 15. }
  unfold basic_checks in H. destruct orelse as [|o os].
  - assert (K : (exists t c2 b2, m = MNested t /\ body = [If c2 b2 []] /\ get_refactored f [ANode c; AWord WAnd; ANode c2] = Ok t) \/
       match next with
          | Some (If t2 b2 o2) => merge_sequential f c body (If t2 b2 o2) pb
          | _ => branch_checks f c body [] prev next
          end = Ok (Some m)).
    { destruct body as [|s [|s' b']]; [right; exact H| |destruct s; try (right; exact H)].
      - destruct s; try (right; exact H). destruct orelse as [|o os]; [|right; exact H]. left.
        apply bind_ok in H. destruct H as (t & H & E). injection E as <-. eauto 8.
      - destruct orelse; right; exact H. }
    clear H. destruct K as [(t & c2 & b2 & E & B & G)|K]; [right; left; eauto 10|].
    destruct next as [n|]; [|specialize (BR K); tauto]. destruct n as [| | | | | |c2 b2 o2| |]; try (specialize (BR K); tauto). clear BR.
    right. right. left. unfold merge_sequential in K. destruct (_ || _) eqn:G; [discriminate|].
    rewrite !orb_false_iff in G. destruct G as [[[[_ _] G] _] _]. apply negb_false_iff, Nat.eqb_eq in G.
    destruct o2; [|discriminate].
    destruct body as [|s [|s' b']]; [discriminate| |destruct s; discriminate]. destruct s as [v| | | | | | | |]; try discriminate.
    destruct b2 as [|s2 [|s' b']]; [discriminate| |destruct s2; discriminate]. destruct s2 as [w| | | | | | | |]; try discriminate.
    destruct (same_values v w) eqn:SV; [|discriminate]. cbn [negb] in K. destruct (_ && _) in K; [discriminate|].
    apply bind_ok in K. destruct K as (t & K & E). injection E as <-. exists t, c2, v, w. auto 10.
  - specialize (BR H). tauto.
Qed.

Lemma fine_if c body orelse : fine_stmt (If c body orelse) = true -> fine c = true /\ forallb fine_stmt body = true /\ forallb fine_stmt orelse = true.
Proof. cbn [fine_stmt]. rewrite !andb_true_iff. tauto. Qed.
Lemma fine_one s : forallb fine_stmt [s] = true -> fine_stmt s = true.
Proof. cbn [forallb]. rewrite andb_true_r. auto. Qed.

Lemma no_ifexp_pick c body orelse rest a b s1 s2 : no_ifexp c body orelse rest = true ->
  List.In s1 (body ++ orelse ++ firstn 1 rest) -> List.In s2 (body ++ orelse ++ firstn 1 rest) -> values s1 = [a] -> values s2 = [b] ->
  is_ifexp c = false /\ is_ifexp a = false /\ is_ifexp b = false.
Proof.
  unfold no_ifexp. rewrite andb_true_iff, negb_true_iff, forallb_forall. intros [H1 H2] I1 I2 V1 V2. split; [exact H1|].
  split; apply negb_true_iff, H2, in_flat_map; [exists s1|exists s2]; rewrite ?V1, ?V2; cbn; auto.
Qed.

(** Shapes of the if statements that give [MReturn]. *)
Lemma return_shape f c body orelse prev pb rest k t :
  basic_checks f c body orelse prev (hd_error rest) pb = Ok (Some (MReturn k t)) ->
  exists a b, form c a b t (negb k) /\ body = [Return (Some a)] /\
    (orelse = [Return (Some b)] \/ (orelse = [] /\ exists rest', rest = Return (Some b) :: rest')).
Proof.
  intro H. destruct (bc_cases _ _ _ _ _ _ _ _ H) as [(?&?&_)|[(?&?&?&?&_)|[(?&?&?&?&?&_)|[(?&?&?&_)|[(v & w & k' & t' & E & B & O & RC)|(?&?&?&?&?&?&?&?&?&_)]]]]]; try discriminate.
  injection E as <- <-. destruct (cond_form _ _ _ _ _ _ RC) as (a & b & -> & -> & F). exists a, b. split; [exact F|]. split; [exact B|].
  destruct O as [O|[O N]]; [left; exact O|right]. split; [exact O|]. destruct rest as [|s rest]; [discriminate|]. injection N as ->. eauto.
Qed.

Theorem return_alike f c body orelse prev pb rest k t :
  fine_stmt (If c body orelse) = true -> forallb fine_stmt rest = true ->
  basic_checks f c body orelse prev (hd_error rest) pb = Ok (Some (MReturn k t)) ->
  (k = true -> no_ifexp c body orelse rest = true) ->
  exists new, follows (MReturn k t) (If c body orelse :: rest) new /\ returns_alike (If c body orelse :: rest) new.
Proof.
  intros FS FR H NI. destruct (fine_if _ _ _ FS) as (Fc & Fb & Fo).
  destruct (return_shape _ _ _ _ _ _ _ _ _ H) as (a & b & F & -> & O).
  assert (Fa : fine a = true) by exact (fine_one _ Fb).
  assert (Fbb : fine b = true) by (destruct O as [->|[-> (rest' & ->)]]; [exact (fine_one _ Fo)|cbn [forallb] in FR; apply andb_true_iff in FR; tauto]).
  assert (J : joinable (negb k) c a b).
  { intro K. apply negb_false_iff in K. eapply (no_ifexp_pick _ _ _ _ a b (Return (Some a)) (Return (Some b)) (NI K)); try reflexivity.
    - left. reflexivity.
    - destruct O as [->|[-> (rest' & ->)]]; cbn; auto. }
  destruct (form_alike _ _ _ _ _ F Fc Fa Fbb J) as (e & R & A).
  destruct O as [->|[-> (rest' & ->)]].
  - eexists. split; [apply f_return; exact R|]. intros W P. exists (pick (py P) c a b), (eval (py P) e). split; [apply A|]. split; [apply returns_pick|apply block_return].
  - eexists. split; [apply f_return_next; exact R|]. intros W P. exists (pick (py P) c a b), (eval (py P) e). split; [apply A|]. split; [apply returns_pick_next|apply block_return].
Qed.
Theorem return_value f c body orelse prev pb rest k t :
  fine_stmt (If c body orelse) = true -> forallb fine_stmt rest = true ->
  basic_checks f c body orelse prev (hd_error rest) pb = Ok (Some (MReturn k t)) ->
  (k = true -> no_ifexp c body orelse rest = true) ->
  exists new, follows (MReturn k t) (If c body orelse :: rest) new /\
    forall W (P : program W), boolean (py P) c \/ has_negation t -> forall w, block P (If c body orelse :: rest) w = block P new w.
Proof.
  intros FS FR H NI. destruct (fine_if _ _ _ FS) as (Fc & Fb & Fo).
  destruct (return_shape _ _ _ _ _ _ _ _ _ H) as (a & b & F & -> & O).
  assert (Fa : fine a = true) by exact (fine_one _ Fb).
  assert (Fbb : fine b = true) by (destruct O as [->|[-> (rest' & ->)]]; [exact (fine_one _ Fo)|cbn [forallb] in FR; apply andb_true_iff in FR; tauto]).
  assert (J : joinable (negb k) c a b).
  { intro K. apply negb_false_iff in K. eapply (no_ifexp_pick _ _ _ _ a b (Return (Some a)) (Return (Some b)) (NI K)); try reflexivity.
    - left. reflexivity.
    - destruct O as [->|[-> (rest' & ->)]]; cbn; auto. }
  destruct (form_keeps _ _ _ _ _ F Fc Fa Fbb J) as (e & R & A).
  destruct O as [->|[-> (rest' & ->)]]; eexists; (split; [first [apply f_return; exact R|apply f_return_next; exact R]|]); intros W P G w.
  - rewrite (returns_pick P c a b rest w), (block_return P e rest w). apply andthen_eq; [apply A; exact G|intro; apply eqc_refl].
  - rewrite (returns_pick_next P c a b rest' w), (block_return P e rest' w). apply andthen_eq; [apply A; exact G|intro; apply eqc_refl].
Qed.

(** The same for assignments. *)
Lemma assign_shape f c body orelse prev next pb k xt t :
  fine_stmt (If c body orelse) = true -> forallb (fun s => negb (is_augmented s)) body = true ->
  basic_checks f c body orelse prev next pb = Ok (Some (MAssign k xt t)) ->
  exists a b x y s1 s2, form c a b t (negb k) /\ body = [s1] /\ orelse = [s2] /\ xt = as_string x /\ norm x = norm y /\ fine x = true /\ fine y = true /\
    fine a = true /\ fine b = true /\ values s1 = [a] /\ values s2 = [b] /\
    (forall W (P : program W) rest, eqc (block P (s1 :: rest)) (andthen (eval (py P) a) (assigns P x rest))) /\
    (forall W (P : program W) rest, eqc (block P (s2 :: rest)) (andthen (eval (py P) b) (assigns P y rest))).
Proof.
  intros FS NA H. destruct (fine_if _ _ _ FS) as (Fc & Fb & Fo).
  destruct (bc_cases _ _ _ _ _ _ _ _ H) as [(?&?&_)|[(?&?&?&?&_)|[(?&?&?&?&?&_)|[(?&?&?&_)|[(?&?&?&?&?&_)|(s1 & s2 & k' & t' & x & y & v & w & E & B & O & NR & RC & SK & G1 & G2 & NF & V1 & V2 & TE)]]]]]; try discriminate.
  injection E as <- -> <-. subst body orelse. destruct (cond_form _ _ _ _ _ _ RC) as (a & b & -> & -> & F).
  apply fine_one in Fb, Fo. cbn [forallb] in NA. rewrite andb_true_r in NA. apply negb_true_iff in NA.
  assert (AN : forall W (P : program W) (x a : expr) rest, eqc (block P (AnnAssign x (Some a) :: rest)) (andthen (eval (py P) a) (assigns P x rest))).
  { intros W P x0 a0 rest w0. cbn [block exec]. unfold assigns, andthen. destruct (eval (py P) a0 w0) as [w1 [u|z]]; [|reflexivity].
    destruct (store P x0 u w1) as [w2 [[]|z]]; reflexivity. }
  destruct s1 as [|ts1 v1|x1 o1 v1|x1 v1|ts1| | | |]; try discriminate V1; try discriminate NR; try discriminate NA;
    destruct s2 as [|ts2 v2|x2 o2 v2|x2 v2|ts2| | | |]; try discriminate SK; cbn [get_assigned_to value_of] in *.
  - injection V1 as ->. injection V2 as ->. subst ts1 ts2. cbn [fine_stmt forallb] in Fb, Fo. rewrite !andb_true_iff in Fb, Fo.
    exists a, b, x, y, (Assign [x] a), (Assign [y] b). repeat split; try tauto.
    + apply same_text_norm; tauto.
    + intros W P rest. apply block_assign.
    + intros W P rest. apply block_assign.
  - injection V1 as ->. injection V2 as ->. injection G1 as ->. injection G2 as ->. cbn [fine_stmt] in Fb, Fo. rewrite !andb_true_iff in Fb, Fo.
    exists a, b, x, y, (AnnAssign x (Some a)), (AnnAssign y (Some b)). repeat split; try tauto.
    + apply same_text_norm; tauto.
    + intros W P rest. apply AN.
    + intros W P rest. apply AN.
Qed.
Lemma assigns_norm {W} (P : program W) x rest v : fine x = true -> eqc (assigns P x rest v) (assigns P (norm x) rest v).
Proof. intro F. unfold assigns. apply andthen_eq; [apply eqc_sym, store_norm, F|]. intro; apply eqc_refl. Qed.
Lemma assigns_pick {W} (P : program W) c a b x y s1 s2 rest :
  norm x = norm y -> fine x = true -> fine y = true ->
  (forall rest, eqc (block P (s1 :: rest)) (andthen (eval (py P) a) (assigns P x rest))) ->
  (forall rest, eqc (block P (s2 :: rest)) (andthen (eval (py P) b) (assigns P y rest))) ->
  eqc (block P (If c [s1] [s2] :: rest)) (andthen (pick (py P) c a b) (assigns P (norm x) rest)).
Proof.
  intros XY Fx Fy H1 H2. eapply eqc_trans; [apply block_if|]. eapply eqc_trans; [|apply pick_k]. apply andthen_eq; [apply eqc_refl|].
  assert (ONE : forall s, eqc (andthen (block P [s]) (goes P rest)) (block P (s :: rest))).
  { intros s w. rewrite block_cons. apply andthen_eq; [apply block_one|]. intro; apply eqc_refl. }
  intros []; (eapply eqc_trans; [apply ONE|]).
  - eapply eqc_trans; [apply H1|]. apply andthen_eq; [apply eqc_refl|]. intro v. apply assigns_norm. exact Fx.
  - eapply eqc_trans; [apply H2|]. apply andthen_eq; [apply eqc_refl|]. intro v. rewrite XY. apply assigns_norm. exact Fy.
Qed.

Theorem assign_alike f c body orelse prev pb rest k xt t :
  fine_stmt (If c body orelse) = true -> forallb (fun s => negb (is_augmented s)) body = true ->
  basic_checks f c body orelse prev (hd_error rest) pb = Ok (Some (MAssign k xt t)) ->
  (k = true -> no_ifexp c body orelse rest = true) ->
  exists new x, reads xt x /\ follows (MAssign k xt t) (If c body orelse :: rest) new /\ assigns_alike x (If c body orelse :: rest) new rest.
Proof.
  intros FS NA H NI. destruct (fine_if _ _ _ FS) as (Fc & _ & _).
  destruct (assign_shape _ _ _ _ _ _ _ _ _ _ FS NA H) as (a & b & x & y & s1 & s2 & F & -> & -> & -> & XY & Fx & Fy & Fa & Fb & V1 & V2 & B1 & B2).
  assert (J : joinable (negb k) c a b).
  { intro K. apply negb_false_iff in K. eapply (no_ifexp_pick _ _ _ _ a b s1 s2 (NI K)); auto; cbn; auto. }
  destruct (form_alike _ _ _ _ _ F Fc Fa Fb J) as (e & R & A).
  assert (RX : reads (as_string x) (norm x)) by (apply reads_as_string; exact (proj1 (fine_split x Fx))).
  eexists (Assign [norm x] e :: rest), (norm x). split; [exact RX|]. split; [apply f_assign; assumption|]. intros W P.
  exists (pick (py P) c a b), (eval (py P) e). split; [apply A|]. split.
  - exact (assigns_pick P c a b x y s1 s2 rest XY Fx Fy (B1 W P) (B2 W P)).
  - apply block_assign.
Qed.
Theorem assign_value f c body orelse prev pb rest k xt t :
  fine_stmt (If c body orelse) = true -> forallb (fun s => negb (is_augmented s)) body = true ->
  basic_checks f c body orelse prev (hd_error rest) pb = Ok (Some (MAssign k xt t)) ->
  (k = true -> no_ifexp c body orelse rest = true) ->
  exists new, follows (MAssign k xt t) (If c body orelse :: rest) new /\
    forall W (P : program W), boolean (py P) c \/ has_negation t -> forall w, block P (If c body orelse :: rest) w = block P new w.
Proof.
  intros FS NA H NI. destruct (fine_if _ _ _ FS) as (Fc & _ & _).
  destruct (assign_shape _ _ _ _ _ _ _ _ _ _ FS NA H) as (a & b & x & y & s1 & s2 & F & -> & -> & -> & XY & Fx & Fy & Fa & Fb & V1 & V2 & B1 & B2).
  assert (J : joinable (negb k) c a b).
  { intro K. apply negb_false_iff in K. eapply (no_ifexp_pick _ _ _ _ a b s1 s2 (NI K)); auto; cbn; auto. }
  destruct (form_keeps _ _ _ _ _ F Fc Fa Fb J) as (e & R & A).
  assert (RX : reads (as_string x) (norm x)) by (apply reads_as_string; exact (proj1 (fine_split x Fx))).
  eexists (Assign [norm x] e :: rest). split; [apply f_assign; assumption|]. intros W P G w.
  rewrite (assigns_pick P c a b x y s1 s2 rest XY Fx Fy (B1 W P) (B2 W P) w), (block_assign P (norm x) e rest w).
  apply andthen_eq; [apply A; exact G|intro; apply eqc_refl].
Qed.

(** Conditional expressions. *)
Lemma visit_ifexp_shape f c a b m : visit_ifexp f c a b = Ok (Some m) -> exists k t, m = MExpr k t /\ form c a b t (negb k) /\ is_ifexp a = false /\ is_ifexp b = false /\ fine a = true /\ fine b = true.
Proof.
  unfold visit_ifexp. destruct (const_or_name a) eqn:Ca; [|discriminate]. destruct (const_or_name b) eqn:Cb; [|discriminate]. cbn [negb orb].
  intro H. apply bind_ok in H. destruct H as ([[t only]|] & H & K); [|discriminate]. injection K as <-.
  destruct (cond_form _ _ _ _ _ _ H) as (a' & b' & E1 & E2 & F). injection E1 as <-. injection E2 as <-. exists (negb only), t. rewrite negb_involutive.
  repeat split; auto; destruct a, b; try discriminate; reflexivity.
Qed.
Theorem expr_alike f c a b k t : fine c = true -> visit_ifexp f c a b = Ok (Some (MExpr k t)) -> (k = true -> is_ifexp c = false) ->
  exists e, reads t e /\ forall W (P : python W), alike P (eval P (IfExp c a b)) (eval P e).
Proof.
  intros Fc H NI. destruct (visit_ifexp_shape _ _ _ _ _ H) as (k' & t' & E & F & I1 & I2 & Fa & Fb). injection E as <- <-.
  destruct (form_alike _ _ _ _ _ F Fc Fa Fb) as (e & R & A). { intro K. apply negb_false_iff in K. auto. }
  exists e. split; [exact R|]. intros W P w. rewrite <- (A W P w). unfold andthen. rewrite (pick_ifexp P c a b w). reflexivity.
Qed.
Theorem expr_value f c a b k t : fine c = true -> visit_ifexp f c a b = Ok (Some (MExpr k t)) -> (k = true -> is_ifexp c = false) ->
  exists e, reads t e /\ forall W (P : python W), boolean P c \/ has_negation t -> forall w, eval P (IfExp c a b) w = eval P e w.
Proof.
  intros Fc H NI. destruct (visit_ifexp_shape _ _ _ _ _ H) as (k' & t' & E & F & I1 & I2 & Fa & Fb). injection E as <- <-.
  destruct (form_keeps _ _ _ _ _ F Fc Fa Fb) as (e & R & A). { intro K. apply negb_false_iff in K. auto. }
  exists e. split; [exact R|]. intros W P G w. rewrite <- (A W P G w). symmetry. apply pick_ifexp.
Qed.

(** ** Merging ifs *)
Lemma test_same e a : same e a -> forall W (P : python W), eqc (test P e) (test P a).
Proof. intros H W P. unfold test. apply andthen_eq; [exact (H W P)|]. intro; apply eqc_refl. Qed.
Section T.
  Context {W : Type}.
  Variable P : python W.
  Ltac step w' :=
    match goal with |- context [truth P ?v w'] =>
      let w2 := fresh "w2" in let r := fresh "r" in let T := fresh "T" in
      destruct (truth P v w') as [w2 r] eqn:T;
      assert (w2 = w') by (pose proof (truth_state P v w') as K; rewrite T in K; exact K); subst w2;
      destruct r as [[]|?]; cbn -[truth eval]; rewrite ?T; try reflexivity
    end.
  Lemma test_not c : eqc (test P (Unary Not c)) (andthen (test P c) (fun t => pure (negb t))).
  Proof.
    intro w. unfold test. unfold andthen at 1. rewrite eval_not. unfold andthen. destruct (eval P c w) as [w' [v|x]]; [|reflexivity]. step w'.
  Qed.
  Lemma test_and a b : eqc (test P (BoolOp And [a; b])) (andthen (test P a) (fun t => if t then test P b else pure false)).
  Proof.
    intro w. unfold test. unfold andthen at 1. rewrite eval_and2. unfold andthen. destruct (eval P a w) as [w' [v|x]]; [|reflexivity]. step w'.
  Qed.
  Lemma test_or a b : eqc (test P (BoolOp Or [a; b])) (andthen (test P a) (fun t => if t then pure true else test P b)).
  Proof.
    intro w. unfold test. unfold andthen at 1. rewrite eval_or2. unfold andthen. destruct (eval P a w) as [w' [v|x]]; [|reflexivity]. step w'.
  Qed.
End T.

Theorem pass_same f c body orelse prev pb rest t :
  fine_stmt (If c body orelse) = true ->
  basic_checks f c body orelse prev (hd_error rest) pb = Ok (Some (MPass t)) ->
  exists new, follows (MPass t) (If c body orelse :: rest) new /\ same_block (If c body orelse :: rest) new.
Proof.
  intros FS H. destruct (fine_if _ _ _ FS) as (Fc & _ & _).
  destruct (bc_cases _ _ _ _ _ _ _ _ H) as [(t' & E & B & NE & G)|[(?&?&?&?&_)|[(?&?&?&?&?&_)|[(?&?&?&_)|[(?&?&?&?&?&_)|(?&?&?&?&?&?&?&?&?&_)]]]]]; try discriminate.
  injection E as <-. subst body. apply ref_not in G. subst t. destruct (text_not c Fc) as (e & R & S0).
  exists (If e orelse [] :: rest). split; [apply f_pass; exact R|]. intros W P w.
  rewrite (block_if P c [Pass] orelse rest w), (block_if P e orelse [] rest w).
  assert (T : eqc (test (py P) e) (andthen (test (py P) c) (fun t => pure (negb t)))) by (eapply eqc_trans; [apply test_same; exact S0|apply test_not]).
  eapply eqc_sym. eapply eqc_trans; [apply andthen_eq; [exact T|intro; apply eqc_refl]|]. eapply eqc_trans; [apply andthen_assoc|].
  apply andthen_eq; [apply eqc_refl|]. intros [] w0; reflexivity.
Qed.

Theorem nested_same f c body orelse prev pb rest t :
  fine_stmt (If c body orelse) = true ->
  basic_checks f c body orelse prev (hd_error rest) pb = Ok (Some (MNested t)) ->
  is_ifexp c = false -> (forall c2 b2 o2, body = [If c2 b2 o2] -> is_ifexp c2 = false) ->
  exists new, follows (MNested t) (If c body orelse :: rest) new /\ same_block (If c body orelse :: rest) new.
Proof.
  intros FS H N1 N2. destruct (fine_if _ _ _ FS) as (Fc & Fb & _).
  destruct (bc_cases _ _ _ _ _ _ _ _ H) as [(?&?&_)|[(t' & c2 & b2 & E & B & O & G)|[(?&?&?&?&?&_)|[(?&?&?&_)|[(?&?&?&?&?&_)|(?&?&?&?&?&?&?&?&?&_)]]]]]; try discriminate.
  injection E as <-. subst body orelse. apply fine_one in Fb. destruct (fine_if _ _ _ Fb) as (Fc2 & _ & _).
  apply (ref_join _ And) in G. subst t. destruct (text_join And c c2 Fc Fc2 N1 (N2 _ _ _ eq_refl)) as (e & R & S0).
  exists (If e b2 [] :: rest). split; [apply f_nested; exact R|]. intros W P w.
  rewrite (block_if P c [If c2 b2 []] [] rest w), (block_if P e b2 [] rest w).
  assert (T : eqc (test (py P) e) (andthen (test (py P) c) (fun t => if t then test (py P) c2 else pure false))) by (eapply eqc_trans; [apply test_same; exact S0|apply test_and]).
  eapply eqc_sym. eapply eqc_trans; [apply andthen_eq; [exact T|intro; apply eqc_refl]|]. eapply eqc_trans; [apply andthen_assoc|].
  apply andthen_eq; [apply eqc_refl|]. intros [] w0; [|reflexivity].
  symmetry. unfold andthen at 1. rewrite (block_if P c2 b2 [] [] w0). unfold andthen.
  destruct (test (py P) c2 w0) as [w1 [[]|x]]; [|reflexivity|reflexivity].
  destruct (block P b2 w1) as [w2 [[|v|n]|x]]; reflexivity.
Qed.

Theorem seq_same f c body orelse prev pb rest t :
  fine_stmt (If c body orelse) = true -> forallb fine_stmt rest = true ->
  basic_checks f c body orelse prev (hd_error rest) pb = Ok (Some (MSeq t)) ->
  is_ifexp c = false -> (forall c2 b2 o2 rest', rest = If c2 b2 o2 :: rest' -> is_ifexp c2 = false) ->
  exists new, follows (MSeq t) (If c body orelse :: rest) new /\ same_block (If c body orelse :: rest) new.
Proof.
  intros FS FR H N1 N2. destruct (fine_if _ _ _ FS) as (Fc & Fb & _).
  destruct (bc_cases _ _ _ _ _ _ _ _ H) as [(?&?&_)|[(?&?&?&?&_)|[(t' & c2 & v & w0 & E & B & O & NX & SV & G)|[(?&?&?&_)|[(?&?&?&?&?&_)|(?&?&?&?&?&?&?&?&?&_)]]]]]; try discriminate.
  injection E as <-. subst body orelse. destruct rest as [|s rest]; [discriminate|]. injection NX as ->.
  cbn [forallb] in FR. apply andb_true_iff in FR. destruct FR as [FR _]. destruct (fine_if _ _ _ FR) as (Fc2 & Fb2 & _).
  apply (ref_join _ Or) in G. subst t. destruct (text_join Or c c2 Fc Fc2 N1 (N2 _ _ _ _ eq_refl)) as (e & R & S0).
  exists (If e [Return v] [] :: rest). split; [apply f_seq; exact R|]. intros W P w.
  rewrite (block_if P c [Return v] [] _ w), (block_if P e [Return v] [] rest w).
  assert (T : eqc (test (py P) e) (andthen (test (py P) c) (fun t => if t then pure true else test (py P) c2))) by (eapply eqc_trans; [apply test_same; exact S0|apply test_or]).
  eapply eqc_sym. eapply eqc_trans; [apply andthen_eq; [exact T|intro; apply eqc_refl]|]. eapply eqc_trans; [apply andthen_assoc|].
  assert (RV : forall r1 r2, eqc (block P (Return v :: r1)) (block P (Return w0 :: r2))).
  { intros r1 r2. destruct v as [v|], w0 as [w0|]; try discriminate SV.
    - eapply eqc_trans; [apply block_return|]. eapply eqc_trans; [|apply eqc_sym, block_return]. apply andthen_eq; [|intro; apply eqc_refl].
      apply fine_one in Fb, Fb2. exact (same_text_same v w0 Fb Fb2 SV W (py P)).
    - intro; reflexivity. }
  assert (RR : forall (u : option expr) k1, eqc (andthen (block P [Return u]) (goes P k1)) (block P [Return u])).
  { intros u k1 w1. destruct u as [u|]; cbn [block exec]; unfold andthen; [|reflexivity]. destruct (eval (py P) u w1) as [w2 [x|x]]; reflexivity. }
  apply andthen_eq; [apply eqc_refl|]. intros [] w1.
  - cbn [pure andthen]. change (andthen (block P [Return v]) (goes P rest) w1 = andthen (block P [Return v]) (goes P (If c2 [Return w0] [] :: rest)) w1).
    rewrite !RR. reflexivity.
  - change (andthen (test (py P) c2) (fun t => andthen (block P (if t then [Return v] else [])) (goes P rest)) w1 = block P (If c2 [Return w0] [] :: rest) w1).
    rewrite (block_if P c2 [Return w0] [] rest w1). apply andthen_eq; [apply eqc_refl|]. intros []; [|apply eqc_refl].
    eapply eqc_trans; [apply RR|]. eapply eqc_sym, eqc_trans; [apply RR|]. apply eqc_sym, RV.
Qed.

(** ** Crashes and endless loops *)
Lemma ref_ok1 a : exists t, get_refactored 5 [ANode a] = Ok t. Proof. eexists. reflexivity. Qed.
Lemma ref_ok2 a : exists t, get_refactored 5 [AWord WNot; ANode a] = Ok t. Proof. eexists. reflexivity. Qed.
Lemma ref_ok3 o a b : exists t, get_refactored 5 [ANode a; AWord (op_word o); ANode b] = Ok t.
Proof.
  unfold get_refactored. destruct o; cbn [op_word refactored_loop nth_error after before bind negb not_at Nat.add List.app length];
    destruct (other_boolop (ANode a) _); cbn [negb andb wrap_last rev List.app bind]; destruct (other_boolop (ANode b) _); eexists; reflexivity.
Qed.
Lemma ref_ok4 o a b : exists t, get_refactored 5 [AWord WNot; ANode a; AWord (op_word o); ANode b] = Ok t.
Proof.
  unfold get_refactored. destruct o; cbn [op_word refactored_loop nth_error after before bind negb not_at Nat.add List.app length];
    rewrite andb_false_r; cbn [bind]; destruct (other_boolop (ANode b) _); eexists; reflexivity.
Qed.
Lemma cond_ok c a b : exists r, refactored_cond 5 c (Some a) (Some b) = Ok r.
Proof.
  unfold refactored_cond. destruct (bool_value (Some a)) as [[]|], (bool_value (Some b)) as [[]|]; cbn [node_arg].
  all: try (eexists; reflexivity).
  - destruct (ref_ok3 Or c b) as (t & E). cbn [op_word] in E. rewrite E. cbn. eauto.
  - destruct (ref_ok4 And c b) as (t & E). cbn [op_word] in E. rewrite E. cbn. eauto.
  - destruct (ref_ok4 Or c a) as (t & E). cbn [op_word] in E. rewrite E. cbn. eauto.
  - destruct (ref_ok3 And c a) as (t & E). cbn [op_word] in E. rewrite E. cbn. eauto.
Qed.
Theorem basic_checks_ends c body orelse prev next pb :
  forallb plain_branch (body ++ orelse) = true -> exists r, basic_checks 5 c body orelse prev next pb = Ok r.
Proof.
  intro PB.
  assert (BR : exists r, branch_checks 5 c body orelse prev next = Ok r).
  { unfold branch_checks.
    assert (K : exists r, match get_then_orelse body orelse next with
      | None => Ok None
      | Some (then_, else_) => if no_value then_ else_ then Ok (Some MNoValue) else value_checks 5 c orelse prev then_ else_
      end = Ok r).
    { destruct (get_then_orelse body orelse next) as [[s1 s2]|] eqn:G; [|eauto]. destruct (no_value s1 s2) eqn:NV; [eauto|].
      assert (PL : (plain_branch s1 = true /\ plain_branch s2 = true)).
      { unfold get_then_orelse in G. destruct body as [|s [|? ?]]; try discriminate. destruct orelse as [|o [|? ?]]; try discriminate.
        - destruct s; try discriminate. destruct next as [[]|]; try discriminate. injection G as <- <-. auto.
        - injection G as <- <-. cbn [List.app forallb] in PB. rewrite !andb_true_iff in PB. tauto. }
      unfold value_checks. destruct (mergeable s1 s2) eqn:M; [|eexists; reflexivity]. cbn [negb]. destruct (_ && _); [eauto|].
      assert (VV : exists a b, value_of s1 = Ok (Some a) /\ value_of s2 = Ok (Some b)).
      { unfold mergeable in M. destruct s1 as [v1| | |? v1| | | | |], s2 as [v2| | |? v2| | | | |]; try discriminate M; destruct PL as [P1 P2]; try discriminate P1; cbn [value_of].
        - destruct v1, v2; try discriminate; eauto.
        - eauto.
        - eauto.
        - destruct v1, v2; try discriminate; eauto. }
      destruct VV as (a & b & -> & ->). cbn [bind]. destruct (cond_ok c a b) as ([[t only]|] & ->); [|cbn; eauto]. cbn [bind].
      unfold if_message. destruct s1; try (eexists; reflexivity); unfold mergeable in M; destruct s2; try discriminate M; cbn [get_assigned_to same_kind negb is_any_assign is_for andb] in *.
      all: first [cbn in M; discriminate M | destruct targets; [cbn in M; discriminate M|eexists; reflexivity]]. }
    destruct body as [|s [|? ?]]; try exact K; destruct s; try exact K. destruct orelse; [exact K|].
    destruct (ref_ok2 c) as (t & ->). cbn. eauto. }
  unfold basic_checks. destruct orelse as [|o os]; [|exact BR].
  assert (MS : exists r, match next with Some (If t2 b2 o2) => merge_sequential 5 c body (If t2 b2 o2) pb | _ => branch_checks 5 c body [] prev next end = Ok r).
  { destruct next as [n|]; [|exact BR]. destruct n; try exact BR. unfold merge_sequential. destruct (_ || _); [eauto|].
    destruct body as [|s [|? ?]]; [eauto| |destruct s; eauto]. destruct s; eauto. destruct body0 as [|s2 [|? ?]]; [eauto| |destruct s2; eauto]. destruct s2; eauto.
    destruct (negb _); [eauto|]. destruct (_ && _); [eauto|]. destruct (ref_ok3 Or c test) as (t & E). cbn [op_word] in E. rewrite E. cbn. eauto. }
  destruct body as [|s [|? ?]]; [exact MS| |destruct s; try exact MS; destruct orelse; exact MS]. destruct s; try exact MS. destruct orelse; [|exact MS].
  destruct (ref_ok3 And c test) as (t & E). cbn [op_word] in E. rewrite E. cbn. eauto.
Qed.
