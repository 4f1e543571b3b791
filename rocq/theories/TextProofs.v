(** Reading texts that are put together from pieces. *)
From Coq Require Import String Ascii List Bool Arith NArith ZArith Lia.
From Verif Require Import Base PyModel PySpec PyProofs IfModel IfSpec IfProofs.
Import ListNotations.
Local Open Scope string_scope.
Local Open Scope list_scope.

Lemma good_name x : good [TName x] (Name x) 15.
Proof. exact (round (Name x) eq_refl). Qed.
Lemma good_const c : good [TConst c] (Const c) 15.
Proof. exact (round (Const c) eq_refl). Qed.
Lemma good_minus t e q : good t e q -> 12 <= q -> good (TBin Sub :: t) (Unary Neg e) 12.
Proof.
  intros G L. apply good_own_intro; [auto|discriminate|reflexivity|lia|]. intros rest C. cbn [List.app].
  apply p_prefix; [reflexivity|]. eapply good_at; [exact G|lia|lia|exact C].
Qed.
Lemma good_not t e q : good t e q -> 4 <= q -> good (TNot :: t) (Unary Not e) 4.
Proof.
  intros G L. apply good_own_intro; [auto|discriminate|lia|lia|]. intros rest C. cbn [List.app].
  apply p_not. eapply good_at; [exact G|lia|lia|exact C].
Qed.
Lemma good_binary o ta a qa tb b qb : o <> Pow -> good ta a qa -> good tb b qb -> bin_prec o <= qa -> bin_prec o < qb ->
  good (ta ++ TBin o :: tb) (Binary o a b) (bin_prec o).
Proof.
  intros NP GA GB KA KB. pose proof (bin_prec_range o NP) as PL. set (p := bin_prec o) in *.
  apply good_bin_intro; [exact PL| | |].
  - intro K. apply app_eq_nil in K. exact (g_ne _ _ _ GA (proj1 K)).
  - rewrite starts_app by exact (g_ne _ _ _ GA). apply (g_not _ _ _ GA). unfold plain in PL. lia.
  - intros rest e'' r' C B. rewrite <- !app_assoc. cbn [List.app].
    eapply good_bin; [exact GA|exact PL|exact KA|cbn [cont]; fold p; lia|].
    eapply bi_more; [reflexivity| |exact B]. fold p.
    eapply good_at; [exact GB|lia| |lia]. unfold plain in PL. lia.
Qed.
Lemma good_compare c ta a qa tb b qb : good ta a qa -> good tb b qb -> 5 < qa -> 5 < qb ->
  good (ta ++ cmp_tokens c ++ tb) (Compare a [(c, b)]) 5.
Proof.
  intros GA GB KA KB. split; try lia.
  - intro K. apply app_eq_nil in K. exact (g_ne _ _ _ GA (proj1 K)).
  - intros _. rewrite starts_app by exact (g_ne _ _ _ GA). apply (g_not _ _ _ GA). lia.
  - intro rest. exists a, [(c, b)]. split; [reflexivity|]. intros C ops' r' B. rewrite <- app_assoc.
    assert (TL : Rl ((cmp_tokens c ++ tb) ++ rest) ((c, b) :: ops') r').
    { rewrite <- app_assoc. eapply rl_more; [|eapply good_at; [exact GB|lia| |]|exact B].
      - rewrite starts_app by exact (g_ne _ _ _ GB). apply (g_not _ _ _ GB). lia.
      - pose proof (g_14 _ _ _ GB). lia.
      - lia. }
    assert (C5 : cont ((cmp_tokens c ++ tb) ++ rest) <= 5) by (rewrite <- app_assoc, cont_cmp; lia).
    pose proof (good_rel _ _ _ _ _ _ GA ltac:(lia) C5 TL ltac:(discriminate)) as R.
    replace (Nat.eqb qa 5) with false in R by (symmetry; apply Nat.eqb_neq; lia). exact R.
Qed.
Lemma good_call1 ta a qa tf f : good tf f 15 -> good ta a qa -> good (tf ++ TLP :: ta ++ [TRP]) (Call f [a]) 15.
Proof.
  intros GF GA. split; try lia.
  - intro K. apply app_eq_nil in K. exact (g_ne _ _ _ GF (proj1 K)).
  - intros _. rewrite starts_app by exact (g_ne _ _ _ GF). apply (g_not _ _ _ GF). lia.
  - intros _. rewrite starts_app by exact (g_ne _ _ _ GF). apply (g_prefix _ _ _ GF). lia.
  - intros rest e'' r' TR. rewrite <- app_assoc. eapply good_tr; [exact GF|]. cbn [List.app]. rewrite <- app_assoc. cbn [List.app].
    eapply tr_call; [|exact TR]. apply ar_one; [|exact I]. eapply good_at; [exact GA|pose proof (g_range _ _ _ GA); lia|lia|cbn; lia].
Qed.

(** An operand of and/or that is not itself one without parentheses. *)
Definition operand_of (o : boolop) (t : text) (e : expr) : Prop := exists q, good t e q /\ bool_prec o < q /\ items o e = [e].
Lemma good_bools o t1 e1 rest : operand_of o t1 e1 -> Forall (fun p => operand_of o (fst p) (snd p)) rest -> rest <> [] ->
  good (sep_by [bool_token o] (t1 :: map fst rest)) (BoolOp o (e1 :: map snd rest)) (bool_prec o).
Proof.
  intros (q1 & G1 & L1 & I1) F NE. revert t1 e1 q1 G1 L1 I1. induction F as [|[t2 e2] rest (q2 & G2 & L2 & I2) F IH]; [congruence|]; intros.
  cbn [fst snd] in G2, L2, I2. destruct rest as [|p rest].
  - cbn [map sep_by fst snd]. pose proof (good_join o t1 e1 q1 t2 e2 q2 G1 G2 ltac:(lia) ltac:(lia) (fun _ => I1) (fun _ => I2)) as J.
    rewrite I1, I2 in J. exact J.
  - specialize (IH ltac:(discriminate) t2 e2 q2 G2 L2 I2).
    pose proof (good_join o t1 e1 q1 _ _ _ G1 IH ltac:(lia) ltac:(lia) (fun _ => I1) ltac:(intro K; exfalso; lia)) as J.
    rewrite I1 in J. cbn [items] in J. replace (boolop_eqb o o) with true in J by (destruct o; reflexivity). cbn [List.app] in J. exact J.
Qed.
Lemma compare_operand o t a ops q : good t (Compare a ops) q -> 5 <= q -> operand_of o t (Compare a ops).
Proof. intros G L. exists q. split; [exact G|]. split; [destruct o; cbn; lia|reflexivity]. Qed.

(** ** Parentheses are balanced in texts that can be read *)
Record paired_weight (wt : token -> Z) : Prop := {
  pw_paren : (wt TLP + wt TRP = 0)%Z;
  pw_bracket : (wt TLB + wt TRB = 0)%Z;
  pw_negated : (wt TNegOpen + wt TNegClose = 0)%Z;
  pw_plain : forall t, match t with TLP | TRP | TLB | TRB | TNegOpen | TNegClose => True | _ => wt t = 0%Z end
}.
Definition weight (wt : token -> Z) (ts : text) : Z := fold_right (fun t z => (wt t + z)%Z) 0%Z ts.
Section Balance.
  Variable wt : token -> Z.
  Hypothesis PW : paired_weight wt.
  Lemma weight_cons t ts : weight wt (t :: ts) = (wt t + weight wt ts)%Z.
  Proof. reflexivity. Qed.
  Lemma weight_app a b : weight wt (a ++ b) = (weight wt a + weight wt b)%Z.
  Proof. induction a as [|t a IH]; [reflexivity|]. cbn [List.app]. rewrite !weight_cons, IH. lia. Qed.
  Lemma rel_weight ts c r : rel ts = Some (c, r) -> weight wt ts = weight wt r.
  Proof.
    pose proof (pw_plain wt PW) as PL. pose proof (PL TIs) as W1. pose proof (PL TNot) as W2. pose proof (PL TIn) as W3. cbn in W1, W2, W3.
    destruct ts as [|t ts]; [discriminate|]. destruct t; try discriminate; cbn [rel].
    - destruct ts as [|t ts]; [discriminate|]. destruct t; try discriminate. intro K. injection K as <- <-. rewrite !weight_cons. lia.
    - intro K. injection K as <- <-. rewrite !weight_cons. lia.
    - destruct ts as [|t ts]; [intro K; injection K as <- <-; rewrite !weight_cons; lia|].
      destruct t; intro K; injection K as <- <-; rewrite !weight_cons; lia.
    - intro K. injection K as <- <-. rewrite weight_cons. pose proof (PL (TRel c0)) as W. cbn in W. lia.
  Qed.
  Definition balance_at (f : nat) : Prop :=
    (forall l ts e r, parse f l ts = Some (e, r) -> weight wt ts = weight wt r) /\
    (forall l ts vs r, bools f l ts = Some (vs, r) -> weight wt ts = weight wt r) /\
    (forall ts ops r, rels f ts = Some (ops, r) -> weight wt ts = weight wt r) /\
    (forall l a ts e r, binaries f l a ts = Some (e, r) -> weight wt ts = weight wt r) /\
    (forall a ts e r, trailers f a ts = Some (e, r) -> weight wt ts = weight wt r) /\
    (forall ts vs r, arguments f ts = Some (vs, r) -> weight wt ts = weight wt r).
  Ltac known MP MB MR MBi MT MA :=
    repeat match goal with
    | E : parse _ _ _ = Some (_, _) |- _ => apply MP in E
    | E : bools _ _ _ = Some (_, _) |- _ => apply MB in E
    | E : rels _ _ = Some (_, _) |- _ => apply MR in E
    | E : binaries _ _ _ _ = Some (_, _) |- _ => apply MBi in E
    | E : trailers _ _ _ = Some (_, _) |- _ => apply MT in E
    | E : arguments _ _ = Some (_, _) |- _ => apply MA in E
    end.
  Lemma w_bin o : wt (TBin o) = 0%Z. Proof. exact (pw_plain wt PW (TBin o)). Qed.
  Lemma w_name o : wt (TName o) = 0%Z. Proof. exact (pw_plain wt PW (TName o)). Qed.
  Lemma w_const o : wt (TConst o) = 0%Z. Proof. exact (pw_plain wt PW (TConst o)). Qed.
  Lemma w_other o : wt (TOther o) = 0%Z. Proof. exact (pw_plain wt PW (TOther o)). Qed.
  Lemma w_words : (wt TIf = 0 /\ wt TElse = 0 /\ wt TNot = 0 /\ wt TComma = 0 /\ wt TDot = 0 /\ wt TAnd = 0 /\ wt TOr = 0 /\ wt TTilde = 0)%Z.
  Proof. pose proof (pw_plain wt PW) as K. repeat split; [exact (K TIf)|exact (K TElse)|exact (K TNot)|exact (K TComma)|exact (K TDot)|exact (K TAnd)|exact (K TOr)|exact (K TTilde)]. Qed.
  Ltac tokens :=
    repeat rewrite weight_cons in *; rewrite ?w_bin, ?w_name, ?w_const, ?w_other in *;
    destruct w_words as (? & ? & ? & ? & ? & ? & ? & ?);
    pose proof (pw_paren wt PW); pose proof (pw_bracket wt PW); pose proof (pw_negated wt PW); lia.
  Theorem balance f : balance_at f.
  Proof.
    induction f as [|f (MP & MB & MR & MBi & MT & MA)]; [repeat split; intros; discriminate|].
    split; [|split; [|split; [|split; [|split]]]].
    - intros l ts e r H. rewrite parse_S in H. unfold parse_step in H.
      assert (B : forall l, match parse f l ts with Some (a, r) => binaries f l a r | None => None end = Some (e, r) -> weight wt ts = weight wt r) by
        (intros k K; repeat (dmatch K; subst); known MP MB MR MBi MT MA; tokens).
      assert (B' : forall l, match parse f (S l) ts with Some (a, r) => binaries f l a r | None => None end = Some (e, r) -> weight wt ts = weight wt r) by
        (intros k K; repeat (dmatch K; subst); known MP MB MR MBi MT MA; tokens).
      destruct l as [|[|[|[|[|[|[|[|[|[|[|[|[|[|[|[|l]]]]]]]]]]]]]]]]; try discriminate H; try exact (B' _ H).
      + repeat (dmatch H; subst); try (injection H as <- <-); known MP MB MR MBi MT MA; tokens.
      + repeat (dmatch H; subst); try (injection H as <- <-); known MP MB MR MBi MT MA; tokens.
      + repeat (dmatch H; subst); try (injection H as <- <-); known MP MB MR MBi MT MA; tokens.
      + destruct ts as [|t ts]; [exact (MP _ _ _ _ H)|]. destruct t; try exact (MP _ _ _ _ H). dmatch H. destruct p. injection H as <- <-. known MP MB MR MBi MT MA. tokens.
      + repeat (dmatch H; subst); try (injection H as <- <-); known MP MB MR MBi MT MA; tokens.
      + destruct ts as [|t ts]; [discriminate|]. destruct (prefix_op t) eqn:PO; [|exact (MP _ _ _ _ H)]. dmatch H. destruct p. injection H as <- <-. known MP MB MR MBi MT MA.
        destruct t; try discriminate PO; tokens.
      + destruct (parse f 15 ts) as [[a r1]|] eqn:E; [|discriminate]. apply MP in E. destruct r1 as [|t r1]; [injection H as <- <-; exact E|].
        destruct t; try (injection H as <- <-; exact E). destruct o; try (injection H as <- <-; exact E). dmatch H. destruct p. injection H as <- <-. known MP MB MR MBi MT MA. tokens.
      + destruct ts as [|t ts]; [discriminate|]. destruct t; try discriminate H; try (apply MT in H; tokens).
        * repeat (dmatch H; subst). known MP MB MR MBi MT MA. tokens.
        * repeat (dmatch H; subst). known MP MB MR MBi MT MA. tokens.
    - intros l ts vs r H. rewrite bools_S in H. repeat (dmatch H; subst); injection H as <- <-; try reflexivity.
      assert (W : wt t = 0%Z) by (pose proof (pw_plain wt PW t); destruct l as [|[|[|[|l]]]], t; try discriminate; assumption).
      known MP MB MR MBi MT MA. tokens.
    - intros ts ops r H. rewrite rels_S in H. repeat (dmatch H; subst); injection H as <- <-; try reflexivity.
      match goal with E : rel _ = Some _ |- _ => apply rel_weight in E end. known MP MB MR MBi MT MA. tokens.
    - intros l a ts e r H. rewrite binaries_S in H. repeat (dmatch H; subst); try (injection H as <- <-); try reflexivity.
      assert (W : wt t = 0%Z) by (pose proof (pw_plain wt PW t); destruct t; try discriminate; assumption).
      known MP MB MR MBi MT MA. tokens.
    - intros a ts e r H. rewrite trailers_S in H. repeat (dmatch H; subst); try (injection H as <- <-); try reflexivity; known MP MB MR MBi MT MA; tokens.
    - intros ts vs r H. rewrite arguments_S in H. repeat (dmatch H; subst); try (injection H as <- <-); known MP MB MR MBi MT MA; tokens.
  Qed.
  Theorem reads_balanced t e : reads t e -> weight wt t = 0%Z.
  Proof. intros [f H]. exact (proj1 (balance f) _ _ _ _ H). Qed.
End Balance.
