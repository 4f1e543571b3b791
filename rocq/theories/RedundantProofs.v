(** Proofs about the check for redundant operands. *)
From Coq Require Import String Ascii List Bool Arith NArith ZArith QArith Lia.
From Verif Require Import Base PyModel PySpec PyProofs IfModel IfSpec IfProofs FoldModel FoldSpec FoldProofs TypeModel LocalModel LocalSpec LocalProofs MergeSpec SolverModel SolverSpec SolverProofs.
Import ListNotations.
Local Open Scope string_scope.
Local Open Scope list_scope.
Local Open Scope nat_scope.

(** ** Lists of marks *)
Lemma mark_length l i : length (mark l i) = length l.
Proof. revert i. induction l as [|b l IH]; intros [|i]; cbn; try reflexivity. rewrite IH. reflexivity. Qed.
Lemma mark_same l i : nth_error (mark l i) i = match nth_error l i with Some _ => Some true | None => None end.
Proof. revert i. induction l as [|b l IH]; intros [|i]; cbn; try reflexivity. apply IH. Qed.
Lemma mark_other l i j : i <> j -> nth_error (mark l i) j = nth_error l j.
Proof. revert i j. induction l as [|b l IH]; intros [|i] [|j] N; cbn; try reflexivity; try congruence. apply IH. congruence. Qed.
Lemma get_nth {A} (l : list A) i x : get l i = Ok x <-> nth_error l i = Some x.
Proof. unfold get. destruct (nth_error l i); split; intro E; congruence. Qed.
Lemma kept_cons {A} (x : A) l b r : kept (x :: l) (b :: r) = if b then kept l r else x :: kept l r.
Proof. unfold kept. cbn [combine filter snd]. destruct b; reflexivity. Qed.
Lemma kept_two {A B} (R : A -> B -> Prop) l l' : Forall2 R l l' -> forall r, Forall2 R (kept l r) (kept l' r).
Proof.
  induction 1 as [|x y l l' X F IH]; intros [|b r]; try (constructor; fail). rewrite !kept_cons. destruct b; [apply IH|constructor; [exact X|apply IH]].
Qed.
Lemma kept_in {A} (l : list A) r x : length r = length l -> List.In x (kept l r) <-> exists i, nth_error r i = Some false /\ nth_error l i = Some x.
Proof.
  revert r. induction l as [|y l IH]; intros [|b r] L; try discriminate.
  - split; [intros []|intros (i & E & _); destruct i; discriminate].
  - rewrite kept_cons. injection L as L. destruct b.
    + rewrite (IH r L). split.
      * intros (i & A1 & A2). exists (S i). split; assumption.
      * intros ([|i] & A1 & A2); [discriminate|]. exists i. split; assumption.
    + cbn [List.In]. rewrite (IH r L). split.
      * intros [->|(i & A1 & A2)]; [exists 0; split; reflexivity|exists (S i); split; assumption].
      * intros ([|i] & A1 & A2); [left; injection A2; auto|right; exists i; split; assumption].
Qed.

(** ** Removing operands *)
Definition absorbing (o : boolop) : bool := match o with Or => true | And => false end.
Lemma connect_absorbing o bs : connect o bs = absorbing o <-> List.In (absorbing o) bs.
Proof.
  destruct o; cbn [connect absorbing].
  - induction bs as [|b bs IH]; cbn; [split; [discriminate|intros []]|]. destruct b; cbn; rewrite ?IH; split; auto; intros [X|X]; auto; discriminate.
  - induction bs as [|b bs IH]; cbn; [split; [discriminate|intros []]|]. destruct b; cbn; rewrite ?IH; split; auto; intros [X|X]; auto; discriminate.
Qed.
Definition hit (o : boolop) (bs removed : list bool) : Prop := exists i, nth_error removed i = Some false /\ nth_error bs i = Some (absorbing o).
Lemma hit_connect o bs removed : length removed = length bs -> connect o (kept bs removed) = absorbing o <-> hit o bs removed.
Proof. intro L. rewrite connect_absorbing, (kept_in bs removed _ L). reflexivity. Qed.
Lemma bool_eq_iff (a b c : bool) : (a = c <-> b = c) -> a = b.
Proof. destruct a, b, c; intros [H1 H2]; try reflexivity; try (specialize (H1 eq_refl); discriminate); specialize (H2 eq_refl); discriminate. Qed.
Lemma mark_hit o bs removed i : (nth_error bs i = Some (absorbing o) -> exists j, j <> i /\ nth_error removed j = Some false /\ nth_error bs j = Some (absorbing o)) ->
  hit o bs (mark removed i) <-> hit o bs removed.
Proof.
  intro X. split; intros (k & A1 & A2).
  - destruct (Nat.eq_dec i k) as [<-|N].
    + rewrite mark_same in A1. destruct (nth_error removed i); discriminate.
    + rewrite (mark_other _ _ _ N) in A1. exists k. split; assumption.
  - destruct (Nat.eq_dec i k) as [<-|N].
    + destruct (X A2) as (j & NJ & B1 & B2). exists j. rewrite (mark_other _ _ _ (fun e => NJ (eq_sym e))). split; assumption.
    + exists k. rewrite (mark_other _ _ _ N). split; assumption.
Qed.

Definition or_of (o : boolop) : bool := match o with Or => true | And => false end.

Section Removal.
  Variable unsat : zexpr -> bool.
  Variable text_length : text -> nat.
  Hypothesis SOUND : sound unsat.
  Variable E : environment.
  Variables (o : boolop) (vs : list expr) (cs : list zexpr) (bs : list bool).
  Hypothesis VALUES : Forall2 (fun z b => zeval E z = Some (ZB b)) cs bs.

  Lemma value_at i c : nth_error cs i = Some c -> exists b, nth_error bs i = Some b /\ zeval E c = Some (ZB b).
  Proof.
    revert i. clear -VALUES. induction VALUES as [|z b l l' X F IH]; intros [|i] N; try discriminate; cbn in *.
    - injection N as <-. exists b. split; [reflexivity|exact X].
    - exact (IH F i N).
  Qed.
  Lemma implies_sound a b x y : zeval E a = Some (ZB x) -> zeval E b = Some (ZB y) -> implies unsat a b = true -> x = true -> y = true.
  Proof.
    intros A B I ->. destruct y; [reflexivity|]. exfalso. apply (SOUND _ I E). cbn [zeval map]. rewrite A, B. reflexivity.
  Qed.
  Definition safe (removed : list bool) : Prop := length removed = length bs /\ (hit o bs removed <-> List.In (absorbing o) bs).

  Lemma compare_with_safe i js removed r : safe removed -> nth_error removed i = Some false -> ~ List.In i js ->
    compare_with unsat text_length vs cs (or_of o) i js removed = Ok r -> safe r.
  Proof.
    revert removed. induction js as [|j js IH]; intros removed SF RI NI C; cbn [compare_with] in C; [congruence|].
    destruct (get removed j) as [rj|] eqn:GJ; [|discriminate]. cbn [bind] in C. apply get_nth in GJ. destruct rj.
    - apply (IH removed SF RI); [intro X; apply NI; right; exact X|exact C].
    - destruct (get cs i) as [ci|] eqn:CI; [|discriminate]. cbn [bind] in C. destruct (get cs j) as [cj|] eqn:CJ; [|discriminate]. cbn [bind] in C.
      destruct (get vs i) as [x|]; [|discriminate]. cbn [bind] in C. destruct (get vs j) as [y|]; [|discriminate]. cbn [bind] in C. cbv zeta in C.
      apply get_nth in CI, CJ. destruct (value_at i ci CI) as (bi & Bi & Zi). destruct (value_at j cj CJ) as (bj & Bj & Zj).
      pose proof (implies_sound ci cj bi bj Zi Zj) as FW. pose proof (implies_sound cj ci bj bi Zj Zi) as BW.
      assert (IJ : i <> j) by (intros ->; apply NI; left; reflexivity). destruct SF as [LR HR].
      destruct (implies unsat ci cj), (implies unsat cj ci);
        match goal with C : (if ?t then _ else _) = _ |- _ => destruct t eqn:SR end;
        try (assert (R : r = mark removed i) by congruence; subst r; clear C; split; [rewrite mark_length; exact LR|]; rewrite <- HR; apply mark_hit; intro BA; exists j;
             refine (conj (fun e => IJ (eq_sym e)) (conj GJ _)); rewrite Bj; f_equal; rewrite Bi in BA; injection BA as BA; subst bi;
             destruct o; cbn [absorbing or_of should_remove_ith negb andb orb] in *; try discriminate SR; auto; destruct bj; auto; specialize (BW eq_refl eq_refl); congruence).
      all: cbn [orb] in C.
      all: try (apply (IH removed (conj LR HR) RI); [intro X; apply NI; right; exact X|exact C]).
      all: apply (IH (mark removed j)); [split; [rewrite mark_length; exact LR|]|rewrite mark_other by congruence; exact RI|intro X; apply NI; right; exact X|exact C].
      all: rewrite <- HR; apply mark_hit; intro BA; exists i; refine (conj IJ (conj RI _)); rewrite Bi; f_equal; rewrite Bj in BA; injection BA as BA; subst bj;
        destruct o; cbn [absorbing or_of should_remove_ith negb andb orb] in *; try discriminate SR; auto; destruct bi; auto; specialize (FW eq_refl eq_refl); congruence.
  Qed.
  Lemma compare_all_safe is_ removed r : safe removed -> compare_all unsat text_length vs cs (or_of o) is_ removed = Ok r -> safe r.
  Proof.
    revert removed. induction is_ as [|i is_ IH]; intros removed SF C; cbn [compare_all] in C; [congruence|].
    destruct (get removed i) as [ri|] eqn:GI; [|discriminate]. cbn [bind] in C. apply get_nth in GI. destruct ri.
    - cbn [bind] in C. exact (IH removed SF C).
    - destruct (compare_with unsat text_length vs cs (or_of o) i (seq (S i) (length cs - S i)) removed) as [r1|] eqn:CW; [|discriminate]. cbn [bind] in C.
      apply (IH r1); [|exact C]. eapply compare_with_safe; [exact SF|exact GI| |exact CW]. rewrite in_seq. lia.
  Qed.
  Lemma kept_values removed : Forall2 (fun z b => zeval E z = Some (ZB b)) (kept cs removed) (kept bs removed).
  Proof. apply kept_two. exact VALUES. Qed.
  Lemma implied_safe is_ removed r : safe removed -> implied_by_rest unsat cs (or_of o) is_ removed = Ok r -> safe r.
  Proof.
    revert removed. induction is_ as [|i is_ IH]; intros removed SF C; cbn [implied_by_rest] in C; [congruence|].
    destruct (get removed i) as [ri|] eqn:GI; [|discriminate]. cbn [bind] in C. apply get_nth in GI. destruct ri; [exact (IH removed SF C)|].
    destruct (get cs i) as [ci|] eqn:CI; [|discriminate]. cbn [bind] in C. cbv zeta in C. apply get_nth in CI. destruct (value_at i ci CI) as (bi & Bi & Zi).
    destruct (kept cs (mark removed i)) as [|k0 ks] eqn:KE; [congruence|]. rewrite <- KE in C. clear k0 ks KE.
    apply (IH _) in C; [exact C|]. destruct (ith_is_redundant unsat (kept cs (mark removed i)) ci (or_of o)) eqn:RD; [|exact SF].
    destruct SF as [LR HR]. split; [rewrite mark_length; exact LR|]. rewrite <- HR. apply mark_hit. intro BA.
    pose proof (kept_values (mark removed i)) as KV. assert (LM : length (mark removed i) = length bs) by (rewrite mark_length; exact LR).
    rewrite Bi in BA. injection BA as BA.
    assert (X : connect o (kept bs (mark removed i)) = absorbing o).
    { destruct o; cbn [or_of ith_is_redundant negb andb orb absorbing connect] in *; subst bi.
      - destruct (forallb (fun b => b) (kept bs (mark removed i))) eqn:FB; [|reflexivity].
        assert (ZA : zeval E (ZAnd (kept cs (mark removed i))) = Some (ZB true)) by (cbn [zeval]; rewrite (ztruths_eval E _ _ _ KV), FB; reflexivity).
        unfold ith_is_redundant in RD. cbn [negb andb orb] in RD. exfalso. assert (Y := implies_sound _ _ _ _ ZA Zi RD eq_refl). discriminate.
      - unfold ith_is_redundant in RD. cbn [negb andb] in RD. rewrite orb_false_r in RD.
        assert (ZO : zeval E (ZOr (kept cs (mark removed i))) = Some (ZB (existsb (fun b => b) (kept bs (mark removed i))))) by (cbn [zeval]; apply (ztruths_eval E _ _ _ KV)).
        exact (implies_sound _ _ _ _ Zi ZO RD eq_refl). }
    apply (hit_connect o bs _ LM) in X. destruct X as (j & A1 & A2). exists j.
    destruct (Nat.eq_dec i j) as [<-|N]; [rewrite mark_same, GI in A1; discriminate|]. rewrite (mark_other _ _ _ N) in A1. auto.
  Qed.
  Theorem parts_safe removed : redundant_parts unsat text_length vs cs (or_of o) = Ok removed ->
    length removed = length cs /\ connect o (kept bs removed) = connect o bs.
  Proof.
    unfold redundant_parts. intro C. cbv zeta in C.
    assert (LCB : length cs = length bs) by (pose proof VALUES as V; clear -V; induction V; cbn; congruence).
    set (r0 := map (fun c => (or_of o && unsat c) || (negb (or_of o) && unsat (ZNot c))) cs) in C.
    assert (S0 : safe r0).
    { split; [unfold r0; rewrite map_length; exact LCB|]. split.
      - intros (i & _ & B). eapply nth_error_In. exact B.
      - intro B. apply In_nth_error in B. destruct B as (i & B). exists i. split; [|exact B]. unfold r0.
        assert (L : i < length cs) by (rewrite LCB; apply nth_error_Some; congruence).
        destruct (nth_error cs i) as [c|] eqn:CI; [|apply nth_error_None in CI; lia].
        rewrite (map_nth_error _ _ _ CI). f_equal. destruct (value_at i c CI) as (b & B' & Z). rewrite B in B'. injection B' as <-.
        destruct o; cbn [or_of absorbing negb andb orb] in *.
        + destruct (unsat (ZNot c)) eqn:U; [|reflexivity]. exfalso. apply (SOUND _ U E). cbn [zeval]. rewrite Z. reflexivity.
        + destruct (unsat c) eqn:U; [|reflexivity]. exfalso. exact (SOUND _ U E Z). }
    destruct (compare_all unsat text_length vs cs (or_of o) (seq 0 (length cs)) r0) as [r1|] eqn:CA; [|discriminate]. cbn [bind] in C.
    assert (S1 := compare_all_safe _ _ _ S0 CA). assert (S2 := implied_safe _ _ _ S1 C). destruct S2 as [LR HR]. split; [congruence|].
    apply (bool_eq_iff _ _ (absorbing o)). rewrite (hit_connect o bs removed LR), HR, connect_absorbing. reflexivity.
  Qed.
End Removal.

(** ** The suggestion *)
Definition piece_of (o : boolop) (t : text) (l : list expr) : Prop :=
  t <> [] /\ l <> [] /\ forall rest vs r', cont rest <= bool_prec o -> Bl (bool_prec o) rest vs r' ->
    exists a r1 vs1, Pr (S (bool_prec o)) (t ++ rest) a r1 /\ Bl (bool_prec o) r1 vs1 r' /\ l ++ vs = a :: vs1.
Lemma piece_tight o t e q : good t e q -> bool_prec o < q -> piece_of o t [e].
Proof.
  intros G L. split; [exact (g_ne _ _ _ G)|]. split; [discriminate|]. intros rest vs r' C B. exists e, rest, vs. split; [|split; [exact B|reflexivity]].
  eapply good_at; [exact G| | |]; destruct o; cbn in *; lia.
Qed.
Lemma piece_loose o t l : good t (BoolOp o l) (bool_prec o) -> l <> [] -> piece_of o t l.
Proof.
  intros G N. split; [exact (g_ne _ _ _ G)|]. split; [exact N|]. intros rest vs r' C B. pose proof (g_core _ _ _ G rest) as K.
  destruct o; cbn [bool_prec] in *; unfold good_core in K; destruct K as (l' & E & L2 & K); assert (l' = l) by congruence; subst l'; exact (K C vs r' B).
Qed.
Lemma pieces_join o ts ls : Forall2 (piece_of o) ts ls -> 2 <= length ts -> good (sep_by [bool_token o] ts) (BoolOp o (concat ls)) (bool_prec o).
Proof.
  intros F L.
  assert (P23 : bool_prec o = 2 \/ bool_prec o = 3) by (destruct o; cbn; auto).
  assert (LO : level_op (bool_prec o) = o) by (destruct o; reflexivity).
  assert (X : forall ts ls, Forall2 (piece_of o) ts ls -> ts <> [] -> piece_of o (sep_by [bool_token o] ts) (concat ls)).
  { clear. intros ts ls F. induction F as [|t l ts ls (A1 & A2 & A3) F IH]; [congruence|]. intros _. destruct F as [|t' l' ts ls X F].
    - cbn [sep_by concat]. rewrite app_nil_r. exact (conj A1 (conj A2 A3)).
    - specialize (IH ltac:(discriminate)). destruct IH as (B1 & B2 & B3). set (tt := t' :: ts) in *. set (ll := l' :: ls) in *.
      assert (SB : sep_by [bool_token o] (t :: tt) = t ++ bool_token o :: sep_by [bool_token o] tt) by reflexivity. rewrite SB.
      change (concat (l :: ll)) with (l ++ concat ll). clearbody tt ll.
      split; [destruct t; [congruence|discriminate]|]. split; [destruct l; [congruence|discriminate]|].
      intros rest vs r' C B. rewrite <- app_assoc. cbn [List.app]. destruct (B3 rest vs r' C B) as (a & r1 & vs1 & C1 & C2 & C3).
      assert (TL : Bl (bool_prec o) (bool_token o :: sep_by [bool_token o] tt ++ rest) (concat ll ++ vs) r') by (rewrite C3; eapply bl_more; eassumption).
      assert (CT : cont (bool_token o :: sep_by [bool_token o] tt ++ rest) <= bool_prec o) by (clear; destruct o; cbn; lia).
      destruct (A3 _ _ _ CT TL) as (a' & r1' & vs1' & D1 & D2 & D3).
      exists a', r1', vs1'. split; [exact D1|]. split; [exact D2|]. rewrite <- app_assoc. exact D3. }
  assert (LL : 2 <= length (concat ls)).
  { destruct F as [|t l ts ls (A1 & A2 & A3) F]; [cbn in L; lia|]. destruct F as [|t' l' ts ls (B1 & B2 & B3) F]; [cbn in L; lia|].
    cbn [concat]. rewrite !app_length. destruct l; [congruence|]. destruct l'; [congruence|]. cbn [length]. lia. }
  assert (NT : ts <> []) by (intros ->; cbn in L; lia).
  destruct (X ts ls F NT) as (N1 & N2 & N3).
  split; try lia; try exact N1.
  - intro rest.
    assert (CORE : exists l, BoolOp o (concat ls) = BoolOp (level_op (bool_prec o)) l /\ 2 <= length l /\
      (cont rest <= bool_prec o -> forall vs0 r', Bl (bool_prec o) rest vs0 r' ->
        exists a r1 vs1, Pr (S (bool_prec o)) (sep_by [bool_token o] ts ++ rest) a r1 /\ Bl (bool_prec o) r1 vs1 r' /\ l ++ vs0 = a :: vs1)).
    { rewrite LO. exists (concat ls). split; [reflexivity|]. split; [exact LL|]. intros C vs0 r' B. exact (N3 rest vs0 r' C B). }
    destruct o; exact CORE.
Qed.
Lemma pieces_value {W} (P : python W) o es ls : Forall2 (fun e l => l <> [] /\ eqc (shortcut P o (map (eval P) l)) (eval P e)) es ls -> es <> [] ->
  eqc (eval P (BoolOp o (concat ls))) (eval P (BoolOp o es)).
Proof.
  intros F N. rewrite !eval_bool. revert N. induction F as [|e l es ls [A1 A2] F IH]; [congruence|]. intros _. destruct F as [|e' l' es ls X F].
  - cbn [concat map shortcut]. rewrite app_nil_r. exact A2.
  - specialize (IH ltac:(discriminate)). set (ee := e' :: es) in *. set (ll := l' :: ls) in *. change (concat (l :: ll)) with (l ++ concat ll).
    rewrite map_app. assert (NE : map (eval P) ee <> []) by discriminate.
    assert (NL : map (eval P) (concat ll) <> []) by (unfold ll; cbn [concat]; destruct X as [X _]; destruct l'; [congruence|discriminate]).
    assert (N1 : map (eval P) l <> []) by (destruct l; [congruence|discriminate]).
    clearbody ee ll. intro w. rewrite (shortcut_app P o _ _ N1 NL w). cbn [map]. rewrite (shortcut_cons P o (eval P e) (map (eval P) ee) NE w).
    apply andthen_eq; [exact A2|]. intro v. unfold gate. apply andthen_eq; [apply eqc_refl|]. intro b. destruct (Bool.eqb b (neutral o)); [exact IH|apply eqc_refl].
Qed.
Lemma brackets_piece o e : fine e = true -> exists l, piece_of o (add_brackets e false) l /\ forall W (P : python W), eqc (shortcut P o (map (eval P) l)) (eval P e).
Proof.
  intro F. destruct (fine_split e F) as [WF NC]. pose proof (round e WF) as G.
  assert (V : forall W (P : python W), eqc (eval P (norm e)) (eval P e)) by (intros; apply norm_value; assumption).
  assert (BR : exists l, piece_of o (paren (as_string e)) l /\ forall W (P : python W), eqc (shortcut P o (map (eval P) l)) (eval P e)).
  { exists [norm e]. split; [|intros W P; exact (V W P)]. eapply piece_tight; [eapply good_paren; exact G|destruct o; cbn; lia]. }
  assert (TI : bool_prec o < prec e -> exists l, piece_of o (as_string e) l /\ forall W (P : python W), eqc (shortcut P o (map (eval P) l)) (eval P e)).
  { intro L. exists [norm e]. split; [|intros W P; exact (V W P)]. eapply piece_tight; [exact G|exact L]. }
  unfold add_brackets. destruct e as [x|k|u a|b a1 a2|o' vs|a ops|f args|a x|a i|c a b|n]; try exact BR; try (apply TI; destruct o; cbn; lia).
  destruct o'; [|exact BR]. destruct o; [|apply TI; cbn; lia].
  cbn [norm prec] in G, V. eexists. split; [eapply (piece_loose And); [exact G|]|].
  - intro K. pose proof (g_core _ _ _ G []) as C. cbn [bool_prec] in C. unfold good_core in C. destruct C as (l & E & L2 & _).
    assert (l = []) by congruence. subst l. cbn in L2. lia.
  - intros W P w. rewrite <- eval_bool. exact (V W P w).
Qed.
Lemma suggestion_reads o es : Forall (fun e => fine e = true) es -> es <> [] ->
  exists e', reads (sep_by [bool_token o] (map (fun x => add_brackets x (Nat.eqb (length es) 1)) es)) e' /\ forall W (P : python W), eqc (eval P e') (eval P (BoolOp o es)).
Proof.
  intros F N. destruct es as [|e1 [|e2 es]]; [congruence| |].
  - cbn [length Nat.eqb map add_brackets sep_by]. inversion F; subst. exists (norm e1).
    split; [|intros W P w; rewrite eval_bool; cbn [map shortcut]; apply norm_same; assumption].
    destruct (fine_split e1 H1) as [WF _]. eapply reads_good. apply round. exact WF.
  - set (es' := e1 :: e2 :: es) in *. assert (L : Nat.eqb (length es') 1 = false) by reflexivity. rewrite L.
    assert (L2 : 2 <= length es') by (cbn; lia). clearbody es'. clear L e1 e2 es.
    assert (X : exists ls, Forall2 (piece_of o) (map (fun x => add_brackets x false) es') ls /\
      forall W (P : python W), Forall2 (fun e l => l <> [] /\ eqc (shortcut P o (map (eval P) l)) (eval P e)) es' ls).
    { clear -F. induction F as [|e es Fe F (ls & A1 & A2)]; [exists []; split; [constructor|intros; constructor]|].
      destruct (brackets_piece o e Fe) as (l & B1 & B2). exists (l :: ls). split; [constructor; assumption|]. intros W P. constructor; [|apply A2].
      split; [destruct B1 as (_ & B1 & _); exact B1|apply B2]. }
    destruct X as (ls & A1 & A2). exists (BoolOp o (concat ls)). split.
    + eapply reads_good. apply pieces_join; [exact A1|rewrite map_length; exact L2].
    + intros W P. apply pieces_value; [apply A2|destruct es'; [cbn in L2; lia|discriminate]].
Qed.

(** ** The messages *)
Lemma fine_bool o vs : fine (BoolOp o vs) = true -> Forall (fun e => fine e = true) vs /\ 2 <= length vs.
Proof.
  unfold fine. cbn [well_formed no_nested_compare]. intro F. apply andb_true_iff in F. destruct F as [F1 F2]. apply andb_true_iff in F1. destruct F1 as [L F1].
  split; [|apply Nat.leb_le; exact L]. rewrite forallb_forall in F1, F2. rewrite Forall_forall. intros x I. rewrite (F1 x I), (F2 x I). reflexivity.
Qed.
Lemma kept_forall {A} (Q : A -> Prop) l r : Forall Q l -> Forall Q (kept l r).
Proof.
  intro F. revert r. induction F as [|x l X F IH]; intros [|b r]; try (constructor; fail). rewrite kept_cons. destruct b; [apply IH|constructor; [exact X|apply IH]].
Qed.
Lemma kept_length {A B} (l : list A) (l' : list B) r : length l = length l' -> length (kept l r) = length (kept l' r).
Proof.
  revert l' r. induction l as [|x l IH]; intros [|y l'] [|b r] L; try discriminate; try reflexivity. rewrite !kept_cons. injection L as L.
  destruct b; [apply IH; exact L|cbn; rewrite (IH l' r L); reflexivity].
Qed.

Section Messages.
  Variable unsat : zexpr -> bool.
  Variable text_length : text -> nat.
  Hypothesis SOUND : sound unsat.
  Variables (H : host) (G : inspection).
  Hypothesis CH : closed_host H.
  Context {W : Type}.
  Variable P : python W.
  Variable w : W.
  Hypothesis AG : agrees P H.
  Hypothesis ABS : has_abs P w.

  (** Translated without turning a number into a condition. *)
  Definition unflagged (x : expr) : Prop := exists int_op d0 d1 d z, initialize H G true int_op true x d0 = Ok (true, d1) /\ convert H d true x = Ok (Some z, false).
  Lemma unflagged_operands o vs : unflagged (BoolOp o vs) -> Forall unflagged vs.
  Proof.
    intros (int_op & d0 & d1 & d & z & I & C). rewrite init_bool in I. rewrite convert_bool in C. destruct (convert_all H d vs) as [[[zs c]|]|] eqn:CA; try discriminate.
    cbn [bind] in C. assert (c = false) by congruence. subst c. clear C. revert d0 I zs CA. induction vs as [|x vs IH]; intros d0 I zs CA; [constructor|].
    cbn [init_all] in I. destruct (initialize H G true int_op true x d0) as [[[] dx]|] eqn:IX; try discriminate. cbn [bind fst snd] in I.
    cbn [convert_all] in CA. destruct (convert H d true x) as [[[zx|] cx]|] eqn:CX; try discriminate. cbn [bind fst snd] in CA.
    destruct (convert_all H d vs) as [[[zs1 c1]|]|] eqn:CV; try discriminate. cbn [bind] in CA.
    assert (cx || c1 = false) by congruence. apply orb_false_iff in H0. destruct H0 as [-> ->]. constructor; [|eapply IH; [exact I|reflexivity]].
    exists int_op, d0, dx, d, zx. split; assumption.
  Qed.
  (** What is known about operands that are translated. *)
  Lemma operands_mean E d bp : forall vs d0 d1 cs, init_all H G true false true vs d0 = Ok (true, d1) -> convert_operands H d bp vs = Ok (Some cs) ->
    Forall (fun e => fine e = true) vs -> Forall (whole P w) vs -> Forall (int_divisions P w) vs -> Forall (fun e => assigns E P w (numbers e)) vs ->
    exists bs, Forall2 (fun z b => zeval E z = Some (ZB b)) cs bs /\ Forall2 (fun e b => exists v, gives P w e v /\ truth P v w = (w, Ok b)) vs bs /\
      (bp = false \/ Forall unflagged vs -> Forall2 (fun e b => gives P w e (VBool b)) vs bs) /\ (bp = false -> Forall unflagged vs).
  Proof.
    induction vs as [|x vs IH]; intros d0 d1 cs I C F WH DV A.
    - injection C as <-. exists []. repeat split; try constructor.
    - cbn [init_all] in I. destruct (initialize H G true false true x d0) as [[[] dx]|] eqn:IX; try discriminate. cbn [bind fst snd] in I.
      cbn [convert_operands] in C. destruct (convert H d true x) as [[[zx|] cx]|] eqn:CX; try discriminate. cbn [bind fst snd] in C.
      match goal with C : (if ?t then _ else _) = _ |- _ => destruct t eqn:SK; [discriminate|] end.
      destruct (convert_operands H d bp vs) as [[cs1|]|] eqn:CO; try discriminate. cbn [bind] in C. assert (cs = zx :: cs1) by congruence. subst cs.
      inversion F as [|? ? Fx F']; subst. inversion WH as [|? ? Wx W']; subst. inversion DV as [|? ? Dx D']; subst. inversion A as [|? ? Ax A']; subst.
      destruct (fine_split x Fx) as [WFx _].
      assert (FLAG : bp = false -> cx = false) by (intros ->; destruct cx; [rewrite orb_true_r in SK; discriminate|reflexivity]).
      assert (MM : forall int_op e0 e1 e z c, initialize H G true int_op true x e0 = Ok (true, e1) -> convert H e true x = Ok (Some z, c) -> means_bool P w E x z c).
      { intros int_op e0 e1 e z c IZ CZ. apply means_cond. exact (translated H G true CH P w AG ABS E x true int_op e0 e1 e z c IZ CZ WFx Wx Dx Ax). }
      destruct (MM _ _ _ _ _ _ IX CX) as (b & v & GV & TV & ZV & BV).
      destruct (IH dx d1 cs1 I eq_refl F' W' D' A') as (bs & F1 & F2 & F3 & F4).
      exists (b :: bs). split; [constructor; assumption|]. split; [constructor; [exists v; split; assumption|exact F2]|]. split.
      + intros [K|K].
        * constructor; [rewrite <- (BV (FLAG K)); exact GV|apply F3; left; exact K].
        * inversion K as [|? ? (i & e0 & e1 & e & z & K1 & K2) K']; subst. constructor; [|apply F3; right; exact K'].
          destruct (MM _ _ _ _ _ _ K1 K2) as (b' & v' & GV' & TV' & _ & BV'). unfold gives in *. rewrite GV in GV'. injection GV' as <-.
          rewrite TV in TV'. injection TV' as <-. rewrite <- (BV' eq_refl). exact GV.
      + intro K. constructor; [|apply F4; exact K]. exists false, d0, dx, d, zx. rewrite (FLAG K) in CX. split; assumption.
  Qed.
  Lemma flat_incl {A B} (f : A -> list B) l x : List.In x l -> incl (f x) (flat_map f l).
  Proof. intros I y Y. apply in_flat_map. exists x. split; assumption. Qed.
  Lemma divisions_forall vs : fold_right and True (map (int_divisions P w) vs) -> Forall (int_divisions P w) vs.
  Proof. induction vs as [|x vs IH]; cbn; [constructor|]. intros [A B]. constructor; [exact A|apply IH; exact B]. Qed.

  Theorem redundant_right e : forall bp strict ms, fine e = true -> whole P w e -> int_divisions P w e ->
    (strict = true -> bp = false \/ match e with BoolOp _ vs => Forall unflagged vs | _ => True end) ->
    redundant_operands unsat text_length H G bp e = Ok ms -> Forall (right P w (negb strict)) ms.
  Proof.
    induction e as [x|k|o a IHa|o a b IHa IHb|o vs IHvs|a ops IHa IHops|g args IHg IHargs|a x IHa|a i IHa IHi|c a b IHc IHa IHb|n] using expr_ind';
      intros bp strict ms F WH DV ST R; try (injection R as <-; constructor).
    destruct (fine_bool o vs F) as [FV LV].
    destruct (assigned P w (numbers (BoolOp o vs)) (fine_numbers _ F) WH) as (E & AE).
    assert (WV : Forall (whole P w) vs).
    { rewrite Forall_forall. intros x I. unfold whole in *. rewrite Forall_forall in WH |- *. intros s S1. apply WH. cbn [numbers]. exact (flat_incl numbers vs x I s S1). }
    assert (AV : Forall (fun e => assigns E P w (numbers e)) vs).
    { rewrite Forall_forall. intros x I. eapply assigns_incl; [|exact AE]. cbn [numbers]. apply flat_incl. exact I. }
    cbn [int_divisions] in DV. assert (DV' := divisions_forall vs DV).
    cbn [redundant_operands] in R. destruct (initialize H G true false true (BoolOp o vs) []) as [[[] d1]|] eqn:IN; [| |discriminate]; cbn [bind fst snd negb] in R; [|injection R as <-; constructor].
    rewrite init_bool in IN. destruct (convert_operands H d1 bp vs) as [[cs|]|] eqn:CO; [| |discriminate]; cbn [bind] in R; [|injection R as <-; constructor].
    destruct (operands_mean E d1 bp vs [] d1 cs IN CO FV WV DV' AV) as (bs & F1 & F2 & F3 & F4).
    assert (NV : vs <> []) by (intros ->; cbn in LV; lia).
    change (match o with Or => true | And => false end) with (or_of o) in R.
    destruct (redundant_parts unsat text_length vs cs (or_of o)) as [removed|] eqn:RP; [|discriminate]. cbn [bind] in R. cbv zeta in R.
    destruct (parts_safe unsat text_length SOUND E o vs cs bs F1 removed RP) as [LR CR].
    destruct (bools_truth P w o vs bs F2 NV) as (v & GV & TV).
    assert (TE : test P (BoolOp o vs) w = (w, Ok (connect o bs))) by (unfold test, andthen; unfold gives in GV; rewrite GV; exact TV).
    assert (KZ : Forall2 (fun z b => zeval E z = Some (ZB b)) (kept cs removed) (kept bs removed)) by (apply kept_two; exact F1).
    assert (JC : kept vs removed <> [] -> zeval E (joined_condition (or_of o) (kept cs removed)) = Some (ZB (connect o bs))).
    { intro NE. assert (LK : length (kept vs removed) = length (kept cs removed)).
      { apply kept_length. assert (length vs = length bs) by (clear -F2; induction F2; cbn; congruence). assert (length cs = length bs) by (clear -F1; induction F1; cbn; congruence). congruence. }
      rewrite <- CR. unfold joined_condition. destruct KZ as [|z b zs bs' Z KZ]; [destruct (kept vs removed); [congruence|discriminate LK]|].
      destruct KZ as [|z' b' zs bs' Z' KZ].
      - rewrite Z. destruct o; cbn; rewrite ?andb_true_r, ?orb_false_r; reflexivity.
      - destruct o; cbn [or_of zeval connect]; apply ztruths_eval; constructor; try assumption; constructor; assumption. }
    destruct (kept vs removed) as [|k0 ks] eqn:KE.
    { injection R as <-. constructor; [|constructor]. cbn [right]. rewrite TE, <- CR.
      assert (KB : kept bs removed = []).
      { assert (KF := kept_two _ _ _ F2 removed). rewrite KE in KF. inversion KF. reflexivity. }
      rewrite KB. destruct o; reflexivity. }
    specialize (JC ltac:(discriminate)).
    destruct (check_always unsat (BoolOp o vs) (joined_condition (or_of o) (kept cs removed))) as [m|] eqn:CK.
    { injection R as <-. constructor; [|constructor]. unfold check_always in CK.
      destruct (unsat (joined_condition (or_of o) (kept cs removed))) eqn:U.
      - injection CK as <-. cbn [right]. rewrite TE. destruct (connect o bs); [exfalso; exact (SOUND _ U E JC)|reflexivity].
      - destruct (unsat (ZNot (joined_condition (or_of o) (kept cs removed)))) eqn:U2; [|discriminate]. injection CK as <-. cbn [right]. rewrite TE.
        destruct (connect o bs) eqn:CB; [reflexivity|]. exfalso. apply (SOUND _ U2 E). cbn [zeval]. rewrite JC. reflexivity. }
    assert (STRICT : strict = true -> Forall unflagged vs) by (intro K; destruct (ST K) as [K1|K1]; [exact (F4 K1)|exact K1]).
    destruct (Nat.eqb (length (k0 :: ks)) (length vs)).
    - (* inside the operands *)
      clear CK JC KZ TE GV TV RP CR LR KE IN CO F1 F2 F3 F4 AE AV. revert ms R. clear NV LV DV WH F ST.
      induction IHvs as [|x vs Ix IHvs IH]; intros ms R; [injection R as <-; constructor|].
      inversion FV as [|? ? Fx FV']; subst. inversion WV as [|? ? Wx WV']; subst. inversion DV' as [|? ? Dx DV'']; subst.
      destruct (redundant_operands unsat text_length H G true x) as [m1|] eqn:R1; [|discriminate]. cbn [bind] in R.
      match goal with R : bind ?t _ = _ |- _ => destruct t as [m2|] eqn:R2; [|discriminate] end. cbn [bind] in R. injection R as <-. apply Forall_app. split.
      + apply (Ix true strict m1 Fx Wx Dx); [|exact R1]. intro K. right. specialize (STRICT K). inversion STRICT; subst. destruct x; try exact I. eapply unflagged_operands. eassumption.
      + apply IH; [exact FV'|exact WV'|exact DV''| |reflexivity]. intro K. specialize (STRICT K). inversion STRICT; assumption.
    - match type of R with Ok ?l = _ => assert (M : ms = l) by congruence end. subst ms. clear R. constructor; [|constructor]. set (es := k0 :: ks) in *.
      assert (NE : es <> []) by discriminate. assert (FE : Forall (fun e => fine e = true) es) by (rewrite <- KE; apply kept_forall; exact FV).
      clearbody es. unfold right. destruct (suggestion_reads o es FE NE) as (e' & RD & VE). exists e'. split; [exact RD|].
      assert (K2 : Forall2 (fun e b => exists v, gives P w e v /\ truth P v w = (w, Ok b)) es (kept bs removed)) by (rewrite <- KE; apply kept_two; exact F2).
      destruct (bools_truth P w o es _ K2 NE) as (u & GU & TU). rewrite CR in TU. split.
      + rewrite TE. unfold test, andthen. rewrite (VE W P w). unfold gives in GU. rewrite GU, TU. reflexivity.
      + intro K. destruct strict; [|discriminate]. specialize (STRICT eq_refl).
        assert (B1 : Forall2 (fun e b => gives P w e (VBool b)) vs bs) by (apply F3; right; exact STRICT).
        assert (B2 : Forall2 (fun e b => gives P w e (VBool b)) es (kept bs removed)) by (rewrite <- KE; apply kept_two; exact B1).
        rewrite (VE W P w). assert (V1 := bools_values P w o vs bs B1 NV). assert (V2 := bools_values P w o es _ B2 NE). rewrite CR in V2. unfold gives in *. congruence.
  Qed.

  Theorem boolop_right I boolop_parent bp e ms : fine e = true -> whole P w e -> int_divisions P w e ->
    check_boolop unsat text_length I H G boolop_parent bp e = Ok ms -> Forall (right P w bp) ms.
  Proof.
    intros F WH DV C. unfold check_boolop in C. destruct e; try (injection C as <-; constructor).
    match goal with C : (if ?t then _ else _) = _ |- _ => destruct t; [|injection C as <-; constructor] end.
    rewrite <- (negb_involutive bp). eapply redundant_right; [exact F|exact WH|exact DV| |exact C]. intro K. left. destruct bp; [discriminate|reflexivity].
  Qed.
  Theorem compare_right I boolop_parent e m : fine e = true -> whole P w e -> int_divisions P w e ->
    check_compare unsat I H G boolop_parent e = Ok (Some m) -> right P w true m.
  Proof.
    intros F WH DV C. unfold check_compare in C. destruct e as [| | | | |a ops| | | | |]; try discriminate.
    destruct (boolop_parent || negb (is_pure_expression I (Compare a ops))); [discriminate|].
    destruct (initialize H G true false true (Compare a ops) []) as [[[] d1]|] eqn:IN; try discriminate. cbn [bind fst snd negb] in C.
    destruct (convert H d1 true (Compare a ops)) as [[[z|] c]|] eqn:CV; try discriminate. cbn [bind fst] in C.
    destruct (assigned P w (numbers (Compare a ops)) (fine_numbers _ F) WH) as (E & AE). destruct (fine_split _ F) as [WF _].
    destruct (means_cond P w E _ _ _ (translated H G true CH P w AG ABS E _ _ _ _ _ _ _ _ IN CV WF WH DV AE)) as (b & v & GV & TV & ZV & _).
    assert (TE : test P (Compare a ops) w = (w, Ok b)) by (unfold test, andthen; unfold gives in GV; rewrite GV; exact TV).
    assert (C' : check_always unsat (Compare a ops) z = Some m) by congruence. clear C. unfold check_always in C'. destruct (unsat z) eqn:U.
    - injection C' as <-. cbn [right]. rewrite TE. destruct b; [exfalso; exact (SOUND _ U E ZV)|reflexivity].
    - destruct (unsat (ZNot z)) eqn:U2; [|discriminate]. injection C' as <-. cbn [right]. rewrite TE. destruct b; [reflexivity|].
      exfalso. apply (SOUND _ U2 E). cbn [zeval]. rewrite ZV. reflexivity.
  Qed.
  (** The translation means what the condition means. *)
  Theorem translation_right e d z c : fine e = true -> whole P w e -> int_divisions P w e ->
    initialize H G true false true e [] = Ok (true, d) -> convert H d true e = Ok (Some z, c) ->
    (exists E, assigns E P w (numbers e)) /\ forall E, assigns E P w (numbers e) -> exists b, zeval E z = Some (ZB b) /\ test P e w = (w, Ok b).
  Proof.
    intros F WH DV IN CV. split; [exact (assigned P w (numbers e) (fine_numbers _ F) WH)|]. intros E AE. destruct (fine_split _ F) as [WF _].
    destruct (means_cond P w E _ _ _ (translated H G true CH P w AG ABS E _ _ _ _ _ _ _ _ IN CV WF WH DV AE)) as (b & v & GV & TV & ZV & _).
    exists b. split; [exact ZV|]. unfold test, andthen. unfold gives in GV. rewrite GV. exact TV.
  Qed.
End Messages.
