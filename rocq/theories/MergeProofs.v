(** Proofs about the messages that merge comparisons with max and min. *)
From Coq Require Import String Ascii List Bool Arith NArith ZArith Lia.
From Verif Require Import Base PyModel PySpec PyProofs IfModel IfSpec IfProofs FoldModel FoldSpec FoldProofs LocalModel LocalSpec TextProofs LocalProofs LetterProofs RangeProofs MergeModel MergeSpec.
Import ListNotations.
Local Open Scope string_scope.
Local Open Scope list_scope.

Lemma length2 {A B} (R : A -> B -> Prop) a b : Forall2 R a b -> length a = length b.
Proof. induction 1; cbn [length]; congruence. Qed.

Lemma Forall2_weaken {A B} (R S : A -> B -> Prop) a b : (forall x y, R x y -> S x y) -> Forall2 R a b -> Forall2 S a b.
Proof. intros I. induction 1; constructor; auto. Qed.
Lemma forallb_map {A} (f : A -> bool) l : forallb (fun b => b) (map f l) = forallb f l.
Proof. induction l as [|x l IH]; [reflexivity|]. cbn [map forallb]. rewrite IH. reflexivity. Qed.
Lemma existsb_map {A} (f : A -> bool) l : existsb (fun b => b) (map f l) = existsb f l.
Proof. induction l as [|x l IH]; [reflexivity|]. cbn [map existsb]. rewrite IH. reflexivity. Qed.

(** ** Dictionaries *)
Definition all_entries (R : text -> cmpop -> text -> bool -> Prop) (d : comparisons) : Prop :=
  forall e1 g c ts bs, List.In (e1, g) d -> List.In (c, (ts, bs)) g -> Forall2 (R e1 c) ts bs.
Lemma inner_kept (R : text -> bool -> cmpop -> Prop) g c e2 sw : (forall c' ts bs, List.In (c', (ts, bs)) g -> Forall2 (fun t b => R t b c') ts bs) -> R e2 sw c ->
  forall c' ts bs, List.In (c', (ts, bs)) (update_inner g c e2 sw) -> Forall2 (fun t b => R t b c') ts bs.
Proof.
  intros A N. induction g as [|[k [ks kb]] g IH]; cbn [update_inner].
  - intros c' ts bs [E|[]]. injection E as <- <- <-. constructor; [exact N|constructor].
  - destruct (cmpop_eqb k c) eqn:K.
    + apply cmpop_eqb_eq in K. subst k. intros c' ts bs [E|I]; [|apply A; right; exact I]. injection E as <- <- <-.
      apply Forall2_app; [apply A; left; reflexivity|]. constructor; [exact N|constructor].
    + intros c' ts bs [E|I]; [apply A; left; exact E|]. apply IH; [|exact I]. intros. apply A. right. assumption.
Qed.
Lemma update_kept R d e1 c e2 sw : all_entries R d -> R e1 c e2 sw -> all_entries R (update_comparisons d e1 c e2 sw).
Proof.
  intros A N. induction d as [|[k g] d IH]; cbn [update_comparisons].
  - intros x g c' ts bs [E|[]] I. injection E as <- <-. destruct I as [E|[]]. injection E as <- <- <-. constructor; [exact N|constructor].
  - destruct (text_eqb k e1) eqn:K.
    + apply text_eqb_eq in K. subst k. intros x g' c' ts bs [E|I] J; [|eapply A; [right; exact I|exact J]]. injection E as <- <-.
      eapply (inner_kept (fun t b c => R e1 c t b)); [|exact N|exact J]. intros. eapply A; [left; reflexivity|eassumption].
    + intros x g' c' ts bs [E|I] J; [eapply A; [left; exact E|exact J]|]. eapply IH; [|exact I|exact J]. intros ? ? ? ? ? I' J'. eapply A; [right; exact I'|exact J'].
Qed.
Definition chosen_ok (R N : text -> cmpop -> text -> bool -> Prop) (ch : chosen) : Prop :=
  Forall2 (R (ch_expr ch) (ch_cmp ch)) (ch_others ch) (ch_switched ch) /\ 2 <= length (ch_others ch) /\
  forall t s, ch_number ch = Some (t, s) -> N (ch_expr ch) (ch_cmp ch) t s.
Lemma single_kept N numbers e1 c t s : all_entries N numbers -> single_number numbers e1 c = Some (t, s) -> N e1 c t s.
Proof.
  intros A. unfold single_number. destruct (find _ numbers) as [[k g]|] eqn:F; [|discriminate]. apply find_some in F. destruct F as [I K]. cbn [fst] in K. apply text_eqb_eq in K. subst k.
  destruct g as [|[c' [[|t' [|]] [|s' [|]]]] [|]]; try discriminate. destruct (cmpop_eqb c' c) eqn:K; [|discriminate]. apply cmpop_eqb_eq in K. subst c'. intro E. injection E as -> ->.
  specialize (A _ _ _ _ _ I (or_introl eq_refl)). inversion A; subst; assumption.
Qed.
Lemma choose_kept R N numbers d ch : all_entries R d -> all_entries N numbers -> choose numbers d = Some ch -> chosen_ok R N ch.
Proof.
  intros A B. unfold choose.
  assert (G : forall d best, all_entries R d -> (forall ch, best = Some ch -> chosen_ok R N ch) -> forall ch, fold_left (fun best p => fold_left (fun best q => choose_one numbers best (fst p) (fst q) (snd q)) (snd p) best) d best = Some ch -> chosen_ok R N ch).
  { clear -B. induction d as [|[k g] d IH]; intros best A OK ch E; [exact (OK _ E)|]. cbn [fold_left fst snd] in E. refine (IH _ _ _ ch E).
    - intros ? ? ? ? ? I J. eapply A; [right; exact I|exact J].
    - clear E IH ch. assert (AG : forall c ts bs, List.In (c, (ts, bs)) g -> Forall2 (R k c) ts bs) by (intros; eapply A; [left; reflexivity|eassumption]). clear A.
      revert best OK. induction g as [|[c [ts bs]] g IH]; intros best OK ch E; [exact (OK _ E)|]. cbn [fold_left fst snd] in E. refine (IH _ _ _ ch E).
      + intros. apply AG. right. assumption.
      + clear E ch. intros ch. unfold choose_one. cbn [fst snd]. destruct (Nat.ltb_spec (length ts) 2) as [L|L]; [apply OK|].
        assert (NEW : chosen_ok R N {| ch_expr := k; ch_cmp := c; ch_others := ts; ch_switched := bs; ch_number := single_number numbers k c |}).
        { split; [apply AG; left; reflexivity|]. split; [exact L|]. cbn. intros t s E. eapply single_kept; eassumption. }
        destruct best as [b|]; [|intro E; injection E as <-; exact NEW]. destruct (Nat.ltb _ _); [intro E; injection E as <-; exact NEW|apply OK]. }
  apply G; [exact A|discriminate].
Qed.

(** ** Texts of calls *)
Lemma good_args ts es : Forall2 (fun t e => exists q, good t e q) ts es -> ts <> [] -> forall rest, Ar (sep_by [TComma] ts ++ TRP :: rest) es (TRP :: rest).
Proof.
  induction 1 as [|t e ts es (q & G) F IH]; [congruence|]. intros _ rest. pose proof (g_range _ _ _ G) as R. destruct F as [|t' e' ts es G' F].
  - cbn [sep_by]. apply ar_one; [|exact I]. eapply good_at; [exact G|lia|lia|cbn; lia].
  - specialize (IH ltac:(discriminate) rest).
    change (sep_by [TComma] (t :: t' :: ts)) with (t ++ [TComma] ++ sep_by [TComma] (t' :: ts)). rewrite <- !app_assoc. cbn [List.app].
    eapply ar_more; [|exact IH]. eapply good_at; [exact G|lia|lia|cbn; lia].
Qed.
Lemma good_call tf f ts es : good tf f 15 -> Forall2 (fun t e => exists q, good t e q) ts es -> ts <> [] ->
  good (tf ++ TLP :: sep_by [TComma] ts ++ [TRP]) (Call f es) 15.
Proof.
  intros GF GA NE. split; try lia.
  - intro K. apply app_eq_nil in K. exact (g_ne _ _ _ GF (proj1 K)).
  - intros _. rewrite starts_app by exact (g_ne _ _ _ GF). apply (g_not _ _ _ GF). lia.
  - intros _. rewrite starts_app by exact (g_ne _ _ _ GF). apply (g_prefix _ _ _ GF). lia.
  - intros rest e'' r' TR. rewrite <- app_assoc. eapply good_tr; [exact GF|]. cbn [List.app]. rewrite <- app_assoc. cbn [List.app].
    eapply tr_call; [|exact TR]. apply good_args; assumption.
Qed.
Lemma sep_concat tss : Forall (fun ts => ts <> []) tss -> sep_by [TComma] (map (sep_by [TComma]) tss) = sep_by [TComma] (concat tss).
Proof.
  assert (APP : forall a b, a <> [] -> b <> [] -> sep_by [TComma] (a ++ b) = sep_by [TComma] a ++ [TComma] ++ sep_by [TComma] b).
  { induction a as [|t a IH]; [congruence|]. intros b _ NB. destruct a as [|u a].
    - destruct b; [congruence|]. reflexivity.
    - specialize (IH b ltac:(discriminate) NB). change (sep_by [TComma] ((t :: u :: a) ++ b)) with (t ++ [TComma] ++ sep_by [TComma] ((u :: a) ++ b)). rewrite IH.
      change (sep_by [TComma] (t :: u :: a)) with (t ++ [TComma] ++ sep_by [TComma] (u :: a)). rewrite <- !app_assoc. reflexivity. }
  induction 1 as [|ts tss NE F IH]; [reflexivity|]. cbn [map concat]. destruct F as [|us tss NU F].
  - cbn. rewrite app_nil_r. reflexivity.
  - rewrite APP; [|exact NE|cbn [concat]; intro K; apply app_eq_nil in K; destruct K; contradiction].
    rewrite <- IH. reflexivity.
Qed.
Lemma stripped_call f args : stripped (as_string (Call (Name f) args)) = sep_by [TComma] (map as_string args).
Proof.
  change (as_string (Call (Name f) args)) with (TName f :: TLP :: sep_by [TComma] (map as_string args) ++ [TRP]). unfold stripped.
  rewrite rev_app_distr. cbn [rev List.app chop_token]. rewrite rev_involutive, app_nil_r. reflexivity.
Qed.
Lemma starts_inv f t : starts_with f t = true -> exists rest, t = TName f :: TLP :: rest.
Proof.
  destruct t as [|a t]; [discriminate|]. destruct a; try discriminate. destruct t as [|b t]; [discriminate|]. destruct b; try discriminate. cbn [starts_with].
  intro E. apply String.eqb_eq in E. subst. eauto.
Qed.

Section Merge.
  Context {W : Type}.
  Variable P : python W.
  Variable w : W.

  Lemma quote_reads o ts gs : Forall2 (fun t g => exists e, operand_of o t e /\ agree P w e g) ts gs -> 2 <= length gs ->
    exists es, reads (sep_by [bool_token o] ts) (BoolOp o es) /\ Forall2 (agree P w) es gs.
  Proof.
    intros F L. assert (X : exists l : list (text * expr), map fst l = ts /\ Forall (fun p => operand_of o (fst p) (snd p)) l /\ Forall2 (agree P w) (map snd l) gs).
    { clear L. induction F as [|t g ts gs (e & O & A) F (l & M & FO & FA)]; [exists []; repeat constructor|]. exists ((t, e) :: l). cbn [map fst snd]. rewrite M. repeat constructor; assumption. }
    destruct X as (l & <- & FO & FA). destruct l as [|[t e] [|p l]]; [inversion FA; subst; cbn in L; lia|inversion FA as [|x y l l' X1 X2 X3]; subst; inversion X2; subst; cbn in L; lia|].
    inversion FO as [|x y O1 O2]; subst. exists (e :: map snd (p :: l)). split; [|exact FA]. cbn [map fst snd]. eapply reads_good, (good_bools o t e (p :: l)); [exact O1|exact O2|discriminate].
  Qed.
  Lemma side_of_det t z z' : side_of P w t z -> side_of P w t z' -> z = z'.
  Proof.
    intros (e & q & G & _ & I) (e' & q' & G' & _ & I'). assert (e = e') by (eapply reads_det; eapply reads_good; eassumption). subst. eapply is_int_det; eassumption.
  Qed.
  Lemma sequence_gives es vs : Forall2 (gives P w) es vs -> sequence (map (eval P) es) w = (w, Ok vs).
  Proof.
    induction 1 as [|e v es vs G F IH]; [reflexivity|]. cbn [map sequence]. unfold andthen. unfold gives in G. rewrite G, IH. reflexivity.
  Qed.
  Lemma call_value f best es zs : has_function P w f best -> Forall2 (is_int P w) es zs -> 2 <= length zs -> exists m, is_int P w (Call (Name f) es) m /\ best m zs.
  Proof.
    intros (r & L & C) F N. assert (X : exists vs, Forall2 (gives P w) es vs /\ map as_int vs = map Some zs).
    { clear -F. induction F as [|e z es zs (v & G & A) F (vs & FV & M)]; [exists []; split; constructor|]. exists (v :: vs). split; [constructor; assumption|]. cbn [map]. rewrite A, M. reflexivity. }
    destruct X as (vs & FV & M). destruct (C vs zs M N) as (v & m & CV & A & B). exists m. split; [|exact B]. exists v. split; [|exact A].
    unfold gives. rewrite eval_call. unfold andthen. cbn [eval]. rewrite L, (sequence_gives es vs FV). exact CV.
  Qed.

  (** ** Arguments of max and min *)
  Definition args_text (best : Z -> list Z -> Prop) (t : text) (z : Z) : Prop :=
    exists ts es zs, t = sep_by [TComma] ts /\ ts <> [] /\ Forall2 (fun t e => exists q, good t e q) ts es /\ Forall2 (is_int P w) es zs /\ best z zs.
  Lemma side_args (best : Z -> list Z -> Prop) t z : (forall z, best z [z]) -> side_of P w t z -> args_text best t z.
  Proof. intros B (e & q & G & _ & I). exists [t], [e], [z]. split; [reflexivity|]. split; [discriminate|]. split; [repeat constructor; eauto|]. split; [repeat constructor; assumption|apply B]. Qed.
  Lemma fine_args f args : fine (Call f args) = true -> Forall (fun a => fine a = true) args.
  Proof.
    intro F. destruct (fine_split _ F) as [A B]. cbn [well_formed no_nested_compare] in A, B. apply andb_true_iff in A, B. destruct A as [_ A], B as [_ B].
    rewrite forallb_forall in A, B. apply Forall_forall. intros a I. unfold fine. rewrite (A a I), (B a I). reflexivity.
  Qed.
  Lemma operand_args f best e z : f = "max" \/ f = "min" -> has_function P w f best -> (forall z, best z [z]) -> fine e = true -> int_operand P w e -> is_int P w e z ->
    args_text best (if starts_with f (as_string e) then stripped (as_string e) else as_string e) z.
  Proof.
    intros FN HF B F (T & _ & WC) I. destruct (starts_with f (as_string e)) eqn:SW.
    - apply starts_inv in SW. destruct SW as (rest & E). destruct (WC f rest FN E) as (args & -> & L & FI). rewrite stripped_call.
      pose proof (fine_args _ _ F) as FA. exists (map as_string args), (map norm args).
      assert (X : exists zs, Forall2 (is_int P w) args zs).
      { clear -FI. induction FI as [|a args (z & I) FI (zs & F)]; [exists []; constructor|]. exists (z :: zs). constructor; assumption. }
      destruct X as (zs & FZ). exists zs. split; [reflexivity|]. split; [destruct args; [cbn in L; lia|discriminate]|].
      split; [|split].
      + clear -FA. induction FA as [|a args F FA IH]; cbn [map]; constructor; [|exact IH]. exists (prec a). apply round, (fine_split a F).
      + clear -FZ FA. induction FZ as [|a z args zs I FZ IH]; cbn [map]; [constructor|]. inversion FA; subst. constructor; [|apply IH; assumption]. apply norm_int; assumption.
      + assert (LZ : 2 <= length zs) by (rewrite <- (length2 _ _ _ FZ); exact L).
        destruct (call_value f best args zs HF FZ LZ) as (m & IM & BM). rewrite (is_int_det P w _ _ _ I IM). exact BM.
    - apply side_args; [exact B|]. apply expr_side; assumption.
  Qed.
  (** The best of the best of groups is the best of all. *)
  Definition selects (best : Z -> list Z -> Prop) : Prop := (forall z, best z [z]) /\
    forall zss zs m, Forall2 best zs zss -> best m (concat zss) -> best m zs.
  Lemma greatest_selects : selects greatest.
  Proof.
    split; [intro z; split; [left; reflexivity|]; intros x [->|[]]; lia|]. intros zss zs m F (I & U).
    assert (X : forall z, List.In z zs -> (z <= m)%Z).
    { intros z J. apply U. clear U I. induction F as [|z' l zs zss (B & _) F IH]; [destruct J|]. cbn [concat]. apply in_or_app. destruct J as [->|J]; [left; exact B|right; apply IH; exact J]. }
    split; [|exact X]. clear U. induction F as [|z' l zs zss (B & U) F IH]; [destruct I|]. cbn [concat] in I. apply in_app_or in I. destruct I as [I|I].
    - left. specialize (U m I). specialize (X z' (or_introl eq_refl)). lia.
    - right. apply IH; [exact I|]. intros z J. apply X. right. exact J.
  Qed.
  Lemma least_selects : selects least.
  Proof.
    split; [intro z; split; [left; reflexivity|]; intros x [->|[]]; lia|]. intros zss zs m F (I & U).
    assert (X : forall z, List.In z zs -> (m <= z)%Z).
    { intros z J. apply U. clear U I. induction F as [|z' l zs zss (B & _) F IH]; [destruct J|]. cbn [concat]. apply in_or_app. destruct J as [->|J]; [left; exact B|right; apply IH; exact J]. }
    split; [|exact X]. clear U. induction F as [|z' l zs zss (B & U) F IH]; [destruct I|]. cbn [concat] in I. apply in_app_or in I. destruct I as [I|I].
    - left. specialize (U m I). specialize (X z' (or_introl eq_refl)). lia.
    - right. apply IH; [exact I|]. intros z J. apply X. right. exact J.
  Qed.
  Lemma call_side f best ts zs : has_function P w f best -> selects best -> Forall2 (args_text best) ts zs -> 2 <= length zs ->
    exists m, side_of P w ([TName f; TLP] ++ sep_by [TComma] ts ++ [TRP]) m /\ best m zs.
  Proof.
    intros HF (B1 & B2) F L.
    assert (X : exists tss es zss, ts = map (sep_by [TComma]) tss /\ Forall (fun l => l <> []) tss /\ Forall2 (fun t e => exists q, good t e q) (concat tss) es /\
      Forall2 (is_int P w) es (concat zss) /\ Forall2 best zs zss /\ length ts <= length (concat tss)).
    { clear -F. induction F as [|t z ts zs (us & es & xs & -> & NE & FG & FI & BB) F (tss & es' & zss & -> & FN & FG' & FI' & FB & LL)].
      - exists [], [], []. repeat split; constructor.
      - exists (us :: tss), (es ++ es'), (xs :: zss). cbn [map concat]. split; [reflexivity|]. split; [constructor; assumption|]. split; [apply Forall2_app; assumption|].
        split; [apply Forall2_app; assumption|]. split; [constructor; assumption|]. rewrite app_length. cbn [length] in *. destruct us; [congruence|]. cbn [length]. lia. }
    destruct X as (tss & es & zss & E & FN & FG & FI & FB & LL). pose proof (length2 _ _ _ F) as FL. pose proof (length2 _ _ _ FG) as L1. pose proof (length2 _ _ _ FI) as L2.
    destruct (call_value f best es (concat zss) HF FI ltac:(lia)) as (m & IM & BM). exists m. split; [|apply (B2 zss); assumption].
    exists (Call (Name f) es), 15. split; [|split; [lia|exact IM]]. rewrite E, sep_concat by exact FN.
    apply (good_call [TName f] (Name f)); [apply good_name|exact FG|]. intro K. rewrite K in LL. cbn in LL. lia.
  Qed.

  (** ** Groups *)
  Definition ordered (c : cmpop) : Prop := c = Lt \/ c = Le \/ c = Gt \/ c = Ge.
  Definition truth_of (c : cmpop) (x y : Z) : bool := match decided_by c x y with Some b => b | None => false end.
  Lemma truth_decided c x y : ordered c -> decided_by c x y = Some (truth_of c x y).
  Proof. intros [->|[->|[->| ->]]]; reflexivity. Qed.
  Lemma switched_truth c d x y : switched c = Some d -> ordered c /\ ordered d /\ truth_of d y x = truth_of c x y.
  Proof.
    unfold ordered, truth_of, decided_by. destruct c; try discriminate; cbn [switched]; intro E; injection E as <-; (split; [auto|]; split; [auto|]); cbn [decide];
    destruct (Z.ltb_spec y x), (Z.ltb_spec x y), (Z.eqb_spec y x), (Z.eqb_spec x y); try reflexivity; lia.
  Qed.
  Definition piece_of (vs : list expr) (o : boolop) (e1 : text) (c : cmpop) (e2 : text) (sw : bool) (z : Z) : Prop :=
    exists x g q, ordered c /\ side_of P w e1 x /\ side_of P w e2 z /\ List.In g vs /\ gives P w g (VBool (truth_of c x z)) /\
      switch_if_necessary e1 c e2 sw = Ok q /\ exists e, operand_of o q e /\ agree P w e g.
  (** An entry of a dictionary: a comparison of [x] with [y] among the operands. *)
  Definition entry (N : expr -> text -> Prop) (vs : list expr) (e1 : text) (c : cmpop) (e2 : text) (sw : bool) : Prop :=
    exists x y, e1 = as_string x /\ N y e2 /\
      if sw then exists d, switched c = Some d /\ List.In (Compare y [(d, x)]) vs
      else ordered c /\ List.In (Compare x [(c, y)]) vs.
  Lemma fine_compare a c b : fine (Compare a [(c, b)]) = true -> fine a = true /\ fine b = true.
  Proof.
    intro F. destruct (fine_split _ F) as [A B]. cbn [well_formed no_nested_compare length Nat.leb forallb snd] in A, B. rewrite !andb_true_r in *. apply andb_true_iff in A, B. destruct A as [A1 A2], B as [B0 B3].
    apply andb_true_iff in B0. destruct B0 as [_ B2]. unfold fine. rewrite A2, B2, B3. cbn in A1. rewrite A1. auto.
  Qed.
  Lemma entry_piece N o vs e1 c e2 sw : Forall (fun v => fine v = true) vs -> int_comparisons P w vs -> entry N vs e1 c e2 sw ->
    (forall y z, fine y = true -> int_operand P w y -> is_int P w y z -> N y e2 -> side_of P w e2 z) ->
    exists y z, N y e2 /\ fine y = true /\ int_operand P w y /\ is_int P w y z /\ piece_of vs o e1 c e2 sw z.
  Proof.
    intros FV IC (x & y & -> & N2 & E) SIDE. rewrite Forall_forall in FV.
    assert (X : exists d, ordered d /\ (if sw then switched c = Some d else d = c) /\ List.In (if sw then Compare y [(d, x)] else Compare x [(d, y)]) vs).
    { destruct sw; [destruct E as (d & S & I)|destruct E as (O & I)]; [exists d|exists c]; auto. destruct (switched_truth c d 0 0 S) as (_ & O & _). auto. }
    clear E. destruct X as (d & OD & DC & I).
    assert (FI : fine x = true /\ fine y = true /\ int_operand P w x /\ int_operand P w y).
    { pose proof (FV _ I) as F. destruct sw; pose proof (IC _ _ _ I OD) as [I1 I2]; apply fine_compare in F; destruct F; auto. }
    destruct FI as (FX & FY & OX & OY). pose proof OX as (TX & (zx & IX) & _). pose proof OY as (TY & (zy & IY) & _).
    pose proof (expr_side P w x zx FX TX IX) as SX. pose proof (SIDE y zy FY OY IY N2) as SY. pose proof (expr_side P w y zy FY TY IY) as SY'.
    exists y, zy. split; [exact N2|]. split; [exact FY|]. split; [exact OY|]. split; [exact IY|].
    assert (OC : ordered c) by (destruct sw; [apply (switched_truth c d 0 0 DC)|subst; exact OD]).
    assert (TR : truth_of c zx zy = if sw then truth_of d zy zx else truth_of d zx zy) by (destruct sw; [symmetry; apply (switched_truth c d zx zy DC)|subst; reflexivity]).
    assert (GV : forall a b i j, is_int P w a i -> is_int P w b j -> gives P w (Compare a [(d, b)]) (VBool (truth_of d i j))).
    { intros a b i j (v & V & A) (u & U & B). unfold gives. rewrite (eval_compare1 P w d a b v u V U). eapply ints_compare; [exact A|exact B|]. apply truth_decided. exact OD. }
    exists zx, (if sw then Compare y [(d, x)] else Compare x [(d, y)]), (if sw then e2 ++ cmp_tokens d ++ as_string x else as_string x ++ cmp_tokens d ++ e2).
    split; [exact OC|]. split; [exact SX|]. split; [exact SY|]. split; [exact I|].
    assert (GG : gives P w (if sw then Compare y [(d, x)] else Compare x [(d, y)]) (VBool (truth_of c zx zy))) by (rewrite TR; destruct sw; apply GV; assumption).
    split; [exact GG|]. split.
    - unfold switch_if_necessary. destruct sw; [|subst; reflexivity]. unfold switch. rewrite DC. reflexivity.
    - assert (PT : part P w (if sw then e2 ++ cmp_tokens d ++ as_string x else as_string x ++ cmp_tokens d ++ e2) (truth_of c zx zy)).
      { rewrite TR. destruct sw; (eapply compare_part; [eassumption|eassumption|apply truth_decided; exact OD]). }
      destruct PT as (a & ops & G & V). exists (Compare a ops). split; [eapply compare_operand; [exact G|lia]|]. exists (truth_of c zx zy). split; assumption.
  Qed.

  (** ** Truth *)
  Definition all_of (o : boolop) (l : list bool) : bool := match o with And => forallb (fun b => b) l | Or => existsb (fun b => b) l end.
  Lemma best_truth o c x m zs : ordered c -> (if (match o with And => is_greater c | Or => is_less c end) then greatest m zs else least m zs) ->
    all_of o (map (truth_of c x) zs) = truth_of c x m.
  Proof.
    intros OC B.
    assert (K : forall f, (forall z, List.In z zs -> if (match o with And => true | Or => false end) then implb (f m) (f z) = true else implb (f z) (f m) = true) -> List.In m zs -> all_of o (map f zs) = f m).
    { intros f M I. destruct o; cbn [all_of].
      - destruct (f m) eqn:E.
        + rewrite forallb_map. apply forallb_forall. intros z J. specialize (M z J). cbn in M. destruct (f z); [reflexivity|discriminate].
        + rewrite forallb_map. destruct (forallb f zs) eqn:A; [|reflexivity]. rewrite forallb_forall in A. rewrite (A m I) in E. discriminate.
      - destruct (f m) eqn:E.
        + rewrite existsb_map. apply existsb_exists. exists m. split; [exact I|exact E].
        + rewrite existsb_map. destruct (existsb f zs) eqn:A; [|reflexivity]. apply existsb_exists in A. destruct A as (z & J & A). specialize (M z J). cbn in M. rewrite A in M. discriminate. }
    assert (IM : List.In m zs) by (destruct (match o with And => is_greater c | Or => is_less c end); apply B).
    apply K; [|exact IM]. intros z J.
    assert (Z : if (match o with And => is_greater c | Or => is_less c end) then (z <= m)%Z else (m <= z)%Z) by (destruct (match o with And => is_greater c | Or => is_less c end); apply B; exact J).
    destruct OC as [->|[->|[->| ->]]]; destruct o; cbn [is_greater is_less] in Z; unfold truth_of, decided_by; cbn [decide];
      destruct (Z.ltb_spec x m), (Z.ltb_spec x z), (Z.eqb_spec x m), (Z.eqb_spec x z); try reflexivity; lia.
  Qed.
  (** ** The suggestion *)
  Variable H : host.
  Hypothesis CH : closed_host H.
  Hypothesis AG : agrees P H.
  Definition is_text (y : expr) (t : text) : Prop := t = as_string y.
  Definition number_text (y : expr) (t : text) : Prop := exists v, get_const_value H y = Ok v /\ (match v with VInt _ | VFloat _ => true | _ => false end) = true /\ t = value_text v.
  Lemma entry_incl N vs vs' e1 c e2 sw : incl vs vs' -> entry N vs e1 c e2 sw -> entry N vs' e1 c e2 sw.
  Proof. intros I (x & y & A & B & E). exists x, y. split; [exact A|]. split; [exact B|]. destruct sw; [destruct E as (d & D & J); exists d; auto|destruct E; auto]. Qed.
  Lemma cmpop_eqb_refl c : cmpop_eqb c c = true.
  Proof. destruct c; reflexivity. Qed.
  Lemma number_inv e b : is_number H e = Ok b -> b = true -> exists v, get_const_value H e = Ok v /\ (match v with VInt _ | VFloat _ => true | _ => false end) = true.
  Proof. unfold is_number. destruct (get_const_value H e) as [v|]; [|discriminate]. cbn [bind]. intros E ->. injection E as E. eauto. Qed.
  Lemma collect_one_kept o s e s' vs : List.In e vs -> collect_one H o s e = Ok s' ->
    all_entries (entry is_text vs) (co_others s) -> all_entries (entry number_text vs) (co_numbers s) ->
    all_entries (entry is_text vs) (co_others s') /\ all_entries (entry number_text vs) (co_numbers s').
  Proof.
    intros I E A B. unfold collect_one in E. destruct (comparator_const_value H e) as [x|] eqn:CC; [|discriminate]. cbn [bind] in E.
    destruct x as [[[a c] v]|].
    - destruct e as [ | | | | |l ops| | | | | ]; try discriminate E. destruct ops as [|[c' r] [|]]; try discriminate E. injection E as <-. cbn [co_others co_numbers]. split; [exact A|].
      apply update_kept; [exact B|]. unfold comparator_const_value in CC.
      destruct (is_number H l) as [bl|] eqn:NL; [|discriminate]. cbn [bind] in CC. destruct (is_number H r) as [br|] eqn:NR; [|discriminate]. cbn [bind] in CC.
      destruct (switched c') as [d|] eqn:SW; [|discriminate]. destruct bl, br; try discriminate CC; cbn [andb orb negb] in CC.
      + destruct (number_inv l true NL eq_refl) as (v' & G & NV). rewrite G in CC. cbn [bind] in CC. injection CC as <- <- <-.
        assert (NE : cmpop_eqb c' d = false) by (destruct c'; try discriminate SW; injection SW as <-; reflexivity). rewrite NE. cbn [negb].
        exists r, l. split; [reflexivity|]. split; [exists v'; auto|]. exists c'. split; [|exact I]. destruct c'; try discriminate SW; injection SW as <-; reflexivity.
      + destruct (number_inv r true NR eq_refl) as (v' & G & NV). rewrite G in CC. cbn [bind] in CC. injection CC as <- <- <-. rewrite cmpop_eqb_refl. cbn [negb].
        exists l, r. split; [reflexivity|]. split; [exists v'; auto|]. split; [|exact I]. unfold ordered. destruct c'; try discriminate SW; auto.
    - destruct (between_others H e) as [y|] eqn:BO; [|destruct e; discriminate E]. destruct y as [[[a c] b]|].
      + assert (E' : (do d <- switch c; Ok {| co_numbers := co_numbers s; co_others := update_comparisons (update_comparisons (co_others s) (as_string a) c (as_string b) false) (as_string b) d (as_string a) true; co_pairs := co_pairs s |}) = Ok s') by (destruct e; exact E).
        clear E. unfold switch in E'. destruct (switched c) as [d|] eqn:SW; [|discriminate]. cbn [bind] in E'. injection E' as <-. cbn [co_others co_numbers]. split; [|exact B].
        assert (EQ : e = Compare a [(c, b)]).
        { unfold between_others in BO. destruct e as [ | | | | |l ops| | | | | ]; try discriminate BO. destruct ops as [|[c' r] [|]]; try discriminate BO. destruct (switched c'); [|discriminate].
          destruct (is_number H l) as [[|]|]; try discriminate. cbn [bind] in BO. destruct (is_number H r) as [[|]|]; try discriminate. cbn [bind] in BO. injection BO as <- <- <-. reflexivity. }
        subst e. apply update_kept; [apply update_kept; [exact A|]|].
        * exists a, b. split; [reflexivity|]. split; [reflexivity|]. split; [|exact I]. unfold ordered. destruct c; try discriminate SW; auto.
        * exists b, a. split; [reflexivity|]. split; [reflexivity|]. exists c. split; [|exact I]. destruct c; try discriminate SW; injection SW as <-; reflexivity.
      + assert (E' : exists s0, Ok s' = Ok s0 /\ co_others s0 = co_others s /\ co_numbers s0 = co_numbers s).
        { assert (E' : match o, two_equalities e with
            | Or, Some (x, y) => do m <- remainder_comparisons H x y; Ok (match m with Some m => {| co_numbers := co_numbers s; co_others := co_others s; co_pairs := insert (co_pairs s) m (as_string e) |} | None => s end)
            | _, _ => Ok s end = Ok s') by (destruct e; exact E).
          destruct o; [injection E' as <-; eauto|]. destruct (two_equalities e) as [[x y]|]; [|injection E' as <-; eauto].
          destruct (remainder_comparisons H x y) as [m|]; [|discriminate]. cbn [bind] in E'. destruct m; injection E' as <-; eauto. }
        destruct E' as (s0 & E0 & E1 & E2). injection E0 as <-. rewrite E1, E2. auto.
  Qed.
  Lemma collect_kept I o s l s' vs : incl l vs -> collect I H o s l = Ok (Some s') ->
    all_entries (entry is_text vs) (co_others s) -> all_entries (entry number_text vs) (co_numbers s) ->
    all_entries (entry is_text vs) (co_others s') /\ all_entries (entry number_text vs) (co_numbers s').
  Proof.
    revert s. induction l as [|e l IH]; intros s IL E A B; cbn [collect] in E; [injection E as <-; auto|].
    destruct (is_pure_expression I e); [|discriminate]. destruct (collect_one H o s e) as [s1|] eqn:C; [|discriminate]. cbn [bind] in E.
    destruct (collect_one_kept o s e s1 vs (IL e (or_introl eq_refl)) C A B) as [A1 B1]. eapply IH; [|exact E|exact A1|exact B1]. intros x J. apply IL. right. exact J.
  Qed.
  Lemma number_side y z t : number_text y t -> is_int P w y z -> side_of P w t z.
  Proof.
    intros (v & G & NV & ->) (u & U & A). assert (E : eval P y w = (w, Ok v)) by (apply (folded_value H CH y v G); [intros ->; discriminate|exact AG]).
    unfold gives in U. rewrite E in U. injection U as <-. destruct v; try discriminate NV; try discriminate A. injection A as ->. apply int_side.
  Qed.

  Theorem max_min_ok I o vs ms q t : merge_checks I H o vs = Ok (ms, Some (q, t)) -> Forall (fun v => fine v = true) vs -> int_comparisons P w vs -> has_max_min P w ->
    replaces P w o vs q t.
  Proof.
    intros E FV IC (HX & HN). unfold merge_checks in E. destruct (collect I H o _ vs) as [s|] eqn:C; [|discriminate]. cbn [bind] in E. destruct s as [s|]; [|discriminate].
    destruct (collect_kept I o _ vs s vs (fun x => fun i => i) C) as [A B]; [intros ? ? ? ? ? []|intros ? ? ? ? ? []|].
    destruct (max_min (co_numbers s) (co_others s) o) as [m|] eqn:M; [|discriminate]. cbn [bind] in E. injection E as _ ->. unfold max_min in M.
    destruct (choose (co_numbers s) (co_others s)) as [ch|] eqn:CS; [|discriminate]. destruct (choose_kept _ _ _ _ _ A B CS) as (F2 & L2 & NB).
    destruct ch as [e1 c ts bs num]. cbn [ch_expr ch_cmp ch_others ch_switched ch_number] in *.
    set (mx := match o with And => is_greater c | Or => is_less c end) in *. set (fn := if mx then "max" else "min") in *.
    set (best := if mx then greatest else least).
    assert (HF : has_function P w fn best) by (unfold fn, best; destruct mx; assumption).
    assert (SB : selects best) by (unfold best; destruct mx; [apply greatest_selects|apply least_selects]).
    assert (FN : fn = "max" \/ fn = "min") by (unfold fn; destruct mx; auto).
    set (strip := fun t => if starts_with fn t then stripped t else t).
    (* the comparisons with other expressions *)
    assert (X1 : exists zs, Forall2 (fun tb z => piece_of vs o e1 c (fst tb) (snd tb) z /\ args_text best (strip (fst tb)) z) (combine ts bs) zs).
    { clear -F2 FV IC HF SB FN. induction F2 as [|t b ts bs EN F2 (zs & IH)]; [exists []; constructor|].
      destruct (entry_piece is_text o vs e1 c t b FV IC EN) as (y & z & NY & FY & OY & IY & PC).
      - intros y z FY (TY & _) IY ->. apply expr_side; assumption.
      - exists (z :: zs). cbn [combine]. constructor; [|exact IH]. cbn [fst snd]. split; [exact PC|]. unfold is_text in NY. unfold strip. subst t. apply operand_args; try assumption. apply SB. }
    destruct X1 as (zs & FP).
    (* the comparison with a number *)
    set (nums := match num with Some (t, b) => [(t, b)] | None => [] end).
    assert (X2 : exists zs', Forall2 (fun tb z => piece_of vs o e1 c (fst tb) (snd tb) z /\ args_text best (fst tb) z) nums zs').
    { unfold nums. destruct num as [[t' b]|]; [|exists []; constructor]. destruct (entry_piece number_text o vs e1 c t' b FV IC (NB _ _ eq_refl)) as (y & z & NY & FY & OY & IY & PC).
      - intros y z FY OY IY NT. eapply number_side; eassumption.
      - exists [z]. constructor; [|constructor]. cbn [fst snd]. split; [exact PC|]. apply side_args; [apply SB|]. eapply number_side; eassumption. }
    destruct X2 as (zs' & FQ).
    pose proof (length2 _ _ _ F2) as LB.
    assert (LZ : length zs = length ts) by (rewrite <- (length2 _ _ _ FP), combine_length; lia).
    (* the common operand *)
    assert (X3 : exists x, side_of P w e1 x /\ ordered c).
    { destruct zs as [|z zs]; [cbn in LZ; lia|]. inversion FP as [|? ? ? ? (PC & _) _]; subst. destruct PC as (x0 & _ & _ & OC & SX & _). eauto. }
    destruct X3 as (x & SX & OC).
    set (all := combine ts bs ++ nums). set (zz := zs ++ zs').
    assert (FALL : Forall2 (fun tb z => piece_of vs o e1 c (fst tb) (snd tb) z) all zz).
    { apply Forall2_app; [eapply Forall2_weaken; [|exact FP]|eapply Forall2_weaken; [|exact FQ]]; intros a b (K & _); exact K. }
    assert (X4 : exists gs qs, Forall2 (fun tb q => switch_if_necessary e1 c (fst tb) (snd tb) = Ok q) all qs /\ incl gs vs /\
      Forall2 (fun q g => exists e, operand_of o q e /\ agree P w e g) qs gs /\ Forall2 (fun g z => gives P w g (VBool (truth_of c x z))) gs zz).
    { clear -FALL SX. induction FALL as [|tb z all zz (x' & g & q & OC & SX' & SZ & IG & GG & SWQ & OA) FALL (gs & qs & F1 & IN & F3 & F4)].
      - exists [], []. split; [constructor|]. split; [intros ? []|]. split; constructor.
      - rewrite (side_of_det _ _ _ SX' SX) in GG. exists (g :: gs), (q :: qs). split; [constructor; assumption|]. split; [intros k [<-|K]; [exact IG|apply IN; exact K]|]. split; constructor; assumption. }
    destruct X4 as (gs & qs & FQS & IG & FOP & FGV).
    assert (LL : 2 <= length zz) by (unfold zz; rewrite app_length; lia).
    assert (LG : 2 <= length gs) by (rewrite (length2 _ _ _ FGV); exact LL).
    (* the quoted text *)
    assert (QT : original_group e1 c ts bs num o = Ok (sep_by [bool_token o] qs)).
    { unfold all, nums in FQS. apply Forall2_app_inv_l in FQS. destruct FQS as (q1 & q2 & Q1 & Q2 & ->).
      assert (SA : switch_all e1 c ts bs = Ok q1).
      { clear -Q1 LB. revert bs q1 Q1 LB. induction ts as [|t ts IH]; intros bs q1 Q1 LB; destruct bs as [|b bs]; try discriminate LB.
        - inversion Q1; subst. reflexivity.
        - cbn [combine] in Q1. inversion Q1 as [|? ? ? ? S1 S2]; subst. cbn [switch_all]. cbn [fst snd] in S1. rewrite S1. cbn [bind]. rewrite (IH bs _ S2) by (cbn in LB; lia). reflexivity. }
      unfold original_group. rewrite SA. cbn [bind]. destruct num as [[t' b]|].
      - inversion Q2 as [|? ? ? ? S1 S2]; subst. inversion S2; subst. cbn [fst snd] in S1. rewrite S1. reflexivity.
      - inversion Q2; subst. rewrite app_nil_r. reflexivity. }
    rewrite QT in M. cbn [bind] in M.
    destruct (quote_reads o qs gs FOP LG) as (es & RQ & FA).
    (* the suggested text *)
    set (args := map strip ts ++ match num with Some (t, _) => [t] | None => [] end).
    assert (FAR : Forall2 (args_text best) args zz).
    { unfold args, zz. apply Forall2_app.
      - clear -FP LB. revert bs zs FP LB. induction ts as [|t ts IH]; intros bs zs FP LB; destruct bs as [|b bs]; try discriminate LB; cbn [combine] in FP; inversion FP as [|? ? ? ? (_ & S1) S2]; subst; cbn [map]; constructor; [exact S1|]. eapply IH; [exact S2|]. cbn in LB. lia.
      - unfold nums in FQ. destruct num as [[t' b]|]; inversion FQ as [|? ? ? ? (_ & S1) S2]; subst; constructor; [exact S1|]. inversion S2; subst. constructor. }
    destruct (call_side fn best args zz HF SB FAR LL) as (m & SM & BM).
    assert (TRM : all_of o (map (truth_of c x) zz) = truth_of c x m) by (apply best_truth; [exact OC|]; unfold best in BM; fold mx; destruct mx; exact BM).
    assert (GB : gives P w (BoolOp o gs) (VBool (truth_of c x m))).
    { rewrite <- TRM. apply (bools_value P w o gs (map (truth_of c x) zz)); [|intros ->; cbn in LG; lia]. clear -FGV. induction FGV; cbn [map]; constructor; assumption. }
    destruct (put_into fn e1 c ts num bs) as [st|] eqn:PI; [|discriminate]. cbn [bind] in M. injection M as <- <-.
    unfold put_into in PI. fold strip in PI. fold args in PI. destruct bs as [|b0 bs]; [discriminate|].
    set (res := [TName fn; TLP] ++ sep_by [TComma] args ++ [TRP]) in *. clearbody res.
    assert (PT : part P w st (truth_of c x m)).
    { destruct (((forallb (Bool.eqb b0) (b0 :: bs) && match num with Some (_, s0) => Bool.eqb s0 b0 | None => true end) && b0) || _).
      - unfold switch in PI. destruct (switched c) as [d|] eqn:SW; [|discriminate]. cbn [bind] in PI. injection PI as <-.
        destruct (switched_truth c d x m SW) as (_ & OD & TD). rewrite <- TD. eapply compare_part; [exact SM|exact SX|]. apply truth_decided. exact OD.
      - injection PI as <-. eapply compare_part; [exact SX|exact SM|]. apply truth_decided. exact OC. }
    destruct PT as (a & ops & G & V). exists gs, es, (Compare a ops).
    split; [exact IG|]. split; [exact LG|]. split; [exact RQ|]. split; [exact FA|]. split; [eapply reads_good; exact G|]. exists (truth_of c x m). split; assumption.
  Qed.
End Merge.
