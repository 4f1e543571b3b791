(** Proofs about the translation for the solver. *)
From Coq Require Import String Ascii List Bool Arith NArith ZArith QArith Qabs Qround Lia.
From Verif Require Import Base PyModel PySpec PyProofs IfModel IfSpec IfProofs FoldModel FoldSpec FoldProofs TypeModel LocalModel LocalSpec LocalProofs LetterProofs MergeSpec SolverModel SolverSpec.
Import ListNotations.
Local Open Scope string_scope.
Local Open Scope list_scope.
Local Open Scope nat_scope.

(** ** The functions, one step *)
Section Steps.
  Variables (H : host) (G : inspection) (mk : bool).
  Fixpoint init_all (int_op bp : bool) (l : list expr) (d : variables) : res (bool * variables) :=
    match l with
    | [] => Ok (true, d)
    | x :: l => do r <- initialize H G mk int_op bp x d; if fst r then init_all int_op bp l (snd r) else Ok r
    end.
  Lemma init_bool int_op bp o vs d : initialize H G mk int_op bp (BoolOp o vs) d = if bp then init_all int_op true vs d else Ok (false, d).
  Proof.
    destruct bp; [|reflexivity]. cbn [initialize not_allowed negb bind nonlinear orb is_variable is_bool_node]. rewrite andb_false_r.
    revert d. induction vs as [|a vs IH]; intro d; [reflexivity|]. cbn [init_all].
    destruct (initialize H G mk int_op true a d) as [[[] d']|x]; cbn [bind fst snd]; try reflexivity. apply IH.
  Qed.
  Lemma init_compare int_op bp a ops d : initialize H G mk int_op bp (Compare a ops) d =
    if negb (Nat.eqb (length ops) 1)
       || match ops with (In, _) :: _ | (NotIn, _) :: _ | (Is, _) :: _ | (IsNot, _) :: _ => true | _ => false end || negb bp
    then Ok (false, d) else init_all int_op false (a :: map snd ops) d.
  Proof.
    cbn [initialize not_allowed bind].
    match goal with |- (if ?b then _ else _) = _ => destruct b; [reflexivity|] end.
    cbn [nonlinear bind orb is_variable]. rewrite andb_false_r. cbn [map init_all].
    destruct (initialize H G mk int_op false a d) as [[[] d']|x]; cbn [bind fst snd]; try reflexivity.
    revert d'. induction ops as [|[c b] ops IH]; intro d'; [reflexivity|]. cbn [map init_all snd].
    destruct (initialize H G mk int_op false b d') as [[[] d'']|x]; cbn [bind fst snd]; try reflexivity. apply IH.
  Qed.
  Lemma init_unary int_op bp o a d : initialize H G mk int_op bp (Unary o a) d =
    match o with
    | Inv => Ok (false, d)
    | Not => if bp then initialize H G mk int_op true a d else Ok (false, d)
    | _ => initialize H G mk int_op false a d
    end.
  Proof.
    destruct o; cbn [initialize not_allowed bind nonlinear orb is_variable is_bool_node]; try reflexivity; rewrite ?andb_false_r; try reflexivity.
    destruct bp; reflexivity.
  Qed.
  Lemma init_binary int_op bp o a b d : initialize H G mk int_op bp (Binary o a b) d =
    do forbidden <- not_allowed H G (Binary o a b) int_op bp;
    if forbidden then Ok (false, d)
    else
      do n <- nonlinear H (Binary o a b);
      if n then (if mk then Ok (initialize_variable G (Binary o a b) d int_op) else Ok (false, d))
      else match o with
           | Mod | FloorDiv => initialize H G mk true false a d
           | _ => init_all int_op false [a; b] d
           end.
  Proof.
    cbn [initialize]. destruct (not_allowed H G (Binary o a b) int_op bp) as [[]|x]; cbn [bind]; try reflexivity.
    destruct (nonlinear H (Binary o a b)) as [[]|x]; cbn [bind orb is_variable]; try reflexivity.
    - destruct mk; reflexivity.
    - rewrite andb_false_r. cbn [init_all]. destruct o; try reflexivity;
        destruct (initialize H G mk int_op false a d) as [[[] d']|x]; cbn [bind fst snd]; try reflexivity;
        destruct (initialize H G mk int_op false b d') as [[[] d'']|x]; reflexivity.
  Qed.
  Lemma init_call int_op bp f args d : initialize H G mk int_op bp (Call f args) d =
    if is_abs f then match args with [] => Raise IndexError | a :: _ => initialize H G mk int_op false a d end
    else if mk then Ok (initialize_variable G (Call f args) d int_op) else Ok (false, d).
  Proof.
    destruct f; cbn [initialize not_allowed bind nonlinear orb is_variable is_abs]; try (destruct mk; reflexivity).
  Qed.
End Steps.

Section Conversion.
  Variables (H : host) (d : variables).
  Definition as_variable (bp : bool) (e : expr) : res (option zexpr * bool) :=
    match find_var d (as_string e) with
    | None => Raise KeyError
    | Some int => Ok (to_bool e bp (Some (ZVar (as_string e) int)))
    end.
  Fixpoint convert_all (l : list expr) : res (option (list zexpr * bool)) :=
    match l with
    | [] => Ok (Some ([], false))
    | x :: l =>
        do r <- convert H d true x;
        match fst r with
        | None => Ok None
        | Some z => do rest <- convert_all l; Ok (match rest with Some (zs, c) => Some (z :: zs, snd r || c) | None => None end)
        end
    end.
  Lemma convert_bool bp o vs : convert H d bp (BoolOp o vs) =
    do r <- convert_all vs; Ok (match r with Some (zs, c) => (Some (match o with And => ZAnd zs | Or => ZOr zs end), c) | None => (None, false) end).
  Proof.
    cbn [convert].
    assert (A : forall l done c, (fix go (l : list expr) (done : list zexpr) (c : bool) : res (option zexpr * bool) :=
         match l with
         | [] => Ok (Some (match o with And => ZAnd done | Or => ZOr done end), c)
         | x :: l =>
             do r <- convert H d true x;
             match fst r with None => Ok (None, false) | Some z => go l (done ++ [z]) (c || snd r) end
         end) l done c =
         do r <- convert_all l; Ok (match r with Some (zs, c') => (Some (match o with And => ZAnd (done ++ zs) | Or => ZOr (done ++ zs) end), c || c') | None => (None, false) end)).
    { induction l as [|x l IH]; intros done c; [cbn; rewrite app_nil_r, orb_false_r; reflexivity|]. cbn [convert_all].
      destruct (convert H d true x) as [[[z|] cx]|]; cbn [bind fst snd]; try reflexivity. rewrite IH.
      destruct (convert_all l) as [[[zs c']|]|]; cbn [bind]; try reflexivity. rewrite <- app_assoc, orb_assoc. reflexivity. }
    rewrite A. reflexivity.
  Qed.
  Lemma convert_call bp f args : convert H d bp (Call f args) =
    if is_abs f
    then match args with
         | [] => Raise IndexError
         | a :: _ =>
             do r <- convert H d false a;
             match fst r with
             | None => Raise TypeError
             | Some z => let r' := to_bool (Call f args) bp (Some (ZAbs z)) in Ok (fst r', snd r' || snd r)
             end
         end
    else as_variable bp (Call f args).
  Proof. destruct f; reflexivity. Qed.
End Conversion.

(** ** Meaning *)
Lemma zcompare_int c p q m n : (p == inject_Z m)%Q -> (q == inject_Z n)%Q -> zcompare c p q = decided_by c m n.
Proof.
  intros Ep Eq. unfold zcompare, decided_by. f_equal.
  - destruct (Z.ltb_spec m n) as [L|L], (Qle_bool q p) eqn:B; try reflexivity; cbn [negb].
    + apply Qle_bool_iff in B. rewrite Ep, Eq in B. rewrite <- Zle_Qle in B. lia.
    + assert (X : Qle_bool q p = true); [|congruence]. apply Qle_bool_iff. rewrite Ep, Eq, <- Zle_Qle. exact L.
  - destruct (Z.eqb_spec m n) as [E|E], (Qeq_bool p q) eqn:B; try reflexivity.
    + assert (X : Qeq_bool p q = true); [|congruence]. apply Qeq_bool_iff. rewrite Ep, Eq, E. reflexivity.
    + apply Qeq_bool_iff in B. rewrite Ep, Eq in B. exfalso. apply E. exact (proj1 (inject_Z_injective m n) B).
Qed.
Lemma floor_int q n : (q == inject_Z n)%Q -> Qfloor q = n.
Proof. intros ->. apply Qfloor_Z. Qed.
Lemma abs_int q n : (q == inject_Z n)%Q -> (Qabs q == inject_Z (Z.abs n))%Q.
Proof. intros ->. reflexivity. Qed.
Lemma numeral_term e bp int : (is_bool_node e || match e with Compare _ _ => true | Const (CBool _) => true | _ => false end) = false ->
  to_bool e bp (Some int) = if bp then (Some (ZRel Ne int (ZInt 0)), true) else (Some int, false).
Proof. intro N. unfold to_bool. rewrite N. destruct bp; reflexivity. Qed.
Lemma closed_fold H e v : fold H e = Ok v -> closed e = true.
Proof.
  revert v. induction e as [x|c|o a IHa|o a b IHa IHb|o vs IHvs|a ops IHa IHops|g args IHg IHargs|a x IHa|a i IHa IHi|c a b IHc IHa IHb|n] using expr_ind';
    intros v F; cbn [fold closed] in *; try discriminate; try reflexivity.
  - destruct (fold H a) as [u|] eqn:A; [|discriminate]. eapply IHa. reflexivity.
  - destruct (fold H b) as [u|] eqn:B; [|discriminate]. cbn [bind] in F. destruct (no_division o || not_zero u); [|discriminate].
    destruct (binary_operator H o); [|discriminate]. cbn [bind] in F. destruct (fold H a) as [u'|] eqn:A; [|discriminate].
    rewrite (IHa _ eq_refl), (IHb _ eq_refl). reflexivity.
  - destruct vs as [|a [|b r]]; try discriminate. inversion IHvs as [|? ? Ia Ir]; subst.
    destruct (fold H a) as [u|] eqn:A; [|discriminate]. cbn [bind] in F. cbn [forallb]. rewrite (Ia _ eq_refl). cbn [andb].
    inversion Ir as [|? ? Ib Ir']; subst. destruct (fold H b) as [u1|] eqn:B; [|discriminate]. cbn [bind] in F. rewrite (Ib _ eq_refl). cbn [andb].
    clear A B Ia Ib Ir IHvs. revert F. generalize (bool_operator o u u1). induction Ir' as [|x l X Ir IH]; intros u2 F; [reflexivity|]. cbn [forallb].
    destruct (fold H x) as [u'|] eqn:A; [|discriminate]. cbn [bind] in F. rewrite (X _ eq_refl). cbn [andb]. exact (IH _ F).
  - destruct ops as [|[c b] [|]]; try discriminate. inversion IHops as [|? ? Ib _]; subst. cbn [snd] in Ib.
    destruct (compare_operator H c); [|discriminate]. cbn [bind] in F. destruct (fold H a) as [u|] eqn:A; [|discriminate]. cbn [bind] in F.
    destruct (fold H b) as [u'|] eqn:B; [|discriminate]. cbn [forallb snd]. rewrite (IHa _ eq_refl), (Ib _ eq_refl). reflexivity.
Qed.
Lemma closed_known H e v : get_const_value H e = Ok v -> v <> VNone -> closed e = true.
Proof.
  unfold get_const_value. destruct (fold H e) as [u|x] eqn:F; [intros _ _; eapply closed_fold; exact F|].
  destruct (caught x); [|discriminate]. congruence.
Qed.

Definition int_op_total (o : binop) : option (Z -> Z -> Z) := match o with Add => Some Z.add | Sub => Some Z.sub | Mul => Some Z.mul | _ => None end.

Section Meaning.
  Variables (H : host) (G : inspection) (mk : bool).
  Hypothesis CH : closed_host H.
  Context {W : Type}.
  Variable P : python W.
  Variable w : W.
  Hypothesis AG : agrees P H.
  Hypothesis ABS : has_abs P w.
  Variable E : environment.

  Definition is_cond (e : expr) : bool := match e with BoolOp _ _ | Compare _ _ | Unary Not _ | Const (CBool _) => true | _ => false end.
  Definition means_bool (e : expr) (z : zexpr) (c : bool) : Prop :=
    exists b v, gives P w e v /\ truth P v w = (w, Ok b) /\ zeval E z = Some (ZB b) /\ (c = false -> v = VBool b).
  Definition means_int (bp : bool) (e : expr) (z : zexpr) (c : bool) : Prop :=
    exists n, is_int P w e n /\
      if bp then zeval E z = Some (ZB (negb (Z.eqb n 0))) /\ c = true else exists q, zeval E z = Some (ZN q) /\ (q == inject_Z n)%Q.
  Definition means (bp : bool) (e : expr) (z : zexpr) (c : bool) : Prop :=
    if is_cond e then bp = true /\ means_bool e z c else means_int bp e z c.

  Lemma int_truth v n : as_int v = Some n -> truth P v w = (w, Ok (negb (Z.eqb n 0))).
  Proof. destruct v; cbn; intro A; try discriminate; injection A as <-; [destruct b|]; reflexivity. Qed.
  Lemma means_cond e z c : means true e z c -> means_bool e z c.
  Proof.
    unfold means. destruct (is_cond e); [intros [_ M]; exact M|]. intros (n & (v & V & A) & Z & ->).
    exists (negb (Z.eqb n 0)), v. refine (conj V (conj (int_truth v n A) (conj Z _))). discriminate.
  Qed.
  Lemma int_finish bp e z n q r c : is_cond e = false -> is_int P w e n -> zeval E z = Some (ZN q) -> (q == inject_Z n)%Q ->
    to_bool e bp (Some z) = (Some r, c) -> forall c', means_int bp e r (c || c').
  Proof.
    intros C I Z Q T c'. rewrite numeral_term in T by (destruct e as [| []|[]| | | | | | | |]; discriminate || reflexivity).
    exists n. split; [exact I|]. destruct bp; injection T as <- <-.
    - split; [|reflexivity]. cbn [zeval]. rewrite Z. cbn [znumbers]. rewrite (zcompare_int Ne q (inject_Z 0) n 0%Z Q ltac:(reflexivity)). reflexivity.
    - exists q. split; [exact Z|exact Q].
  Qed.
  Lemma variable_means bp d e z c : is_cond e = false -> an_int P w e -> (forall n, is_int P w e n -> int_var E (as_string e) = n /\ real_var E (as_string e) = inject_Z n) ->
    as_variable d bp e = Ok (Some z, c) -> means_int bp e z c.
  Proof.
    intros C [n I] A V. destruct (A n I) as [A1 A2]. unfold as_variable in V. destruct (find_var d (as_string e)) as [int|]; [|discriminate].
    assert (T : to_bool e bp (Some (ZVar (as_string e) int)) = (Some z, c)) by congruence.
    rewrite <- (orb_false_r c). eapply (int_finish bp e (ZVar (as_string e) int) n); [exact C|exact I|reflexivity| |exact T].
    destruct int; [rewrite A1|rewrite A2]; reflexivity.
  Qed.
  Lemma ztruths_eval l bs f : Forall2 (fun z b => zeval E z = Some (ZB b)) l bs -> ztruths f (map (zeval E) l) = Some (ZB (f bs)).
  Proof.
    intro F. unfold ztruths.
    assert (A : fold_right (fun v r => match v, r with Some (ZB b), Some l => Some (b :: l) | _, _ => None end) (Some []) (map (zeval E) l) = Some bs).
    { induction F as [|z b l bs X F IH]; [reflexivity|]. cbn [map fold_right]. rewrite X, IH. reflexivity. }
    rewrite A. reflexivity.
  Qed.
  Lemma ztruths_inv l b f : ztruths f (map (zeval E) l) = Some (ZB b) -> exists bs, Forall2 (fun z b => zeval E z = Some (ZB b)) l bs /\ b = f bs.
  Proof.
    unfold ztruths. intro X.
    assert (A : forall bs, fold_right (fun v r => match v, r with Some (ZB b), Some l => Some (b :: l) | _, _ => None end) (Some []) (map (zeval E) l) = Some bs ->
      Forall2 (fun z b => zeval E z = Some (ZB b)) l bs).
    { clear X. induction l as [|z l IH]; intros bs B; [injection B as <-; constructor|]. cbn [map fold_right] in B.
      destruct (zeval E z) as [[]|] eqn:Z; try discriminate.
      match goal with B : context [match ?t with Some _ => _ | None => _ end] |- _ => destruct t as [l'|] eqn:F; [|discriminate] end.
      injection B as <-. constructor; [exact Z|apply IH; reflexivity]. }
    match goal with X : context [match ?t with Some _ => _ | None => _ end] |- _ => destruct t as [l'|] eqn:F; [|discriminate] end.
    exists l'. split; [apply A; reflexivity|congruence].
  Qed.
  Definition connect (o : boolop) (bs : list bool) : bool := match o with And => forallb (fun b => b) bs | Or => existsb (fun b => b) bs end.
  (** The truth and value of and/or. *)
  Lemma bools_truth o es bs : Forall2 (fun e b => exists v, gives P w e v /\ truth P v w = (w, Ok b)) es bs -> es <> [] ->
    exists v, gives P w (BoolOp o es) v /\ truth P v w = (w, Ok (connect o bs)).
  Proof.
    unfold gives. intros F N. rewrite eval_bool. revert N. induction F as [|e b es bs (v & V & T) F IH]; [congruence|]. intros _.
    destruct F as [|e' b' es bs X F].
    - exists v. cbn [map shortcut]. split; [exact V|]. rewrite T. destruct o; cbn; [rewrite andb_true_r|rewrite orb_false_r]; reflexivity.
    - specialize (IH ltac:(discriminate)). destruct IH as (u & U & TU). cbn [map] in *.
      cbn [shortcut]. unfold andthen at 1. rewrite V. unfold andthen at 1. rewrite T.
      destruct o; cbn [neutral connect forallb existsb]; destruct b; cbn [Bool.eqb andb orb].
      + exists u. split; [exact U|exact TU].
      + exists v. split; [reflexivity|exact T].
      + exists v. split; [reflexivity|exact T].
      + exists u. split; [exact U|exact TU].
  Qed.
  Lemma bools_values o es bs : Forall2 (fun e b => gives P w e (VBool b)) es bs -> es <> [] -> gives P w (BoolOp o es) (VBool (connect o bs)).
  Proof.
    unfold gives. intros F N. rewrite eval_bool. revert N. induction F as [|e b es bs V F IH]; [congruence|]. intros _.
    destruct F as [|e' b' es bs X F].
    - cbn [map shortcut]. rewrite V. destruct o; cbn; [rewrite andb_true_r|rewrite orb_false_r]; reflexivity.
    - specialize (IH ltac:(discriminate)). cbn [map] in *. cbn [shortcut]. unfold andthen at 1. rewrite V. unfold andthen at 1. cbn [truth].
      destruct o; cbn [neutral connect forallb existsb] in *; destruct b; cbn [Bool.eqb andb orb]; try reflexivity; exact IH.
  Qed.

  Definition goal (e : expr) : Prop := forall bp int_op d0 d1 d z c,
    initialize H G mk int_op bp e d0 = Ok (true, d1) -> convert H d bp e = Ok (Some z, c) ->
    well_formed e = true -> whole P w e -> int_divisions P w e -> assigns E P w (numbers e) -> means bp e z c.

  Lemma assigns_incl es es' : incl es es' -> assigns E P w es' -> assigns E P w es.
  Proof. intros I A s z X. apply A. exact (I s X). Qed.
  Lemma whole_incl e e' : incl (numbers e) (numbers e') -> whole P w e' -> whole P w e.
  Proof. unfold whole. rewrite !Forall_forall. intros I A s X. apply A. exact (I s X). Qed.

  Lemma goal_bool o vs : Forall goal vs -> goal (BoolOp o vs).
  Proof.
    intros IH bp int_op d0 d1 d z c I C WF WH DV A. rewrite init_bool in I. destruct bp; [|discriminate]. rewrite convert_bool in C.
    destruct (convert_all H d vs) as [[[zs c']|]|] eqn:CA; try discriminate. cbn [bind] in C.
    assert (Z : z = match o with And => ZAnd zs | Or => ZOr zs end /\ c = c') by (split; congruence). destruct Z as [-> ->]. clear C.
    cbn [well_formed] in WF. apply andb_true_iff in WF. destruct WF as [LN WF].
    assert (X : exists bs, Forall2 (fun z b => zeval E z = Some (ZB b)) zs bs /\ Forall2 (fun e b => exists v, gives P w e v /\ truth P v w = (w, Ok b)) vs bs
      /\ (c' = false -> Forall2 (fun e b => gives P w e (VBool b)) vs bs)).
    { clear LN. revert d0 I zs c' CA WF WH DV A. unfold whole. cbn [numbers int_divisions]. induction IH as [|x vs Ix IH IHvs]; intros d0 I zs c' CA WF WH DV A.
      - injection CA as <- <-. exists []. repeat split; constructor.
      - cbn [init_all] in I. destruct (initialize H G mk int_op true x d0) as [[[] dx]|] eqn:IX; try discriminate. cbn [bind fst snd] in I.
        cbn [convert_all] in CA. destruct (convert H d true x) as [[[zx|] cx]|] eqn:CX; try discriminate. cbn [bind fst snd] in CA.
        destruct (convert_all H d vs) as [[[zs1 c1]|]|] eqn:CV; try discriminate. cbn [bind] in CA.
        assert (Y : zs = zx :: zs1 /\ c' = cx || c1) by (split; congruence). destruct Y as [-> ->].
        cbn [forallb] in WF. apply andb_true_iff in WF. destruct WF as [WX WF]. cbn [flat_map] in WH, A. apply Forall_app in WH. destruct WH as [HX HV].
        cbn [map fold_right] in DV. destruct DV as [DX DV].
        assert (AX := assigns_incl _ _ (incl_appl _ (incl_refl _)) A). assert (AV := assigns_incl _ _ (incl_appr _ (incl_refl _)) A).
        assert (M := means_cond x zx cx (Ix true int_op d0 dx d zx cx IX CX WX HX DX AX)). destruct M as (b & v & GV & TV & ZV & BV).
        destruct (IHvs dx I zs1 c1 eq_refl WF HV DV AV) as (bs & F1 & F2 & F3).
        exists (b :: bs). split; [constructor; assumption|]. split; [constructor; [exists v; split; assumption|exact F2]|].
        intro C0. apply orb_false_iff in C0. destruct C0 as [C1 C2]. constructor; [rewrite <- (BV C1); exact GV|exact (F3 C2)]. }
    destruct X as (bs & F1 & F2 & F3). unfold means. cbn [is_cond]. split; [reflexivity|].
    assert (N : vs <> []) by (intros ->; discriminate LN).
    assert (ZE : zeval E (match o with And => ZAnd zs | Or => ZOr zs end) = Some (ZB (connect o bs))) by (destruct o; cbn [zeval]; apply (ztruths_eval zs bs); exact F1).
    destruct (bools_truth o vs bs F2 N) as (v & GV & TV).
    exists (connect o bs), v. split; [exact GV|]. split; [exact TV|]. split; [exact ZE|].
    intro C0. assert (V := bools_values o vs bs (F3 C0) N). unfold gives in *. congruence.
  Qed.

  Lemma means_number e z c : means false e z c -> exists n q, is_int P w e n /\ zeval E z = Some (ZN q) /\ (q == inject_Z n)%Q.
  Proof.
    unfold means. destruct (is_cond e); [intros [X _]; discriminate X|]. intros (n & I & q & Z & Q). exists n, q. auto.
  Qed.

  Lemma goal_compare a ops : goal a -> Forall (fun cv => goal (snd cv)) ops -> goal (Compare a ops).
  Proof.
    intros IHa IHops bp int_op d0 d1 d z c I C WF WH DV A. rewrite init_compare in I.
    destruct ops as [|[op b] [|]]; try discriminate.
    destruct bp; [|rewrite !orb_true_r in I; discriminate].
    inversion IHops as [|? ? IHb _]; subst. cbn [snd] in IHb.
    assert (I' : init_all H G mk int_op false [a; b] d0 = Ok (true, d1)) by (destruct op; try discriminate I; exact I).
    assert (OP : match op with In | NotIn | Is | IsNot => False | _ => True end) by (destruct op; try discriminate I; exact Logic.I).
    cbn [init_all] in I'. destruct (initialize H G mk int_op false a d0) as [[[] da]|] eqn:IA; try discriminate. cbn [bind fst snd] in I'.
    destruct (initialize H G mk int_op false b da) as [[[] db]|] eqn:IB; try discriminate.
    cbn [convert] in C. destruct (convert H d false a) as [[za ca]|] eqn:CA; try discriminate. cbn [bind] in C.
    destruct (convert H d false b) as [[zb cb]|] eqn:CB; try discriminate. cbn [bind fst snd] in C.
    destruct za as [za|], zb as [zb|]; try discriminate.
    cbn [well_formed forallb snd] in WF. apply andb_true_iff in WF. destruct WF as [WF WB]. apply andb_true_iff in WF. destruct WF as [_ WA].
    rewrite andb_true_r in WB. cbn [int_divisions map fold_right snd] in DV. destruct DV as (DA & DB & _).
    unfold whole in WH. cbn [numbers flat_map snd] in WH, A. rewrite app_nil_r in WH, A. apply Forall_app in WH. destruct WH as [HA HB].
    assert (AA := assigns_incl _ _ (incl_appl _ (incl_refl _)) A). assert (AB := assigns_incl _ _ (incl_appr _ (incl_refl _)) A).
    destruct (means_number _ _ _ (IHa _ _ _ _ _ _ _ IA CA WA HA DA AA)) as (m & p & (va & GA & NA) & ZA & QA).
    destruct (means_number _ _ _ (IHb _ _ _ _ _ _ _ IB CB WB HB DB AB)) as (n & q & (vb & GB & NB) & ZB' & QB).
    assert (R : convert_rel op za zb = Some (ZRel op za zb)) by (destruct op; try contradiction; reflexivity).
    rewrite R in C. assert (Z : z = ZRel op za zb) by congruence. subst z.
    assert (D : exists r, decided_by op m n = Some r) by (destruct op; try contradiction; eexists; reflexivity). destruct D as [r D].
    unfold means. cbn [is_cond]. split; [reflexivity|]. exists r, (VBool r).
    split; [unfold gives; rewrite (eval_compare1 P w op a b va vb GA GB); exact (ints_compare P w op va vb m n r NA NB D)|].
    split; [reflexivity|]. split; [|reflexivity]. cbn [zeval]. rewrite ZA, ZB'. cbn [znumbers]. rewrite (zcompare_int op p q m n QA QB), D. reflexivity.
  Qed.

  Lemma goal_unary o a : goal a -> goal (Unary o a).
  Proof.
    intros IH bp int_op d0 d1 d z c I C WF WH DV A. rewrite init_unary in I. cbn [well_formed int_divisions] in WF, DV. cbn [convert] in C.
    destruct o; try discriminate.
    - (* not *) destruct bp; [|discriminate]. cbn [is_bool_node] in C. destruct (convert H d true a) as [[[za|] ca]|] eqn:CA; try discriminate. cbn [bind fst snd] in C.
      assert (Z : z = ZNot za) by (cbn [to_bool is_bool_node orb negb andb fst] in C; congruence). subst z.
      destruct (means_cond _ _ _ (IH _ _ _ _ _ _ _ I CA WF WH DV A)) as (b & v & GV & TV & ZV & _).
      unfold means. cbn [is_cond]. split; [reflexivity|]. exists (negb b), (VBool (negb b)). split.
      { unfold gives in *. cbn [eval]. unfold andthen at 1. rewrite GV. unfold unary, andthen. rewrite TV. reflexivity. }
      split; [reflexivity|]. split; [cbn [zeval]; rewrite ZV; reflexivity|reflexivity].
    - cbn [is_bool_node] in C. destruct (convert H d false a) as [[[za|] ca]|] eqn:CA; try discriminate. cbn [bind fst snd] in C.
      assert (WA : whole P w a) by (inversion WH; assumption). assert (AA := assigns_incl _ _ (incl_tl _ (incl_refl _)) A).
      destruct (means_number _ _ _ (IH _ _ _ _ _ _ _ I CA WF WA DV AA)) as (n & q & (v & GV & NV) & ZV & QV).
      destruct (to_bool (Unary Neg a) bp (Some (ZNeg za))) as [z' c'] eqn:T. cbn [fst snd] in C. destruct z' as [z'|]; [|discriminate].
      assert (Z : z' = z /\ c = c' || ca) by (split; congruence). destruct Z as [-> ->]. unfold means. cbn [is_cond].
      eapply (int_finish bp (Unary Neg a) (ZNeg za) (- n)); [reflexivity| | | |exact T].
      + exists (VInt (- n)). split; [|reflexivity]. unfold gives in *. cbn [eval]. unfold andthen. rewrite GV. unfold unary. rewrite NV. reflexivity.
      + cbn [zeval]. rewrite ZV. reflexivity.
      + rewrite QV. reflexivity.
    - cbn [is_bool_node] in C. destruct (convert H d false a) as [[[za|] ca]|] eqn:CA; try discriminate. cbn [bind fst snd] in C.
      assert (WA : whole P w a) by (inversion WH; assumption). assert (AA := assigns_incl _ _ (incl_tl _ (incl_refl _)) A).
      destruct (means_number _ _ _ (IH _ _ _ _ _ _ _ I CA WF WA DV AA)) as (n & q & (v & GV & NV) & ZV & QV).
      destruct (to_bool (Unary Pos a) bp (Some za)) as [z' c'] eqn:T. cbn [fst snd] in C. destruct z' as [z'|]; [|discriminate].
      assert (Z : z' = z /\ c = c' || ca) by (split; congruence). destruct Z as [-> ->]. unfold means. cbn [is_cond].
      eapply (int_finish bp (Unary Pos a) za n); [reflexivity| |exact ZV|exact QV|exact T].
      exists (VInt n). split; [|reflexivity]. unfold gives in *. cbn [eval]. unfold andthen. rewrite GV. unfold unary. rewrite NV. reflexivity.
  Qed.

  Lemma goal_binary o a b : goal a -> goal b -> goal (Binary o a b).
  Proof.
    intros IHa IHb bp int_op d0 d1 d z c I C WF WH DV A. rewrite init_binary in I.
    destruct (not_allowed H G (Binary o a b) int_op bp) as [[]|] eqn:NA; try discriminate. cbn [bind] in I.
    cbn [convert] in C. fold (as_variable d bp (Binary o a b)) in C.
    assert (HE : an_int P w (Binary o a b)) by (inversion WH; assumption).
    destruct (nonlinear H (Binary o a b)) as [[]|] eqn:NL; try discriminate; cbn [bind] in I, C; unfold means; cbn [is_cond].
    { apply (variable_means bp d); [reflexivity|exact HE| |exact C]. intros n IN. apply A; [left; reflexivity|exact IN]. }
    cbn [well_formed] in WF. apply andb_true_iff in WF. destruct WF as [WA WB]. cbn [int_divisions] in DV. destruct DV as (DO & DA & DB).
    assert (HA : whole P w a) by (eapply whole_incl; [|exact WH]; cbn [numbers]; apply incl_tl, incl_appl, incl_refl).
    assert (HB : whole P w b) by (eapply whole_incl; [|exact WH]; cbn [numbers]; apply incl_tl, incl_appr, incl_refl).
    assert (AA : assigns E P w (numbers a)) by (eapply assigns_incl; [|exact A]; cbn [numbers]; apply incl_tl, incl_appl, incl_refl).
    assert (AB : assigns E P w (numbers b)) by (eapply assigns_incl; [|exact A]; cbn [numbers]; apply incl_tl, incl_appr, incl_refl).
    destruct (convert H d false a) as [[za ca]|] eqn:CA; try discriminate. cbn [bind fst snd] in C.
    (* the arithmetic operators *)
    assert (AR : forall (f : zexpr -> zexpr -> zexpr) (g : Z -> Z -> Z) (h : Q -> Q -> Q),
      int_op_total o = Some g -> (forall x y, zeval E (f x y) = znumbers (fun p q => Some (ZN (h p q))) (zeval E x) (zeval E y)) ->
      (forall p q m n, (p == inject_Z m)%Q -> (q == inject_Z n)%Q -> (h p q == inject_Z (g m n))%Q) ->
      init_all H G mk int_op false [a; b] d0 = Ok (true, d1) ->
      (do r <- convert H d false b;
       match za, fst r with
       | Some x, Some y => let r' := to_bool (Binary o a b) bp (Some (f x y)) in Ok (fst r', snd r' || (ca || snd r))
       | _, _ => Ok (None, false)
       end) = Ok (Some z, c) -> means_int bp (Binary o a b) z c).
    { intros f g h GO FH GH I' C'. cbn [init_all] in I'. destruct (initialize H G mk int_op false a d0) as [[[] da]|] eqn:IA; try discriminate. cbn [bind fst snd] in I'.
      destruct (initialize H G mk int_op false b da) as [[[] db]|] eqn:IB; try discriminate.
      destruct (convert H d false b) as [[zb cb]|] eqn:CB; try discriminate. cbn [bind fst snd] in C'. destruct za as [za|], zb as [zb|]; try discriminate.
      destruct (means_number _ _ _ (IHa _ _ _ _ _ _ _ IA CA WA HA DA AA)) as (m & p & (va & GA & NA') & ZA & QA).
      destruct (means_number _ _ _ (IHb _ _ _ _ _ _ _ IB CB WB HB DB AB)) as (n & q & (vb & GB & NB) & ZB' & QB).
      destruct (to_bool (Binary o a b) bp (Some (f za zb))) as [z' c'] eqn:T. cbv zeta in C'. cbn [fst snd] in C'. destruct z' as [z'|]; [|discriminate].
      assert (Z : z' = z /\ c = c' || (ca || cb)) by (split; congruence). destruct Z as [-> ->].
      eapply (int_finish bp (Binary o a b) (f za zb) (g m n)); [reflexivity| | | |exact T].
      - exists (VInt (g m n)). split; [|reflexivity]. unfold gives. rewrite (eval_binary P w o a b va vb GA GB). unfold binary. rewrite NA', NB.
        unfold int_op_total in GO. destruct o; try discriminate; injection GO as <-; destruct va, vb; reflexivity.
      - rewrite FH, ZA, ZB'. reflexivity.
      - apply GH; [exact QA|exact QB]. }
    (* a constant on the right *)
    assert (CO : forall z' n k, za = Some z' -> initialize H G mk true false a d0 = Ok (true, d1) -> get_const_value H b = Ok n -> as_int n = Some k ->
      exists m q, is_int P w a m /\ zeval E z' = Some (ZN q) /\ (q == inject_Z m)%Q /\ is_int P w b k).
    { intros z' v k -> I' K V. destruct (means_number _ _ _ (IHa _ _ _ _ _ _ _ I' CA WA HA DA AA)) as (m & q & IM & ZM & QM).
      exists m, q. refine (conj IM (conj ZM (conj QM _))). exact (known_int H CH b v k K V W P AG w). }
    destruct o; try contradiction; try discriminate.
    - apply (AR ZAdd Z.add Qplus); [reflexivity|reflexivity| |exact I|]. { intros p q m n -> ->. rewrite <- inject_Z_plus. reflexivity. }
      destruct (convert H d false b) as [[zb cb]|]; [|exact C]. cbn [bind fst snd] in *. destruct za, zb; exact C.
    - apply (AR ZSub Z.sub Qminus); [reflexivity|reflexivity| |exact I|]. { intros p q m n -> ->. unfold Qminus, Z.sub. rewrite inject_Z_plus, inject_Z_opp. reflexivity. }
      destruct (convert H d false b) as [[zb cb]|]; [|exact C]. cbn [bind fst snd] in *. destruct za, zb; exact C.
    - apply (AR ZMul Z.mul Qmult); [reflexivity|reflexivity| |exact I|]. { intros p q m n -> ->. rewrite <- inject_Z_mult. reflexivity. }
      destruct (convert H d false b) as [[zb cb]|]; [|exact C]. cbn [bind fst snd] in *. destruct za, zb; exact C.
    - (* // *)
      destruct za as [za|]; [|discriminate]. destruct (is_int_term za); [|discriminate]. unfold convert_by_constant in C.
      destruct (get_const_value H b) as [v|] eqn:K; [|discriminate]. cbn [bind] in C.
      assert (X : exists k, as_int v = Some k /\ (do z0 <- Ok (Some (ZQuot za k)); let r := to_bool (Binary FloorDiv a b) bp z0 in Ok (fst r, snd r || ca)) = Ok (Some z, c)).
      { destruct v; try discriminate; eexists; (split; [reflexivity|]); exact C. }
      clear C. destruct X as (k & V & C). destruct (CO za v k eq_refl I eq_refl V) as (m & q & (va & GA & NA') & ZM & QM & (vb & GB & NB)).
      assert (KP : (0 < k)%Z).
      { apply DO; [|exists vb; split; assumption]. eapply closed_known; [exact K|]. intros ->. discriminate V. }
      cbn [bind] in C. cbv zeta in C. destruct (to_bool (Binary FloorDiv a b) bp (Some (ZQuot za k))) as [z' c'] eqn:T. cbn [fst snd] in C. destruct z' as [z'|]; [|discriminate].
      assert (Z : z' = z /\ c = c' || ca) by (split; congruence). destruct Z as [-> ->].
      eapply (int_finish bp (Binary FloorDiv a b) (ZQuot za k) (m / k)); [reflexivity| | | |exact T].
      + exists (VInt (m / k)). split; [|reflexivity]. unfold gives. rewrite (eval_binary P w FloorDiv a b va vb GA GB). unfold binary. rewrite NA', NB. cbn [PySpec.int_op].
        destruct (Z.eqb_spec k 0); [lia|]. destruct va, vb; reflexivity.
      + cbn [zeval]. rewrite ZM. cbn [znumber]. destruct (Z.eqb_spec k 0); [lia|]. rewrite (floor_int q m QM). unfold euclid. destruct (Z.ltb_spec 0 k); [|lia]. reflexivity.
      + reflexivity.
    - (* % *)
      destruct za as [za|]; [|discriminate]. destruct (is_int_term za); [|discriminate]. unfold convert_by_constant in C.
      destruct (get_const_value H b) as [v|] eqn:K; [|discriminate]. cbn [bind] in C.
      destruct v as [|vb0|k|r|s|n0]; try discriminate. destruct (Z.ltb_spec 1 k) as [KP|KP]; [|discriminate].
      destruct (CO za (VInt k) k eq_refl I eq_refl eq_refl) as (m & q & (va & GA & NA') & ZM & QM & (vb & GB & NB)).
      cbn [bind] in C. cbv zeta in C. destruct (to_bool (Binary Mod a b) bp (Some (ZMod za k))) as [z' c'] eqn:T. cbn [fst snd] in C. destruct z' as [z'|]; [|discriminate].
      assert (Z : z' = z /\ c = c' || ca) by (split; congruence). destruct Z as [-> ->].
      eapply (int_finish bp (Binary Mod a b) (ZMod za k) (m mod k)); [reflexivity| | | |exact T].
      + exists (VInt (m mod k)). split; [|reflexivity]. unfold gives. rewrite (eval_binary P w Mod a b va vb GA GB). unfold binary. rewrite NA', NB. cbn [PySpec.int_op].
        destruct (Z.eqb_spec k 0); [lia|]. destruct va, vb; reflexivity.
      + cbn [zeval]. rewrite ZM. cbn [znumber]. rewrite (floor_int q m QM). reflexivity.
      + reflexivity.
    - (* ** *) destruct za; discriminate.
  Qed.

  Lemma goal_call f args : Forall goal args -> goal (Call f args).
  Proof.
    intros IH bp int_op d0 d1 d z c I C WF WH DV A. rewrite init_call in I. rewrite convert_call in C.
    assert (HE : an_int P w (Call f args)) by (inversion WH; assumption).
    unfold means. cbn [is_cond]. unfold whole in WH. cbn [numbers int_divisions] in WH, DV, A. destruct (is_abs f) eqn:AB.
    - destruct DV as [L DV]. destruct args as [|a [|]]; try discriminate. inversion IH as [|? ? IHa _]; subst.
      cbn [map fold_right] in DV. destruct DV as [DA _]. cbn [flat_map] in WH, A. rewrite app_nil_r in WH, A.
      assert (WA : whole P w a) by (inversion WH; assumption). assert (AA := assigns_incl _ _ (incl_tl _ (incl_refl _)) A).
      cbn [well_formed forallb] in WF. apply andb_true_iff in WF. destruct WF as [_ WF]. rewrite andb_true_r in WF.
      destruct (convert H d false a) as [[[za|] ca]|] eqn:CA; try discriminate. cbn [bind fst snd] in C. cbv zeta in C.
      destruct (means_number _ _ _ (IHa _ _ _ _ _ _ _ I CA WF WA DA AA)) as (n & q & (v & GV & NV) & ZV & QV).
      destruct (to_bool (Call f [a]) bp (Some (ZAbs za))) as [z' c'] eqn:T. cbn [fst snd] in C. destruct z' as [z'|]; [|discriminate].
      assert (Z : z' = z /\ c = c' || ca) by (split; congruence). destruct Z as [-> ->].
      eapply (int_finish bp (Call f [a]) (ZAbs za) (Z.abs n)); [reflexivity| | | |exact T].
      + destruct f as [x| | | | | | | | | |]; try discriminate AB. cbn [is_abs] in AB. apply String.eqb_eq in AB. subst x. destruct ABS as (r & LR & CR).
        exists (VInt (Z.abs n)). split; [|reflexivity]. unfold gives. rewrite (eval_call1 P "abs" a w r v LR GV). exact (CR v n NV).
      + cbn [zeval]. rewrite ZV. reflexivity.
      + exact (abs_int q n QV).
    - apply (variable_means bp d); [reflexivity|exact HE| |exact C]. intros n IN. apply A; [left; reflexivity|exact IN].
  Qed.

  Theorem translated e : goal e.
  Proof.
    induction e as [x|k|o a IHa|o a b IHa IHb|o vs IHvs|a ops IHa IHops|g args IHg IHargs|a x IHa|a i IHa IHi|c a b IHc IHa IHb|n] using expr_ind'.
    - intros bp int_op d0 d1 d z c I C WF WH DV A. apply (variable_means bp d); [reflexivity|inversion WH; assumption| |exact C]. intros n IN. apply A; [left; reflexivity|exact IN].
    - intros bp int_op d0 d1 d z c I C WF WH DV A. cbn [initialize not_allowed bind] in I. cbn [convert] in C. destruct k as [|b|n|r|s]; try discriminate; cbn [convert_const] in C.
      + destruct bp; [|discriminate]. unfold means. cbn [is_cond]. split; [reflexivity|].
        assert (Z : z = ZBool b) by (cbn [to_bool is_bool_node orb negb andb] in C; congruence). subst z.
        exists b, (VBool b). repeat split; reflexivity.
      + assert (T : to_bool (Const (CInt n)) bp (Some (ZInt (Z.of_N n))) = (Some z, c)) by congruence. unfold means. cbn [is_cond]. rewrite <- (orb_false_r c).
        eapply (int_finish bp (Const (CInt n)) (ZInt (Z.of_N n)) (Z.of_N n)); [reflexivity| |reflexivity|reflexivity|exact T].
        exists (VInt (Z.of_N n)). split; reflexivity.
      + exfalso. inversion WH as [|x l (n & v & GV & NV) WL]; subst. unfold gives in GV. cbn [eval const_value] in GV. injection GV as <-. discriminate NV.
    - apply goal_unary. exact IHa.
    - apply goal_binary; assumption.
    - apply goal_bool. exact IHvs.
    - apply goal_compare; assumption.
    - apply goal_call. exact IHargs.
    - intros bp int_op d0 d1 d z c I C WF WH DV A. apply (variable_means bp d); [reflexivity|inversion WH; assumption| |exact C]. intros n IN. apply A; [left; reflexivity|exact IN].
    - intros bp int_op d0 d1 d z c I C WF WH DV A. apply (variable_means bp d); [reflexivity|inversion WH; assumption| |exact C]. intros n IN. apply A; [left; reflexivity|exact IN].
    - intros bp int_op d0 d1 d z c' I C. discriminate C.
    - intros bp int_op d0 d1 d z c' I C. discriminate C.
  Qed.
End Meaning.

(** ** Values for the variables *)
Lemma token_eqb_refl t : token_eqb t t = true.
Proof.
  destruct t; cbn; try reflexivity; try apply String.eqb_refl; try apply Nat.eqb_refl; try (destruct o; reflexivity);
    destruct c; cbn; try reflexivity; try apply String.eqb_refl; try apply N.eqb_refl; apply eqb_reflx.
Qed.
Lemma text_eqb_refl t : text_eqb t t = true.
Proof. induction t as [|x t IH]; [reflexivity|]. cbn. rewrite token_eqb_refl. exact IH. Qed.
Lemma fine_numbers e : fine e = true -> Forall (fun s => fine s = true) (numbers e).
Proof.
  induction e as [x|k|o a IHa|o a b IHa IHb|o vs IHvs|a ops IHa IHops|g args IHg IHargs|a x IHa|a i IHa IHi|c a b IHc IHa IHb|n] using expr_ind';
    intro F; assert (S1 : Forall (fun s => fine s = true) [_]) by (constructor; [exact F|constructor]); unfold fine in F; cbn [well_formed no_nested_compare] in F.
  - exact S1.
  - destruct k; try exact S1. constructor.
  - fold (fine a) in F. specialize (IHa F). destruct o; cbn [numbers]; try (constructor; [exact F|exact IHa]). exact IHa.
  - assert (X : fine a = true /\ fine b = true) by (unfold fine; destruct (well_formed a), (well_formed b), (no_nested_compare a), (no_nested_compare b); try discriminate F; split; reflexivity).
    destruct X as [Fa Fb]. cbn [numbers]. inversion S1; subst. constructor; [assumption|]. apply Forall_app. split; [exact (IHa Fa)|exact (IHb Fb)].
  - clear S1. cbn [numbers]. apply andb_true_iff in F. destruct F as [F1 F2]. apply andb_true_iff in F1. destruct F1 as [_ F1].
    induction IHvs as [|x l X FL IH]; [constructor|]. cbn [forallb] in *. apply andb_true_iff in F1, F2. destruct F1, F2. cbn [flat_map]. apply Forall_app.
    split; [apply X; unfold fine; apply andb_true_iff; split; assumption|apply IH; assumption].
  - clear S1. cbn [numbers]. apply andb_true_iff in F. destruct F as [F1 F2]. apply andb_true_iff in F1, F2. destruct F1 as [F1 F1'], F2 as [F2 F2'].
    apply andb_true_iff in F1, F2. apply Forall_app. split; [apply IHa; unfold fine; apply andb_true_iff; tauto|]. clear F1 F2.
    induction IHops as [|x l X FL IH]; [constructor|]. cbn [forallb] in *. apply andb_true_iff in F1', F2'. destruct F1', F2'. cbn [flat_map]. apply Forall_app.
    split; [apply X; unfold fine; apply andb_true_iff; split; assumption|apply IH; assumption].
  - cbn [numbers]. inversion S1; subst. constructor; [assumption|]. destruct (is_abs g); [|constructor]. clear -IHargs F.
    apply andb_true_iff in F. destruct F as [F1 F2]. apply andb_true_iff in F1, F2. destruct F1 as [_ F1], F2 as [_ F2].
    induction IHargs as [|x l X FL IH]; [constructor|]. cbn [forallb] in *. apply andb_true_iff in F1, F2. destruct F1, F2. cbn [flat_map]. apply Forall_app.
    split; [apply X; unfold fine; apply andb_true_iff; split; assumption|apply IH; assumption].
  - exact S1.
  - exact S1.
  - exact S1.
  - exact S1.
Qed.
Lemma assigned {W} (P : python W) w es : Forall (fun s => fine s = true) es -> Forall (an_int P w) es -> exists E, assigns E P w es.
Proof.
  intros F A. assert (X : exists f : text -> Z, forall s z, List.In s es -> is_int P w s z -> f (as_string s) = z).
  { induction F as [|x es Fx F IH]; [exists (fun _ => 0%Z); intros s z []|]. inversion A as [|? ? (zx & Ix) A']; subst. destruct (IH A') as (f & Hf).
    exists (fun k => if text_eqb (as_string x) k then zx else f k). intros s z [<-|I] S1.
    - rewrite text_eqb_refl. eapply is_int_det; [exact Ix|exact S1].
    - destruct (text_eqb (as_string x) (as_string s)) eqn:T; [|exact (Hf s z I S1)].
      assert (Fs : fine s = true) by (rewrite Forall_forall in F; exact (F s I)).
      assert (SM := same_text_same x s Fx Fs T W P w). destruct S1 as (v & V & N). eapply is_int_det; [exact Ix|]. exists v. split; [|exact N]. unfold gives in *. rewrite SM. exact V. }
  destruct X as (f & Hf). exists {| int_var := f; real_var := fun k => inject_Z (f k); quot0 := fun _ => 0%Z; over0 := fun q => q |}.
  intros s z I S1. cbn [int_var real_var]. rewrite (Hf s z I S1). split; reflexivity.
Qed.
