(** Proofs about the messages about membership in a range. *)
From Coq Require Import String Ascii List Bool Arith NArith ZArith Lia.
From Verif Require Import Base PyModel PySpec PyProofs IfModel IfSpec IfProofs FoldModel FoldSpec FoldProofs TypeModel LocalModel LocalSpec TextProofs LocalProofs LetterProofs.
Import ListNotations.
Local Open Scope string_scope.
Local Open Scope list_scope.

Definition int_expr (z : Z) : expr := if Z.ltb z 0 then Unary Neg (Const (CInt (Z.to_N (- z)))) else Const (CInt (Z.to_N z)).
Lemma good_int z : good (int_text z) (int_expr z) (if Z.ltb z 0 then 12 else 15).
Proof.
  unfold int_text, int_expr. destruct (Z.ltb z 0); [|apply good_const]. eapply good_minus; [apply good_const|lia].
Qed.
Lemma is_var_prec e : is_var e = true -> prec e = 15.
Proof. destruct e; cbn; congruence. Qed.
Lemma sep_prefix tok (c : text) l : l <> [] -> c ++ sep_by (tok :: c) l = sep_by [tok] (map (fun t => c ++ t) l).
Proof.
  induction l as [|t l IH]; [congruence|]. intros _. destruct l as [|u l]; [reflexivity|]. specialize (IH ltac:(discriminate)).
  change (sep_by (tok :: c) (t :: u :: l)) with (t ++ (tok :: c) ++ sep_by (tok :: c) (u :: l)).
  change (sep_by [tok] (map (fun t => c ++ t) (t :: u :: l))) with ((c ++ t) ++ [tok] ++ sep_by [tok] (map (fun t => c ++ t) (u :: l))).
  rewrite <- IH, <- app_assoc. reflexivity.
Qed.

Section Range.
  Context {W : Type}.
  Variable P : python W.
  Variable w : W.
  Lemma int_value z : is_int P w (int_expr z) z.
  Proof.
    unfold int_expr. destruct (Z.ltb_spec z 0) as [L|L].
    - exists (VInt z). split; [|reflexivity]. unfold gives. cbn [eval]. unfold andthen, pure. cbn [const_value unary as_int]. unfold pure. do 3 f_equal. rewrite Z2N.id by lia. lia.
    - pose proof (const_is_int P w (Z.to_N z)) as K. rewrite Z2N.id in K by lia. exact K.
  Qed.

  (** A text that reads as an expression with the given truth value. *)
  Definition holds (t : text) (r : bool) : Prop := exists e, reads t e /\ gives P w e (VBool r).
  (** A comparison as part of an and/or. *)
  Definition part (t : text) (r : bool) : Prop := exists a ops, good t (Compare a ops) 5 /\ gives P w (Compare a ops) (VBool r).
  Lemma part_holds t r : part t r -> holds t r.
  Proof. intros (a & ops & G & V). exists (Compare a ops). split; [eapply reads_good; exact G|exact V]. Qed.
  Lemma bools_value o es bs : Forall2 (fun e b => gives P w e (VBool b)) es bs -> es <> [] ->
    gives P w (BoolOp o es) (VBool (match o with And => forallb (fun b => b) bs | Or => existsb (fun b => b) bs end)).
  Proof.
    unfold gives. intros F N. rewrite eval_bool. revert N. induction F as [|e b es bs G F IH]; [congruence|]. intros _.
    destruct F as [|e' b' es bs G' F].
    - cbn [map shortcut]. rewrite G. destruct o; cbn; [rewrite andb_true_r|rewrite orb_false_r]; reflexivity.
    - specialize (IH ltac:(discriminate)). cbn [map] in *. cbn [shortcut]. unfold andthen at 1. rewrite G. unfold andthen at 1. cbn [truth].
      destruct o; cbn [neutral forallb existsb]; destruct b; cbn [Bool.eqb]; try reflexivity; cbn [andb orb]; exact IH.
  Qed.
  Lemma parts_hold o t1 r1 parts : part t1 r1 -> Forall (fun p => part (fst p) (snd p)) parts ->
    holds (sep_by [bool_token o] (t1 :: map fst parts))
      (match o with And => forallb (fun b => b) (r1 :: map snd parts) | Or => existsb (fun b => b) (r1 :: map snd parts) end).
  Proof.
    intros P1 F. destruct parts as [|p parts].
    { cbn [map sep_by]. apply part_holds. destruct o; cbn; [rewrite andb_true_r|rewrite orb_false_r]; exact P1. }
    destruct P1 as (a & ops & G & V).
    assert (X : exists es, Forall2 (fun p e => operand_of o (fst p) e) (p :: parts) es /\ Forall2 (fun e b => gives P w e (VBool b)) es (map snd (p :: parts))).
    { clear -F. induction F as [|q l (a & ops & G & V) F IH]; [exists []; split; constructor|]. destruct IH as (es & O & E).
      exists (Compare a ops :: es). split; constructor; auto. eapply compare_operand; [exact G|lia]. }
    destruct X as (es & O & E).
    exists (BoolOp o (Compare a ops :: es)). split.
    - assert (L : exists rest, map fst rest = map fst (p :: parts) /\ map snd rest = es /\ Forall (fun q => operand_of o (fst q) (snd q)) rest).
      { clear -O. induction O as [|q e l es OQ O IH]; [exists []; auto|]. destruct IH as (rest & M1 & M2 & F). exists ((fst q, e) :: rest). cbn [map fst snd]. rewrite M1, M2. auto. }
      destruct L as (rest & M1 & M2 & FO). rewrite <- M1, <- M2.
      eapply reads_good, good_bools; [eapply compare_operand; [exact G|lia]|exact FO|]. intros ->. discriminate M1.
    - apply (bools_value o (Compare a ops :: es) (r1 :: map snd (p :: parts))); [|discriminate]. constructor; assumption.
  Qed.
  (** An operand of a comparison. *)
  Definition side_of (t : text) (z : Z) : Prop := exists e q, good t e q /\ 5 < q /\ is_int P w e z.
  Lemma compare_part c t u i j b : side_of t i -> side_of u j -> decided_by c i j = Some b -> part (t ++ cmp_tokens c ++ u) b.
  Proof.
    intros (e & q & G & L & (v & V & A)) (e' & q' & G' & L' & (v' & V' & A')) D.
    exists e, [(c, e')]. split; [eapply good_compare; eassumption|]. unfold gives. rewrite (eval_compare1 P w c e e' v v' V V').
    eapply ints_compare; eassumption.
  Qed.
  Lemma int_side z : side_of (int_text z) z.
  Proof. exists (int_expr z). eexists. split; [apply good_int|]. split; [destruct (Z.ltb z 0); lia|apply int_value]. Qed.
  Lemma expr_side e z : fine e = true -> tight e = true -> is_int P w e z -> side_of (as_string e) z.
  Proof.
    intros F T I. exists (norm e), (prec e). destruct (fine_split e F). split; [apply round; assumption|]. split; [apply Nat.ltb_lt; exact T|]. apply norm_int; assumption.
  Qed.
  Lemma mod_side t e q z n : good t e q -> 11 <= q -> is_int P w e z -> (0 < n)%Z -> side_of (t ++ [TBin Mod] ++ int_text n) (z mod n).
  Proof.
    intros G L (v & V & A) N. exists (Binary Mod e (int_expr n)), 11. split; [|split; [lia|]].
    - eapply (good_binary Mod); [discriminate|exact G|apply good_int|exact L|]. destruct (Z.ltb_spec n 0); [lia|cbn; lia].
    - destruct (int_value n) as (u & U & B). exists (VInt (z mod n)). split; [|reflexivity]. unfold gives. rewrite (eval_binary P w Mod e _ v u V U).
      unfold binary. rewrite A, B. cbn [int_op]. destruct (Z.eqb_spec n 0); [lia|]. reflexivity.
  Qed.

  Variable H : host.
  Hypothesis CH : closed_host H.
  Hypothesis AG : agrees P H.

  (** ** Few values *)
  Lemma plus_constant e t c z k : value_plus_constant H e = Ok (Some (t, c)) -> fine e = true -> is_int P w e z -> int_sum P w e -> as_int c = Some k ->
    exists u, t = as_string u /\ is_var u = true /\ fine u = true /\ is_int P w u (z - k).
  Proof.
    assert (VAR : forall e, is_var e = true -> fine e = true -> is_int P w e z -> as_int (VInt 0) = Some k -> exists u, as_string e = as_string u /\ is_var u = true /\ fine u = true /\ is_int P w u (z - k)).
    { intros u V F I K. injection K as <-. exists u. rewrite Z.sub_0_r. auto. }
    assert (SUM : forall o a b i j, o = Add \/ o = Sub -> is_int P w (Binary o a b) z -> is_int P w a i -> is_int P w b j -> z = (match o with Add => i + j | _ => i - j end)%Z).
    { intros o a b i j O I A B. eapply is_int_det; [exact I|]. apply gives_int. apply int_binary; assumption. }
    assert (CST : forall c j, is_int P w (Const c) j -> as_int (const_value c) = Some j) by (intros c' j (v & V & A); unfold gives in V; injection V as <-; exact A).
    unfold value_plus_constant. destruct (is_var e) eqn:IV.
    { intros E F I _ K. injection E as <- <-. apply VAR; assumption. }
    destruct e as [x|cc|u a|p a b|p vs|a ops|g args|a x|a i|cc a b|n]; try discriminate.
    intros E F I IS K.
    assert (FB : fine a = true /\ fine b = true).
    { destruct (fine_split _ F) as [W1 N1]. cbn [well_formed no_nested_compare] in W1, N1. apply andb_true_iff in W1, N1. unfold fine. rewrite (proj1 W1), (proj2 W1), (proj1 N1), (proj2 N1). auto. }
    destruct FB as [FA FB].
    assert (RIGHT : forall cb, b = Const cb -> p = Add \/ p = Sub ->
      (if is_var a then (match p with Add => Ok (Some (as_string a, const_value cb)) | _ => do v <- snd (unary (host_python H) Neg (const_value cb) tt); Ok (Some (as_string a, v)) end) else Ok None) = Ok (Some (t, c)) ->
      exists u, t = as_string u /\ is_var u = true /\ fine u = true /\ is_int P w u (z - k)).
    { intros cb -> O E'. destruct (is_var a) eqn:VA; [|discriminate]. destruct O as [-> | ->]; cbn [int_sum] in IS; destruct IS as (i & j & IA & IB).
      - injection E' as <- <-. rewrite (CST _ _ IB) in K. injection K as <-. exists a. rewrite (SUM Add a _ i j (or_introl eq_refl) I IA IB). replace (i + j - j)%Z with i by ring. auto.
      - pose proof (CST _ _ IB) as CB. unfold unary in E'. rewrite CB in E'. cbn [pure snd bind] in E'. injection E' as <- <-. injection K as <-.
        exists a. rewrite (SUM Sub a _ i j (or_intror eq_refl) I IA IB). replace (i - j - - j)%Z with i by ring. auto. }
    assert (LEFT : forall ca, a = Const ca -> p = Add -> (if is_var b then Ok (Some (as_string b, const_value ca)) else Ok None) = Ok (Some (t, c)) ->
      exists u, t = as_string u /\ is_var u = true /\ fine u = true /\ is_int P w u (z - k)).
    { intros ca -> -> E'. destruct (is_var b) eqn:VB; [|discriminate]. cbn [int_sum] in IS. destruct IS as (i & j & IA & IB). injection E' as <- <-.
      rewrite (CST _ _ IA) in K. injection K as <-. exists b. rewrite (SUM Add _ b i j (or_introl eq_refl) I IA IB). replace (i + j - i)%Z with j by ring. auto. }
    destruct p; try discriminate.
    - assert (E' : match b with Const cb => if is_var a then Ok (Some (as_string a, const_value cb)) else Ok None | _ => match a with Const ca => if is_var b then Ok (Some (as_string b, const_value ca)) else Ok None | _ => Ok None end end = Ok (Some (t, c))) by (destruct b, a; exact E).
      clear E. destruct b as [y|cb| | | | | | | | | ]; [|exact (RIGHT cb eq_refl (or_introl eq_refl) E')| | | | | | | | | ]; (destruct a as [y'|ca| | | | | | | | | ]; try discriminate E'; exact (LEFT ca eq_refl eq_refl E')).
    - destruct b; try (destruct a; discriminate E). eapply RIGHT; [reflexivity|auto|]. destruct a; exact E.
  Qed.
  Lemma shifted_side u i k : is_var u = true -> fine u = true -> is_int P w u i -> side_of (shifted (as_string u) k) (i + k).
  Proof.
    intros V F I. destruct (fine_split u F) as [WU _]. pose proof (round u WU) as G. rewrite (is_var_prec u V) in G. unfold shifted.
    destruct (Z.eqb_spec k 0) as [->|N].
    - exists (norm u), 15. rewrite Z.add_0_r. split; [exact G|]. split; [lia|]. apply norm_int; assumption.
    - assert (IA : int_text (Z.abs k) = [TConst (CInt (Z.to_N (Z.abs k)))] /\ int_expr (Z.abs k) = Const (CInt (Z.to_N (Z.abs k)))).
      { unfold int_text, int_expr. destruct (Z.ltb_spec (Z.abs k) 0); [lia|auto]. }
      destruct IA as [-> IE]. pose proof (int_value (Z.abs k)) as IV. rewrite IE in IV.
      exists (Binary (if Z.ltb 0 k then Add else Sub) (norm u) (Const (CInt (Z.to_N (Z.abs k))))), 10.
      pose proof (norm_int P w u i F I) as NI. split; [|split; [lia|]].
      + destruct (Z.ltb 0 k); [apply (good_binary Add _ _ 15 _ _ 15)|apply (good_binary Sub _ _ 15 _ _ 15)]; try discriminate; try exact G; try apply good_const; cbn; lia.
      + destruct (Z.ltb_spec 0 k) as [L|L].
        * pose proof (int_binary P w Add _ _ _ _ (or_introl eq_refl) NI IV) as V1. apply gives_int in V1. replace (i + Z.abs k)%Z with (i + k)%Z in V1 by lia. exact V1.
        * pose proof (int_binary P w Sub _ _ _ _ (or_intror eq_refl) NI IV) as V1. apply gives_int in V1. replace (i - Z.abs k)%Z with (i + k)%Z in V1 by lia. exact V1.
  Qed.
  Definition folds (e : expr) (v : value) : Prop := get_const_value H e = Ok v /\ integer_or_unknown v = true.
  Lemma folds_int e v z i : folds e v -> as_int v = Some z -> is_int P w e i -> z = i.
  Proof. intros [G _] A I. eapply is_int_det; [|exact I]. eapply known_int; eassumption. Qed.
  Lemma values_ok start a stop b s l A B : all_values H start a stop b s = Ok (Some l) -> folds start a -> folds stop b ->
    fine start = true -> fine stop = true -> is_int P w start A -> is_int P w stop B -> int_sum P w start -> int_sum P w stop -> s <> 0%Z ->
    exists zs, Forall2 side_of l zs /\ forall x, existsb (Z.eqb x) zs = true <-> member A B s x.
  Proof.
    intros E FA FB WA WB IA IB SA SB N.
    assert (EX : forall zs x, existsb (Z.eqb x) zs = true <-> List.In x zs).
    { intros zs x. rewrite existsb_exists. split; [intros (y & I & K); apply Z.eqb_eq in K; subst; exact I|]. intro I. exists x. split; [exact I|apply Z.eqb_refl]. }
    destruct a as [|b0|z0|r0|s0|n0]; try (destruct FA as [_ FA]; discriminate FA); destruct b as [|b1|z1|r1|s1|n1]; try (destruct FB as [_ FB]; discriminate FB); cbn [all_values] in E; try discriminate E.
    - destruct (value_plus_constant H start) as [[[v1 c1]|]|] eqn:V1; try discriminate E. cbn [bind] in E.
      destruct (value_plus_constant H stop) as [[[v2 c2]|]|] eqn:V2; try discriminate E. cbn [bind] in E.
      destruct (text_eqb v1 v2) eqn:TE; [|discriminate]. cbn [negb] in E.
      destruct (count_range_values H c1 c2 s) as [n|]; [|discriminate]. cbn [bind] in E. destruct (too_many H n s) as [m|]; [|discriminate]. cbn [bind] in E.
      destruct m; [discriminate|]. unfold to_code in E. destruct (as_int c1) as [k1|] eqn:K1; [|discriminate]. cbn [bind] in E.
      destruct (as_int c2) as [k2|] eqn:K2; [|discriminate]. cbn [bind] in E. injection E as <-.
      destruct (plus_constant start v1 c1 A k1 V1 WA IA SA K1) as (u1 & -> & VU1 & FU1 & IU1). destruct (plus_constant stop v2 c2 B k2 V2 WB IB SB K2) as (u2 & -> & VU2 & FU2 & IU2).
      assert (EQ : (A - k1 = B - k2)%Z).
      { destruct IU1 as (x1 & G1 & I1), IU2 as (x2 & G2 & I2). pose proof (same_text_same u1 u2 FU1 FU2 TE W P w) as S. unfold gives in G1, G2. congruence. }
      exists (map (fun k => A - k1 + k)%Z (range_list k1 k2 s)). split.
      + induction (range_list k1 k2 s) as [|k ks IH]; cbn [map]; constructor; [apply shifted_side; assumption|exact IH].
      + intro x. rewrite EX, in_map_iff. split.
        * intros (k & <- & I). apply (range_members k1 k2 s k N) in I. destruct I as (m & M & -> & U1 & U2). exists m. split; [exact M|]. split; [lia|]. split; intro; [specialize (U1 H0)|specialize (U2 H0)]; lia.
        * intros (m & M & -> & U1 & U2). exists (k1 + m * s)%Z. split; [lia|]. apply (range_members k1 k2 s _ N). exists m. split; [exact M|]. split; [reflexivity|]. split; intro K; [specialize (U1 K)|specialize (U2 K)]; lia.
    - destruct (count_range_values H (VInt z0) (VInt z1) s) as [n|]; [|discriminate]. cbn [bind] in E. destruct (too_many H n s) as [m|]; [|discriminate]. cbn [bind] in E.
      destruct m; [discriminate|]. cbn [to_code as_int bind] in E. injection E as <-.
      pose proof (folds_int _ _ z0 A FA eq_refl IA) as ->. pose proof (folds_int _ _ z1 B FB eq_refl IB) as ->.
      exists (range_list A B s). split.
      + induction (range_list A B s) as [|k ks IH]; cbn [map]; constructor; [apply int_side|exact IH].
      + intro x. rewrite EX. apply range_members. exact N.
  Qed.

  (** ** The suggestion *)
  Variable left : expr.
  Variable x : Z.
  Hypothesis LV : is_var left = true.
  Hypothesis LF : fine left = true.
  Hypothesis LX : gives P w left (VInt x).
  Lemma left_side : side_of (as_string left) x.
  Proof. apply expr_side; [exact LF|unfold tight; rewrite (is_var_prec left LV); reflexivity|]. apply gives_int. exact LX. Qed.
  Lemma left_good : good (as_string left) (norm left) 15.
  Proof. destruct (fine_split left LF) as [WL _]. rewrite <- (is_var_prec left LV). apply round. exact WL. Qed.
  Lemma left_int : is_int P w (norm left) x.
  Proof. apply norm_int; [exact LF|]. apply gives_int. exact LX. Qed.

  Lemma small_holds (is_in : bool) l zs : Forall2 side_of l zs -> l <> [] ->
    holds ((as_string left ++ [TRel (if is_in then Eq else Ne)]) ++ sep_by ((if is_in then TOr else TAnd) :: as_string left ++ [TRel (if is_in then Eq else Ne)]) l)
      (if is_in then existsb (Z.eqb x) zs else negb (existsb (Z.eqb x) zs)).
  Proof.
    intros F N. rewrite sep_prefix by exact N. set (c := if is_in then Eq else Ne). set (o := if is_in then Or else And).
    assert (PT : forall t z, side_of t z -> part ((as_string left ++ [TRel c]) ++ t) (if is_in then Z.eqb x z else negb (Z.eqb x z))).
    { intros t z SD. rewrite <- app_assoc. assert (cmp_tokens c = [TRel c]) as <- by (unfold c; destruct is_in; reflexivity).
      eapply compare_part; [exact left_side|exact SD|]. unfold c. destruct is_in; reflexivity. }
    destruct F as [|t z l zs S1 F]; [congruence|]. cbn [map].
    assert (BT : bool_token o = if is_in then TOr else TAnd) by (unfold o; destruct is_in; reflexivity). rewrite <- BT.
    set (f := fun k => if is_in then Z.eqb x k else negb (Z.eqb x k)).
    assert (X : exists parts : list (text * bool), map fst parts = map (fun t => (as_string left ++ [TRel c]) ++ t) l /\ map snd parts = map f zs /\ Forall (fun p => part (fst p) (snd p)) parts).
    { clear -F PT. induction F as [|t z l zs S1 F IH]; [exists []; auto|]. destruct IH as (parts & M1 & M2 & FP).
      exists (((as_string left ++ [TRel c]) ++ t, f z) :: parts). cbn [map fst snd]. rewrite M1, M2. split; [reflexivity|]. split; [reflexivity|]. constructor; [|exact FP]. apply PT. exact S1. }
    destruct X as (parts & M1 & M2 & FP). rewrite <- M1. pose proof (parts_hold o _ (f z) parts (PT t z S1) FP) as R. rewrite M2 in R.
    replace (if is_in then existsb (Z.eqb x) (z :: zs) else negb (existsb (Z.eqb x) (z :: zs)))
      with (match o with And => forallb (fun b => b) (f z :: map f zs) | Or => existsb (fun b => b) (f z :: map f zs) end); [exact R|].
    change (f z :: map f zs) with (map f (z :: zs)). generalize (z :: zs) as ks. intro ks. unfold o, f. clear. destruct is_in.
    - induction ks as [|k ks IH]; [reflexivity|]. cbn [map existsb]. rewrite IH. reflexivity.
    - induction ks as [|k ks IH]; [reflexivity|]. cbn [map forallb existsb]. rewrite IH, negb_orb. reflexivity.
  Qed.

  Lemma brackets_good e : fine e = true -> tight e = true -> good (brackets e) (norm e) 15.
  Proof.
    intros F T. destruct (fine_split e F) as [WE _]. pose proof (round e WE) as G. apply Nat.ltb_lt in T.
    destruct e; cbn [brackets]; try exact G; try (eapply good_paren; exact G); cbn [prec] in T; try lia. destruct o; cbn in T; lia.
  Qed.
  Definition outcome (is_in : bool) (A B s : Z) (r : bool) : Prop := r = true <-> (if is_in then member A B s x else ~ member A B s x).
  Lemma suggestion_ok (is_in : bool) start a stop b s k t A B : range_suggestion H (as_string left) is_in start a stop b s = Ok (k, t) ->
    folds start a -> folds stop b -> fine start = true -> fine stop = true -> tight start = true -> tight stop = true ->
    is_int P w start A -> is_int P w stop B -> int_sum P w start -> int_sum P w stop -> s <> 0%Z ->
    exists r, holds t r /\ outcome is_in A B s r.
  Proof.
    intros E FA FB WA WB TA TB IA IB SA SB N. unfold range_suggestion in E.
    destruct (all_values H start a stop b s) as [vals|] eqn:AV; [|discriminate]. cbn [bind] in E.
    destruct vals as [l|].
    - destruct (values_ok start a stop b s l A B AV FA FB WA WB IA IB SA SB N) as (zs & F & M).
      assert (OC : outcome is_in A B s (if is_in then existsb (Z.eqb x) zs else negb (existsb (Z.eqb x) zs))).
      { unfold outcome. destruct is_in; [apply M|]. rewrite negb_true_iff. rewrite <- M. destruct (existsb (Z.eqb x) zs); split; congruence. }
      destruct l as [|t0 l].
      + injection E as <- <-. inversion F; subst zs. exists (negb is_in). split.
        * exists (Const (CBool (negb is_in))). split; [eapply reads_good, good_const|reflexivity].
        * destruct is_in; exact OC.
      + injection E as <- <-. eexists. split; [exact (small_holds is_in (t0 :: l) zs F ltac:(discriminate))|exact OC].
    - clear AV.
      assert (SS : side_of (as_string start) A) by (apply expr_side; assumption).
      assert (SP : side_of (as_string stop) B) by (apply expr_side; assumption).
      pose proof left_side as SL.
      set (lo := if Z.ltb s 0 then as_string stop else as_string start). set (hi := if Z.ltb s 0 then as_string start else as_string stop).
      set (zlo := if Z.ltb s 0 then B else A). set (zhi := if Z.ltb s 0 then A else B).
      set (lc := if Z.ltb s 0 then Lt else Le). set (rc := if Z.ltb s 0 then Le else Lt).
      assert (SLO : side_of lo zlo) by (unfold lo, zlo; destruct (Z.ltb s 0); assumption).
      assert (SHI : side_of hi zhi) by (unfold hi, zhi; destruct (Z.ltb s 0); assumption).
      set (conn := if is_in then TAnd else TOr). set (base := if is_in then lo ++ [TRel lc] ++ as_string left ++ [conn] ++ as_string left ++ [TRel rc] ++ hi
        else as_string left ++ [TRel rc] ++ lo ++ [conn] ++ hi ++ [TRel lc] ++ as_string left).
      assert (E' : (if Z.eqb (Z.abs s) 1 then Ok (Plain, base)
        else Ok (Stepped, base ++ [conn] ++ as_string left ++ [TBin Mod] ++ int_text (Z.abs s) ++ [TRel (if is_in then Eq else Ne)] ++
              match a with VInt z => int_text (z mod Z.abs s)%Z | _ => brackets start ++ [TBin Mod] ++ int_text (Z.abs s) end)) = Ok (k, t)).
      { unfold base, conn, lo, hi, lc, rc. destruct (Z.ltb s 0); exact E. }
      clear E. set (n := Z.abs s) in *. assert (NP : (0 < n)%Z) by (unfold n; lia).
      set (b1 := match decided_by lc zlo x with Some b => b | None => false end). set (b2 := match decided_by rc x zhi with Some b => b | None => false end).
      set (o := if is_in then And else Or). assert (BT : bool_token o = conn) by (unfold o, conn; destruct is_in; reflexivity).
      set (p1 := if is_in then lo ++ [TRel lc] ++ as_string left else as_string left ++ [TRel rc] ++ lo).
      set (p2 := if is_in then as_string left ++ [TRel rc] ++ hi else hi ++ [TRel lc] ++ as_string left).
      assert (BE : base = p1 ++ [bool_token o] ++ p2) by (unfold base, p1, p2; rewrite BT; destruct is_in; repeat rewrite <- app_assoc; reflexivity).
      assert (Q1 : part p1 (if is_in then b1 else negb b1)).
      { unfold p1, b1, lc, rc. clear -SL SLO. destruct is_in.
        - assert (TE : [TRel (if Z.ltb s 0 then Lt else Le)] = cmp_tokens (if Z.ltb s 0 then Lt else Le)) by (destruct (Z.ltb s 0); reflexivity). rewrite TE.
          eapply compare_part; [exact SLO|exact SL|]. destruct (Z.ltb s 0); reflexivity.
        - assert (TE : [TRel (if Z.ltb s 0 then Le else Lt)] = cmp_tokens (if Z.ltb s 0 then Le else Lt)) by (destruct (Z.ltb s 0); reflexivity). rewrite TE.
          eapply compare_part; [exact SL|exact SLO|]. destruct (Z.ltb s 0); unfold decided_by; cbn [decide]; f_equal;
          repeat match goal with |- context [Z.ltb ?a ?b] => destruct (Z.ltb_spec a b) | |- context [Z.eqb ?a ?b] => destruct (Z.eqb_spec a b) end; try reflexivity; lia. }
      assert (Q2 : part p2 (if is_in then b2 else negb b2)).
      { unfold p2, b2, lc, rc. clear -SL SHI. destruct is_in.
        - assert (TE : [TRel (if Z.ltb s 0 then Le else Lt)] = cmp_tokens (if Z.ltb s 0 then Le else Lt)) by (destruct (Z.ltb s 0); reflexivity). rewrite TE.
          eapply compare_part; [exact SL|exact SHI|]. destruct (Z.ltb s 0); reflexivity.
        - assert (TE : [TRel (if Z.ltb s 0 then Lt else Le)] = cmp_tokens (if Z.ltb s 0 then Lt else Le)) by (destruct (Z.ltb s 0); reflexivity). rewrite TE.
          eapply compare_part; [exact SHI|exact SL|]. destruct (Z.ltb s 0); unfold decided_by; cbn [decide]; f_equal;
          repeat match goal with |- context [Z.ltb ?a ?b] => destruct (Z.ltb_spec a b) | |- context [Z.eqb ?a ?b] => destruct (Z.eqb_spec a b) end; try reflexivity; lia. }
      set (b3 := Z.eqb (x mod n) (A mod n)).
      assert (MEM : member A B s x <-> b1 = true /\ b2 = true /\ b3 = true).
      { unfold b1, b2, b3, n, zlo, zhi, lc, rc. destruct (Z.ltb_spec s 0) as [L|L]; unfold decided_by; cbn [decide].
        - rewrite (member_down A B s x L). replace (Z.abs s) with (- s)%Z by lia. rewrite Z.ltb_lt, orb_true_iff, Z.ltb_lt, !Z.eqb_eq. lia.
        - rewrite (member_up A B s x ltac:(lia)). replace (Z.abs s) with s by lia. rewrite Z.ltb_lt, orb_true_iff, Z.ltb_lt, !Z.eqb_eq. lia. }
      destruct (Z.eqb_spec n 1) as [N1|N1].
      + injection E' as <- <-.
        assert (B3 : b3 = true) by (unfold b3; rewrite N1, !Z.mod_1_r; reflexivity).
        pose proof (parts_hold o p1 _ [(p2, if is_in then b2 else negb b2)] Q1 ltac:(constructor; [exact Q2|constructor])) as R. cbn [map fst snd sep_by] in R. rewrite <- BE in R.
        eexists. split; [exact R|]. clear -MEM B3. clearbody b1 b2 b3. subst b3. unfold outcome, o. destruct is_in; rewrite MEM; cbn [forallb existsb]; destruct b1, b2; cbn; intuition congruence.
      + injection E' as <- <-.
        assert (S3 : side_of (match a with VInt z => int_text (z mod n) | _ => brackets start ++ [TBin Mod] ++ int_text n end) (A mod n)).
        { assert (GEN : side_of (brackets start ++ [TBin Mod] ++ int_text n) (A mod n)) by (eapply mod_side; [apply brackets_good; assumption|lia|apply norm_int; assumption|exact NP]).
          destruct a as [| |z0| | |]; try exact GEN. rewrite (folds_int _ _ z0 A FA eq_refl IA). apply int_side. }
        set (p3 := as_string left ++ [TBin Mod] ++ int_text n ++ [TRel (if is_in then Eq else Ne)] ++ match a with VInt z => int_text (z mod n) | _ => brackets start ++ [TBin Mod] ++ int_text n end).
        assert (Q3 : part p3 (if is_in then b3 else negb b3)).
        { unfold p3, b3. pose proof (mod_side _ _ _ x n left_good ltac:(lia) left_int NP) as SM.
          replace (as_string left ++ [TBin Mod] ++ int_text n ++ [TRel (if is_in then Eq else Ne)] ++ match a with VInt z => int_text (z mod n) | _ => brackets start ++ [TBin Mod] ++ int_text n end)
            with ((as_string left ++ [TBin Mod] ++ int_text n) ++ cmp_tokens (if is_in then Eq else Ne) ++ match a with VInt z => int_text (z mod n) | _ => brackets start ++ [TBin Mod] ++ int_text n end)
            by (destruct is_in; repeat rewrite <- app_assoc; reflexivity).
          eapply compare_part; [exact SM|exact S3|]. destruct is_in; reflexivity. }
        pose proof (parts_hold o p1 _ [(p2, if is_in then b2 else negb b2); (p3, if is_in then b3 else negb b3)] Q1 ltac:(constructor; [exact Q2|constructor; [exact Q3|constructor]])) as R.
        cbn [map fst snd sep_by] in R. rewrite BE, <- BT. fold p3. rewrite <- !app_assoc.
        eexists. split; [exact R|]. clear -MEM. clearbody b1 b2 b3. unfold outcome, o. destruct is_in; rewrite MEM; cbn [forallb existsb]; destruct b1, b2, b3; cbn; intuition congruence.
  Qed.

  (** ** The original *)
  Lemma args_values args A B s : range_arguments P w args A B s -> exists vs, (forall r, lookup P "range" w = Ok r -> eval P (Call (Name "range") args) w = call P r vs w) /\
    match map as_int vs with
    | [Some y] => A = 0%Z /\ y = B /\ s = 1%Z
    | [Some x; Some y] => x = A /\ y = B /\ s = 1%Z
    | [Some x; Some y; Some z] => x = A /\ y = B /\ z = s
    | _ => False
    end.
  Proof.
    intro R. destruct args as [|p [|q [|r [|u args]]]]; cbn [range_arguments] in R; try (destruct R; fail).
    - destruct R as (-> & (v & V & I) & ->). exists [v]. split.
      + intros g G. unfold gives in V. cbn [eval]. unfold andthen. rewrite G, V. reflexivity.
      + cbn [map]. rewrite I. auto.
    - destruct R as ((v & V & I) & (v' & V' & I') & ->). exists [v; v']. split.
      + intros g G. unfold gives in V, V'. cbn [eval]. unfold andthen. rewrite G, V, V'. reflexivity.
      + cbn [map]. rewrite I, I'. auto.
    - destruct R as ((v & V & I) & (v' & V' & I') & (v'' & V'' & I'')). exists [v; v'; v'']. split.
      + intros g G. unfold gives in V, V', V''. cbn [eval]. unfold andthen. rewrite G, V, V', V''. reflexivity.
      + cbn [map]. rewrite I, I', I''. auto.
  Qed.
  Lemma original_ok (is_in : bool) args A B s : has_range P w -> range_arguments P w args A B s -> s <> 0%Z ->
    exists r, gives P w (Compare left [(if is_in then In else NotIn, Call (Name "range") args)]) (VBool r) /\ outcome is_in A B s r.
  Proof.
    intros (g & L & K) R N. destruct (args_values args A B s R) as (vs & EV & M). destruct (K vs A B s M N) as (o & C & Q). destruct (Q x) as (m & MM & C1 & C2).
    exists (if is_in then m else negb m). split.
    - assert (G : gives P w (Call (Name "range") args) (VObj o)) by (unfold gives; rewrite (EV g L); exact C).
      unfold gives. rewrite (eval_compare1 P w _ left _ (VInt x) (VObj o) LX G). unfold compare. cbn [as_int]. destruct is_in; assumption.
    - unfold outcome. destruct is_in; [exact MM|]. rewrite negb_true_iff, <- MM. destruct m; split; congruence.
  Qed.
  Theorem in_range_ok I only_ints (op : cmpop) args k t A B s : op = In \/ op = NotIn ->
    in_range H I only_ints left [(op, Call (Name "range") args)] = Ok (Some (k, t)) -> has_range P w -> range_arguments P w args A B s ->
    Forall (fun e => fine e = true /\ tight e = true /\ int_sum P w e) args ->
    exists e r, reads t e /\ gives P w e (VBool r) /\ gives P w (Compare left [(op, Call (Name "range") args)]) (VBool r) /\
      (r = true <-> if match op with In => true | _ => false end then member A B s x else ~ member A B s x).
  Proof.
    intros O E HR R F. set (is_in := match op with In => true | _ => false end).
    assert (EO : op = if is_in then In else NotIn) by (unfold is_in; destruct O as [-> | ->]; reflexivity).
    assert (E' : (if negb (is_var left) || negb (only_ints left) then Ok None
      else match get_range_params (Call (Name "range") args) with
        | None => Ok None
        | Some (start, stop, step) =>
            do a <- get_const_value H start; do b <- get_const_value H stop; do s <- get_const_value H step;
            if negb (is_pure_expression I start) || negb (is_pure_expression I stop) then Ok None
            else match s with
              | VInt s => if Z.eqb s 0 || negb (integer_or_unknown a) || negb (integer_or_unknown b) then Ok None
                  else do r <- range_suggestion H (as_string left) is_in start a stop b s; Ok (Some r)
              | _ => Ok None
              end
        end) = Ok (Some (k, t))) by (unfold is_in; destruct O as [-> | ->]; exact E).
    clear E. destruct (_ || _); [discriminate|]. rewrite range_params in E'.
    destruct (params args) as [[[start stop] step]|] eqn:PA; [|discriminate].
    destruct (get_const_value H start) as [a|] eqn:GA; [|discriminate]. destruct (get_const_value H stop) as [b|] eqn:GB; [|discriminate].
    destruct (get_const_value H step) as [sv|] eqn:GS; [|discriminate]. cbn [bind] in E'. destruct (_ || _); [discriminate|].
    destruct sv as [| |s0| | |]; try discriminate. destruct (Z.eqb_spec s0 0) as [|N]; [discriminate|]. cbn [orb] in E'.
    destruct (integer_or_unknown a) eqn:IUA; [|discriminate]. destruct (integer_or_unknown b) eqn:IUB; [|discriminate]. cbn [negb orb] in E'.
    destruct (range_suggestion H (as_string left) is_in start a stop b s0) as [[k' t']|] eqn:RS; [|discriminate]. cbn [bind] in E'. injection E' as -> ->.
    pose proof R as R0. apply (arguments_params P w args start stop step A B s PA) in R. destruct R as (IA & IB & IS).
    pose proof (is_int_det P w step s0 s (known_int H CH step (VInt s0) s0 GS eq_refl W P AG w) IS) as ->.
    assert (FF : forall e, List.In e args \/ (exists m, e = Const (CInt m)) -> fine e = true /\ tight e = true /\ int_sum P w e).
    { rewrite Forall_forall in F. intros e [I0|(m & ->)]; [apply F; exact I0|]. split; [reflexivity|]. split; [reflexivity|exact Logic.I]. }
    assert (ST : (List.In start args \/ (exists m, start = Const (CInt m))) /\ (List.In stop args \/ (exists m, stop = Const (CInt m)))).
    { destruct args as [|p [|q [|r [|u args]]]]; try discriminate PA; injection PA as <- <- <-; split; solve [right; eauto | left; cbn; auto]. }
    destruct (FF _ (proj1 ST)) as (F1 & T1 & S1). destruct (FF _ (proj2 ST)) as (F2 & T2 & S2).
    destruct (suggestion_ok is_in start a stop b s k t A B RS (conj GA IUA) (conj GB IUB) F1 F2 T1 T2 IA IB S1 S2 N) as (r & (e & RD & G) & OC).
    destruct (original_ok is_in args A B s HR R0 N) as (r' & G' & OC').
    assert (r = r') as ->. { unfold outcome in OC, OC'. destruct r, r'; try reflexivity; [assert (false = true) by tauto|assert (false = true) by tauto]; discriminate. }
    exists e, r'. split; [exact RD|]. split; [exact G|]. split; [rewrite EO; exact G'|exact OC'].
  Qed.
End Range.
