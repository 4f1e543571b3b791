(** Proofs about the messages about letters and their codes. *)
From Coq Require Import String Ascii List Bool Arith NArith ZArith Lia.
From Verif Require Import Base PyModel PySpec PyProofs IfModel IfSpec IfProofs FoldModel FoldSpec FoldProofs TypeModel LocalModel LocalSpec TextProofs LocalProofs.
Import ListNotations.
Local Open Scope string_scope.
Local Open Scope list_scope.

Lemma chr_code z : (0 <= z < 256)%Z -> Z.of_nat (nat_of_ascii (chr z)) = z.
Proof. intro R. unfold chr, nat_of_ascii. rewrite N_ascii_embedding by lia. lia. Qed.
Lemma chr_is z c : (0 <= z < 256)%Z -> Ascii.eqb (chr z) c = true -> z = Z.of_nat (nat_of_ascii c).
Proof. intros R E. apply Ascii.eqb_eq in E. rewrite <- E. symmetry. apply chr_code. exact R. Qed.
Lemma preferred_codes z : (0 <= z < 256)%Z -> is_preferred z = true -> List.In z [97; 122; 65; 90; 48; 57]%Z.
Proof.
  unfold is_preferred. intros R E. cbn [existsb] in E.
  repeat (apply orb_true_iff in E; destruct E as [E|E]; [apply chr_is in E; [|exact R]; cbn in E; cbn; lia|]). discriminate.
Qed.
Lemma letter_text z : (0 <= z < 256)%Z -> plain_letter z -> letter z = [TConst (CStr (String (chr z) ""))].
Proof.
  intros R [N1 N2]. unfold letter. destruct (Ascii.eqb (chr z) "'") eqn:E1; [apply chr_is in E1; [|exact R]; vm_compute in E1; lia|].
  destruct (Ascii.eqb (chr z) "\") eqn:E2; [apply chr_is in E2; [|exact R]; vm_compute in E2; lia|]. reflexivity.
Qed.
Definition ord_call (z : Z) : expr := Call (Name "ord") [Const (CStr (String (chr z) ""))].
Lemma good_ord z : (0 <= z < 256)%Z -> plain_letter z -> good (ord_letter z) (ord_call z) 15.
Proof.
  intros R PL. unfold ord_letter. rewrite (letter_text z R PL). exact (good_call1 _ _ _ _ _ (good_name "ord") (good_const (CStr (String (chr z) "")))).
Qed.
Lemma ord_value {W} (P : python W) w z : has_ord P w -> (0 <= z < 256)%Z -> gives P w (ord_call z) (VInt z).
Proof.
  intros (r & L & C) R. unfold gives, ord_call. rewrite (eval_call1 P "ord" (Const (CStr (String (chr z) ""))) w r (VStr (String (chr z) "")) L eq_refl).
  rewrite C, (chr_code z R). reflexivity.
Qed.
Lemma preferred_plain z : (0 <= z < 256)%Z -> is_preferred z = true -> plain_letter z.
Proof. intros R E. apply preferred_codes in E; [|exact R]. unfold plain_letter. cbn in E. lia. Qed.

(** ** Sums *)
Section Sums.
  Context {W : Type}.
  Variable P : python W.
  Variable w : W.
  Lemma int_binary o a b i j : o = Add \/ o = Sub -> is_int P w a i -> is_int P w b j -> gives P w (Binary o a b) (VInt (match o with Add => i + j | _ => i - j end)%Z).
  Proof.
    intros O (v & A & I) (u & B & J). unfold gives. rewrite (eval_binary P w o a b v u A B). unfold binary. rewrite I, J. destruct O as [-> | ->]; reflexivity.
  Qed.
  Lemma gives_int e z : gives P w e (VInt z) -> is_int P w e z.
  Proof. intro G. exists (VInt z). auto. Qed.
  Lemma norm_int e z : fine e = true -> is_int P w e z -> is_int P w (norm e) z.
  Proof. intros F (v & G & I). exists v. split; [|exact I]. unfold gives. rewrite (norm_same e F W P w). exact G. Qed.

  (** The suggestion as an expression. *)
  Definition plus_one (k : Z) (e : expr) : expr :=
    match k with 0%Z => e | Z.pos _ => Binary Add e (Const (CInt 1)) | Z.neg _ => Binary Sub e (Const (CInt 1)) end.
  Lemma one_message H o p c s m msgs : use_ord_one H o p c s = Ok msgs -> List.In m msgs ->
    exists v z br l k, get_const_value H c = Ok v /\ as_int v = Some z /\ (32 <= z < 127)%Z /\ z = (l + k)%Z /\ (k = 0 \/ k = 1 \/ k = -1)%Z /\
      (k <> 0%Z -> plain_letter l) /\ (k = 0%Z -> br = false) /\
      m = (s, z, if (br : bool) then paren (ord_letter l ++ match k with 0 => [] | Z.pos _ => [TBin Add; TConst (CInt 1)] | _ => [TBin Sub; TConst (CInt 1)] end%Z)
                 else (ord_letter l ++ match k with 0 => [] | Z.pos _ => [TBin Add; TConst (CInt 1)] | _ => [TBin Sub; TConst (CInt 1)] end%Z)) /\
      (k = 1%Z -> o = Sub -> s = RightSide -> br = true) /\ (k = (-1)%Z -> before_bound z) /\
      (br = true -> k = 1%Z \/ s = LeftSide).
  Proof.
    unfold use_ord_one. intros E I. destruct (get_const_value H c) as [v|]; [|discriminate]. cbn [bind] in E. injection E as <-.
    destruct (as_int v) as [z|] eqn:A; [|destruct I]. exists v, z. unfold in_suggestable_range in I.
    destruct (Z.leb_spec 32 z) as [L|]; [|destruct I]. destruct (Z.ltb_spec z 127) as [U|]; [|destruct I]. cbn [andb negb orb] in I.
    destruct (contains_ord p); [|destruct I]. cbn [negb] in I.
    assert (NP : z <> 95%Z -> True) by auto.
    destruct (is_preferred (z + 1)) eqn:P1.
    - destruct I as [<-|[]]. exists (match o, s with Add, LeftSide => true | _, _ => false end), (z + 1)%Z, (-1)%Z.
      refine (conj _ (conj _ (conj _ (conj _ (conj _ (conj _ (conj _ (conj _ (conj _ (conj _ _)))))))))); try reflexivity; try assumption; try lia; try (intros; lia).
      + intros _. apply preferred_plain; [lia|assumption].
      + intros _. apply preferred_codes in P1; [|lia]. unfold before_bound. cbn in P1 |- *. lia.
      + destruct o, s; try discriminate. auto.
    - destruct (is_preferred (z - 1)) eqn:P2.
      + destruct I as [<-|[]]. exists (match o, s with Sub, RightSide => true | _, _ => false end), (z - 1)%Z, 1%Z.
        refine (conj _ (conj _ (conj _ (conj _ (conj _ (conj _ (conj _ (conj _ (conj _ (conj _ _)))))))))); try reflexivity; try assumption; try lia; try (intros; lia).
        * intros _. apply preferred_plain; [lia|assumption].
        * intros _ -> ->. reflexivity.
      + destruct (_ || _); [|destruct I]. destruct I as [<-|[]]. exists false, z, 0%Z.
        refine (conj _ (conj _ (conj _ (conj _ (conj _ (conj _ (conj _ (conj _ (conj _ (conj _ _)))))))))); try reflexivity; try assumption; try lia; try (intros; lia).
        * rewrite app_nil_r. reflexivity.
  Qed.
  Lemma good_piece l k : (0 <= l < 256)%Z -> plain_letter l -> (k = 0 \/ k = 1 \/ k = -1)%Z ->
    good (ord_letter l ++ match k with 0 => [] | Z.pos _ => [TBin Add; TConst (CInt 1)] | _ => [TBin Sub; TConst (CInt 1)] end%Z) (plus_one k (ord_call l)) (if Z.eqb k 0 then 15 else 10).
  Proof.
    intros R PL [->|[->| ->]]; cbn [plus_one Z.eqb].
    - rewrite app_nil_r. apply good_ord; assumption.
    - apply (good_binary Add _ _ 15 _ _ 15); [discriminate|apply good_ord; assumption|apply good_const|cbn; lia|cbn; lia].
    - apply (good_binary Sub _ _ 15 _ _ 15); [discriminate|apply good_ord; assumption|apply good_const|cbn; lia|cbn; lia].
  Qed.
  Lemma piece_value l k : has_ord P w -> (0 <= l < 256)%Z -> (k = 0 \/ k = 1 \/ k = -1)%Z -> is_int P w (plus_one k (ord_call l)) (l + k).
  Proof.
    intros HO R [->|[->| ->]]; cbn [plus_one].
    - rewrite Z.add_0_r. apply gives_int, ord_value; assumption.
    - apply gives_int. apply (int_binary Add); [auto|apply gives_int, ord_value; assumption|apply const_is_int].
    - apply gives_int. exact (int_binary Sub (ord_call l) (Const (CInt 1)) l 1 (or_intror eq_refl) (gives_int _ _ (ord_value P w l HO R)) (const_is_int P w 1)).
  Qed.
  Theorem ord_message H o a b msgs s z t : closed_host H -> agrees P H -> has_ord P w -> use_ord_letter H o a b = Ok msgs -> List.In (s, z, t) msgs ->
    fine a = true -> fine b = true -> plain_letter z -> ~ (o = Sub /\ s = RightSide /\ before_bound z) ->
    (exists i, is_int P w (match s with LeftSide => b | RightSide => a end) i) ->
    exists e, reads (replaced o a b s t) e /\ eval P e w = eval P (Binary o a b) w.
  Proof.
    intros CH AG HO U I FA FB PL NB (i & IV). unfold use_ord_letter in U.
    assert (O : o = Add \/ o = Sub) by (destruct o; try (injection U as <-; destruct I); auto).
    assert (U' : (do x <- use_ord_one H o a b RightSide; do y <- use_ord_one H o b a LeftSide; Ok (x ++ y)) = Ok msgs) by (destruct O as [-> | ->]; exact U).
    clear U. destruct (use_ord_one H o a b RightSide) as [ms1|] eqn:M1; [|discriminate]. cbn [bind] in U'.
    destruct (use_ord_one H o b a LeftSide) as [ms2|] eqn:M2; [|discriminate]. cbn [bind] in U'. injection U' as <-. apply in_app_iff in I.
    assert (PO : prec (Binary o a b) = 10) by (destruct O as [-> | ->]; reflexivity).
    assert (BP : bin_prec o = 10) by (destruct O as [-> | ->]; reflexivity).
    assert (NPW : o <> Pow) by (destruct O as [-> | ->]; discriminate).
    destruct (fine_split a FA) as [WA _], (fine_split b FB) as [WB _].
    pose proof (good_wrap 10 (prec a) false _ _ (round a WA)) as GA. pose proof (wraps_level 10 (prec a) false ltac:(lia)) as LA.
    pose proof (good_wrap 10 (prec b) true _ _ (round b WB)) as GB. pose proof (wraps_level_same 10 (prec b) ltac:(lia)) as LB.
    destruct I as [I|I].
    - destruct (one_message _ _ _ _ _ _ _ M1 I) as (v & z' & br & l & k & G & A & R & EZ & K & PLL & BR0 & EM & S1 & B1 & B2). injection EM as ES EZZ ET; subst s t; rewrite <- EZZ in *; clear EZZ z' I. cbn [replaced]. rewrite PO.
      pose proof (known_int H CH b v z G A W P AG w) as IB.
      assert (PL' : plain_letter l) by (destruct (Z.eq_dec k 0) as [->|NK]; [replace l with z by lia; exact PL|apply PLL; exact NK]).
      assert (RL : (0 <= l < 256)%Z) by lia.
      pose proof (good_piece l k RL PL' K) as GP. pose proof (piece_value l k HO RL K) as PV. rewrite <- EZ in PV.
      assert (VAL : forall x, is_int P w x z -> eval P (Binary o (norm a) x) w = eval P (Binary o a b) w).
      { intros x X. pose proof (int_binary o a b i z O IV IB) as V1. pose proof (int_binary o (norm a) x i z O (norm_int a i FA IV) X) as V2. unfold gives in V1, V2. congruence. }
      destruct br eqn:BR.
      + exists (Binary o (norm a) (plus_one k (ord_call l))). split; [|apply VAL; exact PV].
        eapply reads_good, good_binary; [exact NPW|exact GA|eapply good_paren; exact GP|rewrite BP; exact LA|rewrite BP; lia].
      + destruct K as [->|[->| ->]].
        * exists (Binary o (norm a) (plus_one 0 (ord_call l))). split; [|apply VAL; exact PV].
          eapply reads_good, good_binary; [exact NPW|exact GA|exact GP|rewrite BP; exact LA|rewrite BP; cbn; lia].
        * assert (o = Add) as -> by (destruct O as [|OS]; [assumption|discriminate (S1 eq_refl OS eq_refl)]).
          exists (Binary Add (Binary Add (norm a) (ord_call l)) (Const (CInt 1))). split.
          -- pose proof (good_binary Add _ _ _ _ _ _ NPW GA (good_ord l RL PL') LA ltac:(cbn; lia)) as G1.
             pose proof (good_binary Add _ _ _ _ _ _ NPW G1 (good_const (CInt 1)) ltac:(cbn; lia) ltac:(cbn; lia)) as G2.
             rewrite <- app_assoc in G2. eapply reads_good. exact G2.
          -- pose proof (int_binary Add a b i z O IV IB) as V1. unfold gives in V1. rewrite V1.
             pose proof (int_binary Add (norm a) (ord_call l) i l O (norm_int a i FA IV) (gives_int _ _ (ord_value P w l HO RL))) as V2.
             pose proof (int_binary Add _ (Const (CInt 1)) (i + l)%Z 1 O (gives_int _ _ V2) (const_is_int P w 1)) as V3. unfold gives in V3. rewrite V3. do 3 f_equal. lia.
        * assert (o = Add) as -> by (destruct O as [|OS]; [assumption|destruct NB; auto]).
          exists (Binary Sub (Binary Add (norm a) (ord_call l)) (Const (CInt 1))). split.
          -- pose proof (good_binary Add _ _ _ _ _ _ NPW GA (good_ord l RL PL') LA ltac:(cbn; lia)) as G1.
             pose proof (good_binary Sub _ _ _ _ _ _ ltac:(discriminate) G1 (good_const (CInt 1)) ltac:(cbn; lia) ltac:(cbn; lia)) as G2.
             rewrite <- app_assoc in G2. eapply reads_good. exact G2.
          -- pose proof (int_binary Add a b i z O IV IB) as V1. unfold gives in V1. rewrite V1.
             pose proof (int_binary Add (norm a) (ord_call l) i l O (norm_int a i FA IV) (gives_int _ _ (ord_value P w l HO RL))) as V2.
             pose proof (int_binary Sub _ (Const (CInt 1)) (i + l)%Z 1 (or_intror eq_refl) (gives_int _ _ V2) (const_is_int P w 1)) as V3. unfold gives in V3. rewrite V3. do 3 f_equal. lia.
    - destruct (one_message _ _ _ _ _ _ _ M2 I) as (v & z' & br & l & k & G & A & R & EZ & K & PLL & BR0 & EM & S1 & B1 & B2). injection EM as ES EZZ ET; subst s t; rewrite <- EZZ in *; clear EZZ z' I. cbn [replaced]. rewrite PO.
      pose proof (known_int H CH a v z G A W P AG w) as IA.
      assert (PL' : plain_letter l) by (destruct (Z.eq_dec k 0) as [->|NK]; [replace l with z by lia; exact PL|apply PLL; exact NK]).
      assert (RL : (0 <= l < 256)%Z) by lia.
      pose proof (good_piece l k RL PL' K) as GP. pose proof (piece_value l k HO RL K) as PV. rewrite <- EZ in PV.
      exists (Binary o (plus_one k (ord_call l)) (norm b)). split.
      + eapply reads_good. destruct br.
        * eapply good_binary; [exact NPW|eapply good_paren; exact GP|exact GB|rewrite BP; lia|rewrite BP; exact LB].
        * eapply good_binary; [exact NPW|exact GP|exact GB|rewrite BP; destruct (Z.eqb k 0); lia|rewrite BP; exact LB].
      + pose proof (int_binary o a b z i O IA IV) as V1. pose proof (int_binary o _ (norm b) z i O PV (norm_int b i FB IV)) as V2. unfold gives in V1, V2. congruence.
  Qed.
End Sums.

(** ** Comparisons *)
Section Comparisons.
  Context {W : Type}.
  Variable P : python W.
  Variable w : W.
  Definition code (c : ascii) : Z := Z.of_nat (nat_of_ascii c).
  Definition decided_by (c : cmpop) (x y : Z) : option bool := decide c (Z.ltb x y) (Z.eqb x y).
  Lemma letters_compare c l d b : decided_by c (code l) (code d) = Some b -> compare P c (VStr (String l "")) (VStr (String d "")) w = (w, Ok (VBool b)).
  Proof.
    unfold decided_by, compare. cbn [as_int]. intro E.
    assert (L : str_ltb (String l "") (String d "") = Z.ltb (code l) (code d)).
    { cbn [str_ltb]. unfold code. destruct (Nat.eqb_spec (nat_of_ascii l) (nat_of_ascii d)) as [->|N]; [symmetry; apply Z.ltb_irrefl|].
      destruct (Nat.ltb_spec (nat_of_ascii l) (nat_of_ascii d)), (Z.ltb_spec (Z.of_nat (nat_of_ascii l)) (Z.of_nat (nat_of_ascii d))); try reflexivity; lia. }
    assert (Q : String.eqb (String l "") (String d "") = Z.eqb (code l) (code d)).
    { unfold code. destruct (Z.eqb_spec (Z.of_nat (nat_of_ascii l)) (Z.of_nat (nat_of_ascii d))) as [K|K].
      - assert (l = d) as -> by (rewrite <- (ascii_nat_embedding l), <- (ascii_nat_embedding d); f_equal; lia). apply String.eqb_refl.
      - apply String.eqb_neq. intro X. injection X as ->. congruence. }
    rewrite L, Q, E. reflexivity.
  Qed.
  Lemma ints_compare c v u x y b : as_int v = Some x -> as_int u = Some y -> decided_by c x y = Some b -> compare P c v u w = (w, Ok (VBool b)).
  Proof. unfold decided_by, compare. intros -> -> ->. reflexivity. Qed.
  (** The letter of the message, one away from the constant when the operator changes. *)
  Lemma changed_first c z d : ordering c = true ->
    (match c with Lt | Ge => true | _ => false end = true -> decided_by (change c) (z + 1) d = decided_by c z d) /\
    (match c with Gt | Le => true | _ => false end = true -> decided_by (change c) (z - 1) d = decided_by c z d).
  Proof.
    unfold decided_by. destruct c; cbn; intro O; (split; intro M); try discriminate; f_equal;
      repeat match goal with |- context [Z.ltb ?a ?b] => destruct (Z.ltb_spec a b) | |- context [Z.eqb ?a ?b] => destruct (Z.eqb_spec a b) end; try reflexivity; lia.
  Qed.
  Lemma changed_last c z d : ordering c = true ->
    (match c with Gt | Le => true | _ => false end = true -> decided_by (change c) d (z + 1) = decided_by c d z) /\
    (match c with Lt | Ge => true | _ => false end = true -> decided_by (change c) d (z - 1) = decided_by c d z).
  Proof.
    unfold decided_by. destruct c; cbn; intro O; (split; intro M); try discriminate; f_equal;
      repeat match goal with |- context [Z.ltb ?a ?b] => destruct (Z.ltb_spec a b) | |- context [Z.eqb ?a ?b] => destruct (Z.eqb_spec a b) end; try reflexivity; lia.
  Qed.
  Lemma decided_some c x y : ordering c = true -> exists b, decided_by c x y = Some b.
  Proof. unfold decided_by. destruct c; cbn; try discriminate; eauto. Qed.
  Lemma ordering_change c : ordering c = true -> ordering (change c) = true.
  Proof. destruct c; cbn; congruence. Qed.

  Variable H : host.
  Hypothesis CH : closed_host H.
  Hypothesis AG : agrees P H.
  Lemma suggestable_int v z : as_int v = Some z -> suggestable H v = Ok (in_suggestable_range z).
  Proof.
    intro A. unfold suggestable, compare. cbn [as_int]. rewrite A. cbn [decide pure snd bind const_truth]. unfold in_suggestable_range.
    destruct (Z.ltb_spec 32 z), (Z.eqb_spec 32 z), (Z.leb_spec 32 z); cbn [orb andb]; try lia; reflexivity.
  Qed.
  Lemma first_inv param op other m : first_letter H param op other = Ok m -> forall z t, List.In (z, t) m ->
    exists v l op', get_const_value H param = Ok v /\ as_int v = Some z /\ (32 <= z < 127)%Z /\ t = letter l ++ cmp_tokens op' /\ (31 <= l <= 127)%Z /\
      (l <> z -> plain_letter l) /\ (ordering op = true -> ordering op' = true /\ forall d, decided_by op' l d = decided_by op z d).
  Proof.
    unfold first_letter. destruct (get_const_value H param) as [v|] eqn:G; [|discriminate]. cbn [bind].
    intros E z t I.
    assert (E' : (do s <- suggestable H v; if negb s then Ok [] else do z <- to_code v;
       Ok (if is_preferred (z + 1) && (match op with Lt | Ge => true | _ => false end) then [(z, letter (z + 1) ++ cmp_tokens (change op))]
            else if is_preferred (z - 1) && (match op with Gt | Le => true | _ => false end) then [(z, letter (z - 1) ++ cmp_tokens (change op))]
            else if negb (contains_ord other) || negb (is_binop other) || is_preferred z then [(z, letter z ++ cmp_tokens op)]
            else [])) = Ok m) by (destruct v; try exact E; injection E as <-; destruct I).
    clear E. destruct (suggestable H v) as [s|] eqn:SG; [|discriminate]. cbn [bind] in E'. destruct s; cbn [negb] in E'; [|injection E' as <-; destruct I].
    unfold to_code in E'. destruct (as_int v) as [z0|] eqn:A; [|discriminate]. cbn [bind] in E'. injection E' as <-.
    rewrite (suggestable_int v z0 A) in SG. injection SG as SG. unfold in_suggestable_range in SG. apply andb_true_iff in SG. destruct SG as [S1 S2].
    apply Z.leb_le in S1. apply Z.ltb_lt in S2.
    destruct (is_preferred (z0 + 1) && _) eqn:B1; [|destruct (is_preferred (z0 - 1) && _) eqn:B2; [|destruct (_ || _)]]; try contradiction; destruct I as [I|[]]; injection I as <- <-.
    - apply andb_true_iff in B1. destruct B1 as [B1 OP]. exists v, (z0 + 1)%Z, (change op). refine (conj _ (conj _ (conj _ (conj _ (conj _ _))))); [reflexivity|assumption|lia|reflexivity|lia|].
      split; [intros _; apply preferred_plain; [lia|assumption]|]. intro O. split; [apply ordering_change; exact O|]. intro d. apply (proj1 (changed_first op z0 d O)). exact OP.
    - apply andb_true_iff in B2. destruct B2 as [B2 OP]. exists v, (z0 - 1)%Z, (change op). refine (conj _ (conj _ (conj _ (conj _ (conj _ _))))); [reflexivity|assumption|lia|reflexivity|lia|].
      split; [intros _; apply preferred_plain; [lia|assumption]|]. intro O. split; [apply ordering_change; exact O|]. intro d. apply (proj2 (changed_first op z0 d O)). exact OP.
    - exists v, z0, op. refine (conj _ (conj _ (conj _ (conj _ (conj _ _))))); [reflexivity|assumption|lia|reflexivity|lia|]. split; [congruence|]. intro O. split; [exact O|]. reflexivity.
  Qed.
  Lemma last_inv param op other m : last_letter H param op other = Ok m -> forall z t, List.In (z, t) m ->
    exists v l op', get_const_value H param = Ok v /\ as_int v = Some z /\ (32 <= z < 127)%Z /\ t = cmp_tokens op' ++ letter l /\ (31 <= l <= 127)%Z /\
      (l <> z -> plain_letter l) /\ (ordering op = true -> ordering op' = true /\ forall d, decided_by op' d l = decided_by op d z).
  Proof.
    unfold last_letter. destruct (get_const_value H param) as [v|] eqn:G; [|discriminate]. cbn [bind].
    intros E z t I.
    assert (E' : (do s <- suggestable H v; if negb s then Ok [] else do z <- to_code v;
       Ok (if is_preferred (z + 1) && (match op with Gt | Le => true | _ => false end) then [(z, cmp_tokens (change op) ++ letter (z + 1))]
            else if is_preferred (z - 1) && (match op with Lt | Ge => true | _ => false end) then [(z, cmp_tokens (change op) ++ letter (z - 1))]
            else if negb (contains_ord other) || negb (is_binop other) || is_preferred z then [(z, cmp_tokens op ++ letter z)]
            else [])) = Ok m) by (destruct v; try exact E; injection E as <-; destruct I).
    clear E. destruct (suggestable H v) as [s|] eqn:SG; [|discriminate]. cbn [bind] in E'. destruct s; cbn [negb] in E'; [|injection E' as <-; destruct I].
    unfold to_code in E'. destruct (as_int v) as [z0|] eqn:A; [|discriminate]. cbn [bind] in E'. injection E' as <-.
    rewrite (suggestable_int v z0 A) in SG. injection SG as SG. unfold in_suggestable_range in SG. apply andb_true_iff in SG. destruct SG as [S1 S2].
    apply Z.leb_le in S1. apply Z.ltb_lt in S2.
    destruct (is_preferred (z0 + 1) && _) eqn:B1; [|destruct (is_preferred (z0 - 1) && _) eqn:B2; [|destruct (_ || _)]]; try contradiction; destruct I as [I|[]]; injection I as <- <-.
    - apply andb_true_iff in B1. destruct B1 as [B1 OP]. exists v, (z0 + 1)%Z, (change op). refine (conj _ (conj _ (conj _ (conj _ (conj _ _))))); [reflexivity|assumption|lia|reflexivity|lia|].
      split; [intros _; apply preferred_plain; [lia|assumption]|]. intro O. split; [apply ordering_change; exact O|]. intro d. apply (proj1 (changed_last op z0 d O)). exact OP.
    - apply andb_true_iff in B2. destruct B2 as [B2 OP]. exists v, (z0 - 1)%Z, (change op). refine (conj _ (conj _ (conj _ (conj _ (conj _ _))))); [reflexivity|assumption|lia|reflexivity|lia|].
      split; [intros _; apply preferred_plain; [lia|assumption]|]. intro O. split; [apply ordering_change; exact O|]. intro d. apply (proj2 (changed_last op z0 d O)). exact OP.
    - exists v, z0, op. refine (conj _ (conj _ (conj _ (conj _ (conj _ _))))); [reflexivity|assumption|lia|reflexivity|lia|]. split; [congruence|]. intro O. split; [exact O|]. reflexivity.
  Qed.

  Hypothesis HO : has_ord P w.
  Lemma ord_of x d : gives P w x (VStr (String d "")) -> gives P w (Call (Name "ord") [x]) (VInt (code d)).
  Proof. destruct HO as (r & L & C). intro G. unfold gives. rewrite (eval_call1 P "ord" x w r _ L G). apply C. Qed.
  Lemma norm_gives e v : fine e = true -> gives P w e v -> gives P w (norm e) v.
  Proof. intros F G. unfold gives. rewrite (norm_same e F W P w). exact G. Qed.
  Lemma plain_of z l : plain_letter z -> (l <> z -> plain_letter l) -> plain_letter l.
  Proof. intros PL K. destruct (Z.eq_dec l z) as [->|N]; auto. Qed.
  Lemma compare_inv left ops msgs s z t : ord_compare H left ops = Ok msgs -> List.In (s, z, t) msgs ->
    match s with
    | LeftSide => exists op other rest m, ops = (op, other) :: rest /\ first_letter H left op other = Ok m /\ List.In (z, t) m
    | RightSide => exists op param m, last_op ops = Some (op, param) /\ last_letter H param op (before_last left ops) = Ok m /\ List.In (z, t) m
    end.
  Proof.
    unfold ord_compare. destruct (negb _); [intro E; injection E as <-; intros []|]. destruct ops as [|[op other] rest]; [discriminate|].
    destruct (last_op ((op, other) :: rest)) as [[op' param]|] eqn:LO; [|discriminate].
    destruct (first_letter H left op other) as [mx|] eqn:MX; [|discriminate]. cbn [bind]. destruct (last_letter H param op' _) as [my|] eqn:MY; [|discriminate]. cbn [bind].
    intros E I. injection E as <-. apply in_app_iff in I. destruct I as [I|I]; apply in_map_iff in I; destruct I as ([z' t'] & E & I); cbn [fst snd] in E; injection E as <- <- <-.
    - exists op, other, rest, mx. auto.
    - exists op', param, my. auto.
  Qed.
  Theorem first_same left op x rest msgs z t : ord_compare H left ((op, Call (Name "ord") [x]) :: rest) = Ok msgs -> List.In (LeftSide, z, t) msgs ->
    ordering op = true -> plain_letter z -> fine x = true -> tight x = true -> one_letter P w x ->
    exists e, reads (t ++ as_string x) e /\ eval P e w = eval P (Compare left [(op, Call (Name "ord") [x])]) w.
  Proof.
    intros E I O PL F T (d & G). destruct (compare_inv _ _ _ _ _ _ E I) as (op0 & other & rest0 & m & EO & FL & IM). injection EO as <- <- <-.
    destruct (first_inv _ _ _ _ FL _ _ IM) as (v & l & op' & GC & A & R & -> & RL & PLL & D). destruct (D O) as [O' D']. clear D.
    pose proof (plain_of z l PL PLL) as PL'. rewrite (letter_text l ltac:(lia) PL'), <- app_assoc.
    destruct (fine_split x F) as [WX _]. apply Nat.ltb_lt in T.
    exists (Compare (Const (CStr (String (chr l) ""))) [(op', norm x)]). split.
    - eapply reads_good, (good_compare op' _ _ 15 _ _ (prec x)); [apply good_const|apply round; exact WX|lia|exact T].
    - destruct (known_int H CH left v z GC A W P AG w) as (v' & GV & A'). 
      rewrite (eval_compare1 P w op left _ v' (VInt (code d)) GV (ord_of x d G)).
      rewrite (eval_compare1 P w op' (Const (CStr (String (chr l) ""))) _ (VStr (String (chr l) "")) (VStr (String d "")) eq_refl (norm_gives x _ F G)).
      destruct (decided_some op z (code d) O) as (b & B). rewrite (ints_compare op v' (VInt (code d)) z (code d) b A' eq_refl B).
      apply letters_compare. unfold code at 1. rewrite chr_code by lia. rewrite D'. exact B.
  Qed.
  Theorem last_same left pre op param x msgs z t : ord_compare H left (pre ++ [(op, param)]) = Ok msgs -> List.In (RightSide, z, t) msgs ->
    last (map snd pre) left = Call (Name "ord") [x] ->
    ordering op = true -> plain_letter z -> fine x = true -> tight x = true -> one_letter P w x ->
    exists e, reads (as_string x ++ t) e /\ eval P e w = eval P (Compare (Call (Name "ord") [x]) [(op, param)]) w.
  Proof.
    intros E I LA O PL F T (d & G). destruct (compare_inv _ _ _ _ _ _ E I) as (op0 & param0 & m & EO & FL & IM).
    unfold last_op in EO. rewrite rev_app_distr in EO. cbn in EO. injection EO as <- <-.
    destruct (last_inv _ _ _ _ FL _ _ IM) as (v & l & op' & GC & A & R & -> & RL & PLL & D). destruct (D O) as [O' D']. clear D.
    pose proof (plain_of z l PL PLL) as PL'. rewrite (letter_text l ltac:(lia) PL').
    destruct (fine_split x F) as [WX _]. apply Nat.ltb_lt in T.
    exists (Compare (norm x) [(op', Const (CStr (String (chr l) "")))]). split.
    - eapply reads_good, (good_compare op' _ _ (prec x) _ _ 15); [apply round; exact WX|apply good_const|exact T|lia].
    - destruct (known_int H CH param v z GC A W P AG w) as (v' & GV & A').
      rewrite (eval_compare1 P w op _ param (VInt (code d)) v' (ord_of x d G) GV).
      rewrite (eval_compare1 P w op' _ (Const (CStr (String (chr l) ""))) (VStr (String d "")) (VStr (String (chr l) "")) (norm_gives x _ F G) eq_refl).
      destruct (decided_some op (code d) z O) as (b & B). rewrite (ints_compare op (VInt (code d)) v' (code d) z b eq_refl A' B).
      apply letters_compare. replace (code (chr l)) with l by (unfold code; rewrite chr_code by lia; reflexivity). rewrite D'. exact B.
  Qed.
End Comparisons.

(** ** No exceptions *)
Lemma first_ends H param op other : int_or_unknown H param -> exists m, first_letter H param op other = Ok m.
Proof.
  intros (v & G & K). unfold first_letter. rewrite G. cbn [bind]. destruct K as [->|(z & A)]; [eauto|].
  assert (X : forall f : Z -> list (Z * text), exists m, (do s <- suggestable H v; if negb s then Ok [] else do z <- to_code v; Ok (f z)) = Ok m).
  { intro f. rewrite (suggestable_int H v z A). cbn [bind]. destruct (in_suggestable_range z); cbn [negb]; [|eauto]. unfold to_code. rewrite A. cbn [bind]. eauto. }
  destruct v; try discriminate A; match goal with |- exists m, (do s <- _; if negb s then _ else do z <- _; Ok (@?f z)) = _ => exact (X f) end.
Qed.
Lemma last_ends H param op other : int_or_unknown H param -> exists m, last_letter H param op other = Ok m.
Proof.
  intros (v & G & K). unfold last_letter. rewrite G. cbn [bind]. destruct K as [->|(z & A)]; [eauto|].
  assert (X : forall f : Z -> list (Z * text), exists m, (do s <- suggestable H v; if negb s then Ok [] else do z <- to_code v; Ok (f z)) = Ok m).
  { intro f. rewrite (suggestable_int H v z A). cbn [bind]. destruct (in_suggestable_range z); cbn [negb]; [|eauto]. unfold to_code. rewrite A. cbn [bind]. eauto. }
  destruct v; try discriminate A; match goal with |- exists m, (do s <- _; if negb s then _ else do z <- _; Ok (@?f z)) = _ => exact (X f) end.
Qed.
Theorem ord_compare_ends H left ops : ops <> [] -> Forall (int_or_unknown H) (left :: map snd ops) -> exists m, ord_compare H left ops = Ok m.
Proof.
  intros NE F. unfold ord_compare. destruct (negb _); [eauto|]. rewrite Forall_forall in F.
  destruct ops as [|[op other] rest] eqn:EO; [congruence|]. destruct (last_op ((op, other) :: rest)) as [[op' param]|] eqn:LO.
  - destruct (first_ends H left op other) as (mx & ->); [apply F; left; reflexivity|]. cbn [bind].
    destruct (last_ends H param op' (before_last left ((op, other) :: rest))) as (my & ->); [|cbn [bind]; eauto].
    apply F. right. unfold last_op in LO. destruct (rev ((op, other) :: rest)) as [|p r] eqn:RV; [discriminate|]. injection LO as ->.
    apply (in_map snd _ (op', param)). apply in_rev. rewrite RV. left. reflexivity.
  - unfold last_op in LO. destruct (rev ((op, other) :: rest)) eqn:RV; [|discriminate]. apply (f_equal (@length _)) in RV. rewrite rev_length in RV. discriminate.
Qed.
