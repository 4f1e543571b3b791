(** Proofs about the messages about single expressions: numbers. *)
From Coq Require Import String Ascii List Bool Arith NArith ZArith Lia.
From Verif Require Import Base PyModel PySpec PyProofs IfModel IfSpec IfProofs FoldModel FoldSpec FoldProofs TypeModel LocalModel LocalSpec.
Import ListNotations.
Local Open Scope string_scope.
Local Open Scope list_scope.

(** ** Ranges *)
Lemma member_up a b s x : (0 < s)%Z -> member a b s x <-> (a <= x < b /\ x mod s = a mod s)%Z.
Proof.
  intro S0. split.
  - intros (k & K & -> & U & _). specialize (U S0). split; [nia|]. rewrite Z_mod_plus_full. reflexivity.
  - intros [R M]. exists ((x - a) / s)%Z.
    assert (D : ((x - a) mod s = 0)%Z) by (rewrite Zminus_mod, M, Z.sub_diag; apply Zmod_0_l).
    pose proof (Z_div_mod_eq_full (x - a) s) as E. rewrite D in E.
    split; [apply Z.div_pos; lia|]. split; [lia|]. split; lia.
Qed.
Lemma member_down a b s x : (s < 0)%Z -> member a b s x <-> (b < x <= a /\ x mod (- s) = a mod (- s))%Z.
Proof.
  intro S0. split.
  - intros (k & K & -> & _ & U). specialize (U S0). split; [nia|].
    replace (a + k * s)%Z with (a + (- k) * (- s))%Z by ring. rewrite Z_mod_plus_full. reflexivity.
  - intros [R M]. exists ((a - x) / (- s))%Z.
    assert (D : ((a - x) mod (- s) = 0)%Z) by (rewrite Zminus_mod, M, Z.sub_diag; apply Zmod_0_l).
    pose proof (Z_div_mod_eq_full (a - x) (- s)) as E. rewrite D in E.
    split; [apply Z.div_pos; lia|]. split; [lia|]. split; lia.
Qed.
Lemma range_members a b s x : s <> 0%Z -> List.In x (range_list a b s) <-> member a b s x.
Proof.
  intro N. unfold range_list. rewrite in_map_iff. destruct (Z.ltb_spec 0 s) as [P|P].
  - split.
    + intros (k & <- & I). apply in_seq in I. exists (Z.of_nat k). split; [lia|]. split; [lia|]. split; [|lia]. intros _.
      assert (Z.of_nat k < (b - a + s - 1) / s)%Z by lia.
      assert (Z.of_nat k * s <= b - a - 1)%Z; [|lia].
      pose proof (Z.mul_div_le (b - a + s - 1) s P). nia.
    + intros (k & K & -> & U & _). specialize (U P). exists (Z.to_nat k). split; [rewrite Z2Nat.id by lia; reflexivity|]. apply in_seq. split; [lia|].
      assert (k < (b - a + s - 1) / s)%Z; [|lia].
      assert (k + 1 <= (b - a + s - 1) / s)%Z; [|lia]. apply Z.div_le_lower_bound; [lia|]. nia.
  - assert (Q : (0 < - s)%Z) by lia. split.
    + intros (k & <- & I). apply in_seq in I. exists (Z.of_nat k). split; [lia|]. split; [lia|]. split; [lia|]. intros _.
      assert (Z.of_nat k < (a - b - s - 1) / - s)%Z by lia.
      pose proof (Z.mul_div_le (a - b - s - 1) (- s) Q). nia.
    + intros (k & K & -> & _ & U). specialize (U ltac:(lia)). exists (Z.to_nat k). split; [rewrite Z2Nat.id by lia; reflexivity|]. apply in_seq. split; [lia|].
      assert (k < (a - b - s - 1) / - s)%Z; [|lia].
      assert (k + 1 <= (a - b - s - 1) / - s)%Z; [|lia]. apply Z.div_le_lower_bound; [lia|]. nia.
Qed.

(** ** Constants *)
Section Known.
  Variable H : host.
  Hypothesis CH : closed_host H.
  Lemma known_int e v z : get_const_value H e = Ok v -> as_int v = Some z -> forall W (P : python W), agrees P H -> forall w, is_int P w e z.
  Proof.
    intros G A W P AG w. exists v. split; [|exact A]. unfold gives. eapply folded_value; eauto. intros ->. discriminate.
  Qed.
  Lemma is_int_det {W} (P : python W) w e z z' : is_int P w e z -> is_int P w e z' -> z = z'.
  Proof. intros (v & G & A) (v' & G' & A'). unfold gives in *. congruence. Qed.

  (** ** Iterations *)
  Definition verdict (a b s : Z) : option iterations :=
    if (Z.ltb 0 s && Z.leb b a) || (Z.ltb s 0 && Z.leb a b) then Some NoIterations
    else if (Z.ltb 0 s && Z.leb b (a + s)) || (Z.ltb s 0 && Z.leb (a + s) b) then Some OneIteration else None.
  Lemma verdict_none a b s : s <> 0%Z -> verdict a b s = Some NoIterations <-> forall x, ~ member a b s x.
  Proof.
    intro N. unfold verdict. destruct (Z.lt_trichotomy 0 s) as [P|[P|P]]; [|congruence|].
    - destruct (Z.leb_spec b a) as [L|L].
      + replace (Z.ltb 0 s) with true by (symmetry; apply Z.ltb_lt; lia). cbn. split; [|reflexivity]. intros _ x M. apply member_up in M; lia.
      + replace (Z.ltb s 0) with false by (symmetry; apply Z.ltb_ge; lia). rewrite andb_false_r. cbn.
        split; [destruct (_ || _); discriminate|]. intro K. destruct (K a). apply member_up; [lia|]. split; [lia|reflexivity].
    - replace (Z.ltb 0 s) with false by (symmetry; apply Z.ltb_ge; lia). replace (Z.ltb s 0) with true by (symmetry; apply Z.ltb_lt; lia). cbn.
      destruct (Z.leb_spec a b) as [L|L].
      + split; [|reflexivity]. intros _ x M. apply member_down in M; lia.
      + split; [destruct (Z.leb _ _); discriminate|]. intro K. destruct (K a). apply member_down; [lia|]. split; [lia|reflexivity].
  Qed.
  Lemma verdict_one a b s : s <> 0%Z -> verdict a b s = Some OneIteration <-> exists x, forall y, member a b s y <-> y = x.
  Proof.
    intro N.
    assert (AM : (exists x, forall y, member a b s y <-> y = x) -> member a b s a).
    { intros (x & U). pose proof (proj2 (U x) eq_refl) as M. destruct (Z.lt_trichotomy 0 s) as [P|[P|P]]; [|congruence|].
      - apply member_up in M; [|exact P]. apply member_up; [exact P|]. split; [lia|reflexivity].
      - apply member_down in M; [|exact P]. apply member_down; [exact P|]. split; [lia|reflexivity]. }
    unfold verdict. destruct (Z.lt_trichotomy 0 s) as [P|[P|P]]; [|congruence|].
    - replace (Z.ltb 0 s) with true by (symmetry; apply Z.ltb_lt; lia). replace (Z.ltb s 0) with false by (symmetry; apply Z.ltb_ge; lia). cbn. rewrite !orb_false_r.
      destruct (Z.leb_spec b a) as [L|L].
      + split; [discriminate|]. intro K. apply AM in K. apply member_up in K; lia.
      + destruct (Z.leb_spec b (a + s)) as [L2|L2].
        * split; [|reflexivity]. intros _. exists a. intro y. split.
          -- intros (k & K & -> & U & _). specialize (U P). assert (k = 0)%Z by nia. subst k. ring.
          -- intros ->. apply member_up; [exact P|]. split; [lia|reflexivity].
        * split; [discriminate|]. intro K. pose proof (AM K) as A. destruct K as (x & U). apply U in A.
          assert (B : member a b s (a + s)) by (exists 1%Z; repeat split; lia). apply U in B. lia.
    - replace (Z.ltb 0 s) with false by (symmetry; apply Z.ltb_ge; lia). replace (Z.ltb s 0) with true by (symmetry; apply Z.ltb_lt; lia). cbn.
      destruct (Z.leb_spec a b) as [L|L].
      + split; [discriminate|]. intro K. apply AM in K. apply member_down in K; lia.
      + destruct (Z.leb_spec (a + s) b) as [L2|L2].
        * split; [|reflexivity]. intros _. exists a. intro y. split.
          -- intros (k & K & -> & _ & U). specialize (U P). assert (k = 0)%Z by nia. subst k. ring.
          -- intros ->. apply member_down; [exact P|]. split; [lia|reflexivity].
        * split; [discriminate|]. intro K. pose proof (AM K) as A. destruct K as (x & U). apply U in A.
          assert (B : member a b s (a + s)) by (exists 1%Z; repeat split; lia). apply U in B. lia.
  Qed.

  Definition params (args : list expr) : option (expr * expr * expr) :=
    match args with
    | [b] => Some (Const (CInt 0), b, Const (CInt 1))
    | [a; b] => Some (a, b, Const (CInt 1))
    | [a; b; s] => Some (a, b, s)
    | _ => None
    end.
  Lemma range_params args : get_range_params (Call (Name "range") args) = params args.
  Proof. reflexivity. Qed.
  Lemma const_is_int {W} (P : python W) w n : is_int P w (Const (CInt n)) (Z.of_N n).
  Proof. exists (VInt (Z.of_N n)). split; reflexivity. Qed.
  Lemma arguments_params {W} (P : python W) w args x y z a b s :
    params args = Some (x, y, z) -> range_arguments P w args a b s <-> is_int P w x a /\ is_int P w y b /\ is_int P w z s.
  Proof.
    intro E. destruct args as [|p [|q [|r [|u args]]]]; try discriminate E; injection E as <- <- <-; cbn [range_arguments].
    - split.
      + intros (-> & B & ->). split; [apply const_is_int|]. split; [exact B|apply const_is_int].
      + intros (A & B & S). split; [eapply is_int_det; [exact A|apply const_is_int]|]. split; [exact B|]. eapply is_int_det; [exact S|apply const_is_int].
    - split.
      + intros (A & B & ->). split; [exact A|]. split; [exact B|apply const_is_int].
      + intros (A & B & S). split; [exact A|]. split; [exact B|]. eapply is_int_det; [exact S|apply const_is_int].
    - reflexivity.
  Qed.
  Theorem reported_count args k : iteration_count H (Call (Name "range") args) = Ok (Some k) -> forall W (P : python W), agrees P H -> forall w,
    exists a b s, range_arguments P w args a b s /\ (s <> 0)%Z /\
      match k with
      | NoIterations => forall x, ~ member a b s x
      | OneIteration => exists x, forall y, member a b s y <-> y = x
      end.
  Proof.
    unfold iteration_count. rewrite range_params. intros E W P AG w. destruct (params args) as [[[x y] z]|] eqn:PA; [|discriminate].
    destruct (get_const_value H x) as [va|] eqn:X; [|discriminate]. destruct (get_const_value H y) as [vb|] eqn:Y; [|discriminate].
    destruct (get_const_value H z) as [vs|] eqn:Z; [|discriminate]. cbn [bind] in E.
    destruct (as_int va) as [a|] eqn:A; [|discriminate]. destruct (as_int vb) as [b|] eqn:B; [|discriminate]. destruct (as_int vs) as [s|] eqn:S; [|discriminate].
    assert (V : verdict a b s = Some k) by (unfold verdict; congruence). clear E. exists a, b, s. split; [|].
    - apply (arguments_params P w args x y z a b s PA). split; [|split]; eapply known_int; eauto.
    - assert (N : s <> 0%Z) by (intros ->; discriminate V). split; [exact N|]. destruct k; [apply verdict_none|apply verdict_one]; assumption.
  Qed.
  Theorem count_exact args : Forall (known H) args -> forall W (P : python W) w a b s, agrees P H -> range_arguments P w args a b s -> s <> 0%Z ->
    exists r, iteration_count H (Call (Name "range") args) = Ok r /\
      (r = Some NoIterations <-> forall x, ~ member a b s x) /\
      (r = Some OneIteration <-> exists x, forall y, member a b s y <-> y = x).
  Proof.
    intros F W P w a b s AG R N. unfold iteration_count. rewrite range_params.
    destruct (params args) as [[[x y] z]|] eqn:PA; [|destruct args as [|p [|q [|r [|u args]]]]; try discriminate PA; destruct R].
    apply (arguments_params P w args x y z a b s PA) in R. destruct R as (A & B & S).
    assert (K : forall e n, (known H e \/ exists m, e = Const (CInt m)) -> is_int P w e n -> exists v, get_const_value H e = Ok v /\ as_int v = Some n).
    { intros e n [(v & G & NV)|(m & ->)] (u & U & UI); [|exists u; unfold gives in U; injection U as <-; split; [reflexivity|exact UI]].
      exists v. split; [exact G|]. pose proof (folded_value H CH e v G NV W P AG w) as V. unfold gives in U. congruence. }
    assert (KX : (known H x \/ exists m, x = Const (CInt m)) /\ (known H y \/ exists m, y = Const (CInt m)) /\ (known H z \/ exists m, z = Const (CInt m))).
    { rewrite Forall_forall in F. destruct args as [|p [|q [|r [|u args]]]]; try discriminate PA; injection PA as <- <- <-;
      (split; [|split]); solve [right; eauto | left; apply F; cbn; auto]. }
    destruct KX as (KX & KY & KZ). destruct (K _ _ KX A) as (va & -> & AV). destruct (K _ _ KY B) as (vb & -> & BV). destruct (K _ _ KZ S) as (vs & -> & SV).
    cbn [bind]. rewrite AV, BV, SV. exists (verdict a b s). split; [reflexivity|]. split; [apply verdict_none|apply verdict_one]; exact N.
  Qed.

  (** ** Redundant arithmetic *)
  Definition folded_int {W} (P : python W) (w : W) (e : expr) (v : value) (i : Z) : Prop := v = VNone \/ as_int v = Some i.
  Lemma folded_operand {W} (P : python W) w e v i : agrees P H -> get_const_value H e = Ok v -> is_int P w e i -> folded_int P w e v i.
  Proof.
    intros AG G (u & U & UI). assert (v = VNone \/ v <> VNone) as [|NV] by (destruct v; auto; right; discriminate); [left; assumption|right].
    pose proof (folded_value H CH e v G NV W P AG w) as V. unfold gives in U. congruence.
  Qed.
  Lemma equals_int {W} (P : python W) w e n v i : folded_int P w e v i -> equals n v = true -> i = n.
  Proof.
    intros [->|A] E; [discriminate|]. destruct v; cbn in A, E; try discriminate; injection A as <-; apply Z.eqb_eq in E; exact E.
  Qed.
  Theorem redundant_value o a b : redundant_binary H o a b = Ok true -> o <> Div -> fine a = true -> fine b = true ->
    forall W (P : python W) w i j v, agrees P H -> is_int P w a i -> is_int P w b j -> gives P w (Binary o a b) v ->
    exists z, as_int v = Some z /\ (z = 0 \/ z = 1 \/ z = i \/ z = j \/ z = - i \/ z = - j)%Z.
  Proof.
    unfold redundant_binary. intros R ND FA FB W P w i j v AG A B G.
    destruct (get_const_value H a) as [lv|] eqn:LA; [|discriminate]. destruct (get_const_value H b) as [rv|] eqn:RB; [|discriminate]. cbn [bind] in R. injection R as R.
    pose proof (folded_operand P w a lv i AG LA A) as FL. pose proof (folded_operand P w b rv j AG RB B) as FR.
    destruct A as (va & GA & IA), B as (vb & GB & IB).
    assert (SAME : text_eqb (as_string a) (as_string b) = true -> i = j).
    { intro T. pose proof (same_text_same a b FA FB T W P w) as S. unfold gives in GA, GB. congruence. }
    unfold gives in G, GA, GB. cbn [eval] in G. unfold andthen in G. rewrite GA, GB in G. unfold binary in G. rewrite IA, IB in G.
    assert (Z0 : forall u k, folded_int P w a u k -> zero_or_empty u = true -> k = 0%Z).
    { intros u k F Q. unfold zero_or_empty in Q. apply orb_true_iff in Q. destruct Q as [Q|Q]; [eapply equals_int; eassumption|]. destruct u; try discriminate Q. destruct F as [F|F]; discriminate. }
    assert (Z01 : forall u k, folded_int P w a u k -> zero_or_one_value u = true -> k = 0%Z \/ k = 1%Z).
    { intros u k F Q. unfold zero_or_one_value in Q. apply orb_true_iff in Q. destruct Q as [Q|Q]; [left|right]; eapply equals_int; eassumption. }
    assert (VAL : forall z, bool_result o va vb z = v -> (match o with BitAnd | BitOr | BitXor => False | _ => True end) -> as_int v = Some z).
    { intros z <- NB. destruct o; try destruct NB; reflexivity. }
    destruct o; cbn [is_redundant] in R; try discriminate R; try congruence; cbn [int_op] in G.
    - (* + *) injection G as G. exists (i + j)%Z. split; [apply VAL; [exact G|exact I]|]. apply orb_true_iff in R. destruct R as [R|R]; [apply (Z0 _ _ FL) in R|apply (Z0 _ _ FR) in R]; subst; lia.
    - (* - *) injection G as G. exists (i - j)%Z. split; [apply VAL; [exact G|exact I]|].
      apply orb_true_iff in R. destruct R as [R|R]; [apply (equals_int _ _ _ _ _ _ FL) in R|apply (equals_int _ _ _ _ _ _ FR) in R]; subst; lia.
    - (* * *) injection G as G. exists (i * j)%Z. split; [apply VAL; [exact G|exact I]|]. apply orb_true_iff in R. destruct R as [R|R]; [apply (Z01 _ _ FL) in R|apply (Z01 _ _ FR) in R]; destruct R; subst; lia.
    - (* // *) apply SAME in R. subst j. destruct (Z.eqb_spec i 0); [discriminate|]. injection G as G. exists (i / i)%Z. split; [apply VAL; [exact G|exact I]|]. rewrite Z_div_same_full by assumption. auto.
    - (* % *) apply SAME in R. subst j. destruct (Z.eqb_spec i 0); [discriminate|]. injection G as G. exists (i mod i)%Z. split; [apply VAL; [exact G|exact I]|]. rewrite Z_mod_same_full. auto.
    - (* ** *) apply (Z01 _ _ FR) in R. exists (i ^ j)%Z. split.
      + apply VAL; [|exact I]. destruct R; subst j; cbn [Z.leb Z.compare] in G; unfold pure in G; congruence.
      + destruct R; subst j; [rewrite Z.pow_0_r|rewrite Z.pow_1_r]; auto.
  Qed.
End Known.

(** ** Repeated operations *)
Lemma binop_eqb_eq a b : binop_eqb a b = true -> a = b.
Proof. destruct a, b; cbn; congruence. Qed.

Definition leaf (o : binop) (e : expr) : Prop := operands o e = [e].
Lemma operands_ne o e : operands o e <> [].
Proof.
  induction e; cbn [operands]; try discriminate. destruct (binop_eqb o0 o); [|discriminate].
  intro K. apply app_eq_nil in K. destruct K as [K _]. exact (IHe1 K).
Qed.
Lemma repeated_named o n e : exists r, repeated_rec o e (Some n) = Ok r /\
  match r with Some (_, m) => m = Some n /\ Forall (fun x => as_string x = n) (operands o e) | None => True end.
Proof.
  assert (L : forall e, operands o e = [e] -> (exists r, Ok (if text_eqb n (as_string e) then Some (1%nat, Some (as_string e)) else None) = Ok r /\
    match r with Some (_, m) => m = Some n /\ Forall (fun x => as_string x = n) (operands o e) | None => True end)).
  { intros x E. eexists. split; [reflexivity|]. destruct (text_eqb n (as_string x)) eqn:T; [|exact I]. apply text_eqb_eq in T. rewrite E, T. split; [reflexivity|]. repeat constructor. }
  induction e as [x|c|u a IHa|p a IHa b IHb|p vs|a IHa ops|g IHg args|a IHa x|a IHa i IHi|c IHc a IHa b IHb|k]; try (match goal with |- context [repeated_rec o ?z _] => exact (L z eq_refl) end).
  cbn [repeated_rec operands]. destruct (binop_eqb p o); cbn [negb]; [|exists None; auto].
  destruct IHa as (ra & -> & A). cbn [bind]. destruct ra as [[ca ma]|]; [|exists None; auto]. destruct A as [-> A]. cbn [same_name].
  assert (T : text_eqb n n = true). { clear. induction n as [|t n IH]; [reflexivity|]. cbn. rewrite IH, andb_true_r. destruct t; cbn; try reflexivity; try apply String.eqb_refl; try apply Nat.eqb_refl.
    - destruct c; cbn; try reflexivity; try apply String.eqb_refl; [apply Bool.eqb_reflx|apply N.eqb_refl].
    - destruct o; reflexivity.
    - destruct c; reflexivity. }
  rewrite T. cbn [negb]. destruct IHb as (rb & -> & B). cbn [bind]. destruct rb as [[cb mb]|]; [|exists None; auto]. destruct B as [-> B].
  eexists. split; [reflexivity|]. split; [reflexivity|]. apply Forall_app. auto.
Qed.
Definition first_two (o : binop) (e : expr) : Prop := exists x y rest, operands o e = x :: y :: rest /\ as_string x = as_string y.
Lemma repeated_unnamed o e : exists r, repeated_rec o e None = Ok r /\
  match r with
  | Some (_, m) => (m = Some (as_string e) /\ leaf o e) \/ (m = None /\ first_two o e /\
      forall a b, e = Binary o a b -> leaf o a -> Forall (fun x => as_string x = as_string a) (operands o b))
  | None => True
  end.
Proof.
  induction e as [x|c|u a IHa|p a IHa b IHb|p vs|a IHa ops|g IHg args|a IHa x|a IHa i IHi|c IHc a IHa b IHb|k];
    try (cbn [repeated_rec named]; eexists; (split; [reflexivity|]); first [exact I | left; split; reflexivity]).
  cbn [repeated_rec]. destruct (binop_eqb p o) eqn:PO; cbn [negb]; [|exists None; auto]. apply binop_eqb_eq in PO. subst p.
  destruct IHa as (ra & -> & A). cbn [bind]. destruct ra as [[ca ma]|]; [|exists None; auto]. cbn [same_name negb].
  assert (OO : operands o (Binary o a b) = operands o a ++ operands o b) by (cbn [operands]; destruct o; reflexivity).
  destruct A as [[-> L]|(-> & (x & y & rest & E & XY) & _)].
  - destruct (repeated_named o (as_string a) b) as (rb & -> & B). cbn [bind]. destruct rb as [[cb mb]|]; [|exists None; auto]. destruct B as [-> B].
    eexists. split; [reflexivity|]. right. split; [reflexivity|]. split.
    + unfold first_two. rewrite OO, L. destruct (operands o b) as [|y rest] eqn:OB; [destruct (operands_ne o b OB)|].
      exists a, y, rest. split; [reflexivity|]. inversion B as [|? ? Y _]; subst. symmetry. exact Y.
    + intros a' b' E _. injection E as <- <-. exact B.
  - destruct IHb as (rb & -> & B). cbn [bind]. destruct rb as [[cb mb]|]; [|exists None; auto].
    eexists. split; [reflexivity|]. right. split; [reflexivity|]. split.
    + unfold first_two. rewrite OO, E. cbn [List.app]. exists x, y, (rest ++ operands o b). auto.
    + intros a' b' E' L. injection E' as <- <-. unfold leaf in L. rewrite E in L. discriminate.
Qed.
Theorem repeated_ends e : exists r, repeated_operation e = Ok r.
Proof.
  destruct e; cbn [repeated_operation]; eauto. destruct o; cbn [repeated_operation]; eauto.
  - destruct (repeated_unnamed Add (Binary Add e1 e2)) as (r & -> & _). cbn [bind]. eauto.
  - destruct (repeated_unnamed Mul (Binary Mul e1 e2)) as (r & -> & _). cbn [bind]. eauto.
Qed.
Lemma repeated_inv e : repeated_operation e = Ok true -> exists o a b, e = Binary o a b /\ first_two o e /\
  (leaf o a -> Forall (fun x => as_string x = as_string a) (operands o b)).
Proof.
  destruct e as [x|c|u a|p a b|p vs|a ops|g args|a x|a i|c a b|k]; try discriminate. intro E.
  assert (O : (p = Add \/ p = Mul) /\ exists x, repeated_rec p (Binary p a b) None = Ok (Some x)).
  { destruct p; try discriminate E; (split; [auto|]); cbn [repeated_operation] in E;
      (destruct (repeated_rec _ _ None) as [[x|]|]; cbn [bind] in E; try discriminate E; exists x; reflexivity). }
  destruct O as (_ & [c m] & O). destruct (repeated_unnamed p (Binary p a b)) as (r & R & K). rewrite O in R. injection R as <-.
  exists p, a, b. split; [reflexivity|]. destruct K as [[_ L]|(_ & F & A)].
  - unfold leaf in L. assert (OO : operands p (Binary p a b) = operands p a ++ operands p b) by (cbn [operands]; destruct p; reflexivity).
    rewrite OO in L. pose proof (operands_ne p a) as NA. pose proof (operands_ne p b) as NB. destruct (operands p a) as [|u l]; [congruence|]. destruct (operands p b); [congruence|].
    destruct l; discriminate L.
  - split; [exact F|]. intro L. exact (A a b eq_refl L).
Qed.
Theorem repeated_first e : repeated_operation e = Ok true -> exists o x y rest, (o = Add \/ o = Mul) /\ operands o e = x :: y :: rest /\ as_string x = as_string y.
Proof.
  intro R. destruct (repeated_inv e R) as (o & a & b & -> & (x & y & rest & E & XY) & _). exists o, x, y, rest.
  split; [|auto]. destruct o; try discriminate R; auto.
Qed.
Theorem repeated_right o a b : repeated_operation (Binary o a b) = Ok true -> operands o a = [a] -> Forall (fun x => as_string x = as_string a) (operands o (Binary o a b)).
Proof.
  intros R L. destruct (repeated_inv _ R) as (o' & a' & b' & E & _ & F). injection E as <- <- <-.
  cbn [operands]. replace (binop_eqb o o) with true by (destruct o; reflexivity). rewrite L. constructor; [reflexivity|]. apply F. exact L.
Qed.

(** ** Integral division *)
Lemma quot_floor i j : j <> 0%Z -> Z.quot i j = (i / j)%Z <-> (0 <= i * j)%Z \/ (j | i)%Z.
Proof.
  intro N. pose proof (Z.quot_rem i j N) as Q. pose proof (Z_div_mod_eq_full i j) as D. split.
  - intro E. rewrite <- E in D. assert (R : Z.rem i j = (i mod j)%Z) by lia.
    destruct (Z_dec (i mod j) 0) as [[L|L]|Z0].
    + left. assert (j < 0)%Z by (destruct (Z_lt_le_dec 0 j) as [p|]; [pose proof (Z.mod_pos_bound i j p)|]; lia).
      assert (i <= 0)%Z; [|nia]. destruct (Z_le_gt_dec i 0); [assumption|]. pose proof (Z.rem_nonneg i j N ltac:(lia)). lia.
    + left. assert (0 < j)%Z by (destruct (Z_lt_le_dec j 0) as [p|]; [pose proof (Z.mod_neg_bound i j p)|]; lia).
      assert (0 <= i)%Z; [|nia]. destruct (Z_le_gt_dec 0 i); [assumption|]. pose proof (Z.rem_nonpos i j N ltac:(lia)). lia.
    + right. apply Z.mod_divide; assumption.
  - intros [S|Dv].
    + destruct (Z_lt_le_dec 0 j) as [P|P].
      * apply Z.quot_div_nonneg; nia.
      * rewrite <- (Z.quot_opp_opp i j N), <- (Z.div_opp_opp i j N). apply Z.quot_div_nonneg; nia.
    + destruct Dv as (k & ->). rewrite Z.quot_mul, Z.div_mul by assumption. reflexivity.
Qed.
Lemma eval_call1 {W} (P : python W) f e w r v : lookup P f w = Ok r -> gives P w e v -> eval P (Call (Name f) [e]) w = call P r [v] w.
Proof. intros L G. unfold gives in G. cbn [eval]. unfold andthen at 1. rewrite L. unfold andthen at 1 2. rewrite G. reflexivity. Qed.
Lemma eval_binary {W} (P : python W) w o a b v u : gives P w a v -> gives P w b u -> eval P (Binary o a b) w = binary P o v u w.
Proof. unfold gives. intros A B. cbn [eval]. unfold andthen. rewrite A, B. reflexivity. Qed.
Lemma eval_compare1 {W} (P : python W) w c a b v u : gives P w a v -> gives P w b u -> eval P (Compare a [(c, b)]) w = compare P c v u w.
Proof. unfold gives. intros A B. cbn [eval]. unfold andthen. rewrite A, B. reflexivity. Qed.

Theorem division_same a b {W} (P : python W) w i j : has_int P w -> gives P w a (VInt i) -> gives P w b (VInt j) -> j <> 0%Z ->
  (eval P (Call (Name "int") [Binary Div a b]) w = eval P (Binary FloorDiv a b) w <-> (0 <= i * j)%Z \/ (j | i)%Z).
Proof.
  intros (r & L & D) A B N. destruct (D i j N) as (q & Q & C).
  assert (G : gives P w (Binary Div a b) q).
  { unfold gives. rewrite (eval_binary P w Div a b _ _ A B). unfold binary. cbn [as_int int_op]. destruct (Z.eqb_spec j 0); [congruence|]. exact Q. }
  rewrite (eval_call1 P "int" _ w r q L G), C, (eval_binary P w FloorDiv a b _ _ A B). unfold binary. cbn [as_int int_op].
  destruct (Z.eqb_spec j 0); [congruence|]. cbn [bool_result pure]. rewrite <- (quot_floor i j N). unfold pure. split; [congruence|intros ->; reflexivity].
Qed.
Theorem division_rounds a {W} (P : python W) w : has_float P w -> gives P w a (VInt 9007199254740993) ->
  gives P w (Call (Name "int") [Binary Div a (Const (CInt 1))]) (VInt 9007199254740992) /\
  gives P w (Binary FloorDiv a (Const (CInt 1))) (VInt 9007199254740993).
Proof.
  intros (r & L & D) A. assert (B : gives P w (Const (CInt 1)) (VInt 1)) by reflexivity.
  destruct (D 9007199254740993%Z ltac:(lia)) as (q & Q & C). unfold gives. split.
  - assert (G : gives P w (Binary Div a (Const (CInt 1))) q) by (unfold gives; rewrite (eval_binary P w Div a _ _ _ A B); exact Q).
    rewrite (eval_call1 P "int" _ w r q L G), C. reflexivity.
  - rewrite (eval_binary P w FloorDiv a _ _ _ A B). reflexivity.
Qed.
