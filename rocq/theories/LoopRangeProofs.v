(** Proofs about ranges whose first or last element is skipped. *)
From Coq Require Import String List Bool Arith NArith ZArith Lia.
From Verif Require Import Base PyModel PySpec PyProofs IfModel IfSpec IfProofs SmallProofs FoldModel FoldSpec FoldProofs TypeModel LocalSpec IterSpec IterProofs LoopModel LoopSpec LoopProofs.
Import ListNotations.
Local Open Scope string_scope.
Local Open Scope list_scope.

(** ** Ranges *)
Lemma range_tail a b s z l : is_range a b s (z :: l) -> z = a /\ is_range (a + s) b s l /\ ~ List.In a l.
Proof.
  intros (D & E & I). cbn [length] in E. rewrite arith_cons in E. injection E as -> E. split; [reflexivity|].
  assert (N : forall x, List.In x l -> exists k, (0 <= k /\ x = a + s + k * s)%Z).
  { intros x J. rewrite E in J. unfold arith in J. apply in_map_iff in J. destruct J as (k & <- & _). exists (Z.of_nat k). split; [lia|reflexivity]. }
  assert (Na : ~ List.In a l) by (intro J; destruct (N a J) as (k & K & Q); assert (0 = (1 + k) * s)%Z by lia; nia).
  split; [|exact Na]. split; [exact D|]. split; [exact E|]. intro x. split.
  - intro J. destruct (N x J) as (k & K & Q). exists k. split; [exact K|]. split; [exact Q|].
    destruct (proj1 (I x) (or_intror J)) as (m & _ & _ & B). exact B.
  - intros (k & K & Q & U & L). assert (M : member a b s x) by (exists (k + 1)%Z; split; [lia|]; split; [lia|auto]).
    apply I in M. destruct M as [M|M]; [|exact M]. exfalso. assert (0 = (1 + k) * s)%Z by lia. nia.
Qed.
Lemma range_front a b s l : is_range a b s l -> List.In (b - s)%Z l -> exists l', l = l' ++ [(b - s)%Z] /\ is_range a (b - s) s l' /\ ~ List.In (b - s)%Z l'.
Proof.
  intros (D & E & I) J. pose proof J as J'. rewrite E in J'. unfold arith in J'. apply in_map_iff in J'. destruct J' as (k & K & J'). apply in_seq in J'.
  assert (L : length l = S k).
  { destruct (Nat.eq_dec (length l) (S k)) as [Q|Q]; [exact Q|]. exfalso.
    assert (M : List.In b l) by (rewrite E; unfold arith; apply in_map_iff; exists (S k); split; [rewrite Nat2Z.inj_succ; lia|apply in_seq; lia]).
    apply I in M. destruct M as (m & _ & _ & U & V). assert (s < 0 \/ 0 < s)%Z as [Q'|Q'] by lia; [specialize (V Q')|specialize (U Q')]; lia. }
  exists (arith a s k).
  assert (Q : l = arith a s k ++ [(b - s)%Z]) by (rewrite E, L; unfold arith; rewrite seq_S, map_app; cbn [map plus]; rewrite K; reflexivity).
  assert (N : forall x, List.In x (arith a s k) -> exists m, (0 <= m < Z.of_nat k /\ x = a + m * s)%Z).
  { intros x X. unfold arith in X. apply in_map_iff in X. destruct X as (m & <- & X). apply in_seq in X. exists (Z.of_nat m). split; [lia|reflexivity]. }
  split; [exact Q|]. split.
  - split; [exact D|]. split; [rewrite arith_length; reflexivity|]. intro x. split.
    + intro X. destruct (N x X) as (m & M & ->). exists m. split; [lia|]. split; [reflexivity|]. rewrite <- K. split; intro; nia.
    + intros (m & M & -> & U & V). unfold arith. apply in_map_iff. exists (Z.to_nat m). split; [rewrite Z2Nat.id by lia; reflexivity|]. apply in_seq.
      assert (s < 0 \/ 0 < s)%Z as [Q'|Q'] by lia; [specialize (V Q')|specialize (U Q')]; rewrite <- K in *; assert (m < Z.of_nat k)%Z by nia; lia.
  - intro X. destruct (N _ X) as (m & M & Y). rewrite <- K in Y. assert ((Z.of_nat k - m) * s = 0)%Z by lia. nia.
Qed.

(** ** Loops with a test *)
Section S.
  Context {W : Type}.
  Variable P : program W.
  Variable x : string.
  Hypothesis stored : names_stored P x.

  Definition checks (c : expr) (z : Z) : Prop := forall w i, lookup (py P) x w = Ok (VInt i) -> test (py P) c w = (w, Ok (Z.eqb i z)).

  Lemma checks_right a b z : same a (Name x) -> fixed P b z -> checks (Compare a [(Eq, b)]) z.
  Proof.
    intros A B w i L. destruct (B w) as (v & G & V). unfold gives in G. unfold test, andthen. cbn [eval]. unfold andthen. rewrite (A W (py P) w). cbn [eval]. rewrite L, G.
    unfold compare. cbn [as_int decide]. rewrite V. reflexivity.
  Qed.
  Lemma checks_left a b z : same b (Name x) -> fixed P a z -> checks (Compare a [(Eq, b)]) z.
  Proof.
    intros B A w i L. destruct (A w) as (v & G & V). unfold gives in G. unfold test, andthen. cbn [eval]. unfold andthen. rewrite G, (B W (py P) w). cbn [eval]. rewrite L.
    unfold compare. cbn [as_int decide]. rewrite V, Z.eqb_sym. reflexivity.
  Qed.

  Variable c : expr.
  Variable z : Z.
  Hypothesis check : checks c z.
  Variable j : stmt.
  Variable q : out.
  Hypothesis J : same_runs (exec P j) (ends q).
  Hypothesis Q : q = Broke \/ q = Continued.
  Variables e rest : list stmt.
  Let body := block P (SIf c [j] e :: rest).
  Let body' := block P (e ++ rest).

  Lemma body_hit w w' o : lookup (py P) x w = Ok (VInt z) -> (body w w' o <-> w' = w /\ o = q).
  Proof.
    intro L. unfold body. rewrite block_cons, exec_if. unfold sequence, after. rewrite (check w z L), Z.eqb_refl. split.
    - intros [(w1 & R & _)|[_ R]].
      + apply block_one, J in R. destruct R as [_ R]. destruct Q; congruence.
      + apply block_one, J in R. exact R.
    - intros [-> ->]. right. split; [destruct Q; congruence|]. apply block_one, J. split; reflexivity.
  Qed.
  Lemma body_miss w w' o i : lookup (py P) x w = Ok (VInt i) -> i <> z -> (body w w' o <-> body' w w' o).
  Proof.
    intros L N. unfold body, body'. rewrite block_cons, exec_if. unfold sequence, after. rewrite (check w i L). apply Z.eqb_neq in N. rewrite N.
    split; intro R; apply block_app; exact R.
  Qed.
  Let set := store P (Name x).

  Lemma set_ok v w : exists w1, set v w = (w1, Ok tt) /\ lookup (py P) x w1 = Ok v.
  Proof. apply stored. Qed.
  (** One iteration. *)
  Lemma for_step (bd : run W) orelse v vs w w' o : for_runs set bd orelse (v :: vs) w w' o <->
    exists w1, set v w = (w1, Ok tt) /\ lookup (py P) x w1 = Ok v /\
      ((exists w2 p, bd w1 w2 p /\ goes_on p /\ for_runs set bd orelse vs w2 w' o) \/ (bd w1 w' Broke /\ o = Normal) \/ (exists r, bd w1 w' (Left r) /\ o = Left r)).
  Proof.
    destruct (set_ok v w) as (w1 & S & L). split.
    - intro R. exists w1. split; [exact S|]. split; [exact L|]. inversion R; subst; try congruence;
        match goal with K : set v w = (?u, Ok tt) |- _ => assert (u = w1) by congruence; subst u end; eauto 8.
    - intros (w1' & S' & _ & [(w2 & p & B & G & R)|[[B ->]|(r & B & ->)]]); [eapply FNext|eapply FBreak|eapply FLeave]; eauto.
  Qed.
  Lemma for_nil (bd : run W) orelse w w' o : for_runs set bd orelse [] w w' o <-> orelse w w' o.
  Proof. split; [inversion 1; subst; assumption|apply FEnd]. Qed.

  Lemma for_missed orelse l : ~ List.In z l -> same_runs (for_runs set body orelse (map VInt l)) (for_runs set body' orelse (map VInt l)).
  Proof.
    induction l as [|i l IH]; intros N w w' o; cbn [map]; [rewrite !for_nil; reflexivity|]. rewrite !for_step.
    assert (Ni : i <> z) by (intros ->; apply N; left; reflexivity). specialize (IH (fun I => N (or_intror I))).
    split; intros (w1 & S & L & R); exists w1; (split; [exact S|]); (split; [exact L|]);
      (destruct R as [(w2 & p & B & G & R)|[[B ->]|(r & B & ->)]]; [left; exists w2, p|right; left|right; right; exists r]);
      (apply (body_miss _ _ _ _ L Ni) in B || idtac); repeat split; auto; apply IH; exact R.
  Qed.
  (** The first element is skipped. *)
  Lemma for_first orelse l w w' o : q = Continued -> ~ List.In z l ->
    (for_runs set body orelse (map VInt (z :: l)) w w' o <-> exists w1, set (VInt z) w = (w1, Ok tt) /\ for_runs set body' orelse (map VInt l) w1 w' o).
  Proof.
    intros C N. cbn [map]. rewrite for_step. split.
    - intros (w1 & S & L & R). exists w1. split; [exact S|]. destruct R as [(w2 & p & B & G & R)|[[B ->]|(r & B & ->)]]; apply (body_hit _ _ _ L) in B; destruct B as [-> B].
      + apply for_missed; assumption.
      + congruence.
      + congruence.
    - intros (w1 & S & R). destruct (set_ok (VInt z) w) as (w1' & S' & L). assert (w1' = w1) by congruence. subst w1'. exists w1. split; [exact S|]. split; [exact L|].
      left. exists w1, Continued. split; [apply (body_hit _ _ _ L); auto|]. split; [right; reflexivity|]. apply for_missed; assumption.
  Qed.
  (** The last element is skipped. *)
  Lemma for_last orelse l : ~ List.In z l ->
    same_runs (for_runs set body orelse (map VInt (l ++ [z])))
              (for_runs set body' (after (set (VInt z)) (fun _ => match q with Continued => orelse | _ => ends Normal end)) (map VInt l)).
  Proof.
    induction l as [|i l IH]; intros N w w' o; cbn [map app].
    - rewrite for_step, for_nil. unfold after. destruct (set_ok (VInt z) w) as (w1 & S & L). rewrite S. split.
      + intros (w1' & S' & _ & R). assert (w1' = w1) by congruence. subst w1'. destruct R as [(w2 & p & B & G & R)|[[B ->]|(r & B & ->)]]; apply (body_hit _ _ _ L) in B; destruct B as [-> B].
        * destruct Q as [Q1|Q1]; rewrite B, Q1 in G; [destruct G; discriminate|]. rewrite Q1. apply for_nil in R. exact R.
        * rewrite <- B. split; reflexivity.
        * destruct Q; congruence.
      + intro R. exists w1. split; [reflexivity|]. split; [exact L|]. destruct Q as [Q1|Q1]; rewrite Q1 in R.
        * destruct R as [-> ->]. right. left. split; [apply (body_hit _ _ _ L); auto|reflexivity].
        * left. exists w1, Continued. split; [apply (body_hit _ _ _ L); auto|]. split; [right; reflexivity|]. apply for_nil. exact R.
    - rewrite !for_step. assert (Ni : i <> z) by (intros ->; apply N; left; reflexivity). specialize (IH (fun I => N (or_intror I))).
      split; intros (w1 & S & L & R); exists w1; (split; [exact S|]); (split; [exact L|]);
        (destruct R as [(w2 & p & B & G & R)|[[B ->]|(r & B & ->)]]; [left; exists w2, p|right; left|right; right; exists r]);
        (apply (body_miss _ _ _ _ L Ni) in B || idtac); repeat split; auto; apply IH; exact R.
  Qed.
End S.

(** ** What the checker sees *)
Lemma fine_eq a b : fine (Compare a [(Eq, b)]) = true -> fine a = true /\ fine b = true.
Proof.
  intro F. apply andb_true_iff in F. destruct F as [F1 F2]. cbn [well_formed no_nested_compare forallb snd length Nat.leb] in F1, F2. unfold fine.
  apply andb_true_iff in F1, F2. destruct F1 as [F1 F1'], F2 as [F2 F2']. apply andb_true_iff in F1, F1', F2, F2'.
  destruct F1 as [_ F1], F1' as [F1' _], F2 as [_ F2], F2' as [F2' _]. rewrite F1, F1', F2, F2'. auto.
Qed.
Lemma fixed_same {W} (P : program W) a b z : same a b -> fixed P b z -> fixed P a z.
Proof. intros S F w. destruct (F w) as (v & G & V). exists v. split; [|exact V]. unfold gives in *. rewrite (S W (py P) w). exact G. Qed.
Lemma fixed_unique {W} (P : program W) (w : W) e i j : fixed P e i -> is_int (py P) w e j -> i = j.
Proof. intros F (u & G & U). destruct (F w) as (v & G' & V). unfold gives in *. congruence. Qed.
Lemma last_fixed H {W} (P : program W) (w0 : W) e stop step b s : closed_host H -> agrees (py P) H -> fine e = true -> fine stop = true -> fine step = true ->
  is_last_before_end H e stop step = Ok true -> fixed P stop b -> fixed P step s -> fixed P e (b - s).
Proof.
  intros CH A Fe Fb Fs E FB FS. unfold is_last_before_end in E. destruct (get_const_value H e) as [n|] eqn:En; [|discriminate]. cbn [bind] in E.
  destruct (get_const_value H stop) as [m|] eqn:Eb; [|discriminate]. cbn [bind] in E. destruct (get_const_value H step) as [k|] eqn:Es; [|discriminate]. cbn [bind] in E.
  assert (E' : match e with Binary Sub l r => text_eqb (as_string l) (as_string stop) && text_eqb (as_string r) (as_string step) | _ => false end = true \/
    match an_int n, an_int m, an_int k with Some x, Some y, Some z => Z.eqb x (y - z) | _, _, _ => false end = true) by (injection E as E; apply orb_true_iff in E; exact E).
  clear E. destruct E' as [E|E].
  - destruct e as [|k'|u a|o a a'|o vs|a ops|g args|a y|a i|c a a'|n']; try discriminate. destruct o; try discriminate. apply andb_true_iff in E. destruct E as [E1 E2].
    assert (fine a = true /\ fine a' = true) as [Fa Fa'].
    { apply andb_true_iff in Fe. destruct Fe as [F1 F2]. cbn in F1, F2. apply andb_true_iff in F1, F2. unfold fine. destruct F1 as [-> ->], F2 as [-> ->]. auto. }
    pose proof (same_text_same _ _ Fa Fb E1) as S1. pose proof (same_text_same _ _ Fa' Fs E2) as S2. intro w.
    destruct (FB w) as (v & G & V), (FS w) as (u & G' & U). exists (VInt (b - s)). split; [|reflexivity].
    unfold gives in *. cbn [eval]. unfold andthen. rewrite (S1 W (py P) w), G, (S2 W (py P) w), G'. unfold binary. rewrite V, U. reflexivity.
  - unfold an_int in E. destruct (as_int n) as [n'|] eqn:In; [|discriminate]. destruct (as_int m) as [m'|] eqn:Im; [|discriminate]. destruct (as_int k) as [k'|] eqn:Ik; [|discriminate].
    apply Z.eqb_eq in E. assert (NN : forall v i, as_int v = Some i -> v <> VNone) by (intros v i Q ->; discriminate).
    assert (b = m') as -> by (eapply (fixed_unique P w0); [exact FB|]; exists m; split; [exact (folded_value H CH _ _ Eb (NN _ _ Im) _ _ A w0)|exact Im]).
    assert (s = k') as -> by (eapply (fixed_unique P w0); [exact FS|]; exists k; split; [exact (folded_value H CH _ _ Es (NN _ _ Ik) _ _ A w0)|exact Ik]).
    intro w. exists n. split; [exact (folded_value H CH _ _ En (NN _ _ In) _ _ A w)|congruence].
Qed.

Section Reported.
  Variable H : host.
  Context {W : Type}.
  Variable P : program W.
  Hypothesis CH : closed_host H.
  Hypothesis A : agrees (py P) H.
  Variable x : string.
  Hypothesis stored : names_stored P x.
  Variables it c : expr.
  Variable j : stmt.
  Variables e rest orelse : list stmt.
  Hypothesis fine_c : fine c = true.
  Variables start stop step : expr.
  Hypothesis params : get_range_params it = Some (start, stop, step).
  Hypothesis fine_start : fine start = true.
  Hypothesis fine_stop : fine stop = true.
  Hypothesis fine_step : fine step = true.

  Lemma reported_cases d : use_tighter_bounds H (SFor (Name x) it (SIf c [j] e :: rest) orelse) = Ok (Some d) ->
    exists a b, c = Compare a [(Eq, b)] /\ (j = SBreak \/ j = SContinue) /\
      match d with
      | First => compares_to_start a b (as_string (Name x)) start = true
      | Last => compares_to_last H a b (as_string (Name x)) stop step = Ok true
      end.
  Proof.
    cbn [use_tighter_bounds]. destruct c as [| | | | |a ops| | | | |]; try discriminate. destruct ops as [|[o b] [|o' ops]]; try discriminate; destruct o; try discriminate.
    rewrite params. intro E.
    assert (K : (j = SBreak \/ j = SContinue) /\ (if compares_to_start a b (as_string (Name x)) start then Ok (Some First)
      else do l <- compares_to_last H a b (as_string (Name x)) stop step; Ok (if l then Some Last else None)) = Ok (Some d)) by (destruct j; try discriminate; auto).
    destruct K as [K E']. clear E. exists a, b. split; [reflexivity|]. split; [exact K|].
    destruct (compares_to_start a b (as_string (Name x)) start) eqn:E; [injection E' as <-; reflexivity|].
    destruct (compares_to_last H a b (as_string (Name x)) stop step) as [[|]|]; cbn [bind] in E'; try discriminate. injection E' as <-. reflexivity.
  Qed.
  Lemma start_checks a b z : fine a = true -> fine b = true -> compares_to_start a b (as_string (Name x)) start = true -> fixed P start z -> checks P x (Compare a [(Eq, b)]) z.
  Proof.
    intros Fa Fb C F. unfold compares_to_start in C. apply orb_true_iff in C. destruct C as [C|C]; apply andb_true_iff in C; destruct C as [C1 C2].
    - apply checks_right; [exact (same_text_same _ (Name x) Fa eq_refl C1)|]. exact (fixed_same P _ _ _ (same_text_same _ _ Fb fine_start C2) F).
    - apply checks_left; [exact (same_text_same _ (Name x) Fb eq_refl C2)|]. exact (fixed_same P _ _ _ (same_text_same _ _ Fa fine_start C1) F).
  Qed.
  Lemma last_checks (w0 : W) a b z s : fine a = true -> fine b = true -> compares_to_last H a b (as_string (Name x)) stop step = Ok true -> fixed P stop z -> fixed P step s -> checks P x (Compare a [(Eq, b)]) (z - s).
  Proof.
    intros Fa Fb C F1 F2. unfold compares_to_last in C.
    destruct (text_eqb (as_string a) (as_string (Name x))) eqn:T.
    - destruct (is_last_before_end H b stop step) as [[|]|] eqn:L; cbn [bind] in C; [| |discriminate].
      + apply checks_right; [exact (same_text_same _ (Name x) Fa eq_refl T)|]. exact (last_fixed H P w0 _ _ _ _ _ CH A Fb fine_stop fine_step L F1 F2).
      + destruct (is_last_before_end H a stop step) as [l|] eqn:L'; cbn [bind] in C; [|discriminate]. injection C as C. apply andb_true_iff in C. destruct C as [-> C].
        apply checks_left; [exact (same_text_same _ (Name x) Fb eq_refl C)|]. exact (last_fixed H P w0 _ _ _ _ _ CH A Fa fine_stop fine_step L' F1 F2).
    - cbn [bind] in C. destruct (is_last_before_end H a stop step) as [l|] eqn:L'; cbn [bind] in C; [|discriminate]. injection C as C. apply andb_true_iff in C. destruct C as [-> C].
      apply checks_left; [exact (same_text_same _ (Name x) Fb eq_refl C)|]. exact (last_fixed H P w0 _ _ _ _ _ CH A Fa fine_stop fine_step L' F1 F2).
  Qed.

  Lemma exec_range l body w w' o : iterates_over P w it l -> exec P (SFor (Name x) it body orelse) w w' o <-> for_runs (store P (Name x)) (block P body) (block P orelse) (map VInt l) w w' o.
  Proof. intro I. rewrite exec_for. unfold after. rewrite I. reflexivity. Qed.

  Theorem first_skipped a b s l w w' o : use_tighter_bounds H (SFor (Name x) it (SIf c [j] e :: rest) orelse) = Ok (Some First) -> j = SContinue ->
    fixed P start a -> is_range a b s (a :: l) -> iterates_over P w it (a :: l) ->
    is_range (a + s) b s l /\
    (exec P (SFor (Name x) it (SIf c [j] e :: rest) orelse) w w' o <->
     exists w1, store P (Name x) (VInt a) w = (w1, Ok tt) /\ for_runs (store P (Name x)) (block P (e ++ rest)) (block P orelse) (map VInt l) w1 w' o).
  Proof.
    intros E Ej F R I. destruct (reported_cases _ E) as (u & v & Ec & _ & C). destruct (range_tail _ _ _ _ _ R) as (_ & R' & N). split; [exact R'|].
    rewrite (exec_range _ _ _ _ _ I). rewrite Ec in fine_c |- *. destruct (fine_eq _ _ fine_c) as [Fu Fv].
    apply (for_first P x stored _ a (start_checks _ _ _ Fu Fv C F) j Continued); auto. rewrite Ej. intros ? ? ?; reflexivity.
  Qed.
  Theorem last_skipped a b s l w w' o : use_tighter_bounds H (SFor (Name x) it (SIf c [j] e :: rest) orelse) = Ok (Some Last) ->
    fixed P stop b -> fixed P step s -> is_range a b s l -> List.In (b - s)%Z l -> iterates_over P w it l ->
    exists l', l = l' ++ [(b - s)%Z] /\ is_range a (b - s) s l' /\
    (exec P (SFor (Name x) it (SIf c [j] e :: rest) orelse) w w' o <->
     for_runs (store P (Name x)) (block P (e ++ rest))
       (after (store P (Name x) (VInt (b - s))) (fun _ => match j with SContinue => block P orelse | _ => ends Normal end)) (map VInt l') w w' o).
  Proof.
    intros E F1 F2 R J I. destruct (reported_cases _ E) as (u & v & Ec & Ej & C). destruct (range_front _ _ _ _ R J) as (l' & -> & R' & N). exists l'. split; [reflexivity|]. split; [exact R'|].
    rewrite (exec_range _ _ _ _ _ I). rewrite Ec in fine_c |- *. destruct (fine_eq _ _ fine_c) as [Fu Fv].
    destruct Ej as [-> | ->].
    - apply (for_last P x stored _ (b - s) (last_checks w _ _ _ _ Fu Fv C F1 F2) SBreak Broke); auto. intros ? ? ?; reflexivity.
    - apply (for_last P x stored _ (b - s) (last_checks w _ _ _ _ Fu Fv C F1 F2) SContinue Continued); auto. intros ? ? ?; reflexivity.
  Qed.
  (** The value that is compared with is not an element: nothing is skipped. *)
  Theorem none_skipped a b s l w w' o : use_tighter_bounds H (SFor (Name x) it (SIf c [j] e :: rest) orelse) = Ok (Some Last) ->
    fixed P stop b -> fixed P step s -> is_range a b s l -> ~ List.In (b - s)%Z l -> iterates_over P w it l ->
    exec P (SFor (Name x) it (SIf c [j] e :: rest) orelse) w w' o <-> exec P (SFor (Name x) it (e ++ rest) orelse) w w' o.
  Proof.
    intros E F1 F2 R J I. destruct (reported_cases _ E) as (u & v & Ec & Ej & C).
    rewrite !(exec_range _ _ _ _ _ I). rewrite Ec in fine_c |- *. destruct (fine_eq _ _ fine_c) as [Fu Fv].
    apply (for_missed P x stored _ (b - s) (last_checks w _ _ _ _ Fu Fv C F1 F2) j); auto.
  Qed.
End Reported.
