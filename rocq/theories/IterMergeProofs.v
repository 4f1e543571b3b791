(** Proofs about repeating the outer loop more often. *)
From Coq Require Import String Ascii List Bool Arith NArith ZArith Lia.
From Verif Require Import Base PyModel PySpec PyProofs IfModel FoldModel FoldSpec TypeModel LocalModel LocalSpec IterModel IterSpec IterProofs.
Import ListNotations.
Local Open Scope string_scope.
Local Open Scope list_scope.
Local Open Scope nat_scope.

Section Merge.
  Context {W : Type}.
  Variable near : W -> W -> Prop.
  Hypothesis near_refl : forall w, near w w.
  Hypothesis near_sym : forall w w', near w w' -> near w' w.
  Hypothesis near_trans : forall u v w, near u v -> near v w -> near u w.
  Variable assign : nat -> W -> W.
  Hypothesis target_only : forall i w, near (assign i w) w.
  Variable b : W -> W * ending.
  Hypothesis steady : ignores near b.
  Hypothesis no_continue : forall w, snd (b w) <> Continue.

  (** One iteration with [k] copies is [k] iterations. *)
  Lemma copies_loop : forall k i n u w, near u w ->
    match copies k b u with
    | (u', Done) => exists w', near u' w' /\ for_range assign b i (k + n) w = for_range assign b (i + k) n w'
    | (u', e) => e <> Continue /\ alike near (u', e) (for_range assign b i (k + n) w)
    end.
  Proof using near_refl near_sym near_trans target_only steady no_continue.
    induction k as [|k IH]; intros i n u w N; cbn [copies].
    - exists w. split; [exact N|]. cbn [Nat.add]. rewrite Nat.add_0_r. reflexivity.
    - pose proof (steady u (assign i w) (near_trans _ _ _ N (near_sym _ _ (target_only i w)))) as (S1 & S2). pose proof (no_continue u) as NC.
      cbn [Nat.add for_range]. destruct (b u) as [u' e]. destruct (b (assign i w)) as [w' e']. cbn [fst snd] in *. subst e'. destruct e.
      + specialize (IH (S i) n u' w' S1). destruct (copies k b u') as [u'' e]. replace (i + S k) with (S i + k) by lia. exact IH.
      + split; [discriminate|]. split; [exact S1|reflexivity].
      + destruct (NC eq_refl).
      + split; [discriminate|]. split; [exact S1|reflexivity].
  Qed.
  Theorem merged_loop : forall k n i j u w, near u w -> alike near (for_range assign (copies k b) i n u) (for_range assign b j (n * k) w).
  Proof using near_refl near_sym near_trans target_only steady no_continue.
    induction n as [|n IH]; intros i j u w N; [split; [exact N|reflexivity]|]. cbn [for_range Nat.mul].
    pose proof (copies_loop k j (n * k) (assign i u) w (near_trans _ _ _ (target_only i u) N)) as C. destruct (copies k b (assign i u)) as [u' e]. destruct e.
    - destruct C as (w' & N' & ->). apply IH. exact N'.
    - destruct C as (_ & C). exact C.
    - destruct C as (C & _). destruct (C eq_refl).
    - destruct C as (_ & C). exact C.
  Qed.
End Merge.

(** The number of repetitions in the message. *)
Theorem merge_text H loop avars n t : merge_with_loop H loop avars n = Ok (Some t) ->
  exists l start stop step, loop = Some l /\ avars = [] /\ whole_body l = true /\ target_is_name l = true /\ uses_target l = false /\ get_range_params (loop_iter l) = Some (start, stop, step) /\
    (exists a, get_const_value H start = Ok a /\ as_int a = Some 0%Z) /\ (exists s, get_const_value H step = Ok s /\ as_int s = Some 1%Z) /\
    ((forall c, stop <> Const c) -> t = as_string stop ++ [TBin Mul; TConst (CInt (N.of_nat n))]) /\
    (forall k, stop = Const (CInt k) -> t = [TConst (CInt (k * N.of_nat n))]).
Proof.
  unfold merge_with_loop. intro E. destruct loop as [l|]; [|discriminate]. destruct avars; [|discriminate]. destruct (whole_body l) eqn:WB; [|discriminate]. cbn [negb] in E.
  destruct (get_range_params (loop_iter l)) as [[[start stop] step]|] eqn:R; [|discriminate].
  destruct (get_const_value H start) as [a|x] eqn:A; [|discriminate]. cbn [bind] in E. destruct (value_eqb a (VInt 0)) eqn:EA; [|discriminate]. cbn [negb] in E.
  destruct (get_const_value H step) as [s|x] eqn:S; [|discriminate]. cbn [bind] in E. destruct (value_eqb s (VInt 1)) eqn:ES; [|discriminate]. cbn [negb] in E.
  destruct (target_is_name l) eqn:TN; [|discriminate]. cbn [negb orb] in E. destruct (uses_target l) eqn:UT; [discriminate|]. destruct (get_const_value H stop) as [v|x] eqn:B; [|discriminate]. cbn [bind] in E.
  assert (V : forall u z, value_eqb u (VInt z) = true -> as_int u = Some z).
  { intros u z Q. unfold value_eqb in Q. cbn [as_int] in Q. destruct (as_int u) as [y|] eqn:Y; [apply Z.eqb_eq in Q; congruence|discriminate]. }
  exists l, start, stop, step. repeat (split; [reflexivity|]). split; [exact WB|]. split; [exact TN|]. split; [exact UT|]. split; [exact R|]. split; [exists a; split; [exact A|apply V; exact EA]|]. split; [exists s; split; [exact S|apply V; exact ES]|].
  split.
  - intro NC. destruct stop; try (destruct (NC c eq_refl)); congruence.
  - intros k ->. assert (v = VInt (Z.of_N k)) as -> by (cbn in B; congruence). cbn [binary_operator bind binary as_int int_op pure snd] in E.
    cbn in E. assert (t = as_string (int_node (Z.of_N k * Z.of_nat n))) as -> by congruence. unfold int_node. destruct (Z.ltb_spec (Z.of_N k * Z.of_nat n) 0) as [Q|Q]; [nia|]. cbn [as_string]. do 3 f_equal. lia.
Qed.
(** A bound that needs no parentheses is read with the multiplication as a whole. *)
Theorem merge_reads stop n : well_formed stop = true -> no_nested_compare stop = true -> prec (Binary Mul stop (Const (CInt (N.of_nat n)))) <= prec stop ->
  exists e, reads (as_string stop ++ [TBin Mul; TConst (CInt (N.of_nat n))]) e /\ same e (Binary Mul stop (Const (CInt (N.of_nat n)))).
Proof.
  intros WF NC PR. assert (E : as_string (Binary Mul stop (Const (CInt (N.of_nat n)))) = as_string stop ++ [TBin Mul; TConst (CInt (N.of_nat n))]).
  { change (prec (Binary Mul stop (Const (CInt (N.of_nat n))))) with 11 in PR. cbn [as_string]. unfold wrap. change (prec (Binary Mul stop (Const (CInt (N.of_nat n))))) with 11. cbn [prec].
    destruct (Nat.ltb_spec (prec stop) 11) as [Q|Q]; [lia|]. rewrite andb_false_r. reflexivity. }
  rewrite <- E. apply printed_same; cbn [well_formed no_nested_compare]; rewrite ?WF, ?NC; reflexivity.
Qed.
