(** Proofs about splitting a block into repetitions. *)
From Coq Require Import String List Bool Arith Lia Sorted.
From Verif Require Import Base IterModel IterSpec.
Import ListNotations.
Local Open Scope list_scope.
Local Open Scope nat_scope.

Section Repeat.
  Context {A : Type}.
  Implicit Types (block : list A) (parts : list (list A)).

  (** Cutting a list into [k] parts. *)
  Definition cut (len k : nat) (l : list A) : list (list A) := map (fun i => firstn len (skipn (i * len) l)) (seq 0 k).
  Lemma skipn_skip (l : list A) : forall a b, skipn a (skipn b l) = skipn (b + a) l.
  Proof. induction l as [|x l IH]; intros a b; [rewrite !skipn_nil; reflexivity|]. destruct b; [reflexivity|]. cbn [skipn Nat.add]. apply IH. Qed.
  Lemma cut_succ len k l : cut len (S k) l = firstn len l :: cut len k (skipn len l).
  Proof.
    unfold cut. cbn [seq map]. rewrite Nat.mul_0_l. cbn [skipn]. f_equal. rewrite <- seq_shift, map_map. apply map_ext. intro i. rewrite skipn_skip. f_equal.
  Qed.
  Lemma cut_parts len : forall k l, k * len <= length l -> concat (cut len k l) = firstn (k * len) l /\ Forall (fun p => length p = len) (cut len k l) /\ length (cut len k l) = k.
  Proof.
    induction k as [|k IH]; intros l L; [split; [reflexivity|split; [constructor|reflexivity]]|]. rewrite cut_succ. cbn [concat length].
    destruct (IH (skipn len l)) as (C & F & N); [rewrite skipn_length; cbn [Nat.mul] in L; lia|]. split; [|split; [constructor; [rewrite firstn_length; cbn [Nat.mul] in L; lia|exact F]|congruence]].
    rewrite C. cbn [Nat.mul] in *. assert (LF : length (firstn len l) = len) by (rewrite firstn_length; lia).
    rewrite <- (firstn_skipn len l) at 3. rewrite firstn_app, LF. replace (len + k * len - len) with (k * len) by lia. rewrite firstn_firstn. replace (Nat.min (len + k * len) len) with len by lia. reflexivity.
  Qed.
  Lemma parts_cut len : forall parts l, Forall (fun p => length p = len) parts -> concat parts = firstn (length parts * len) l -> length parts * len <= length l -> parts = cut len (length parts) l.
  Proof.
    induction parts as [|p parts IH]; intros l F C L; [reflexivity|]. inversion F as [|? ? F1 F2]; subst. cbn [length] in *. rewrite cut_succ. cbn [concat] in C. cbn [Nat.mul] in C, L.
    assert (P : p = firstn (length p) l).
    { apply (f_equal (firstn (length p))) in C. rewrite firstn_app, firstn_all, Nat.sub_diag in C. cbn [firstn] in C. rewrite app_nil_r in C. rewrite C at 1. rewrite firstn_firstn. f_equal. lia. }
    f_equal; [exact P|]. apply IH; [exact F2| |rewrite skipn_length; lia].
    apply (f_equal (skipn (length p))) in C. rewrite skipn_app, skipn_all, Nat.sub_diag in C. cbn [skipn app] in C. rewrite C, skipn_firstn_comm. f_equal. lia.
  Qed.
  Lemma concat_len len parts : Forall (fun p => length p = len) parts -> length (concat parts) = length parts * len.
  Proof. induction 1 as [|p parts L F IH]; [reflexivity|]. cbn [concat length Nat.mul]. rewrite app_length, IH, L. reflexivity. Qed.

  Lemma in_repetitions block stop r : List.In r (repetitions_to block stop) <-> exists len, 1 <= len <= stop / 2 /\ stop mod len = 0 /\ r = (stop, cut len (stop / len) block).
  Proof.
    unfold repetitions_to. rewrite in_flat_map. split.
    - intros (len & I & J). apply in_seq in I. destruct (Nat.eqb_spec (stop mod len) 0) as [M|M]; [|destruct J]. destruct J as [<-|[]]. exists len. split; [lia|]. split; [exact M|].
      unfold subblocks, cut. f_equal. pose proof (Nat.div_mod stop len ltac:(lia)). lia.
    - intros (len & I & M & ->). exists len. split; [apply in_seq; lia|]. rewrite M, Nat.eqb_refl. left. unfold subblocks, cut. f_equal. pose proof (Nat.div_mod stop len ltac:(lia)). lia.
  Qed.
  Theorem repetitions_all block stop parts : List.In (stop, parts) (get_loop_repetitions block) <-> repetition block stop parts.
  Proof.
    unfold get_loop_repetitions. rewrite in_flat_map. split.
    - intros (s & I & J). apply in_rev in I. apply in_seq in I. apply in_repetitions in J. destruct J as (len & L & M & E).
      assert (s = stop) by congruence. assert (EP : parts = cut len (stop / len) block) by congruence. subst s parts. clear E.
      pose proof (Nat.div_mod stop len ltac:(lia)) as D. rewrite M, Nat.add_0_r in D.
      destruct (cut_parts len (stop / len) block) as (C & F & N); [nia|]. assert (ST : stop / len * len = stop) by lia. rewrite ST in C.
      split; [|split; [exact C|split; [rewrite C, firstn_length; lia|exists len; split; [lia|exact F]]]].
      rewrite N. assert (2 * len <= stop) by (pose proof (Nat.mul_div_le stop 2 ltac:(lia)); lia). apply Nat.div_le_lower_bound; lia.
    - intros (N & C & ST & len & L & F). pose proof (concat_len len parts F) as CL. assert (LE : stop <= length block) by (rewrite ST, C, firstn_length; lia).
      assert (DV : stop = length parts * len) by lia. exists stop. split; [apply in_rev; rewrite rev_involutive; apply in_seq; nia|]. apply in_repetitions. exists len.
      split; [split; [exact L|]; apply Nat.div_le_lower_bound; nia|]. split; [rewrite DV; apply Nat.mod_mul; lia|]. f_equal. assert (Q : stop / len = length parts) by (rewrite DV; apply Nat.div_mul; lia). rewrite Q.
      apply parts_cut; [exact F|rewrite <- DV; exact C|lia].
  Qed.

  (** The order. *)
  Lemma sorted_app {B} (R : B -> B -> Prop) l m : StronglySorted R l -> StronglySorted R m -> (forall x y, List.In x l -> List.In y m -> R x y) -> StronglySorted R (l ++ m).
  Proof.
    intros SL SM X. induction SL as [|x l SL IH F]; [exact SM|]. cbn [app]. constructor.
    - apply IH. intros y z Y Z. apply X; [right; exact Y|exact Z].
    - apply Forall_app. split; [exact F|]. apply Forall_forall. intros y Y. apply X; [left; reflexivity|exact Y].
  Qed.
  Lemma sorted_flat {B C} (R : C -> C -> Prop) (Q : B -> B -> Prop) (f : B -> list C) l : StronglySorted Q l -> (forall x, List.In x l -> StronglySorted R (f x)) ->
    (forall x y u v, List.In x l -> List.In y l -> Q x y -> List.In u (f x) -> List.In v (f y) -> R u v) -> StronglySorted R (flat_map f l).
  Proof.
    induction 1 as [|x l S IH F]; intros SF X; [constructor|]. cbn [flat_map]. apply sorted_app.
    - apply SF. left. reflexivity.
    - apply IH; [intros y Y; apply SF; right; exact Y|]. intros y z u v Y Z. apply X; right; assumption.
    - intros u v U V. apply in_flat_map in V. destruct V as (y & Y & V). apply (X x y); [left; reflexivity|right; exact Y| |exact U|exact V]. exact (proj1 (Forall_forall _ _) F y Y).
  Qed.
  Lemma seq_sorted : forall n a, StronglySorted lt (seq a n).
  Proof. induction n as [|n IH]; intro a; [constructor|]. cbn [seq]. constructor; [apply IH|]. apply Forall_forall. intros x I. apply in_seq in I. lia. Qed.
  Lemma rev_sorted {B} (R : B -> B -> Prop) l : StronglySorted R l -> StronglySorted (fun x y => R y x) (rev l).
  Proof.
    induction 1 as [|x l S IH F]; [constructor|]. cbn [rev]. apply sorted_app; [exact IH|constructor; constructor|]. intros y z Y [<-|[]]. apply in_rev in Y. exact (proj1 (Forall_forall _ _) F y Y).
  Qed.
  Theorem repetitions_sorted block : StronglySorted before (get_loop_repetitions block).
  Proof.
    unfold get_loop_repetitions. apply (sorted_flat before (fun x y => y < x)).
    - apply rev_sorted. apply seq_sorted.
    - intros stop I. apply in_rev in I. apply in_seq in I. unfold repetitions_to. apply (sorted_flat before lt); [apply seq_sorted| |].
      + intros len J. apply in_seq in J. destruct (stop mod len =? 0); constructor; constructor.
      + intros x y u v X Y LT U V. apply in_seq in X. apply in_seq in Y. destruct (Nat.eqb_spec (stop mod x) 0) as [MX|]; [|destruct U]. destruct (Nat.eqb_spec (stop mod y) 0) as [MY|]; [|destruct V].
        destruct U as [<-|[]]. destruct V as [<-|[]]. right. cbn [fst snd]. pose proof (Nat.div_mod stop x ltac:(lia)). pose proof (Nat.div_mod stop y ltac:(lia)). unfold subblocks. rewrite !map_length, !seq_length.
        set (p := stop / x) in *. set (q := stop / y) in *. clearbody p q. rewrite MX in *. rewrite MY in *. split; [nia|]. destruct (Nat.lt_ge_cases q p) as [|GE]; [assumption|]. exfalso. destruct q as [|q]; [lia|]. pose proof (Nat.mul_le_mono_l p (S q) x GE). pose proof (Nat.mul_lt_mono_pos_r (S q) x y ltac:(lia)) as Q. pose proof (proj1 Q LT). lia.
    - intros x y u v X Y LT U V. apply in_repetitions in U. apply in_repetitions in V. destruct U as (? & _ & _ & ->). destruct V as (? & _ & _ & ->). left. cbn [fst]. exact LT.
  Qed.
End Repeat.
