(** Proofs about places with expressions of different kinds, and about exceptions. *)
From Coq Require Import String Ascii List Bool Arith NArith ZArith Lia.
From Verif Require Import Base PyModel PySpec IfModel FoldModel FoldSpec TypeModel LocalModel LocalSpec IterModel IterSpec IterProofs IterConstProofs IterNumsProofs.
Import ListNotations.
Local Open Scope string_scope.
Local Open Scope list_scope.
Local Open Scope nat_scope.

Lemma some_differ_step l v stop d : to_range_args l = Ok (Some (v, stop, d)) -> some_differ l -> d <> 0%Z.
Proof.
  intros R D ->. destruct (to_range_args_ok _ _ _ _ R) as (z & A & L & M & _). apply D. exists z. rewrite arith_zero in M.
  apply Forall_forall. intros s S. apply (in_map int_of) in S. rewrite M in S. apply in_map_iff in S. destruct S as (y & <- & Y). apply repeat_spec in Y. congruence.
Qed.
(** Names, constants and operations that cannot all be computed. *)
Lemma nodes_sequence H l : (forall s, List.In s l -> exists e, s = Node e) -> l <> [] -> to_const_sequence H l = Ok None ->
  forall p, from_chars p l = Ok None /\ to_range_args l = Ok None.
Proof.
  intros N NE _ p. destruct l as [|s l]; [destruct (NE eq_refl)|]. destruct (N s (or_introl eq_refl)) as (e & ->). split; [destruct p|]; reflexivity.
Qed.
Theorem expressions_count H a n it : 2 <= n -> length (subs a) = n -> (forall s, List.In s (subs a) -> exists e, s = Node e /\ sums_products e = true) -> ~ constant_place H a ->
  get_nice_iters H [a] n = Ok (Some it) -> iterations it n.
Proof.
  intros N L SP NC E.
  assert (NODES : forall s, List.In s (subs a) -> exists e, s = Node e) by (intros s S; destruct (SP s S) as (e & -> & _); eexists; reflexivity).
  assert (NE : subs a <> []) by (intro Q; rewrite Q in L; cbn [length] in L; lia).
  assert (U : forall i start, to_iter_use H a = Ok (Some (i, start)) -> exists nums r, i = IRange r /\ nums_from_partition (S (depths (subs a))) (partition_by_type (subs a)) = Ok (Some nums) /\ to_range_args nums = Ok (Some r)).
  { intros i start U. unfold to_iter_use in U. destruct (to_const_sequence H (subs a)) as [[cs|]|x] eqn:C; [destruct (sequence_const H _ _ C) as (vs & _ & V); destruct NC; exists vs; exact V| |discriminate].
    cbn [bind] in U. destruct (nodes_sequence H _ NODES NE C (parent a)) as (FC & TR). rewrite FC in U. cbn [bind] in U. rewrite TR in U. cbn [bind] in U. destruct (_ =? 1).
    - destruct (subs a) as [|s l]; [destruct (NE eq_refl)|]. destruct (NODES s (or_introl eq_refl)) as (e & ->). cbn [existsb orb] in U. discriminate.
    - destruct (nums_from_partition _ _) as [[nums|]|x] eqn:NU; try discriminate. cbn [bind] in U. destruct (to_range_args nums) as [[r|]|x] eqn:R; try discriminate. cbn [bind] in U.
      exists nums, r. split; [congruence|]. split; [reflexivity|exact R]. }
  destruct (nice_cases _ _ _ _ _ E) as [(rs & e & R & C & ->)|(l & start & rest & T & _ & _ & ->)].
  - inversion R as [|? r ? rs' (start & T) R']; subst. inversion R'; subst. cbn [consolidate_ranges] in C. assert (e = to_range_node r) by congruence. subst e.
    destruct (U _ _ T) as (nums & r' & Q & NU & TR). assert (r' = r) by congruence. subst r'. clear Q. destruct r as [[v stop] d].
    assert (CNT : length nums = length (subs a) /\ some_differ nums).
    { apply (nums_count _ _ _) in NU; [exact NU|]. intros e I. destruct (SP _ I) as (e' & Q & S). congruence. }
    destruct CNT as (LN & D). pose proof (some_differ_step _ _ _ _ TR D) as D0. destruct (to_range_args_ok _ _ _ _ TR) as (z & A & L2 & M & ->). rewrite LN in *.
    apply (range_node_iterates v z (length (subs a)) d A D0). lia.
  - destruct (U _ _ T) as (nums & r & Q & _). discriminate.
Qed.

(** ** No exceptions *)
Lemma partition_one l g : partition_by_type l = [g] -> g = l.
Proof. intro E. rewrite <- (partition_all l), E. cbn [concat]. rewrite app_nil_r. reflexivity. Qed.
Lemma proper_partition a : proper a -> length (partition_by_type (subs a)) = 1 -> forall s, List.In s (subs a) -> exists v, s = Raw v.
Proof.
  intros [P|(s & t & S & T & K & NS & NT)] L; [exact P|]. exfalso. pose proof (groups_ok (subs a)) as G. destruct (partition_by_type (subs a)) as [|g [|]] eqn:E; try discriminate.
  pose proof (partition_one _ _ E) as ->. inversion G as [|? ? GG _]; subst. destruct (subs a) as [|u r]; [destruct S|]. destruct GG as (G1 & G2). destruct u as [v|e].
  - assert (R : forall x, List.In x (Raw v :: r) -> node_kind x = None) by (intros x [<-|X]; [reflexivity|]; destruct (proj1 (Forall_forall _ _) (G2 v eq_refl) x X) as (u & ->); reflexivity).
    destruct (NS (R s S)).
  - assert (R : forall x, List.In x (Node e :: r) -> kind_of x = kind_of (Node e)) by (intros x [<-|X]; [reflexivity|]; exact (proj1 (Forall_forall _ _) (G1 e eq_refl) x X)).
    apply K. rewrite (R s S), (R t T). reflexivity.
Qed.
Lemma depths_in l e : List.In (Node e) l -> depth e <= depths l.
Proof.
  induction l as [|s l IH]; intro I; [destruct I|]. unfold depths in *. cbn [fold_right]. destruct I as [->|I]; [lia|]. specialize (IH I). lia.
Qed.
Lemma to_const_total H l : (forall e, List.In (Node e) l -> exists v, get_const_value H e = Ok v) -> exists r, to_const_sequence H l = Ok r.
Proof.
  induction l as [|s l IH]; intro C; [eexists; reflexivity|]. cbn [to_const_sequence]. destruct (IH (fun e I => C e (or_intror I))) as (r & R).
  assert (S : exists v, match s with Raw v => Ok v | Node e => get_const_value H e end = Ok v) by (destruct s as [v|e]; [eexists; reflexivity|apply C; left; reflexivity]).
  destruct S as (v & ->). cbn [bind]. destruct v; try (eexists; reflexivity); rewrite R; cbn [bind]; eexists; reflexivity.
Qed.
(** A use never has step 0 if constants vary. *)
Lemma use_total H a : 2 <= length (subs a) -> proper a -> computes H a -> varies H a ->
  exists u, to_iter_use H a = Ok u /\ forall v stop d start, u = Some (IRange (v, stop, d), start) -> d <> 0%Z /\ exists z, as_int v = Some z.
Proof.
  intros L PR CO VA. destruct (to_const_total H (subs a) CO) as ([cs|] & C).
  - destruct (sequence_const H _ _ C) as (vs & -> & V). pose proof (Forall2_len _ _ _ V) as LV.
    assert (T : exists u, to_iter_use H a = Ok u).
    { rewrite (to_iter_use_const H a vs V). assert (FC : exists r, from_chars (parent a) (map Raw vs) = Ok r).
      { unfold from_chars. destruct (parent a); try (eexists; reflexivity). destruct (chars_of (map Raw vs)) as [[|c cs']|] eqn:CH; try (eexists; reflexivity).
        apply chars_raw in CH. subst vs. cbn [map length] in LV. lia. }
      destruct FC as (r & FC). rewrite FC. cbn [bind]. destruct (from_chars_const a vs r FC) as [(-> & _)|(c & cs' & m & -> & _ & EV & _)].
      - destruct (to_range_args_total (map Raw vs)) as (x & X); [rewrite map_length; lia|]. rewrite X. cbn [bind]. destruct x; [eexists; reflexivity|]. destruct (_ =? 1); [destruct (repeats_value _)|]; eexists; reflexivity.
      - destruct (to_range_args_total (map Raw (map (fun d => VInt (ord d - ord m)) (c :: cs')))) as (x & X); [rewrite !map_length; rewrite EV, map_length in LV; lia|]. rewrite X. cbn [bind]. destruct x; [eexists; reflexivity|]. destruct (_ =? 1); [destruct (repeats_value _)|]; eexists; reflexivity. }
    destruct T as (u & T). exists u. split; [exact T|]. intros v stop d start ->. destruct (range_place H a vs V _ _ T) as (v' & z & d' & Q & A & _ & CT).
    assert (v' = v) by congruence. assert (d' = d) by congruence. subst v' d'. split; [apply (counted_varies H a vs z d V VA CT)|exists z; exact A].
  - unfold to_iter_use. rewrite C. cbn [bind].
    assert (FC : from_chars (parent a) (subs a) = Ok None).
    { unfold from_chars. destruct (parent a); try reflexivity. destruct (chars_of (subs a)) as [cs|] eqn:CH; [|reflexivity]. exfalso.
      assert (Q : exists vs, to_const_sequence H (subs a) = Ok (Some vs)); [|destruct Q; congruence]. clear - CH. revert cs CH. induction (subs a) as [|s l IH]; intros cs CH; [eexists; reflexivity|].
      cbn [chars_of] in CH. destruct s as [[| | | |[|c [|]]|]|]; try discriminate. destruct (chars_of l) as [cs'|]; [|discriminate]. destruct (IH cs' eq_refl) as (vs & E). cbn [to_const_sequence bind]. rewrite E. eexists. reflexivity. }
    rewrite FC. cbn [bind]. destruct (to_range_args_total (subs a) L) as (x & X). rewrite X. cbn [bind].
    assert (XN : x = None).
    { destruct x as [[[v stop] d]|]; [|reflexivity]. exfalso. destruct (to_range_args_ok _ _ _ _ X) as (z & _ & _ & M & _).
      assert (Q : exists vs, to_const_sequence H (subs a) = Ok (Some vs)); [|destruct Q; congruence]. clear - M.
      assert (ALL : forall s, List.In s (subs a) -> exists y, int_of s = Some y) by (intros s S; apply (in_map int_of) in S; rewrite M in S; apply in_map_iff in S; destruct S as (y & Y & _); exists y; congruence).
      clear M. induction (subs a) as [|s l IH]; [eexists; reflexivity|]. destruct (ALL s (or_introl eq_refl)) as (y & Y). destruct (IH (fun t T => ALL t (or_intror T))) as (vs & E). destruct s as [v|e]; [|discriminate].
      cbn [to_const_sequence bind]. rewrite E. destruct v; try discriminate; eexists; reflexivity. }
    subst x. cbn beta iota. destruct (length (partition_by_type (subs a)) =? 1) eqn:P1.
    + apply Nat.eqb_eq in P1. pose proof (proper_partition a PR P1) as RAW.
      assert (existsb (fun s => match s with Node _ => true | Raw _ => false end) (subs a) = false) as ->.
      { destruct (existsb _ (subs a)) eqn:B; [|reflexivity]. apply existsb_exists in B. destruct B as (s & S & B). destruct (RAW s S) as (v & ->). discriminate. }
      destruct (repeats_value (subs a)); eexists; (split; [reflexivity|]); intros; discriminate.
    + destruct (nums_total (depths (subs a)) (subs a) (depths_in _)) as (nums & NU). rewrite NU. cbn [bind]. destruct nums as [nums|]; [|eexists; split; [reflexivity|]; intros; discriminate].
      destruct (nums_long _ _ _ NU) as (L2 & D). destruct (to_range_args_total nums L2) as (r & R). rewrite R. cbn [bind]. eexists. split; [reflexivity|].
      intros v stop d start Q. destruct r as [r|]; [|discriminate]. assert (r = (v, stop, d)) by congruence. subst r. split; [apply (some_differ_step _ _ _ _ R D)|].
      destruct (to_range_args_ok _ _ _ _ R) as (z & A & _). exists z. exact A.
Qed.
Lemma uses_total H n avars : 2 <= n -> Forall (place_ok H n) avars -> exists us, iter_uses H avars = Ok us /\
  forall l, us = Some l -> Forall (fun r : range_args => let '(v, _, d) := r in d <> 0%Z /\ exists z, as_int v = Some z) (ranges_of l) /\ length (ranges_of l) + length (seqs_of l) = length avars.
Proof.
  intros N F. induction F as [|a avars (L & PR & CO & VA) F IH].
  - eexists. split; [reflexivity|]. intros l E. assert (l = []) by congruence. subst. split; [constructor|reflexivity].
  - destruct (use_total H a ltac:(lia) PR CO VA) as (u & U & UO). destruct IH as (us & US & UA). cbn [iter_uses]. rewrite U. cbn [bind]. destruct u as [[i c]|]; [|eexists; split; [reflexivity|]; intros; discriminate].
    rewrite US. cbn [bind]. destruct us as [l|]; [|eexists; split; [reflexivity|]; intros; discriminate]. eexists. split; [reflexivity|]. intros l' E. assert (l' = (parent a, i, c) :: l) by congruence. subst l'.
    destruct (UA l eq_refl) as (R & Q). destruct i as [[[v stop] d]|sq]; unfold ranges_of, seqs_of in *; cbn [flat_map fst snd app length]; (split; [|lia]).
    + constructor; [apply (UO v stop d c eq_refl)|exact R].
    + exact R.
Qed.
Theorem nice_total H n avars : 2 <= n -> Forall (place_ok H n) avars -> (exists r, get_nice_iters H avars n = Ok r) \/ get_nice_iters H avars n = Raise NoSubseqToLoop.
Proof.
  intros N F. destruct avars as [|a avars]; [left; eexists; reflexivity|]. destruct (uses_total H n _ N F) as (us & U & UA). unfold get_nice_iters. rewrite U. cbn [bind]. destruct us as [us|]; [|left; eexists; reflexivity].
  destruct (UA us eq_refl) as (R & L). destruct (seqs_of us) as [|[[p l] start] rest].
  - destruct (ranges_of us) as [|r rs]; [cbn [length] in L; lia|]. destruct (2 <? _); [right; reflexivity|left].
    assert (C : exists e, consolidate_ranges (r :: rs) = Ok e).
    { destruct rs as [|r' rs]; [eexists; reflexivity|]. cbn [consolidate_ranges]. pose proof (last_in (r :: r' :: rs) r ltac:(discriminate)) as I. destruct (last (r :: r' :: rs) r) as [[v stop] d] eqn:EL.
      pose proof (proj1 (Forall_forall _ _) R _ I) as Q. cbn beta iota in Q. destruct Q as (D & z & A). rewrite A. destruct (Z.eqb_spec d 0); [destruct (D e)|eexists; reflexivity]. }
    destruct C as (e & ->). cbn [bind]. eexists. reflexivity.
  - left. destruct (ranges_of us); [|eexists; reflexivity]. destruct (forallb _ rest); eexists; reflexivity.
Qed.
Lemma merge_total H loop avars n : (forall l, loop = Some l -> loop_ok H l) -> exists r, merge_with_loop H loop avars n = Ok r.
Proof.
  intro LO. destruct loop as [l|]; [|eexists; reflexivity]. cbn [merge_with_loop]. destruct avars; [|eexists; reflexivity]. destruct (negb (whole_body l)); [eexists; reflexivity|].
  destruct (get_range_params (loop_iter l)) as [[[start stop] step]|] eqn:R; [|eexists; reflexivity]. destruct (LO l eq_refl _ _ _ R) as ((a & A) & (b & B) & (s & S) & C).
  rewrite A. cbn [bind]. destruct (negb _); [eexists; reflexivity|]. rewrite S. cbn [bind]. destruct (negb _); [eexists; reflexivity|]. destruct (negb _ || _); [eexists; reflexivity|]. rewrite B. cbn [bind].
  destruct stop; try (eexists; reflexivity). destruct (C c eq_refl) as (z & Z). assert (b = const_value c) as -> by (destruct c; cbn in B |- *; congruence).
  cbn [binary_operator bind binary]. destruct (const_value c); try discriminate; cbn [as_int binary snd]; cbn; eexists; reflexivity.
Qed.
Theorem no_crash H n m antiunified loop saves : 2 <= n -> (forall avars, antiunified = Some avars -> Forall (place_ok H n) avars) -> (forall l, loop = Some l -> loop_ok H l) ->
  exists v, similar_to_loop H n m antiunified loop saves = Ok v.
Proof.
  intros N A LO. unfold similar_to_loop. destruct (_ <=? 2); [eexists; reflexivity|]. destruct antiunified as [avars|]; [|eexists; reflexivity].
  destruct (merge_total H loop avars n LO) as (r & ->). cbn [bind]. destruct r; [eexists; reflexivity|].
  destruct (nice_total H n avars N (A avars eq_refl)) as [([it|] & ->)| ->]; eexists; reflexivity.
Qed.
