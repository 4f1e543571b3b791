(** Proofs about places where constants vary. *)
From Coq Require Import String Ascii List Bool Arith NArith ZArith Lia.
From Verif Require Import Base PyModel PySpec IfModel FoldModel FoldSpec LocalModel LocalSpec IterModel IterSpec IterProofs.
Import ListNotations.
Local Open Scope string_scope.
Local Open Scope list_scope.
Local Open Scope nat_scope.

Lemma Forall2_len {A B} (R : A -> B -> Prop) l m : Forall2 R l m -> length l = length m.
Proof. induction 1; cbn; congruence. Qed.
Lemma const_sequence H l vs : Forall2 (stands_for H) l vs -> to_const_sequence H l = Ok (Some (map Raw vs)).
Proof.
  induction 1 as [|s v l vs (S & N) F IH]; [reflexivity|]. cbn [to_const_sequence map]. rewrite IH. cbn [bind].
  destruct s as [u|e]; [subst u|]; [|rewrite S]; cbn [bind]; destruct v; try reflexivity; destruct (N eq_refl).
Qed.
Lemma sequence_const H : forall l r, to_const_sequence H l = Ok (Some r) -> exists vs, r = map Raw vs /\ Forall2 (stands_for H) l vs.
Proof.
  induction l as [|s l IH]; intros r E; cbn [to_const_sequence] in E.
  - assert (r = []) by congruence. subst. exists []. split; [reflexivity|constructor].
  - destruct (match s with Raw v => Ok v | Node e => get_const_value H e end) as [c|x] eqn:C; [|discriminate]. cbn [bind] in E.
    assert (N : c <> VNone) by (intros ->; discriminate).
    assert (E' : (do r <- to_const_sequence H l; Ok (match r with Some r => Some (Raw c :: r) | None => None end)) = Ok (Some r)) by (destruct c; try exact E; destruct (N eq_refl)).
    destruct (to_const_sequence H l) as [[q|]|] eqn:Q; try discriminate. cbn [bind] in E'. destruct (IH _ eq_refl) as (vs & -> & F).
    assert (r = Raw c :: map Raw vs) by congruence. subst. exists (c :: vs). split; [reflexivity|]. constructor; [|exact F].
    split; [destruct s; congruence|exact N].
Qed.

(** ** Characters *)
Definition letter_of (c : ascii) : value := VStr (String c EmptyString).
Lemma chars_raw : forall vs cs, chars_of (map Raw vs) = Some cs <-> vs = map letter_of cs.
Proof.
  induction vs as [|v vs IH]; intro cs; cbn [map chars_of].
  - split; intro E; [assert (cs = []) by congruence; subst; reflexivity|]. destruct cs; [reflexivity|discriminate].
  - split.
    + intro E. destruct v as [| | | |s|]; try discriminate. destruct s as [|c [|c' s]]; try discriminate.
      destruct (chars_of (map Raw vs)) as [r|] eqn:R; [|discriminate]. assert (cs = c :: r) by congruence. subst. cbn [map]. f_equal. apply (proj1 (IH r)). reflexivity.
    + intro E. destruct cs as [|c cs]; [discriminate|]. cbn [map] in E. assert (v = letter_of c) by congruence. assert (V : vs = map letter_of cs) by congruence. subst v.
      unfold letter_of. rewrite (proj2 (IH cs) V). reflexivity.
Qed.
Lemma ord_letter c : letter (ord c) = letter_of c.
Proof. unfold letter, ord, letter_of. rewrite Nat2Z.id, ascii_nat_embedding. reflexivity. Qed.
Lemma ord_bounds c : (0 <= ord c < 256)%Z.
Proof. unfold ord. pose proof (nat_ascii_bounded c). lia. Qed.
Lemma letters_of cs : map letter_of cs = map letter (map ord cs).
Proof. rewrite map_map. apply map_ext. intro c. symmetry. apply ord_letter. Qed.
Lemma min_char_le : forall cs c, (ord (min_char c cs) <= ord c)%Z /\ Forall (fun d => (ord (min_char c cs) <= ord d)%Z) cs.
Proof.
  induction cs as [|d cs IH]; intro c; cbn [min_char].
  - split; [lia|constructor].
  - destruct (IH (if Z.ltb (ord d) (ord c) then d else c)) as (L & F). destruct (Z.ltb_spec (ord d) (ord c)); (split; [lia|]; constructor; [lia|exact F]).
Qed.

(** ** Partitions of values *)
Lemma partition_concat : forall l m cur, concat (partition_loop m cur l) = rev (m :: cur) ++ l.
Proof.
  induction l as [|n l IH]; intros m cur; cbn [partition_loop].
  - cbn [concat]. reflexivity.
  - destruct (instance_of n m); [rewrite IH; cbn [rev]; rewrite <- app_assoc; reflexivity|]. cbn [concat]. rewrite IH. reflexivity.
Qed.
Lemma partition_all l : concat (partition_by_type l) = l.
Proof. destruct l as [|n l]; [reflexivity|]. apply partition_concat. Qed.
Lemma group_in k : forall part s, List.In s (group_of k part) -> List.In s (concat part).
Proof.
  intros part s I. unfold group_of in I. apply in_concat in I. destruct I as (g & G & I). apply filter_In in G. apply in_concat. exists g. split; [apply G|exact I].
Qed.
Lemma nodes_in l e : List.In e (nodes_of l) <-> List.In (Node e) l.
Proof.
  unfold nodes_of. rewrite in_flat_map. split.
  - intros ([v|e'] & I & J); [destruct J|]. destruct J as [->|[]]. exact I.
  - intro I. exists (Node e). split; [exact I|left; reflexivity].
Qed.
Lemma raw_nums f vs : nums_from_partition (S f) (partition_by_type (map Raw vs)) = Ok None.
Proof.
  set (part := partition_by_type (map Raw vs)). assert (E : nodes_of (group_of KBinary part) = []).
  { destruct (nodes_of (group_of KBinary part)) as [|e l] eqn:Q; [reflexivity|]. assert (I : List.In e (nodes_of (group_of KBinary part))) by (rewrite Q; left; reflexivity).
    apply nodes_in in I. apply group_in in I. unfold part in I. rewrite partition_all in I. apply in_map_iff in I. destruct I as (v & V & _). discriminate. }
  cbn [nums_from_partition]. destruct (repeats _); [reflexivity|]. destruct (1 <? _); [reflexivity|]. rewrite E. cbn [length Nat.eqb]. rewrite orb_true_r. reflexivity.
Qed.
Lemma no_nodes vs : existsb (fun s => match s with Node _ => true | Raw _ => false end) (map Raw vs) = false.
Proof. induction vs; [reflexivity|]. exact IHvs. Qed.

(** ** The iterable of a place *)
(** The values at the place are numbers, or characters counted from [base]. *)
Definition counted (a : avar) (vs : list value) (zs : list Z) : Prop :=
  map as_int vs = map Some zs \/
  parent a = InConst /\ exists base, (0 <= base)%Z /\ Forall (fun z => (0 <= z)%Z /\ (base + z < 256)%Z) zs /\ vs = map letter (map (fun z => (base + z)%Z) zs).

Lemma int_raw vs : map int_of (map Raw vs) = map as_int vs.
Proof. rewrite map_map. reflexivity. Qed.

Lemma Some_inj {A} : forall l m : list A, map Some l = map Some m -> l = m.
Proof. induction l as [|x l IH]; intros [|y m] E; try discriminate; [reflexivity|]. cbn [map] in E. f_equal; [congruence|]. apply IH. congruence. Qed.

Section Place.
  Variable H : host.
  Variable a : avar.
  Variable vs : list value.
  Hypothesis V : values H a vs.

  Lemma to_iter_use_const : to_iter_use H a =
    do chars <- from_chars (parent a) (map Raw vs);
    let (sequence, start) := match chars with Some r => r | None => (map Raw vs, None) end in
    do range <- to_range_args sequence;
    match range with
    | Some r => Ok (Some (IRange r, start))
    | None =>
        if length (partition_by_type sequence) =? 1
        then if repeats_value sequence then Ok None else Ok (Some (ISeq sequence, start))
        else Ok None
    end.
  Proof using V.
    unfold to_iter_use. rewrite (const_sequence H _ _ V). cbn [bind]. destruct (from_chars (parent a) (map Raw vs)) as [chars|x] eqn:F; [|reflexivity]. cbn [bind].
    assert (R : exists us, fst (match chars with Some r => r | None => (map Raw vs, None) end) = map Raw us).
    { unfold from_chars in F. destruct (parent a); try (assert (chars = None) by congruence; subst; exists vs; reflexivity).
      destruct (chars_of (map Raw vs)) as [[|c cs]|]; try (assert (chars = None) by congruence; subst; exists vs; reflexivity).
      match type of F with Ok ?x = _ => assert (chars = x) by congruence; subst chars end. cbn [fst]. rewrite <- (map_map (fun d => VInt (ord d - ord (min_char c cs))) Raw). eexists. reflexivity. }
    destruct (match chars with Some r => r | None => (map Raw vs, None) end) as [sequence start]. cbn [fst] in R. destruct R as (us & ->).
    destruct (to_range_args (map Raw us)) as [[r|]|x]; try reflexivity. cbn [bind]. destruct (_ =? 1).
    - rewrite no_nodes. reflexivity.
    - rewrite raw_nums. reflexivity.
  Qed.

  Lemma from_chars_const r : from_chars (parent a) (map Raw vs) = Ok r ->
    r = None /\ (parent a = InConst -> forall cs, vs <> map letter_of cs) \/
    exists c cs m, r = Some (map Raw (map (fun d => VInt (ord d - ord m)) (c :: cs)), if Z.eqb (ord m) 0 then None else Some m) /\
      parent a = InConst /\ vs = map letter_of (c :: cs) /\ Forall (fun d => (ord m <= ord d)%Z) (c :: cs).
  Proof using.
    intro E. unfold from_chars in E. destruct (parent a) eqn:PA.
    - destruct (chars_of (map Raw vs)) as [[|c cs]|] eqn:C; [discriminate| |].
      + right. apply chars_raw in C. exists c, cs, (min_char c cs). split; [|split; [reflexivity|split; [exact C|]]].
        * rewrite map_map. congruence.
        * destruct (min_char_le cs c) as (L & F). constructor; assumption.
      + left. split; [congruence|]. intros _ cs EV. apply chars_raw in EV. congruence.
    - left. split; [congruence|discriminate].
    - left. split; [congruence|discriminate].
  Qed.

  Lemma range_place r start : to_iter_use H a = Ok (Some (IRange r, start)) ->
    exists v z d, r = (v, (z + (Z.of_nat (length vs) - 1) * d + (if Z.ltb 0 d then 1 else -1))%Z, d) /\ as_int v = Some z /\ 2 <= length vs /\
      counted a vs (arith z d (length vs)).
  Proof using V.
    rewrite to_iter_use_const. destruct (from_chars (parent a) (map Raw vs)) as [chars|x] eqn:F; [|discriminate]. cbn [bind].
    destruct (from_chars_const _ F) as [(-> & _)|(c & cs & m & -> & PA & EV & FM)]; intro E.
    - destruct (to_range_args (map Raw vs)) as [[[[v stop] d]|]|x] eqn:R; try discriminate.
      2:{ cbn [bind] in E. destruct (_ =? 1); [destruct (repeats_value _)|]; discriminate. }
      cbn [bind] in E. assert (r = (v, stop, d)) by congruence. subst r. destruct (to_range_args_ok _ _ _ _ R) as (z & A & L & M & ->). rewrite map_length in *.
      exists v, z, d. split; [reflexivity|]. split; [exact A|]. split; [exact L|]. left. rewrite <- M, int_raw. reflexivity.
    - destruct (to_range_args (map Raw (map (fun d => VInt (ord d - ord m)) (c :: cs)))) as [[[[v stop] d]|]|x] eqn:R; try discriminate.
      2:{ cbn [bind] in E. destruct (_ =? 1); [destruct (repeats_value _)|]; discriminate. }
      cbn [bind] in E. assert (r = (v, stop, d)) by congruence. subst r. destruct (to_range_args_ok _ _ _ _ R) as (z & A & L & M & ->).
      assert (LV : length vs = length (c :: cs)) by (rewrite EV, map_length; reflexivity). rewrite map_length, map_length, <- LV in *.
      exists v, z, d. split; [reflexivity|]. split; [exact A|]. split; [exact L|]. right. split; [exact PA|]. exists (ord m).
      rewrite int_raw, map_map in M. cbn [as_int] in M. rewrite <- (map_map (fun d => (ord d - ord m)%Z) Some) in M. apply Some_inj in M.
      split; [apply ord_bounds|]. rewrite <- M. split.
      + apply Forall_map. eapply Forall_impl; [|exact FM]. intros d' Q. pose proof (ord_bounds d'). cbn beta in Q |- *. split; lia.
      + rewrite EV, letters_of. f_equal. rewrite map_map. apply map_ext. intro. lia.
  Qed.

  Lemma seq_place l start : to_iter_use H a = Ok (Some (ISeq l, start)) ->
    (start = None /\ l = map Raw vs /\ (parent a = InConst -> forall cs, vs <> map letter_of cs)) \/
    (parent a = InConst /\ exists cs m, l = map (fun d => Raw (VInt (ord d - ord m))) cs /\ start = (if Z.eqb (ord m) 0 then None else Some m) /\ vs = map letter_of cs /\ Forall (fun d => (ord m <= ord d)%Z) cs).
  Proof using V.
    rewrite to_iter_use_const. destruct (from_chars (parent a) (map Raw vs)) as [chars|x] eqn:F; [|discriminate]. cbn [bind].
    destruct (from_chars_const _ F) as [(-> & N)|(c & cs & m & -> & PA & EV & FM)]; intro E.
    - destruct (to_range_args (map Raw vs)) as [[r|]|x] eqn:R; try discriminate. cbn [bind] in E. destruct (_ =? 1); [|discriminate]. destruct (repeats_value _); [discriminate|].
      left. split; [congruence|]. split; [congruence|exact N].
    - destruct (to_range_args (map Raw (map (fun d => VInt (ord d - ord m)) (c :: cs)))) as [[r|]|x] eqn:R; try discriminate. cbn [bind] in E. destruct (_ =? 1); [|discriminate]. destruct (repeats_value _); [discriminate|].
      right. split; [exact PA|]. exists (c :: cs), m. rewrite map_map in E. split; [congruence|]. split; [congruence|]. split; [exact EV|exact FM].
  Qed.
  Lemma seq_length l start : to_iter_use H a = Ok (Some (ISeq l, start)) -> length l = length vs.
  Proof using V.
    intro E. destruct (seq_place l start E) as [(_ & -> & _)|(_ & cs & m & -> & _ & -> & _)]; rewrite !map_length; reflexivity.
  Qed.
End Place.

(** ** All places *)
Lemma iter_uses_ok H : forall avars us, iter_uses H avars = Ok (Some us) -> Forall2 (fun a u => to_iter_use H a = Ok (Some (snd (fst u), snd u)) /\ fst (fst u) = parent a) avars us.
Proof.
  induction avars as [|a avars IH]; intros us E; cbn [iter_uses] in E.
  - assert (us = []) by congruence. subst. constructor.
  - destruct (to_iter_use H a) as [[[i c]|]|x] eqn:U; try discriminate. cbn [bind] in E. destruct (iter_uses H avars) as [[r|]|]; try discriminate. cbn [bind] in E.
    assert (us = (parent a, i, c) :: r) by congruence. subst. constructor; [split; [exact U|reflexivity]|]. apply IH. reflexivity.
Qed.
Lemma all_ranges H : forall avars us, Forall2 (fun a u => to_iter_use H a = Ok (Some (snd (fst u), snd u)) /\ fst (fst u) = parent a) avars us -> seqs_of us = [] ->
  Forall2 (fun a r => exists start, to_iter_use H a = Ok (Some (IRange r, start))) avars (ranges_of us).
Proof.
  induction 1 as [|a [[p i] c] avars us (U & PA) F IH]; intro S; [constructor|]. cbn [fst snd] in U, PA. destruct i as [r|l]; cbn [seqs_of flat_map fst snd] in S; [|discriminate].
  cbn [ranges_of flat_map fst snd app]. constructor; [exists c; exact U|]. apply IH. exact S.
Qed.
Lemma all_seqs H : forall avars us, Forall2 (fun a u => to_iter_use H a = Ok (Some (snd (fst u), snd u)) /\ fst (fst u) = parent a) avars us -> ranges_of us = [] ->
  Forall2 (fun a q => to_iter_use H a = Ok (Some (ISeq (snd (fst q)), snd q)) /\ fst (fst q) = parent a) avars (seqs_of us).
Proof.
  induction 1 as [|a [[p i] c] avars us (U & PA) F IH]; intro S; [constructor|]. cbn [fst snd] in U, PA. destruct i as [r|l]; cbn [ranges_of flat_map fst snd] in S; [discriminate|].
  cbn [seqs_of flat_map fst snd app]. constructor; [split; [exact U|exact PA]|]. apply IH. exact S.
Qed.
(** The two ways to get an iterable. *)
Lemma nice_cases H a avars n it : get_nice_iters H (a :: avars) n = Ok (Some it) ->
  (exists rs e, Forall2 (fun a r => exists start, to_iter_use H a = Ok (Some (IRange r, start))) (a :: avars) rs /\ consolidate_ranges rs = Ok e /\ it = RangeCall e) \/
  (exists l start rest, to_iter_use H a = Ok (Some (ISeq l, start)) /\ Forall2 (fun a q => to_iter_use H a = Ok (Some (ISeq (snd (fst q)), snd q)) /\ fst (fst q) = parent a) avars rest /\
    forallb (fun q => texts_eqb (texts (fst (fst q)) (snd (fst q))) (texts (parent a) l)) rest = true /\
    it = ListDisplay (map (to_node (parent a)) (match start with Some c => map (shift c) l | None => l end))).
Proof.
  unfold get_nice_iters. destruct (iter_uses H (a :: avars)) as [[us|]|x] eqn:U; try discriminate. cbn [bind]. intro E. apply iter_uses_ok in U.
  destruct (seqs_of us) as [|[[p l] start] rest] eqn:S.
  - left. pose proof (all_ranges _ _ _ U S) as F. destruct (ranges_of us) as [|r rs] eqn:R.
    { inversion F. }
    destruct (2 <? _); [discriminate|]. destruct (consolidate_ranges (r :: rs)) as [e|x] eqn:C; [|discriminate]. cbn [bind] in E.
    exists (r :: rs), e. split; [exact F|]. split; [exact C|congruence].
  - destruct (ranges_of us) as [|r rs] eqn:R; [|discriminate]. right. pose proof (all_seqs _ _ _ U R) as F. rewrite S in F. inversion F as [|? ? ? ? (T & PA) F']; subst. cbn [fst snd] in T, PA. subst p.
    destruct (forallb _ rest) eqn:B; [|discriminate]. exists l, start, rest. split; [exact T|]. split; [exact F'|]. split; [exact B|congruence].
Qed.

(** ** The number of iterations *)
Lemma arith_zero z n : arith z 0 n = repeat z n.
Proof. revert z. induction n as [|n IH]; intro z; [reflexivity|]. rewrite arith_cons. cbn [repeat]. rewrite Z.add_0_r, IH. reflexivity. Qed.
Lemma counted_varies H a vs z d : values H a vs -> varies H a -> counted a vs (arith z d (length vs)) -> d <> 0%Z.
Proof.
  intros V W C ->. rewrite arith_zero in C. apply (W vs V). destruct C as [C|(_ & base & _ & _ & C)].
  - intros v w I J. right. exists z.
    assert (K : forall u, List.In u vs -> as_int u = Some z).
    { intros u Q. apply (in_map as_int) in Q. rewrite C in Q. apply in_map_iff in Q. destruct Q as (y & <- & Q). apply repeat_spec in Q. subst y. reflexivity. }
    split; apply K; assumption.
  - intros v w I J. left. assert (K : forall u, List.In u vs -> u = letter (base + z)).
    { intros u Q. rewrite C in Q. apply in_map_iff in Q. destruct Q as (y & <- & Q). apply in_map_iff in Q. destruct Q as (x & <- & Q). apply repeat_spec in Q. subst x. reflexivity. }
    rewrite (K v I), (K w J). reflexivity.
Qed.
Lemma counted_numbers H a vs z d n : values H a vs -> length vs = n -> counted a vs (arith z d n) -> numbers H a (arith z d n) \/ exists base, letters H a (arith (base + z) d n).
Proof.
  intros V L [C|(PA & base & B & F & C)].
  - left. exists vs. split; assumption.
  - right. exists base.
    assert (E : map (fun x => (base + x)%Z) (arith z d n) = arith (base + z) d n) by (unfold arith; rewrite map_map; apply map_ext; intro; lia).
    split; [exact PA|]. rewrite <- E. split; [rewrite <- C; exact V|]. apply Forall_map. eapply Forall_impl; [|exact F]. intros x X. cbn beta in X. lia.
Qed.

Lemma consolidated n d z : d <> 0%Z -> 2 <= n ->
  ((z + (Z.of_nat n - 1) * d + (if Z.ltb 0 d then 1 else -1) - z - 1) / d + 1)%Z = (Z.of_nat n + (if Z.ltb 0 d then 0 else if Z.eqb d (-1) then 2 else if Z.eqb d (-2) then 1 else 0))%Z.
Proof.
  intros D N. destruct (Z.ltb_spec 0 d) as [P|P].
  - replace (z + (Z.of_nat n - 1) * d + 1 - z - 1)%Z with ((Z.of_nat n - 1) * d)%Z by lia. rewrite Z.div_mul by lia. lia.
  - replace (z + (Z.of_nat n - 1) * d + -1 - z - 1)%Z with ((Z.of_nat n - 1) * d + (-2))%Z by lia. rewrite Z.div_add_l by lia.
    destruct (Z.eqb_spec d (-1)) as [->|D1]; [change (-2 / -1)%Z with 2%Z; lia|]. destruct (Z.eqb_spec d (-2)) as [->|D2]; [change (-2 / -2)%Z with 1%Z; lia|].
    rewrite <- Z.div_opp_opp by lia. rewrite Z.div_small by lia. lia.
Qed.

Lemma Forall2_last {A B} (R : A -> B -> Prop) : forall l m a b, Forall2 R l m -> l <> [] -> R (last l a) (last m b).
Proof.
  induction 1 as [|x y l m Q F IH]; intro N; [destruct (N eq_refl)|]. destruct F as [|x' y' l m Q' F]; [exact Q|]. apply (IH). discriminate.
Qed.
Lemma last_in {A} : forall (l : list A) d, l <> [] -> List.In (last l d) l.
Proof. induction l as [|x l IH]; intros d N; [destruct (N eq_refl)|]. destruct l as [|y l]; [left; reflexivity|]. right. apply IH. discriminate. Qed.

Theorem iterations_const H avars n it : 2 <= n -> Forall (fun a => length (subs a) = n /\ constant_place H a /\ varies H a) avars -> get_nice_iters H avars n = Ok (Some it) ->
  exists extra, iterations it (n + extra) /\
    (extra = 0 \/ 2 <= length avars /\ exists a start d, List.In a avars /\ (numbers H a (arith start d n) \/ letters H a (arith start d n)) /\ (d = (-1)%Z /\ extra = 2 \/ d = (-2)%Z /\ extra = 1)).
Proof.
  intros N F E. destruct avars as [|a avars].
  - exists 0. split; [|left; reflexivity]. cbn [get_nice_iters] in E. match type of E with Ok (Some ?x) = _ => assert (it = x) as -> by congruence end. rewrite Nat.add_0_r. cbn [iterations]. split; [reflexivity|].
    exists 0%Z, (Z.of_nat n), 1%Z, (arith 0 1 n). split; [|split; [|apply arith_length]].
    + intros W P w. cbn [range_arguments]. split; [reflexivity|]. split; [|reflexivity]. exists (VInt (Z.of_nat n)). split; [apply int_node_gives|reflexivity].
    + pose proof (arith_range 0 1 n ltac:(lia) ltac:(lia)) as R. cbn [Z.ltb Z.compare] in R. replace (0 + (Z.of_nat n - 1) * 1 + 1)%Z with (Z.of_nat n) in R by lia. exact R.
  - destruct (nice_cases _ _ _ _ _ E) as [(rs & e & R & C & ->)|(l & start & rest & T & _ & _ & ->)].
    + destruct avars as [|a' avars].
      * inversion R as [|? r ? rs' (start & T) R']; subst. inversion R'; subst. cbn [consolidate_ranges] in C. assert (e = to_range_node r) by congruence. subst e.
        inversion F as [|? ? (LS & (vs & V) & W) _]; subst. destruct (range_place H a vs V _ _ T) as (v & z & d & -> & A & L2 & CT).
        assert (L : length vs = length (subs a)) by (symmetry; apply (Forall2_len _ _ _ V)). rewrite L in *.
        exists 0. split; [|left; reflexivity]. rewrite Nat.add_0_r. apply (range_node_iterates v z (length (subs a)) d A); [|lia]. apply (counted_varies H a vs z d V W). rewrite L. exact CT.
      * inversion R as [|? r ? rs' (start & T) R']; subst. inversion R' as [|? r' ? rs'' (start' & T') R'']; subst.
        set (b := last (a' :: avars) a). assert (IB : List.In b (a :: a' :: avars)) by (right; unfold b; apply last_in; discriminate).
        assert (TB : exists start, to_iter_use H b = Ok (Some (IRange (last (r :: r' :: rs'') r), start))).
        { change (last (r :: r' :: rs'') r) with (last (r' :: rs'') r). unfold b. apply (Forall2_last (fun a r => exists start, to_iter_use H a = Ok (Some (IRange r, start)))); [exact R'|discriminate]. }
        rewrite Forall_forall in F. destruct (F b IB) as (LS & (vs & V) & W). destruct TB as (st & TB). destruct (range_place H b vs V _ _ TB) as (v & z & d & EL & A & L2 & CT).
        assert (L : length vs = n) by (rewrite <- LS; symmetry; apply (Forall2_len _ _ _ V)). rewrite L in *.
        assert (D : d <> 0%Z) by (apply (counted_varies H b vs z d V W); rewrite L; exact CT).
        unfold consolidate_ranges in C. rewrite EL, A in C. destruct (Z.eqb_spec d 0) as [Q|_]; [destruct (D Q)|].
        rewrite (consolidated n d z D N) in C.
        set (extra := if Z.ltb 0 d then 0%Z else if Z.eqb d (-1) then 2%Z else if Z.eqb d (-2) then 1%Z else 0%Z) in C.
        assert (X : (0 <= extra)%Z) by (unfold extra; destruct (Z.ltb 0 d), (Z.eqb d (-1)), (Z.eqb d (-2)); lia).
        exists (Z.to_nat extra). split.
        -- pose proof (range_node_iterates (VInt 0) 0 (n + Z.to_nat extra) 1 eq_refl ltac:(lia) ltac:(lia)) as (I & _). cbn [Z.ltb Z.compare] in I.
           replace (0 + (Z.of_nat (n + Z.to_nat extra) - 1) * 1 + 1)%Z with (Z.of_nat n + extra)%Z in I by lia.
           assert (e = to_range_node (VInt 0, (Z.of_nat n + extra)%Z, 1%Z)) as -> by congruence. exact I.
        -- unfold extra. clear C X. clear extra. destruct (Z.ltb_spec 0 d); [left; reflexivity|]. destruct (counted_numbers H b vs z d n V L CT) as [Q|(base & Q)];
           (destruct (Z.eqb_spec d (-1)) as [->|]; [right; split; [cbn [length]; lia|]; exists b; eexists; exists (-1)%Z; (split; [exact IB|]); split; [first [left; exact Q|right; exact Q]|left; split; [lia|reflexivity]]|];
            destruct (Z.eqb_spec d (-2)) as [->|]; [right; split; [cbn [length]; lia|]; exists b; eexists; exists (-2)%Z; (split; [exact IB|]); split; [first [left; exact Q|right; exact Q]|right; split; [lia|reflexivity]]|left; reflexivity]).
    + inversion F as [|? ? (LS & (vs & V) & _) _]; subst. exists 0. split; [|left; reflexivity]. rewrite Nat.add_0_r. cbn [iterations]. rewrite map_length.
      pose proof (seq_length H a vs V _ _ T) as SL. rewrite (Forall2_len _ _ _ V), <- SL. destruct start; [rewrite map_length|]; reflexivity.
Qed.
