(** Witnesses and examples for suggestions to write repeated code as a loop. *)
From Coq Require Import String Ascii List Bool Arith NArith ZArith Lia Sorted.
From Verif Require Import Base PyModel PySpec PyProofs IfModel FoldModel FoldSpec FoldExamples TypeModel LocalModel LocalSpec IterModel IterSpec IterProofs IterConstProofs IterValueProofs IterNumsProofs IterMixedProofs IterMergeProofs IterRepeatProofs.
Import ListNotations.
Local Open Scope string_scope.
Local Open Scope list_scope.
Local Open Scope nat_scope.

Lemma looped H n m avars loop saves it : similar_to_loop H n m (Some avars) loop saves = Ok (LoopMessage it) -> get_nice_iters H avars n = Ok (Some it).
Proof.
  unfold similar_to_loop. destruct (_ <=? 2); [discriminate|]. destruct (merge_with_loop H loop avars n) as [[t|]|x]; cbn [bind]; try (destruct saves); try discriminate.
  all: destruct (get_nice_iters H avars n) as [[it'|]|x]; try discriminate; try congruence.
  all: destruct x; try discriminate.
  all: destruct (String.eqb _ _); discriminate.
Qed.

Theorem constants_iterations H n m avars loop saves it : 2 <= n -> Forall (fun a => length (subs a) = n /\ constant_place H a /\ varies H a) avars ->
  similar_to_loop H n m (Some avars) loop saves = Ok (LoopMessage it) ->
  exists extra, iterations it (n + extra) /\
    (extra = 0 \/ 2 <= length avars /\ exists a start d, List.In a avars /\ (numbers H a (arith start d n) \/ letters H a (arith start d n)) /\ (d = (-1)%Z /\ extra = 2 \/ d = (-2)%Z /\ extra = 1)).
Proof. intros N F E. apply (iterations_const H avars n it N F (looped _ _ _ _ _ _ _ E)). Qed.
Theorem expressions_iterations H n m a loop saves it : 2 <= n -> length (subs a) = n -> (forall s, List.In s (subs a) -> exists e, s = Node e /\ sums_products e = true) -> ~ constant_place H a ->
  similar_to_loop H n m (Some [a]) loop saves = Ok (LoopMessage it) -> iterations it n.
Proof. intros N L S C E. apply (expressions_count H a n it N L S C (looped _ _ _ _ _ _ _ E)). Qed.
Theorem one_place H n m a vs loop saves it : values H a vs -> length vs = n -> plain_values vs -> parent a <> InName -> varies H a ->
  similar_to_loop H n m (Some [a]) loop saves = Ok (LoopMessage it) ->
  (exists us, (forall W (P : python W) w, iterates P w it us) /\ Forall2 equal_values vs us) \/
  (exists zs base, (forall W (P : python W) w, iterates P w it (map VInt zs)) /\ letters H a (map (fun z => (base + z)%Z) zs)).
Proof. intros V L P N C E. apply (single_place H a vs n it V L P N C (looped _ _ _ _ _ _ _ E)). Qed.
Theorem ranges H n m avars loop saves e : Forall (fun a => length (subs a) = n /\ constant_place H a) avars ->
  similar_to_loop H n m (Some avars) loop saves = Ok (LoopMessage (RangeCall e)) ->
  Forall (fun a => exists start d, numbers H a (arith start d n) \/ letters H a (arith start d n)) avars.
Proof. intros F E. apply (range_places H avars n e F (looped _ _ _ _ _ _ _ E)). Qed.
Theorem lists H n m avars loop saves elts : Forall (fun a => parent a <> InName /\ (forall vs, values H a vs -> plain_values vs) /\ constant_place H a /\ forall zs, ~ letters H a zs) avars ->
  similar_to_loop H n m (Some avars) loop saves = Ok (LoopMessage (ListDisplay elts)) ->
  forall a vs, List.In a avars -> values H a vs -> forall W (P : python W) w, iterates P w (ListDisplay elts) vs.
Proof. intros F E. exact (list_places H avars n elts F (looped _ _ _ _ _ _ _ E)). Qed.
Theorem names H n m xs loop saves it : similar_to_loop H n m (Some [mk_avar InName (map (fun x => Raw (VStr x)) xs)]) loop saves = Ok (LoopMessage it) ->
  it = ListDisplay (map Name xs) /\
  forall W (P : python W) body w, (forall v u x, List.In x xs -> lookup P x (fst (body v u)) = lookup P x u) -> (forall x, List.In x xs -> exists v, lookup P x w = Ok v) ->
    loop_over P body (map Name xs) w = one_by_one P body (map Name xs) w.
Proof.
  intro E. split; [apply (names_place H xs n it (looped _ _ _ _ _ _ _ E))|]. intros W P body w K D. symmetry. apply names_run; assumption.
Qed.

Definition ints_at (zs : list Z) : avar := mk_avar InConst (map (fun z => Raw (VInt z)) zs).
Definition chars_at (cs : list string) : avar := mk_avar InConst (map (fun s => Raw (VStr s)) cs).
Lemma ints_values H zs : values H (ints_at zs) (map VInt zs).
Proof. unfold values, ints_at. cbn [subs]. induction zs as [|z zs IH]; constructor; [split; [reflexivity|discriminate]|exact IH]. Qed.
Lemma values_fun H a vs ws : values H a vs -> values H a ws -> vs = ws.
Proof.
  unfold values. intro V. revert ws. induction V as [|s v l vs (S1 & N1) V IH]; intros ws V'; inversion V' as [|? ? ? ? (S2 & N2) V'']; subst; [reflexivity|]. f_equal; [|apply IH; assumption]. destruct s; congruence.
Qed.
Lemma ints_vary H y z zs : y <> z -> varies H (ints_at (y :: z :: zs)).
Proof.
  intros N vs V A. rewrite (values_fun _ _ _ _ V (ints_values H _)) in A. destruct (A (VInt y) (VInt z) (or_introl eq_refl) (or_intror (or_introl eq_refl))) as [E|(k & E & F)]; cbn [as_int] in *; congruence.
Qed.

(** Numbers 1, 3, 5. *)
Lemma odd_found : Forall (fun a => length (subs a) = 3 /\ constant_place ints a /\ varies ints a) [ints_at [1; 3; 5]%Z] /\
  similar_to_loop ints 3 1 (Some [ints_at [1; 3; 5]%Z]) None true = Ok (LoopMessage (RangeCall (Call (Name "range") [num 1; num 6; num 2]))).
Proof. split; [|reflexivity]. constructor; [|constructor]. split; [reflexivity|]. split; [eexists; apply ints_values|apply ints_vary; lia]. Qed.

(** The number of iterations is unique. *)
Lemma iterations_fun it n m : iterations it n -> iterations it m -> n = m.
Proof.
  destruct it as [e|l]; cbn [iterations]; [|congruence]. destruct e; try (intros []; fail). destruct e; try (intros []; fail).
  intros (_ & a & b & s & l & R & I & <-) (_ & a' & b' & s' & l' & R' & I' & <-). specialize (R unit (vars []) tt). specialize (R' unit (vars []) tt).
  assert (F : forall e y z, is_int (vars []) tt e y -> is_int (vars []) tt e z -> y = z) by (intros e y z (v & G & V) (u & G' & U); unfold gives in *; rewrite G in G'; congruence).
  destruct args as [|e1 [|e2 [|e3 [|]]]]; cbn [range_arguments] in R, R'; try contradiction; destruct R as (R1 & R2 & R3); destruct R' as (R1' & R2' & R3').
  - pose proof (F _ _ _ R2 R2'). subst. f_equal. apply (range_unique _ _ _ _ _ I I').
  - pose proof (F _ _ _ R1 R1'). pose proof (F _ _ _ R2 R2'). subst. f_equal. apply (range_unique _ _ _ _ _ I I').
  - pose proof (F _ _ _ R1 R1'). pose proof (F _ _ _ R2 R2'). pose proof (F _ _ _ R3 R3'). subst a' s' b'. f_equal. apply (range_unique _ _ _ _ _ I I').
Qed.
Lemma range_to k : 1 <= k -> iterations (RangeCall (Call (Name "range") [num (N.of_nat k)])) k.
Proof.
  intro K. pose proof (range_node_iterates (VInt 0) 0 k 1 eq_refl ltac:(lia) K) as (I & _). cbn [Z.ltb Z.compare] in I. replace (0 + (Z.of_nat k - 1) * 1 + 1)%Z with (Z.of_nat k) in I by lia.
  unfold to_range_node in I. cbn [Z.eqb negb value_eqb as_int Pos.eqb] in I. unfold int_node in I. destruct (Z.ltb_spec (Z.of_nat k) 0); [lia|]. replace (Z.abs_N (Z.of_nat k)) with (N.of_nat k) in I by lia. exact I.
Qed.

(** f(1, 3); f(2, 2); f(3, 1) *)
Lemma descending_refuted : exists it, similar_to_loop ints 3 1 (Some [ints_at [1; 2; 3]%Z; ints_at [3; 2; 1]%Z]) None true = Ok (LoopMessage it) /\
  it = RangeCall (Call (Name "range") [num 5]) /\ ~ iterations it 3.
Proof.
  eexists. split; [reflexivity|]. split; [reflexivity|]. intro I. pose proof (range_to 5 ltac:(lia)) as J. pose proof (iterations_fun _ _ _ I J). discriminate.
Qed.

Definition nodes_at (es : list expr) : avar := mk_avar InOther (map Node es).
Definition x : expr := Name "x".
(** f(x); f(x + 1); f(x + 2) *)
Lemma sums_found : (forall s, List.In s (subs (nodes_at [x; Binary Add x (num 1); Binary Add x (num 2)])) -> exists e, s = Node e /\ sums_products e = true) /\
  ~ constant_place ints (nodes_at [x; Binary Add x (num 1); Binary Add x (num 2)]) /\
  similar_to_loop ints 3 1 (Some [nodes_at [x; Binary Add x (num 1); Binary Add x (num 2)]]) None true = Ok (LoopMessage (RangeCall (Call (Name "range") [num 3]))).
Proof.
  split; [|split; [|reflexivity]].
  - intros s S. cbn in S. destruct S as [<-|[<-|[<-|[]]]]; eexists; split; reflexivity.
  - intros (vs & V). unfold values in V. cbn in V. inversion V as [|? v ? ? (S & N) _]; subst. cbn in S. congruence.
Qed.
(** f(x); f(x ** 2); f(x ** 3) *)
Lemma power_refuted : exists it, similar_to_loop ints 3 1 (Some [nodes_at [x; Binary Pow x (num 2); Binary Pow x (num 3)]]) None true = Ok (LoopMessage it) /\
  it = RangeCall (Call (Name "range") [num 2; num 4]) /\ ~ iterations it 3.
Proof.
  eexists. split; [reflexivity|]. split; [reflexivity|]. intro I. pose proof (range_node_iterates (VInt 2) 2 2 1 eq_refl ltac:(lia) ltac:(lia)) as (J & _). pose proof (iterations_fun _ _ _ I J). discriminate.
Qed.
(** f(2); f(1 + 1); f(4 - 2) *)
Definition two : avar := nodes_at [num 2; Binary Add (num 1) (num 1); Binary Sub (num 4) (num 2)].
Lemma zero_refuted : exists it, similar_to_loop ints 3 1 (Some [two]) None true = Ok (LoopMessage it) /\
  it = RangeCall (Call (Name "range") [num 2; num 1; num 0]) /\ forall n, ~ iterations it n.
Proof.
  eexists. split; [reflexivity|]. split; [reflexivity|]. intros n (_ & a & b & s & l & R & (S & _) & _). specialize (R unit (vars []) tt). cbn [range_arguments] in R. destruct R as (_ & _ & v & G & V).
  vm_compute in G. injection G as <-. cbn [as_int] in V. apply S. congruence.
Qed.
(** f(1, 2); f(2, 1 + 1); f(3, 4 - 2) *)
Lemma crash_refuted : proper two /\ computes ints two /\ similar_to_loop ints 3 1 (Some [ints_at [1; 2; 3]%Z; two]) None true = Raise ZeroDivisionError.
Proof.
  split; [|split; [|reflexivity]].
  - right. exists (Node (num 2)), (Node (Binary Add (num 1) (num 1))). repeat split; try (cbn; tauto); discriminate.
  - intros e I. cbn in I. destruct I as [I|[I|[I|[]]]]; assert (Q : exists v, get_const_value ints e = Ok v) by (match type of I with Node ?q = _ => assert (e = q) as -> by congruence end; eexists; reflexivity); exact Q.
Qed.
Lemma proper_ints zs : proper (ints_at zs).
Proof. left. intros s S. apply in_map_iff in S. destruct S as (z & <- & _). eexists. reflexivity. Qed.
Lemma no_crash_found : place_ok ints 3 (ints_at [1; 3; 5]%Z) /\ place_ok ints 3 (nodes_at [x; Binary Add x (num 1); Binary Add x (num 2)]).
Proof.
  split; (split; [reflexivity|split; [|split]]).
  - apply proper_ints.
  - intros e I. apply in_map_iff in I. destruct I as (z & Z & _). discriminate.
  - apply ints_vary. lia.
  - right. exists (Node x), (Node (Binary Add x (num 1))). repeat split; try (cbn; tauto); discriminate.
  - intros e I. cbn in I. destruct I as [I|[I|[I|[]]]]; assert (Q : exists v, get_const_value ints e = Ok v) by (match type of I with Node ?q = _ => assert (e = q) as -> by congruence end; eexists; reflexivity); exact Q.
  - intros vs V. unfold values in V. cbn in V. inversion V as [|? v ? ? (S & N) _]; subst. cbn in S. congruence.
Qed.
(** for _ in range(None): ... *)
Lemma none_refuted : similar_to_loop ints 3 1 (Some []) (Some (mk_around (Call (Name "range") [Const CNone]) true true false)) true = Raise TypeError.
Proof. reflexivity. Qed.

(** Characters. *)
Lemma chars_found : similar_to_loop ints 3 1 (Some [chars_at ["a"; "c"; "b"]]) None true = Ok (LoopMessage (ListDisplay [Const (CStr "a"); Const (CStr "c"); Const (CStr "b")])).
Proof. reflexivity. Qed.
Lemma chars_refuted : exists elts vs, similar_to_loop ints 3 1 (Some [chars_at ["a"; "c"; "b"]; chars_at ["b"; "d"; "c"]]) None true = Ok (LoopMessage (ListDisplay elts)) /\
  values ints (chars_at ["b"; "d"; "c"]) vs /\ ~ iterates (vars []) tt (ListDisplay elts) vs.
Proof.
  exists [Const (CStr "a"); Const (CStr "c"); Const (CStr "b")], [VStr "b"; VStr "d"; VStr "c"]. split; [reflexivity|]. split; [repeat constructor; discriminate|].
  intro F. cbn [iterates] in F. inversion F as [|? ? ? ? G _]; subst. vm_compute in G. discriminate.
Qed.
(** f(-x); f(+x); f(~x): the operators are taken for values. *)
Lemma operators_refuted : similar_to_loop ints 3 1 (Some [mk_avar InOther [Raw (VStr "-"); Raw (VStr "+"); Raw (VStr "~")]]) None true =
  Ok (LoopMessage (ListDisplay [Const (CStr "-"); Const (CStr "+"); Const (CStr "~")])).
Proof. reflexivity. Qed.
Lemma mixed_refuted : similar_to_loop ints 3 1 (Some [nodes_at [x; Binary Mod x (num 2); Binary Mod x (num 3)]]) None true = Ok (LoopMessage (RangeCall (Call (Name "range") [num 1; num 4]))) /\
  forall W (P : python W) w z, gives P w x (VInt z) -> gives P w (Binary Mod x (num 1)) (VInt 0).
Proof.
  split; [reflexivity|]. intros W P w z G. unfold gives, x in *. cbn [eval] in *. assert (L : lookup P "x" w = Ok (VInt z)) by congruence. unfold andthen. rewrite L. cbn [const_value binary as_int int_op]. cbn. rewrite Z.mod_1_r. reflexivity.
Qed.

(** Names: x = g(a); x = g(b); x = g(x), where g adds 1. *)
Definition assigned_x : python Z := {|
  lookup := fun y w => if String.eqb y "a" then Ok (VInt 10) else if String.eqb y "b" then Ok (VInt 20) else Ok (VInt w);
  opaque := fun _ w => (w, Raise TypeError);
  call := fun _ _ w => (w, Raise TypeError);
  attribute := fun _ _ w => (w, Raise TypeError);
  item := fun _ _ w => (w, Raise TypeError);
  unary_op := fun _ _ w => (w, Raise TypeError);
  binary_op := fun _ _ _ w => (w, Raise TypeError);
  compare_op := fun _ _ _ w => (w, Raise TypeError);
  obj_truth := fun _ _ => Ok true
|}.
Definition sets_x (v : value) (w : Z) : Z * res unit := match v with VInt z => ((z + 1)%Z, Ok tt) | _ => (w, Raise TypeError) end.
Definition reads_x (v : value) (w : Z) : Z * res unit := (w, Ok tt).
Lemma names_found : similar_to_loop ints 3 1 (Some [mk_avar InName (map (fun x => Raw (VStr x)) ["a"; "b"; "x"])]) None true = Ok (LoopMessage (ListDisplay [Name "a"; Name "b"; Name "x"])) /\
  forall v u x, List.In x ["a"; "b"; "x"] -> lookup assigned_x x (fst (reads_x v u)) = lookup assigned_x x u.
Proof. split; [reflexivity|]. intros. reflexivity. Qed.
Lemma names_refuted : similar_to_loop ints 3 1 (Some [mk_avar InName (map (fun x => Raw (VStr x)) ["a"; "b"; "x"])]) None true = Ok (LoopMessage (ListDisplay [Name "a"; Name "b"; Name "x"])) /\
  loop_over assigned_x sets_x [Name "a"; Name "b"; Name "x"] 0%Z <> one_by_one assigned_x sets_x [Name "a"; Name "b"; Name "x"] 0%Z.
Proof. split; [reflexivity|]. vm_compute. congruence. Qed.

(** ** The outer loop *)
Definition loop_of (stop : expr) : around := mk_around (Call (Name "range") [stop]) true true false.
Lemma merged H n m antiunified loop saves t : similar_to_loop H n m antiunified loop saves = Ok (MergeMessage t) -> exists avars, antiunified = Some avars /\ merge_with_loop H loop avars n = Ok (Some t).
Proof.
  unfold similar_to_loop. destruct (_ <=? 2); [discriminate|]. destruct antiunified as [avars|]; [|discriminate]. destruct (merge_with_loop H loop avars n) as [[t'|]|y] eqn:M; cbn [bind]; [|intro E; exfalso|discriminate].
  - destruct saves; [|discriminate]. intro E. exists avars. split; [reflexivity|]. congruence.
  - destruct (get_nice_iters H avars n) as [[it'|]|y]; try (destruct saves); try discriminate.
    all: destruct y; try discriminate.
    all: destruct (String.eqb _ _); discriminate.
Qed.
Theorem merged_text H n m antiunified loop saves t : similar_to_loop H n m antiunified loop saves = Ok (MergeMessage t) ->
  exists l start stop step, loop = Some l /\ antiunified = Some [] /\ whole_body l = true /\ target_is_name l = true /\ uses_target l = false /\ get_range_params (loop_iter l) = Some (start, stop, step) /\
    (exists a, get_const_value H start = Ok a /\ as_int a = Some 0%Z) /\ (exists s, get_const_value H step = Ok s /\ as_int s = Some 1%Z) /\
    (forall k, stop = Const (CInt k) -> t = [TConst (CInt (k * N.of_nat n))]) /\
    (well_formed stop = true -> no_nested_compare stop = true -> (forall c, stop <> Const c) -> 11 <= prec stop -> exists e, reads t e /\ same e (Binary Mul stop (Const (CInt (N.of_nat n))))).
Proof.
  intro E. destruct (merged _ _ _ _ _ _ _ E) as (avars & -> & M). destruct (merge_text H loop avars n t M) as (l & start & stop & step & -> & -> & B & T & U & R & A & S & X & Y).
  exists l, start, stop, step. do 2 (split; [reflexivity|]). repeat (split; [assumption|]). intros WF NC C PR. rewrite (X C). apply merge_reads; assumption.
Qed.
Lemma merge_found : similar_to_loop ints 3 1 (Some []) (Some (loop_of (Name "n"))) true = Ok (MergeMessage [TName "n"; TBin Mul; TConst (CInt 3)]) /\
  similar_to_loop ints 3 1 (Some []) (Some (loop_of (num 4))) true = Ok (MergeMessage [TConst (CInt 12)]).
Proof. split; reflexivity. Qed.
(** for _ in range(n + 1): ... *)
Lemma parentheses_refuted : exists t e, similar_to_loop ints 3 1 (Some []) (Some (loop_of (Binary Add (Name "n") (num 1)))) true = Ok (MergeMessage t) /\ reads t e /\
  ~ same e (Binary Mul (Binary Add (Name "n") (num 1)) (num 3)).
Proof.
  exists [TName "n"; TBin Add; TConst (CInt 1); TBin Mul; TConst (CInt 3)], (Binary Add (Name "n") (Binary Mul (num 1) (num 3))). split; [reflexivity|]. split; [exists 100; reflexivity|].
  intro S. specialize (S unit (vars [("n", 5%Z)]) tt). vm_compute in S. discriminate.
Qed.

(** States: a counter and the target. *)
Definition counting (w : nat * nat) : (nat * nat) * ending := if fst w <? 100 then ((S (fst w), snd w), Done) else (w, Break).
Definition target (i : nat) (w : nat * nat) : nat * nat := (fst w, i).
Definition near (u w : nat * nat) : Prop := fst u = fst w.
Lemma counting_ok : (forall w, near w w) /\ (forall i w, near (target i w) w) /\ ignores near counting /\ (forall w, snd (counting w) <> Continue) /\
  for_range target (copies 3 counting) 0 4 (0, 0) = ((12, 3), Done).
Proof.
  split; [reflexivity|]. split; [reflexivity|]. split; [|split; [|reflexivity]].
  - intros [a t] [b s] E. unfold near in E. cbn [fst] in E. subst b. unfold counting. cbn [fst]. destruct (a <? 100); split; reflexivity.
  - intros [a t]. unfold counting. cbn [fst]. destruct (a <? 100); discriminate.
Qed.
(** [continue] in the first part skips the others. *)
Definition skipping (w : nat * nat) : (nat * nat) * ending := ((S (fst w), snd w), Continue).
Lemma continue_refuted : ignores near skipping /\ fst (fst (for_range target (copies 3 skipping) 0 4 (0, 0))) = 4 /\ fst (fst (for_range target skipping 0 (4 * 3) (0, 0))) = 12.
Proof. split; [|split; reflexivity]. intros [a t] [b s] E. unfold near in E. cbn [fst] in E. subst b. split; reflexivity. Qed.
(** The target after the loop. *)
Lemma target_refuted : ignores near counting /\ snd (fst (for_range target (copies 3 counting) 0 4 (0, 0))) = 3 /\ snd (fst (for_range target counting 0 (4 * 3) (0, 0))) = 11.
Proof. split; [apply counting_ok|]. split; reflexivity. Qed.

(** ** Repetitions *)
Lemma six_found : get_loop_repetitions [1; 2; 1; 2] = [(4, [[1]; [2]; [1]; [2]]); (4, [[1; 2]; [1; 2]]); (3, [[1]; [2]; [1]]); (2, [[1]; [2]])].
Proof. reflexivity. Qed.
