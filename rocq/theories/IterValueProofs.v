(** Proofs about the values that a suggested loop runs through. *)
From Coq Require Import String Ascii List Bool Arith NArith ZArith Lia.
From Verif Require Import Base PyModel PySpec IfModel IfProofs FoldModel FoldSpec LocalModel LocalSpec IterModel IterSpec IterProofs IterConstProofs.
Import ListNotations.
Local Open Scope string_scope.
Local Open Scope list_scope.
Local Open Scope nat_scope.

Lemma as_int_equal : forall vs zs, map as_int vs = map Some zs -> Forall2 equal_values vs (map VInt zs).
Proof.
  induction vs as [|v vs IH]; intros [|z zs] E; try discriminate; [constructor|]. cbn [map] in *. constructor; [|apply IH; congruence].
  right. exists z. split; [congruence|reflexivity].
Qed.
Lemma Forall2_same {A} (R : A -> A -> Prop) l : (forall x, R x x) -> Forall2 R l l.
Proof. intro Q. induction l; constructor; auto. Qed.
Lemma const_nodes_give {W} (P : python W) w vs : Forall (fun v => forall n, v <> VObj n) vs -> Forall2 (gives P w) (map const_node vs) vs.
Proof. induction 1 as [|v vs N F IH]; constructor; [apply const_node_gives; exact N|exact IH]. Qed.
Lemma shift_letter m d : (ord m <= ord d)%Z -> shift m (Raw (VInt (ord d - ord m))) = Raw (letter_of d).
Proof.
  intro L. unfold shift. do 2 f_equal. change (String (ascii_of_nat (Z.to_nat (ord m + (ord d - ord m)))) "") with (match letter (ord m + (ord d - ord m)) with VStr s => s | _ => "" end).
  replace (ord m + (ord d - ord m))%Z with (ord d) by lia. rewrite ord_letter. reflexivity.
Qed.
Lemma to_node_const p v : p <> InName -> to_node p (Raw v) = const_node v.
Proof. intro N. destruct p; try reflexivity. destruct (N eq_refl). Qed.

(** ** One place *)
Theorem single_place H a vs n it : values H a vs -> length vs = n -> plain_values vs -> parent a <> InName -> varies H a -> get_nice_iters H [a] n = Ok (Some it) ->
  (exists us, (forall W (P : python W) w, iterates P w it us) /\ Forall2 equal_values vs us) \/
  (exists zs base, (forall W (P : python W) w, iterates P w it (map VInt zs)) /\ letters H a (map (fun z => (base + z)%Z) zs)).
Proof.
  intros V L PV PA W E. destruct (nice_cases _ _ _ _ _ E) as [(rs & e & R & C & ->)|(l & start & rest & T & _ & _ & ->)].
  - inversion R as [|? r ? rs' (start & T) R']; subst. inversion R'; subst. cbn [consolidate_ranges] in C. assert (e = to_range_node r) by congruence. subst e.
    destruct (range_place H a vs V _ _ T) as (v & z & d & -> & A & L2 & CT). pose proof (counted_varies H a vs z d V W CT) as D.
    destruct (range_node_iterates v z (length vs) d A D ltac:(lia)) as (_ & I). destruct CT as [C'|(PC & base & B & F & C')].
    + left. exists (map VInt (arith z d (length vs))). split; [exact I|]. apply as_int_equal. exact C'.
    + right. exists (arith z d (length vs)), base. split; [exact I|]. split; [exact PC|]. split; [rewrite <- C'; exact V|]. apply Forall_map. eapply Forall_impl; [|exact F].
      intros x X. cbn beta in X. lia.
  - destruct (seq_place H a vs V _ _ T) as [(-> & -> & _)|(PC & cs & m & -> & -> & EV & F)].
    + left. exists vs. split; [|apply Forall2_same; intro; left; reflexivity]. intros W' P w. cbn [iterates]. rewrite map_map.
      rewrite (map_ext _ const_node) by (intro v; apply to_node_const; exact PA). apply const_nodes_give. exact PV.
    + destruct (Z.eqb_spec (ord m) 0) as [M|M].
      * right. exists (map (fun d => (ord d - ord m)%Z) cs), 0%Z. split.
        -- intros W' P w. cbn [iterates]. rewrite PC, !map_map. cbn [to_node const_node]. clear - P. induction cs; constructor; [apply int_node_gives|assumption].
        -- split; [exact PC|]. assert (EQ : map (fun z => (0 + z)%Z) (map (fun d => (ord d - ord m)%Z) cs) = map ord cs) by (rewrite map_map; apply map_ext_in; intros x X; pose proof (proj1 (Forall_forall _ _) F x X) as FX; cbn beta in FX; rewrite M in *; lia). rewrite EQ. split; [rewrite <- letters_of, <- EV; exact V|].
           apply Forall_map. apply Forall_forall. intros x _. apply ord_bounds.
      * left. exists vs. split; [|apply Forall2_same; intro; left; reflexivity]. intros W' P w. cbn [iterates]. rewrite PC, map_map.
        rewrite EV. clear - F P. induction F as [|d cs Q F IH]; [constructor|]. cbn [map]. constructor; [|exact IH]. rewrite shift_letter by exact Q. apply const_node_gives. unfold letter_of. congruence.
Qed.

(** ** Several places *)
Theorem range_places H avars n e : Forall (fun a => length (subs a) = n /\ constant_place H a) avars -> get_nice_iters H avars n = Ok (Some (RangeCall e)) ->
  Forall (fun a => exists start d, numbers H a (arith start d n) \/ letters H a (arith start d n)) avars.
Proof.
  intros F E. destruct avars as [|a avars]; [constructor|]. destruct (nice_cases _ _ _ _ _ E) as [(rs & e' & R & _ & _)|(l & start & rest & _ & _ & _ & Q)]; [|discriminate].
  clear E. induction R as [|b r bs rs (start & T) R IH]; [constructor|]. inversion F as [|? ? (LS & vs & V) F']; subst. constructor; [|apply IH; exact F'].
  destruct (range_place H b vs V _ _ T) as (v & z & d & -> & A & L2 & CT). assert (L : length vs = length (subs b)) by (symmetry; apply (Forall2_len _ _ _ V)).
  destruct (counted_numbers H b vs z d _ V eq_refl CT) as [Q|(base & Q)]; rewrite L in Q; eexists; exists d; [left|right]; exact Q.
Qed.

Lemma const_node_text v w : plain_values [v] -> plain_values [w] -> as_string (const_node v) = as_string (const_node w) -> v = w.
Proof.
  intros PV PW E. inversion PV as [|? ? NV _]; inversion PW as [|? ? NW _]; subst.
  assert (I : forall z, as_string (int_node z) = if Z.ltb z 0 then [TBin Sub; TConst (CInt (Z.abs_N z))] else [TConst (CInt (Z.abs_N z))]).
  { intro z. unfold int_node. destruct (Z.ltb z 0); reflexivity. }
  destruct v, w; cbn [const_node] in E; rewrite ?I in E; try congruence; try (destruct (Z.ltb z 0); discriminate);
    try (destruct (NV _ eq_refl)); try (destruct (NW _ eq_refl)); cbn [as_string] in E; try congruence.
  destruct (Z.ltb_spec z 0), (Z.ltb_spec z0 0); try discriminate; assert (Q : Z.abs_N z = Z.abs_N z0) by congruence; f_equal; lia.
Qed.
Lemma texts_eqb_ok : forall a b, texts_eqb a b = true -> a = b.
Proof.
  induction a as [|x a IH]; intros [|y b] E; try discriminate; [reflexivity|]. cbn [texts_eqb] in E. apply andb_true_iff in E. destruct E as (E & F). apply text_eqb_eq in E. f_equal; [exact E|apply IH; exact F].
Qed.
Lemma texts_inj p q : p <> InName -> q <> InName -> forall vs ws, plain_values vs -> plain_values ws -> texts p (map Raw vs) = texts q (map Raw ws) -> vs = ws.
Proof.
  intros NP NQ. induction vs as [|v vs IH]; intros [|w ws] PV PW E; try discriminate; [reflexivity|]. unfold texts in E. cbn [map] in E. rewrite !to_node_const in E by assumption.
  inversion PV as [|? ? V1 V2]; inversion PW as [|? ? W1 W2]; subst. f_equal; [|apply IH; try assumption; unfold texts; congruence].
  apply const_node_text; [constructor; [exact V1|constructor]|constructor; [exact W1|constructor]|congruence].
Qed.

Theorem list_places H avars n elts : Forall (fun a => parent a <> InName /\ (forall vs, values H a vs -> plain_values vs) /\ constant_place H a /\ forall zs, ~ letters H a zs) avars ->
  get_nice_iters H avars n = Ok (Some (ListDisplay elts)) -> forall a vs, List.In a avars -> values H a vs -> forall W (P : python W) w, Forall2 (gives P w) elts vs.
Proof.
  intros F E. destruct avars as [|a0 avars]; [intros ? ? []|]. destruct (nice_cases _ _ _ _ _ E) as [(rs & e & _ & _ & Q)|(l & start & rest & T & R & B & Q)]; [discriminate|].
  inversion F as [|? ? (NP & PL & (vs0 & V0) & NL) F']; subst.
  assert (LETTER : forall a vs cs, parent a = InConst -> values H a vs -> vs = map letter_of cs -> ~ (forall zs, ~ letters H a zs)).
  { intros a vs cs PA V EV N. apply (N (map ord cs)). split; [exact PA|]. split; [rewrite <- letters_of, <- EV; exact V|]. apply Forall_map. apply Forall_forall. intros x _. apply ord_bounds. }
  destruct (seq_place H a0 vs0 V0 _ _ T) as [(-> & -> & _)|(PC & cs & m & _ & _ & EV & _)]; [|destruct (LETTER a0 vs0 cs PC V0 EV NL)].
  assert (EL : elts = map const_node vs0).
  { assert (elts = map (to_node (parent a0)) (map Raw vs0)) as -> by congruence. rewrite map_map. apply map_ext. intro v. apply to_node_const. exact NP. }
  assert (FUN : forall a vs ws, values H a vs -> values H a ws -> vs = ws).
  { intros a vs ws V V'. unfold values in *. revert ws V'. induction V as [|s v l vs (S1 & N1) V IH]; intros ws V'; inversion V' as [|? ? ? ? (S2 & N2) V'']; subst; [reflexivity|].
    f_equal; [|apply IH; assumption]. destruct s; congruence. }
  intros a vs [<-|I] V W P w.
  - rewrite (FUN _ _ _ V V0), EL. apply const_nodes_give. apply (PL _ V0).
  - assert (S : vs = vs0).
    { clear E EL Q F T. induction R as [|b q bs qs (TB & PB) R IH]; [destruct I|]. inversion F' as [|? ? (NB & PLB & (ws & VB) & NLB) F'']; subst. cbn [forallb] in B. apply andb_true_iff in B. destruct B as (B1 & B2).
      destruct I as [<-|I]; [|apply IH; assumption]. rewrite (FUN _ _ _ V VB).
      destruct (seq_place H b ws VB _ _ TB) as [(_ & SQ & _)|(PC & cs & m & _ & _ & EV & _)]; [|destruct (LETTER b ws cs PC VB EV NLB)].
      apply texts_eqb_ok in B1. rewrite SQ, PB in B1. apply (texts_inj (parent b) (parent a0) NB NP); [apply (PLB _ VB)|apply (PL _ V0)|exact B1]. }
    rewrite S, EL. apply const_nodes_give. apply (PL _ V0).
Qed.

(** ** Names *)
Lemma names_const H xs : to_const_sequence H (map (fun x => Raw (VStr x)) xs) = Ok (Some (map (fun x => Raw (VStr x)) xs)).
Proof. induction xs as [|x xs IH]; [reflexivity|]. cbn [map to_const_sequence bind]. rewrite IH. reflexivity. Qed.
Theorem names_place H xs n it : get_nice_iters H [mk_avar InName (map (fun x => Raw (VStr x)) xs)] n = Ok (Some it) -> it = ListDisplay (map Name xs).
Proof.
  intro E. destruct (nice_cases _ _ _ _ _ E) as [(rs & e & R & _ & _)|(l & start & rest & T & _ & _ & ->)].
  - inversion R as [|? r ? rs' (start & T) R']; subst. exfalso. unfold to_iter_use in T. cbn [subs parent] in T. rewrite names_const in T. cbn [bind from_chars] in T.
    destruct xs as [|x xs]; [discriminate|]. cbn [map to_range_args as_int bind] in T. destruct (_ =? 1).
    + destruct (existsb _ _); [discriminate|]. destruct (repeats_value _); discriminate.
    + change (Raw (VStr x) :: map (fun x => Raw (VStr x)) xs) with (map (fun x => Raw (VStr x)) (x :: xs)) in T. rewrite <- (map_map VStr Raw) in T. rewrite raw_nums in T. discriminate.
  - unfold to_iter_use in T. cbn [subs parent] in T. rewrite names_const in T. cbn [bind from_chars] in T.
    destruct xs as [|x xs]; [discriminate|]. cbn [map to_range_args as_int bind] in T. destruct (_ =? 1).
    + destruct (existsb _ _); [discriminate|]. destruct (repeats_value _); [discriminate|]. assert (start = None) by congruence. subst start.
      assert (l = Raw (VStr x) :: map (fun x => Raw (VStr x)) xs) by congruence. subst l. cbn [map to_node parent]. do 2 f_equal. rewrite map_map. reflexivity.
    + change (Raw (VStr x) :: map (fun x => Raw (VStr x)) xs) with (map (fun x => Raw (VStr x)) (x :: xs)) in T. rewrite <- (map_map VStr Raw) in T. rewrite raw_nums in T. discriminate.
Qed.

Section Names.
  Context {W : Type}.
  Variable P : python W.
  Variable body : value -> W -> W * res unit.
  Variable xs : list string.
  (** The code leaves the names alone. *)
  Hypothesis keeps : forall v w x, List.In x xs -> lookup P x (fst (body v w)) = lookup P x w.

  Lemma evaluate_names : forall ys w, (forall y, List.In y ys -> exists v, lookup P y w = Ok v) ->
    exists vs, evaluate P (map Name ys) w = (w, Ok vs) /\ Forall2 (fun y v => lookup P y w = Ok v) ys vs.
  Proof.
    induction ys as [|y ys IH]; intros w D; [exists []; split; [reflexivity|constructor]|]. destruct (D y (or_introl eq_refl)) as (v & L).
    destruct (IH w (fun z Z => D z (or_intror Z))) as (vs & E & F). exists (v :: vs). cbn [map evaluate eval]. rewrite L, E. split; [reflexivity|]. constructor; assumption.
  Qed.
  Lemma run_names : forall ys vs w w0, incl ys xs -> (forall x, List.In x xs -> lookup P x w = lookup P x w0) -> Forall2 (fun y v => lookup P y w0 = Ok v) ys vs ->
    one_by_one P body (map Name ys) w = for_each body vs w.
  Proof using keeps.
    induction ys as [|y ys IH]; intros vs w w0 I K F; inversion F as [|? v ? vs' L F']; subst; [reflexivity|]. cbn [map one_by_one eval for_each].
    rewrite (K y (I y (or_introl eq_refl))), L. pose proof (fun x => keeps v w x) as KB. destruct (body v w) as [w' [[]|x]]; [|reflexivity].
    apply (IH vs' w' w0); [intros z Z; apply I; right; exact Z| |exact F']. intros x X. cbn [fst] in KB. rewrite (KB x X). apply K. exact X.
  Qed.
  Theorem names_run w : (forall x, List.In x xs -> exists v, lookup P x w = Ok v) -> one_by_one P body (map Name xs) w = loop_over P body (map Name xs) w.
  Proof using keeps.
    intro D. destruct (evaluate_names xs w D) as (vs & E & F). unfold loop_over. rewrite E. apply (run_names xs vs w w (incl_refl _)); [reflexivity|exact F].
  Qed.
End Names.
