(** Proofs about the checks that count statements. *)
From Coq Require Import String List Bool Arith Lia.
From Verif Require Import Base PyModel PySpec PyProofs IfModel IfSpec IfProofs EarlyModel EarlySpec.
Import ListNotations.
Local Open Scope string_scope.
Local Open Scope list_scope.
Local Open Scope nat_scope.

(** ** Induction over statements *)

Section Ind.
  Variable Q : stmt -> Prop.
  Hypothesis HSimple : forall n, Q (Simple n).
  Hypothesis HReturn : forall n, Q (Return n).
  Hypothesis HBreak : Q Break.
  Hypothesis HContinue : Q Continue.
  Hypothesis HImport : forall n, Q (Import n).
  Hypothesis HDefine : forall n b, Forall Q b -> Q (Define n b).
  Hypothesis HIf : forall c b e, Forall Q b -> Forall Q e -> Q (If c b e).
  Hypothesis HLoop : forall n b e, Forall Q b -> Forall Q e -> Q (Loop n b e).
  Hypothesis HTry : forall n b hs e f, Forall Q b -> Forall (Forall Q) hs -> Forall Q e -> Forall Q f -> Q (Try n b hs e f).
  Hypothesis HWith : forall n b, Forall Q b -> Q (With n b).
  Hypothesis HMatch : forall n cs, Forall (Forall Q) cs -> Q (Match n cs).
  Fixpoint stmt_all (s : stmt) : Q s :=
    let all := (fix all (l : list stmt) : Forall Q l := match l with [] => Forall_nil Q | s :: l => Forall_cons s (stmt_all s) (all l) end) in
    let alls := (fix alls (l : list (list stmt)) : Forall (Forall Q) l :=
      match l with [] => Forall_nil _ | s :: l => Forall_cons s (all s) (alls l) end) in
    match s with
    | Simple n => HSimple n
    | Return n => HReturn n
    | Break => HBreak
    | Continue => HContinue
    | Import n => HImport n
    | Define n b => HDefine n b (all b)
    | If c b e => HIf c b e (all b) (all e)
    | Loop n b e => HLoop n b e (all b) (all e)
    | Try n b hs e f => HTry n b hs e f (all b) (alls hs) (all e) (all f)
    | With n b => HWith n b (all b)
    | Match n cs => HMatch n cs (alls cs)
    end.
End Ind.

(** ** Returning early *)

Section Run.
  Context {W : Type} (P : python W) (returned : nat -> comp (W := W) value) (other : stmt -> W -> W -> outcome -> Prop).
  Notation run := (run P returned other).
  Notation runs := (runs P returned other).

  Lemma run_if c b e w w' o : run (If c b e) w w' o <->
    match snd (test P c w) with
    | Ok true => runs b (fst (test P c w)) w' o
    | Ok false => runs e (fst (test P c w)) w' o
    | Raise x => w' = fst (test P c w) /\ o = Raised x
    end.
  Proof. reflexivity. Qed.
  Lemma runs_cons s l w w' o : runs (s :: l) w w' o <-> (exists w1, run s w w1 Fell /\ runs l w1 w' o) \/ (o <> Fell /\ run s w w' o).
  Proof. reflexivity. Qed.

  (** Blocks that end, end. *)
  Definition leaves (l : list stmt) : Prop := forall w w', ~ runs l w w' Fell.
  Lemma at_last_leaves l : Forall (fun s => ends_block s = Ok true -> forall w w', ~ run s w w' Fell) l ->
    at_last ends_block l = Ok true -> leaves l.
  Proof.
    induction l as [|s l IH]; intros F E w w' R; [discriminate|].
    apply Forall_cons_iff in F as [Fs F]. apply runs_cons in R. destruct l as [|s' l].
    - destruct R as [(w1 & R & _)|[N R]]; [|congruence]. exact (Fs E w w1 R).
    - destruct R as [(w1 & _ & R)|[N _]]; [|congruence]. exact (IH F E w1 w' R).
  Qed.
  Lemma ends_leaves s : ends_block s = Ok true -> forall w w', ~ run s w w' Fell.
  Proof.
    induction s using stmt_all; intros E w w' R; cbn [ends_block] in E; try discriminate.
    - cbn in R. destruct R as [_ R]. destruct (snd (returned n w)); discriminate.
    - cbn in R. destruct R; discriminate.
    - cbn in R. destruct R; discriminate.
    - unfold bind in E. destruct (at_last ends_block b) as [r|] eqn:B; [|discriminate].
      destruct (r && Nat.ltb 0 (List.length e)) eqn:L; [|discriminate]. apply andb_prop in L as [-> _].
      apply (proj1 (run_if c b e w w' Fell)) in R. destruct (snd (test P c w)) as [[]|].
      + exact (at_last_leaves b H B _ _ R).
      + exact (at_last_leaves e H0 E _ _ R).
      + destruct R; discriminate.
  Qed.
  Lemma block_leaves l : at_last ends_block l = Ok true -> leaves l.
  Proof. apply at_last_leaves. apply Forall_forall. intros s _. apply ends_leaves. Qed.

  Lemma runs_app l m w w' o : runs (l ++ m) w w' o <-> (exists w1, runs l w w1 Fell /\ runs m w1 w' o) \/ (o <> Fell /\ runs l w w' o).
  Proof.
    revert w. induction l as [|s l IH]; intro w.
    - cbn [app]. split; [intro R; left; exists w; split; [split; reflexivity|exact R]|].
      intros [(w1 & [-> _] & R)|[N [-> ->]]]; [exact R|congruence].
    - cbn [app]. rewrite runs_cons. split.
      + intros [(w1 & R & R')|[N R]].
        * apply IH in R' as [(w2 & R1 & R2)|[N R1]].
          -- left. exists w2. split; [|exact R2]. apply runs_cons. left. eauto.
          -- right. split; [exact N|]. apply runs_cons. left. eauto.
        * right. split; [exact N|]. apply runs_cons. right. auto.
      + intros [(w1 & R & R')|[N R]]; apply runs_cons in R as [(w2 & R1 & R2)|[N' R1]].
        * left. exists w2. split; [exact R1|]. apply IH. left. eauto.
        * congruence.
        * left. exists w2. split; [exact R1|]. apply IH. right. auto.
        * right. auto.
  Qed.
  (** What comes after code that ends does not matter. *)
  Lemma leaves_app l m w w' o : leaves l -> (runs (l ++ m) w w' o <-> runs l w w' o).
  Proof.
    intro L. rewrite runs_app. split.
    - intros [(w1 & R & _)|[_ R]]; [contradiction (L _ _ R)|exact R].
    - intro R. right. split; [|exact R]. intros ->. exact (L _ _ R).
  Qed.

  Lemma not_test c w : test P (Unary Not c) w = (fst (test P c w), match snd (test P c w) with Ok t => Ok (negb t) | Raise e => Raise e end).
  Proof. rewrite (test_not P c w). unfold andthen. destruct (test P c w) as [w1 [t|e]]; reflexivity. Qed.

  Lemma swap_else c body orelse after w w' o : leaves orelse ->
    (runs (If c body orelse :: after) w w' o <-> runs (If (Unary Not c) orelse [] :: body ++ after) w w' o).
  Proof.
    intro L. rewrite !runs_cons. setoid_rewrite run_if. rewrite not_test. cbn [fst snd].
    destruct (test P c w) as [w1 [[]|e]]; cbn [fst snd negb].
    - rewrite <- runs_app. split.
      + intro R. left. exists w1. split; [split; reflexivity|exact R].
      + intros [(w2 & [-> _] & R)|[N [_ ->]]]; [exact R|congruence].
    - split.
      + intros [(w2 & R & _)|[N R]]; [contradiction (L _ _ R)|right; auto].
      + intros [(w2 & R & _)|[N R]]; [contradiction (L _ _ R)|right; auto].
    - split; (intros [(w2 & [_ R] & _)|[N R]]; [discriminate|right; auto]).
  Qed.
  Lemma swap_next c body n rest w w' o : leaves body -> leaves [n] ->
    (runs (If c body [] :: n :: rest) w w' o <-> runs (If (Unary Not c) [n] [] :: body ++ rest) w w' o).
  Proof.
    intros L Ln. rewrite (runs_cons (If c body [])), (runs_cons (If (Unary Not c) [n] [])). setoid_rewrite run_if. rewrite not_test. cbn [fst snd].
    destruct (test P c w) as [w1 [[]|e]]; cbn [fst snd negb].
    - split.
      + intros [(w2 & R & _)|[N R]]; [contradiction (L _ _ R)|]. left. exists w1. split; [split; reflexivity|]. apply leaves_app; assumption.
      + intros [(w2 & [-> _] & R)|[N [_ ->]]]; [|congruence]. apply (leaves_app body rest w1 w' o L) in R. right. split; [|exact R].
        intros ->. exact (L _ _ R).
    - change (n :: rest) with ([n] ++ rest). split.
      + intros [(w2 & [-> _] & R)|[N [_ ->]]]; [|congruence]. apply (leaves_app [n] rest w1 w' o Ln) in R. right. split; [|exact R].
        intros ->. exact (Ln _ _ R).
      + intros [(w2 & R & _)|[N R]]; [contradiction (Ln _ _ R)|]. left. exists w1. split; [split; reflexivity|]. apply leaves_app; assumption.
    - split; (intros [(w2 & [_ R] & _)|[N R]]; [discriminate|right; auto]).
  Qed.

  Theorem early_same elif prev c body orelse before after : check_use_early_return elif prev body orelse (hd_error after) = Ok true ->
    forall w w' o, runs (before ++ If c body orelse :: after) w w' o <-> runs (before ++ early c body orelse after) w w' o.
  Proof.
    intros K w w' o.
    assert (A : forall v v' p, runs (If c body orelse :: after) v v' p <-> runs (early c body orelse after) v v' p).
    { intros v v' p. unfold check_use_early_return in K. destruct elif; [discriminate|]. unfold bind in K.
      destruct (match prev with Some p => large_terminated_if_elif_block p | None => Ok false end) as [[]|]; try discriminate.
      destruct orelse as [|e orelse].
      - destruct (at_last ends_block body) as [[]|] eqn:B; try discriminate.
        destruct after as [|n rest]; cbn [hd_error] in K; [discriminate|]. unfold short_and_long, bind in K.
        destruct (ends_block n) as [[]|] eqn:N; try discriminate.
        cbn [early]. apply swap_next; [apply block_leaves; exact B|apply block_leaves; exact N].
      - unfold short_and_long, bind in K. destruct (at_last ends_block (e :: orelse)) as [[]|] eqn:B; try discriminate.
        replace (early c body (e :: orelse) after) with (If (Unary Not c) (e :: orelse) [] :: body ++ after) by (destruct after; reflexivity).
        apply swap_else. apply block_leaves. exact B. }
    rewrite !runs_app. split; (intros [(w1 & R & R')|R]; [left; exists w1; split; [exact R|apply A; exact R']|right; exact R]).
  Qed.
End Run.

Lemma forall_true {A} (f : A -> bool) l : forallb f l = true -> Forall (fun x => f x = true) l.
Proof. intro F. apply Forall_forall. apply forallb_forall. exact F. Qed.
Lemma at_last_ok {A} (f : stmt -> res A) l : l <> [] -> Forall (fun s => exists b, f s = Ok b) l -> exists b, at_last f l = Ok b.
Proof.
  intros N F. induction l as [|s l IH]; [congruence|]. apply Forall_cons_iff in F as [Fs F]. destruct l as [|s' l]; [exact Fs|].
  apply IH; [discriminate|exact F].
Qed.
Lemma some_true (l : list stmt) : match l with [] => false | _ => true end = true -> l <> [].
Proof. destruct l; congruence. Qed.
Lemma ends_ok s : grammatical s = true -> exists b, ends_block s = Ok b.
Proof.
  induction s using stmt_all; intro G; cbn [ends_block]; eauto.
  cbn [grammatical] in G. apply andb_prop in G as [G Ge]. apply andb_prop in G as [Gb G]. apply some_true in Gb.
  apply forall_true in G, Ge.
  assert (A : forall l, Forall (fun s => grammatical s = true -> exists b, ends_block s = Ok b) l -> Forall (fun s => grammatical s = true) l -> Forall (fun s => exists b, ends_block s = Ok b) l).
  { intros l F1 F2. rewrite Forall_forall in *. intros x I. exact (F1 x I (F2 x I)). }
  destruct (at_last_ok ends_block b Gb (A _ H G)) as [r E]. rewrite E. cbn [bind].
  destruct e as [|x e]; [rewrite andb_false_r; eauto|]. destruct r; cbn [andb Nat.ltb Nat.leb List.length]; [|eauto].
  apply at_last_ok; [discriminate|exact (A _ H0 Ge)].
Qed.
Lemma ends_all_ok l : forallb grammatical l = true -> Forall (fun s => exists b, ends_block s = Ok b) l.
Proof. intro G. apply forall_true in G. rewrite Forall_forall in *. intros x I. exact (ends_ok x (G x I)). Qed.
Lemma large_ok s : grammatical s = true -> exists b, large_terminated_if_elif_block s = Ok b.
Proof.
  induction s using stmt_all; intro G; cbn [large_terminated_if_elif_block]; eauto.
  cbn [grammatical] in G. apply andb_prop in G as [G Ge]. apply andb_prop in G as [Gb G]. apply some_true in Gb.
  destruct (at_last_ok ends_block b Gb (ends_all_ok b G)) as [r E]. rewrite E. cbn [bind].
  destruct (r && Nat.ltb 2 (count true true b)); [|eauto]. destruct e as [|x [|y e]]; eauto.
  apply Forall_cons_iff in H0 as [H0 _]. apply H0. cbn [forallb] in Ge. apply andb_prop in Ge as [Ge _]. exact Ge.
Qed.
Theorem early_ok elif prev c body orelse after : grammatical (If c body orelse) = true -> match prev with Some p => grammatical p = true | None => True end ->
  forallb grammatical after = true -> exists b, check_use_early_return elif prev body orelse (hd_error after) = Ok b.
Proof.
  intros G Gp Ga. unfold check_use_early_return. destruct elif; [eauto|].
  assert (exists l, match prev with Some p => large_terminated_if_elif_block p | None => Ok false end = Ok l) as [l ->].
  { destruct prev as [p|]; [apply large_ok; exact Gp|eauto]. }
  cbn [bind]. destruct l; [eauto|].
  cbn [grammatical] in G. apply andb_prop in G as [G Ge]. apply andb_prop in G as [Gb G]. apply some_true in Gb.
  destruct orelse as [|e orelse].
  - destruct (at_last_ok ends_block body Gb (ends_all_ok _ G)) as [r E]. rewrite E. cbn [bind]. destruct r; [|eauto].
    destruct after as [|n rest]; cbn [hd_error]; [eauto|]. cbn [forallb] in Ga. apply andb_prop in Ga as [Gn _].
    destruct (ends_ok n Gn) as [b En]. rewrite En. unfold short_and_long. cbn [bind]. eauto.
  - assert (NE : e :: orelse <> []) by discriminate. destruct (at_last_ok ends_block _ NE (ends_all_ok _ Ge)) as [r E]. rewrite E. unfold short_and_long. cbn [bind]. eauto.
Qed.

(** ** Counting *)

Scheme listed_mut := Induction for listed Sort Prop with listed_one_mut := Induction for listed_one Sort Prop.

Definition weight (s : stmt) : nat := 1 + (if has_else_block s then 1 else 0) + match s with Try _ _ _ _ _ => 1 | _ => 0 end.
Definition total (l : list stmt) : nat := list_sum (map weight l).
Lemma total_app a b : total (a ++ b) = total a + total b.
Proof. unfold total. rewrite map_app, list_sum_app. reflexivity. Qed.
Lemma count_app d m a b : count d m (a ++ b) = count d m a + count d m b.
Proof. unfold count. rewrite map_app, list_sum_app. reflexivity. Qed.
Lemma count_concat d m l : count d m (concat l) = list_sum (map (count d m) l).
Proof. induction l as [|a l IH]; [reflexivity|]. cbn [concat map list_sum fold_right]. rewrite count_app, IH. reflexivity. Qed.
Lemma count_cons d m s l : count d m (s :: l) = get_statements_count d m s + count d m l.
Proof. reflexivity. Qed.
Lemma main_block c b e : is_main_block (If c b e) = true <-> asks_main c.
Proof.
  unfold asks_main. split.
  - unfold is_main_block. intro E. repeat (match type of E with context [match ?y with _ => _ end] => destruct y end; try discriminate E).
    apply andb_prop in E as [E F]. apply String.eqb_eq in E, F. congruence.
  - intros ->. reflexivity.
Qed.

Theorem counted d m l xs : listed d m l xs -> ~ (exists s, List.In s xs /\ is_match s) -> count d m l = total xs.
Proof.
  intro L. induction L using listed_mut with (P0 := fun s xs _ => ~ (exists s', List.In s' xs /\ is_match s') -> get_statements_count d m s = total xs); intro N.
  - reflexivity.
  - rewrite count_cons, total_app, IHL, IHL0; [reflexivity| |].
    + intros (x & I & M). apply N. exists x. rewrite in_app_iff. auto.
    + intros (x & I & M). apply N. exists x. rewrite in_app_iff. auto.
  - destruct o as [[n [->| ->]]|[->| ->]]; reflexivity.
  - destruct d; reflexivity.
  - subst d. change (total (Define n b :: xs)) with (1 + total xs).
    change (get_statements_count true m (Define n b)) with (1 + count true m b). f_equal. apply IHL.
    intros (x & I & M). apply N. exists x. split; [right; exact I|exact M].
  - subst d. reflexivity.
  - subst m. apply (main_block c b e) in a. cbn [get_statements_count]. rewrite a. reflexivity.
  - change (get_statements_count d m (If c b e)) with
      (if is_main_block (If c b e) && negb m then 0 else 1 + count d m b + (if has_else_block (If c b e) then 1 else 0) + count d m e).
    destruct (is_main_block (If c b e) && negb m) eqn:Mn.
    { exfalso. apply n. apply andb_prop in Mn as [Mn Nm]. apply main_block in Mn. destruct m; [discriminate|auto]. }
    change (total (If c b e :: xs ++ ys)) with (weight (If c b e) + total (xs ++ ys)). rewrite total_app, IHL1, IHL2.
    + unfold weight. lia.
    + intros (x & I & M). apply N. exists x. split; [right; apply in_app_iff; auto|exact M].
    + intros (x & I & M). apply N. exists x. split; [right; apply in_app_iff; auto|exact M].
  - change (get_statements_count d m (Loop n b e)) with (1 + count d m b + (if has_else_block (Loop n b e) then 1 else 0) + count d m e).
    change (total (Loop n b e :: xs ++ ys)) with (weight (Loop n b e) + total (xs ++ ys)). rewrite total_app, IHL1, IHL2.
    + unfold weight. lia.
    + intros (x & I & M). apply N. exists x. split; [right; apply in_app_iff; auto|exact M].
    + intros (x & I & M). apply N. exists x. split; [right; apply in_app_iff; auto|exact M].
  - change (get_statements_count d m (Try n b hs e f)) with (2 + count d m b + list_sum (map (count d m) hs) + count d m e + count d m f).
    change (total (Try n b hs e f :: xs)) with (2 + total xs).
    rewrite <- IHL; [|intros (x & I & M); apply N; exists x; split; [right; exact I|exact M]].
    rewrite !count_app, count_concat. lia.
  - change (get_statements_count d m (With n b)) with (1 + count d m b). change (total (With n b :: xs)) with (1 + total xs).
    f_equal. apply IHL. intros (x & I & M). apply N. exists x. split; [right; exact I|exact M].
  - exfalso. apply N. exists (Match n cs). split; [left; reflexivity|exists n, cs; reflexivity].
Qed.

Lemma writes_else_iff s : has_else_block s = true <-> writes_else s.
Proof.
  destruct s; cbn [has_else_block writes_else]; try (split; [discriminate|contradiction]).
  - destruct orelse as [|x orelse]; cbn [List.length Nat.ltb Nat.leb andb]; [split; [discriminate|intros [N _]; congruence]|].
    split.
    + intro E. split; [discriminate|]. intros (c & b & e & K). rewrite K in E. discriminate.
    + intros [_ N]. destruct orelse as [|y orelse]; destruct x; try reflexivity. exfalso. apply N. eauto.
  - destruct orelse; cbn; split; congruence.
Qed.
Lemma is_try_iff s : match s with Try _ _ _ _ _ => 1 | _ => 0 end = 1 <-> is_try s.
Proof. unfold is_try. destruct s; split; try discriminate; try (intros (? & ? & ? & ? & ? & E); discriminate); eauto 10. Qed.

Lemma total_is xs i j : how_many writes_else xs i -> how_many is_try xs j -> total xs = List.length xs + i + j.
Proof.
  intros I. revert j. induction I as [|x l k Q I IH|x l k Q I IH]; intros j J; [inversion J; reflexivity| |];
  change (total (x :: l)) with (weight x + total l); unfold weight; cbn [List.length].
  - apply writes_else_iff in Q. rewrite Q. inversion J as [|y m k' T J' E F|y m k' T J' E F]; subst; rewrite (IH _ J').
    + apply is_try_iff in T. rewrite T. lia.
    + rewrite <- is_try_iff in T. destruct x; cbn in *; lia.
  - rewrite <- writes_else_iff in Q. apply not_true_is_false in Q. rewrite Q. inversion J as [|y m k' T J' E F|y m k' T J' E F]; subst; rewrite (IH _ J').
    + apply is_try_iff in T. rewrite T. lia.
    + rewrite <- is_try_iff in T. destruct x; cbn in *; lia.
Qed.

(** Long functions *)
Theorem counted_is d m l xs i j : listed d m l xs -> ~ (exists s, List.In s xs /\ is_match s) ->
  how_many writes_else xs i -> how_many is_try xs j -> count d m l = List.length xs + i + j.
Proof. intros L N I J. rewrite (counted d m l xs L N). apply total_is; assumption. Qed.

Theorem long_function_is l xs i j : listed false false l xs -> ~ (exists s, List.In s xs /\ is_match s) ->
  how_many writes_else xs i -> how_many is_try xs j ->
  forall n, (long_function l = Some n <-> n = List.length xs + i + j /\ n > 20) /\ (long_script l = Some n <-> n = List.length xs + i + j /\ n > 20).
Proof.
  intros L N I J n. unfold long_script, long_function. rewrite (counted_is _ _ _ _ _ _ L N I J).
  assert (A : (if Nat.ltb 20 (List.length xs + i + j) then Some (List.length xs + i + j) else None) = Some n <-> n = List.length xs + i + j /\ n > 20).
  { destruct (Nat.ltb_spec 20 (List.length xs + i + j)); split; try discriminate.
    - intro E. injection E as <-. split; [reflexivity|lia].
    - intros [-> _]. reflexivity.
    - intros [-> K]. lia. }
  split; exact A.
Qed.
Theorem long_reported l xs : listed false false l xs -> ~ (exists s, List.In s xs /\ is_match s) ->
  List.length xs > 20 -> exists n, long_function l = Some n /\ long_script l = Some n /\ List.length xs <= n.
Proof.
  intros L N K. unfold long_script, long_function. rewrite (counted _ _ _ _ L N).
  assert (T : List.length xs <= total xs).
  { clear. induction xs as [|x xs IH]; [reflexivity|]. change (total (x :: xs)) with (weight x + total xs). unfold weight. cbn [List.length]. lia. }
  destruct (Nat.ltb_spec 20 (total xs)); [|lia]. exists (total xs). auto.
Qed.
Lemma total_most xs : total xs <= 2 * List.length xs.
Proof.
  induction xs as [|x xs IH]; [reflexivity|]. change (total (x :: xs)) with (weight x + total xs). cbn [List.length].
  assert (weight x <= 2); [|lia]. unfold weight. destruct x; cbn [has_else_block]; try lia; destruct (_ : bool); lia.
Qed.
Theorem reported_long l xs n : listed false false l xs -> ~ (exists s, List.In s xs /\ is_match s) ->
  long_function l = Some n \/ long_script l = Some n -> List.length xs > 10.
Proof.
  intros L N K. assert (E : (if Nat.ltb 20 (count false false l) then Some (count false false l) else None) = Some n) by (destruct K; assumption).
  rewrite (counted _ _ _ _ L N) in E. pose proof (total_most xs). destruct (Nat.ltb_spec 20 (total xs)); [lia|discriminate].
Qed.

(** Every program has its list of statements. *)
Lemma listed_all d m l : Forall (fun s => exists xs, listed_one d m s xs) l -> exists xs, listed d m l xs.
Proof. induction l as [|s l IH]; intro F; [exists []; constructor|]. apply Forall_cons_iff in F as [[x X] F]. destruct (IH F) as [y Y]. exists (x ++ y). constructor; assumption. Qed.
Lemma forall_concat {A} (Q : A -> Prop) l : Forall (Forall Q) l -> Forall Q (concat l).
Proof. induction 1; cbn [concat]; [constructor|]. apply Forall_app. auto. Qed.
Lemma listed_one_exists d m s : exists xs, listed_one d m s xs.
Proof.
  induction s using stmt_all.
  - exists [Simple n]. constructor. eauto.
  - exists [Return n]. constructor. eauto.
  - exists [Break]. constructor. auto.
  - exists [Continue]. constructor. auto.
  - eexists. apply one_import.
  - destruct d; [|exists []; apply one_hidden; reflexivity]. destruct (listed_all _ _ _ H) as [xs L]. eexists. eapply one_define; [reflexivity|exact L].
  - destruct (listed_all _ _ _ H) as [xs L]. destruct (listed_all _ _ _ H0) as [ys K].
    destruct (is_main_block (If c b e)) eqn:M; [destruct m|].
    + eexists. eapply one_if; [intros [_ ?]; discriminate|exact L|exact K].
    + exists []. eapply one_main; [apply (main_block c b e); exact M|reflexivity].
    + eexists. eapply one_if; [|exact L|exact K]. intros [A _]. apply (main_block c b e) in A. congruence.
  - destruct (listed_all _ _ _ H) as [xs L]. destruct (listed_all _ _ _ H0) as [ys K]. eexists. eapply one_loop; eassumption.
  - assert (F : Forall (fun s => exists xs, listed_one d m s xs) (b ++ concat hs ++ e ++ f)).
    { apply Forall_app. split; [assumption|]. apply Forall_app. split; [apply forall_concat; assumption|]. apply Forall_app. auto. }
    destruct (listed_all _ _ _ F) as [xs L]. eexists. eapply one_try. exact L.
  - destruct (listed_all _ _ _ H) as [xs L]. eexists. eapply one_with. exact L.
  - destruct (listed_all _ _ _ (forall_concat _ _ H)) as [xs L]. eexists. eapply one_match. exact L.
Qed.
Theorem listed_exists d m l : exists xs, listed d m l xs.
Proof. apply listed_all. apply Forall_forall. intros s _. apply listed_one_exists. Qed.

(** ** Comprehension variables *)

Theorem shadowing_sound locals t x : List.In x (shadowing locals t) -> binds t x /\ List.In x locals /\ x <> "_".
Proof.
  destruct t as [y|l|l]; cbn [shadowing is_name].
  - destruct (existsb (String.eqb y) locals && negb (String.eqb y "_")) eqn:E; [|contradiction]. intros [<-|[]].
    apply andb_prop in E as [E N]. apply existsb_exists in E as (z & I & E). apply String.eqb_eq in E. subst z.
    split; [constructor|]. split; [exact I|]. intros ->. discriminate.
  - intro I. apply in_flat_map in I as (e & _ & []).
  - contradiction.
Qed.
Theorem shadowing_name locals x : List.In x locals -> x <> "_" -> List.In x (shadowing locals (AssignName x)).
Proof.
  intros I N. cbn [shadowing]. replace (existsb (String.eqb x) locals) with true.
  - destruct (String.eqb_spec x "_"); [congruence|left; reflexivity].
  - symmetry. apply existsb_exists. exists x. split; [exact I|apply String.eqb_refl].
Qed.
