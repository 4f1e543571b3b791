(** Programs and graphs for the properties of control flow graphs. *)
From Coq Require Import String List Bool Arith Lia.
From Verif Require Import Base CfgModel CfgSpec CfgBlockProofs CfgWfProofs CfgOpProofs CfgVisitProofs CfgTryProofs CfgLoopModel CfgLoopSpec CfgTidyProofs CfgLoopProofs.
Import ListNotations.
Local Open Scope string_scope.
Local Open Scope list_scope.
Local Open Scope nat_scope.

(** ** Graphs *)

(** Two cycles that share a block, and a block nothing leads to. *)
Definition knot (b : nat) : list nat := match b with 0 => [1; 1; 0] | 1 => [2; 3] | 2 => [0] | 3 => [1] | 4 => [0] | _ => [] end.
Lemma knot_closed : forall b c, b < 5 -> List.In c (knot b) -> c < 5.
Proof. intros b c L I. do 5 (destruct b as [|b]; [cbn in I; lia|]). lia. Qed.

(** A long line of blocks. *)
Definition line (n b : nat) : list nat := if b <? n then [S b] else [].
Lemma line_deep : forall n depth b visited, depth + b <= n -> (forall c, List.In c visited -> c < b) -> postorder_from (line n) depth b visited = Raise RecursionError.
Proof.
  intros n depth. induction depth as [|depth IH]; intros b visited L V; [reflexivity|]. cbn [postorder_from].
  assert (A : existsb (Nat.eqb b) visited = false).
  { destruct (existsb (Nat.eqb b) visited) eqn:E; [|reflexivity]. apply existsb_exists in E. destruct E as (c & I & Q). apply Nat.eqb_eq in Q. subst c. specialize (V b I). lia. }
  rewrite A. assert (Q : line n b = [S b]) by (unfold line; destruct (Nat.ltb_spec b n); [reflexivity | lia]). rewrite Q. cbn beta iota.
  rewrite IH; [reflexivity | lia|]. intros c [<-|I]; [lia | specialize (V c I); lia].
Qed.
Lemma line_refuted : forall depth, exists n next, (forall b c, b < n -> List.In c (next b) -> c < n) /\ 0 < n /\ get_blocks_postorder next depth 0 = Raise RecursionError.
Proof.
  intros depth. exists (S (S depth)), (line (S depth)). split; [|split; [lia|]].
  - intros b c L I. unfold line in I. destruct (b <? S depth) eqn:Q; [apply Nat.ltb_lt in Q; destruct I as [<-|[]]; lia | destruct I].
  - unfold get_blocks_postorder. rewrite line_deep; [reflexivity | lia | intros c []].
Qed.

(** ** Programs *)

(** while a: if b: continue; x = 1; for i in y: break -- def f(): with o as h: return *)
Definition plain_program : list stmt :=
  [While 1 [If 2 [Jump 3 Continue] []; Simple 4; For 5 [Jump 6 Break] [Simple 7]] []; Function 8 [With 9 [true] [Jump 10 Return]; Simple 11]].
(** The same with a try statement, a class and a match statement. *)
Definition full_program : list stmt :=
  plain_program ++ [Try 12 [Simple 13; Jump 14 (RaiseOf (Some "ValueError"))] [(["ValueError"; "KeyError"], true, [Simple 15]); ([], false, [While 16 [Jump 17 Break] []])] [Simple 18] [Simple 19];
                    Class 20 [Function 21 [Try 22 [Jump 23 Return] [] [] [Simple 24]]]; Opaque 25 [Simple 26]].

Definition nowhere (t : state) (x : node) : bool := forallb (fun b => negb (existsb (node_eqb x) (locs t b) && reachable t b)) (seq 0 (blocks t)).
Lemma nowhere_right : forall body t x, forallb grammatical body = true -> NoDup (flat_map numbers body) -> visit_module body = Ok t -> nowhere t x = true ->
  ~ exists b i, nth_error (locs t b) i = Some x /\ reachable t b = true.
Proof.
  intros body t x GR ND E NW (b & i & N & R). destruct (module_right (fun _ => false) body GR ND) as (t' & E' & W & _). assert (t' = t) as -> by congruence.
  destruct (lt_dec b (blocks t)) as [L|L]; [|destruct (wf_new _ t W b ltac:(lia)) as [C _]; rewrite C in N; destruct i; discriminate].
  unfold nowhere in NW. rewrite forallb_forall in NW. specialize (NW b). rewrite in_seq in NW. specialize (NW ltac:(lia)). rewrite R, andb_true_r in NW. apply negb_true_iff in NW.
  assert (Q : existsb (node_eqb x) (locs t b) = true); [|congruence]. apply existsb_exists. exists x. split; [exact (nth_error_In _ _ N)|].
  destruct x as [n|n p]; cbn [node_eqb]; [apply Nat.eqb_refl|]. rewrite Nat.eqb_refl. destruct p; cbn [part_eqb andb]; auto using Nat.eqb_refl.
Qed.

Definition built (body : list stmt) : state := match visit_module body with Ok t => t | Raise _ => nothing end.

Ltac distinct := repeat (constructor; [cbn; intuition discriminate|]); constructor.

Definition missing (swallows : nat -> bool) (body : list stmt) (x : node) : Prop :=
  forallb grammatical body = true /\ NoDup (flat_map numbers body) /\ executed swallows body x /\
  exists t, visit_module body = Ok t /\ ~ exists b i, nth_error (locs t b) i = Some x /\ reachable t b = true.

Lemma missing_by : forall swallows body x, forallb grammatical body = true -> NoDup (flat_map numbers body) -> executed swallows body x ->
  (match visit_module body with Ok t => nowhere t x | Raise _ => false end) = true -> missing swallows body x.
Proof.
  intros swallows body x G ND EX H. destruct (visit_module body) as [t|] eqn:E; [|discriminate]. refine (conj G (conj ND (conj EX _))). exists t. split; [exact E|].
  exact (nowhere_right body t x G ND E H).
Qed.

(** Executions. *)
Lemma ev : forall x, event x [x] Fell.
Proof. intros x. right. auto. Qed.
Lemma ev_raise : forall x, event x [x] Raised.
Proof. intros x. right. auto. Qed.
Lemma ru_nil : forall sw, runs sw [] [] Fell.
Proof. intros sw. split; auto. Qed.
Lemma ru_one : forall sw s tr o, run sw s tr o -> runs sw [s] tr o.
Proof. intros sw s tr o H. destruct o; [left; exists tr, []; rewrite app_nil_r; split; [reflexivity | split; [exact H | exact (ru_nil sw)]] | right .. ]; (split; [exact H | discriminate]). Qed.
Lemma ru_two : forall sw s l t u o, run sw s t Fell -> runs sw l u o -> runs sw (s :: l) (t ++ u) o.
Proof. intros sw s l t u o A B. left. exists t, u. auto. Qed.

(** try: f() finally: g() *)
Definition with_finally : list stmt := [Try 1 [Simple 2] [] [] [Simple 3]].
Lemma finally_missing : forall sw, missing sw with_finally (Whole 3).
Proof.
  intros sw. apply missing_by; [reflexivity | cbn; distinct | | vm_compute; reflexivity]. exists [Whole 2; Whole 3], Fell. split; [|cbn; auto].
  apply ru_one. rewrite run_try. right. exists [Whole 2], [Whole 3], Fell, Fell. refine (conj eq_refl (conj _ (conj _ (conj _ eq_refl)))); [|discriminate | apply ru_one, ev].
  left. left. exists [Whole 2], []. refine (conj eq_refl (conj _ (ru_nil sw))). apply ru_one, ev.
Qed.

(** try: raise ValueError -- except Exception: g() *)
Definition raise_handled : list stmt := [Try 1 [Jump 2 (RaiseOf (Some "ValueError"))] [(["Exception"], false, [Simple 3])] [] []].
Lemma raise_missing : forall sw, missing sw raise_handled (Whole 3).
Proof.
  intros sw. apply missing_by; [reflexivity | cbn; distinct | | vm_compute; reflexivity]. exists [Whole 2; Whole 3], Fell. split; [|cbn; auto].
  apply ru_one. rewrite run_try. right. exists [Whole 2; Whole 3], [], Fell, Fell. refine (conj eq_refl (conj _ (conj _ (conj (ru_nil sw) eq_refl)))); [|discriminate].
  right. exists [Whole 2], [Whole 3]. refine (conj eq_refl (conj _ _)); [apply ru_one; right; auto|]. left. left. exists [], [Whole 3]. refine (conj eq_refl (conj (conj eq_refl eq_refl) _)). apply ru_one, ev.
Qed.

(** try: f() -- except: while a: g() *)
Definition loop_handler : list stmt := [Try 1 [Simple 2] [([], false, [While 3 [Simple 4] []])] [] []].
Lemma loop_missing : forall sw, missing sw loop_handler (Part 3 Test).
Proof.
  intros sw. apply missing_by; [reflexivity | cbn; distinct | | vm_compute; reflexivity]. exists [Whole 2; Part 3 Test], Fell. split; [|cbn; auto].
  apply ru_one. rewrite run_try. right. exists [Whole 2; Part 3 Test], [], Fell, Fell. refine (conj eq_refl (conj _ (conj _ (conj (ru_nil sw) eq_refl)))); [|discriminate].
  right. exists [Whole 2], [Part 3 Test]. refine (conj eq_refl (conj _ _)); [apply ru_one, ev_raise|]. left. left. exists [], [Part 3 Test]. refine (conj eq_refl (conj (conj eq_refl eq_refl) _)).
  apply ru_one. change [Part 3 Test] with ([Part 3 Test] ++ []). apply loop_exit; [apply ev | exact (ru_nil sw)].
Qed.

(** class C: x = 1 *)
Definition a_class : list stmt := [Class 1 [Simple 2]].
Lemma class_missing : forall sw, missing sw a_class (Whole 2).
Proof.
  intros sw. apply missing_by; [reflexivity | cbn; distinct | | vm_compute; reflexivity]. exists [Whole 1; Whole 2], Fell. split; [|cbn; auto].
  apply ru_one. left. exists [Whole 1], [Whole 2]. refine (conj eq_refl (conj (ev _) _)). apply ru_one, ev.
Qed.

(** match x: case 1: f() *)
Definition a_match : list stmt := [Opaque 1 [Simple 2]].
Lemma match_missing : forall sw, missing sw a_match (Whole 2).
Proof.
  intros sw. apply missing_by; [reflexivity | cbn; distinct | | vm_compute; reflexivity]. exists [Whole 1; Whole 2], Fell. split; [|cbn; auto].
  apply ru_one. left. exists [Whole 1], [Whole 2]. refine (conj eq_refl (conj (ev _) _)). apply ru_one, ev.
Qed.

(** with suppress(ValueError): raise ValueError -- f() *)
Definition suppressed : list stmt := [With 1 [false] [Jump 2 (RaiseOf (Some "ValueError"))]; Simple 3].
Lemma suppressed_missing : missing (fun _ => true) suppressed (Whole 3).
Proof.
  apply missing_by; [reflexivity | cbn; distinct | | vm_compute; reflexivity]. exists ([Part 1 (Context 0); Whole 2] ++ [Whole 3]), Fell. split; [|cbn; auto].
  apply ru_two; [|apply ru_one, ev]. right. refine (conj eq_refl (conj eq_refl _)). left. exists [Part 1 (Context 0)], [Whole 2]. refine (conj eq_refl (conj _ _)).
  - left. exists [Part 1 (Context 0)], []. refine (conj eq_refl (conj (ev _) (conj eq_refl eq_refl))).
  - apply ru_one. right. auto.
Qed.

(** def f(): try: return g() -- except: h() *)
Definition return_handled : list stmt := [Function 1 [Try 2 [Jump 3 Return] [([], false, [Simple 4])] [] []]].
Lemma return_missing : forall sw, forallb grammatical return_handled = true /\ NoDup (flat_map numbers return_handled) /\
  List.In (1, [Try 2 [Jump 3 Return] [([], false, [Simple 4])] [] []]) (flat_map functions return_handled) /\ executed sw [Try 2 [Jump 3 Return] [([], false, [Simple 4])] [] []] (Whole 4) /\
  exists t, visit_module return_handled = Ok t /\ ~ exists b i, nth_error (locs t b) i = Some (Whole 4) /\ reachable t b = true.
Proof.
  intros sw. refine (conj eq_refl (conj _ (conj (or_introl eq_refl) (conj _ _)))); [cbn; distinct| |].
  - exists [Whole 3; Whole 4], Fell. split; [|cbn; auto]. apply ru_one. rewrite run_try. right. exists [Whole 3; Whole 4], [], Fell, Fell.
    refine (conj eq_refl (conj _ (conj _ (conj (ru_nil sw) eq_refl)))); [|discriminate]. right. exists [Whole 3], [Whole 4]. refine (conj eq_refl (conj _ _)); [apply ru_one; right; auto|].
    left. left. exists [], [Whole 4]. refine (conj eq_refl (conj (conj eq_refl eq_refl) _)). apply ru_one, ev.
  - exists (built return_handled). split; [vm_compute; reflexivity|]. eapply (nowhere_right return_handled); [reflexivity | cbn; distinct | vm_compute; reflexivity | vm_compute; reflexivity].
Qed.

(** ** Loops *)

(** while a: if b: break -- c() *)
Definition may_break : list stmt := [While 1 [If 2 [Jump 3 Break] []; Simple 4] []].
Definition the_loop : loop_stmt := mk_loop false 1 [If 2 [Jump 3 Break] []; Simple 4] [].
Definition two_rounds : list node := [Part 1 Test; Part 2 Test; Whole 4; Part 1 Test].
Lemma two_rounds_run : forall sw, runs sw may_break two_rounds Fell.
Proof.
  intros sw. apply ru_one. change (loop (event (Part 1 Test)) (runs sw [If 2 [Jump 3 Break] []; Simple 4]) (runs sw []) two_rounds Fell). change two_rounds with ([Part 1 Test] ++ [Part 2 Test; Whole 4] ++ [Part 1 Test]). apply (loop_again _ _ _ [Part 1 Test] _ Fell).
  - apply ev.
  - apply (ru_two sw (If 2 [Jump 3 Break] []) [Simple 4] [Part 2 Test] [Whole 4]); [|apply ru_one, ev]. left. exists [Part 2 Test], []. refine (conj eq_refl (conj (ev _) _)). right. exact (ru_nil sw).
  - left. reflexivity.
  - change [Part 1 Test] with ([Part 1 Test] ++ []). apply loop_exit; [apply ev | exact (ru_nil sw)].
Qed.
Lemma two_rounds_another : another_iteration the_loop two_rounds.
Proof. exists [Part 1 Test; Part 2 Test], (Whole 4), []. split; [reflexivity | cbn; auto]. Qed.

(** x(); while a: f(); break *)
Definition always_breaks : list stmt := [Simple 4; While 1 [Simple 2; Jump 3 Break] []].

(** while True: try: x = int(input()); break -- except ValueError: print() *)
Definition asks_again : list stmt := [While 1 [Try 2 [Simple 3; Jump 4 Break] [(["ValueError"], false, [Simple 5])] [] []] []].
Definition asking : loop_stmt := mk_loop false 1 [Try 2 [Simple 3; Jump 4 Break] [(["ValueError"], false, [Simple 5])] [] []] [].
Definition asked_twice : list node := [Part 1 Test; Whole 3; Whole 5; Part 1 Test; Whole 3; Whole 4].
Lemma asks_refuted : forall sw, forallb grammatical asks_again = true /\ NoDup (0 :: flat_map numbers asks_again) /\ List.In asking (flat_map loops asks_again) /\
  runs sw asks_again asked_twice Fell /\ another_iteration asking asked_twice /\ exists t, visit_module asks_again = Ok t /\ check_one_iteration t asking = Ok true.
Proof.
  intros sw. refine (conj eq_refl (conj _ (conj (or_introl eq_refl) (conj _ (conj _ _))))).
  - cbn. distinct.
  - apply ru_one. change (loop (event (Part 1 Test)) (runs sw (loop_body asking)) (runs sw []) asked_twice Fell). change asked_twice with ([Part 1 Test] ++ [Whole 3; Whole 5] ++ ([Part 1 Test] ++ [Whole 3; Whole 4])). apply (loop_again _ _ _ [Part 1 Test] _ Fell).
    + apply ev.
    + apply ru_one. rewrite run_try. right. exists [Whole 3; Whole 5], [], Fell, Fell. refine (conj eq_refl (conj _ (conj _ (conj (ru_nil sw) eq_refl)))); [|discriminate].
      right. exists [Whole 3], [Whole 5]. refine (conj eq_refl (conj _ _)); [right; split; [apply ev_raise | discriminate]|].
      left. left. exists [], [Whole 5]. refine (conj eq_refl (conj (conj eq_refl eq_refl) _)). apply ru_one, ev.
    + left. reflexivity.
    + apply loop_break; [apply ev|]. apply ru_one. rewrite run_try. right. exists [Whole 3; Whole 4], [], Broke, Fell. refine (conj eq_refl (conj _ (conj _ (conj (ru_nil sw) eq_refl)))); [|discriminate].
      left. right. split; [|discriminate]. apply (ru_two sw (Simple 3) [Jump 4 Break] [Whole 3] [Whole 4]); [apply ev|]. apply ru_one. right. auto.
  - exists [Part 1 Test; Whole 3], (Whole 5), [Whole 3; Whole 4]. split; [reflexivity | cbn; auto 10].
  - exists (built asks_again). split; vm_compute; reflexivity.
Qed.
