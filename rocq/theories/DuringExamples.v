(** Loops that modify what they iterate over, and loops for which the check is wrong. *)
From Coq Require Import List Bool Arith.
From Verif Require Import DuringModel DuringSpec DuringProofs.
Import ListNotations.
Local Open Scope list_scope.
Local Open Scope nat_scope.

Ltac run := repeat (subst; match goal with
  | H : exec (_ :: _) _ _ _ _ |- _ => inversion H; clear H
  | H : exec [] _ _ _ _ |- _ => inversion H; clear H
  | H : exec ?c _ _ _ _, C : ?c = _ \/ ?c = _ |- _ => destruct C
  end).

(** [for x in xs: if ...: xs.append(1); else: if ...: xs.remove(2); break]; [if ...: xs.append(4); continue]; [xs.append(3)]. *)
Definition appending : list stmt := [Other; If [Modify 1] [If [Modify 2; Jump Break] []]; If [Modify 4; Jump Continue] []; Modify 3].
Lemma tidy_end : forall l, forallb passes l = true -> (forall a b, In (If a b) l -> tidy a /\ tidy b) -> tidy l.
Proof.
  intros l P F. rewrite <- (app_nil_r l). apply tidy_through; [left; reflexivity| |intros a b I; exact (proj1 (F a b I))|intros a b I; exact (proj2 (F a b I))].
  destruct (through_alone l P true) as (b & log & X). exists true, b, log. exact X.
Qed.
Ltac cases := repeat match goal with H : _ \/ _ |- _ => destruct H | H : False |- _ => destruct H | H : ?s = If _ _ |- _ => first [discriminate H|injection H as <- <-] end.
Lemma appending_tidy : tidy appending.
Proof.
  assert (T0 : tidy []) by (apply tidy_end; [reflexivity|intros a b []]).
  assert (T1 : tidy [Modify 1]) by (apply tidy_end; [reflexivity|intros a b [H|[]]; discriminate H]).
  assert (T2 : tidy [Modify 2; Jump Break]) by (apply tidy_leaving; [left; reflexivity|intros a b [H|[H|[]]]; discriminate H]).
  assert (T3 : tidy [If [Modify 2; Jump Break] []]) by (apply tidy_end; [reflexivity|intros a b [H|[]]; injection H as <- <-; split; assumption]).
  assert (T4 : tidy [Modify 4; Jump Continue]).
  { apply (tidy_through [Modify 4] [Jump Continue]); [right; reflexivity| |intros a b [H|[]]; discriminate H|intros a b [H|[]]; discriminate H].
    exists true, true, [4]. exact (exec_modify 4 [] true true [] Normal (exec_nil true)). }
  apply tidy_end; [reflexivity|]. unfold appending. cbn [In]. intros a b H. cases; split; assumption.
Qed.
Lemma not_in_block : forall s l, (forall t, In t l -> t <> s /\ match t with If a b => ~ somewhere s a /\ ~ somewhere s b | _ => True end) -> ~ somewhere s l.
Proof.
  intros s l F H. destruct H as [l I|a b l I H|a b l I H]; destruct (F _ I) as [N X]; [exact (N eq_refl)|exact (proj1 X H)|exact (proj2 X H)].
Qed.
Ltac absent := apply not_in_block; cbn [In]; intros ? ?; repeat match goal with H : _ \/ _ |- _ => destruct H end; try contradiction; subst;
  (split; [discriminate|first [exact I | split; absent]]).
Lemma appending_inner : no_inner_rebind appending.
Proof. unfold appending. intros a b H. cbn [In] in H. cases; split; absent. Qed.
Lemma good_end : forall l, (last l Other = Jump Break \/ last l Other = Jump Return -> ~ somewhere (Jump Continue) l) -> (forall a b, In (If a b) l -> leaves_for_good a /\ leaves_for_good b) -> leaves_for_good l.
Proof.
  intros l N F c D. destruct D as [|a b l I D|a b l I D]; [exact N|exact (proj1 (F a b I) c D)|exact (proj2 (F a b I) c D)].
Qed.
Ltac good := apply good_end; [cbn [last]; first [intros [?|?]; discriminate|intros _; absent]|cbn [In]; intros ? ? ?; cases; split; good].
Lemma appending_far : ~ In Rebind appending /\ (forall m, ~ In (Extend m) appending) /\ leaves_for_good appending /\
  ~ somewhere (Del 1) appending /\ ~ somewhere (Extend 1) appending.
Proof.
  unfold appending. split; [intro H; cbn [In] in H; repeat (destruct H as [H|H]; [discriminate H|]); destruct H|].
  split; [intros m H; cbn [In] in H; repeat (destruct H as [H|H]; [discriminate H|]); destruct H|]. split; [good|]. split; absent.
Qed.
Lemma appending_during : modified_during appending 1.
Proof. apply reported_right; [exact appending_tidy|exact appending_inner|]. vm_compute. left. reflexivity. Qed.

(** [if ...: xs = []; xs.append(1)] *)
Lemma rebound_refuted : exists body n, tidy body /\ In n (check_modifying_iterable body) /\ ~ modified_during body n.
Proof.
  exists [If [Rebind; Modify 1] []], 1. split; [|split; [left; reflexivity|]].
  - assert (T1 : tidy [Rebind; Modify 1]) by (apply tidy_end; [reflexivity|intros a b [H|[H|[]]]; discriminate H]).
    assert (T0 : tidy []) by (apply tidy_end; [reflexivity|intros a b []]).
    apply tidy_end; [reflexivity|]. intros a b [H|[]]. injection H as <- <-. split; assumption.
  - intros (b & b' & log & o & _ & E & I & _). run; subst; cbn in I; contradiction.
Qed.
(** [if ...: xs.append(1)]; [break] *)
Lemma leaving_refuted : exists body n, no_inner_rebind body /\ last body Other = Jump Break /\ In n (check_modifying_iterable body) /\ ~ modified_during body n.
Proof.
  exists [If [Modify 1] []; Jump Break], 1. split; [|split; [reflexivity|split; [left; reflexivity|]]].
  - intros a b [H|[H|[]]]; try discriminate H. assert (a = [Modify 1]) by congruence. assert (b = []) by congruence. subst. split; absent.
  - intros (b & b' & log & o & _ & E & I & [G|G]); run; discriminate.
Qed.
(** [xs.append(1)]; [raise ...] *)
Lemma raising_refuted : exists body n, no_inner_rebind body /\ last body Other = Jump Raise /\ In n (check_modifying_iterable body) /\ ~ modified_during body n.
Proof.
  exists [Modify 1; Jump Raise], 1. split; [|split; [reflexivity|split; [left; reflexivity|]]].
  - intros a b [H|[H|[]]]; discriminate H.
  - intros (b & b' & log & o & _ & E & I & [G|G]); run; discriminate.
Qed.

Lemma during_first : forall body n b log o, exec body true b log o -> In n log -> goes_on o -> modified_during body n.
Proof. intros body n b log o E I G. exists true, b, log, o. split; [constructor|]. split; [exact E|]. split; assumption. Qed.
(** [xs += ...]; [xs.append(2)] *)
Lemma extended_refuted : exists body n, ~ In Rebind body /\ leaves_for_good body /\ ~ somewhere (Del n) body /\ ~ somewhere (Extend n) body /\
  modified_during body n /\ check_modifying_iterable body = [].
Proof.
  exists [Extend 1; Modify 2], 2. split; [intros [H|[H|[]]]; discriminate H|]. split; [good|]. split; [absent|]. split; [absent|]. split; [|reflexivity].
  apply (during_first _ _ true [1; 2] Normal); [|right; left; reflexivity|left; reflexivity].
  exact (exec_extend 1 _ true true [2] Normal (exec_modify 2 [] true true [] Normal (exec_nil true))).
Qed.
(** [del xs\[0\]] *)
Lemma deleted_refuted : exists n, modified_during [Del n] n /\ check_modifying_iterable [Del n] = [].
Proof.
  exists 1. split; [|reflexivity]. apply (during_first _ _ true [1] Normal); [|left; reflexivity|left; reflexivity].
  exact (exec_del 1 [] true true [] Normal (exec_nil true)).
Qed.
(** [if ...: pass; else: xs.append(1)]; [xs = \[\]] *)
Lemma hidden_refuted : exists a b n, ~ somewhere Rebind b /\ modified_during [If a b; Rebind] n /\ In n (check_modifying_iterable [If b a; Rebind]) /\
  check_modifying_iterable [If a b; Rebind] = [].
Proof.
  exists [], [Modify 1], 1. split; [absent|]. split; [|split; [left; reflexivity|reflexivity]].
  apply (during_first _ _ false [1] Normal); [|left; reflexivity|left; reflexivity].
  exact (exec_if [] [Modify 1] [Modify 1] [Rebind] true true false [1] [] Normal (or_intror eq_refl)
    (exec_modify 1 [] true true [] Normal (exec_nil true)) (exec_rebind [] true false [] Normal (exec_nil false))).
Qed.
(** [xs.append(1)]; [if ...: continue]; [break] *)
Lemma continued_refuted : exists body n, ~ In Rebind body /\ (forall m, ~ In (Extend m) body) /\ modified_during body n /\ check_modifying_iterable body = [].
Proof.
  exists [Modify 1; If [Jump Continue] []; Jump Break], 1. split; [intros [H|[H|[H|[]]]]; discriminate H|]. split; [intros m [H|[H|[H|[]]]]; discriminate H|]. split; [|reflexivity].
  apply (during_first _ _ true [1] (Jumped Continue)); [|left; reflexivity|right; reflexivity].
  exact (exec_modify 1 _ true true [] _ (exec_if_jump [Jump Continue] [] [Jump Continue] [Jump Break] true true [] Continue (or_introl eq_refl) (exec_jump Continue [] true))).
Qed.
