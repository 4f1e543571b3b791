(** Proofs about targets of loops and code at the top level. *)
From Coq Require Import String List Bool Arith.
From Verif Require Import TargetModel TargetSpec.
Import ListNotations.
Local Open Scope string_scope.
Local Open Scope list_scope.
Local Open Scope nat_scope.

Definition of_all (P : expr -> Prop) (e : expr) : Prop :=
  match e with
  | Name _ => True
  | Subscript _ v i => P v /\ P i
  | AssignAttr _ v | Attribute v | Starred v => P v
  | Group l | Other l => Forall P l
  end.
Section Induction.
  Variable P : expr -> Prop.
  Hypothesis step : forall e, of_all P e -> P e.
  Fixpoint expr_tree_ind (e : expr) : P e :=
    let go := fix go (l : list expr) : Forall P l := match l with [] => Forall_nil P | x :: l => Forall_cons x (expr_tree_ind x) (go l) end in
    step e
      match e as e0 return of_all P e0 with
      | Name _ => I
      | Subscript _ v i => conj (expr_tree_ind v) (expr_tree_ind i)
      | AssignAttr _ v => expr_tree_ind v
      | Attribute v => expr_tree_ind v
      | Starred v => expr_tree_ind v
      | Group l => go l
      | Other l => go l
      end.
End Induction.

Theorem target_found : forall e p n, assigned e p -> larger p n -> In n (visit_target e).
Proof.
  intros e p n A L. unfold visit_target. induction A as [x|m v i|m v|e l p I A IH|e p A IH].
  - destruct L as [(v & i & H)|(v & H)]; discriminate H.
  - destruct L as [(v' & i' & H)|(v' & H)]; [|discriminate H]. left. congruence.
  - destruct L as [(v' & i' & H)|(v' & H)]; [discriminate H|]. left. congruence.
  - cbn [invalid_in]. apply in_flat_map. exists e. split; [exact I|exact (IH L)].
  - exact (IH L).
Qed.
Lemma invalid_inside : forall e n, In n (invalid_in e) -> larger e n \/ exists q, inside e q /\ larger q n.
Proof.
  assert (Up : forall e c n, child e c -> larger c n \/ (exists q, inside c q /\ larger q n) -> exists q, inside e q /\ larger q n).
  { intros e c n C [L|(q & I & L)]; [exists c; split; [apply inside_child; exact C|exact L]|exists q; split; [exact (inside_deeper e c q C I)|exact L]]. }
  apply (expr_tree_ind (fun e => forall n, In n (invalid_in e) -> larger e n \/ exists q, inside e q /\ larger q n)).
  intros e F n I. destruct e as [x|m v i|m v|v|l|v|l]; cbn [invalid_in of_all] in *.
  - destruct I.
  - destruct F as [Fv Fi]. destruct I as [->|I]; [left; left; exists v, i; reflexivity|]. right. apply in_app_iff in I as [I|I].
    + exact (Up _ v n (child_value m v i) (Fv n I)).
    + exact (Up _ i n (child_index m v i) (Fi n I)).
  - destruct I as [->|I]; [left; right; exists v; reflexivity|]. right. exact (Up _ v n (child_of m v) (F n I)).
  - right. exact (Up _ v n (child_attribute v) (F n I)).
  - apply in_flat_map in I as (c & C & I). rewrite Forall_forall in F. right. exact (Up _ c n (child_group c l C) (F c C n I)).
  - right. exact (Up _ v n (child_starred v) (F n I)).
  - apply in_flat_map in I as (c & C & I). rewrite Forall_forall in F. right. exact (Up _ c n (child_other c l C) (F c C n I)).
Qed.
Lemma target_parts : forall e n, is_target e -> In n (invalid_in e) -> exists p, assigned e p /\ In n (invalid_in p) /\ match p with Name _ | Subscript _ _ _ | AssignAttr _ _ => True | _ => False end.
Proof.
  intros e n T. induction T as [x|m v i|m v|l _ IH|e _ IH]; intro I.
  - destruct I.
  - exists (Subscript m v i). split; [constructor|]. split; [exact I|exact Logic.I].
  - exists (AssignAttr m v). split; [constructor|]. split; [exact I|exact Logic.I].
  - cbn [invalid_in] in I. apply in_flat_map in I as (c & C & I). destruct (IH c C I) as (p & A & J). exists p. split; [exact (assigned_group c l p C A)|exact J].
  - destruct (IH I) as (p & A & J). exists p. split; [exact (assigned_starred e p A)|exact J].
Qed.
Theorem target_right : forall e n, is_target e -> In n (visit_target e) -> exists p, assigned e p /\ (larger p n \/ exists q, inside p q /\ larger q n).
Proof. intros e n T I. destruct (target_parts e n T I) as (p & A & J & _). exists p. split; [exact A|exact (invalid_inside p n J)]. Qed.
Theorem target_simple : forall e n, is_target e -> (forall p q m, assigned e p -> inside p q -> ~ larger q m) -> In n (visit_target e) -> exists p, assigned e p /\ larger p n.
Proof. intros e n T N I. destruct (target_right e n T I) as (p & A & [L|(q & X & L)]); [exists p; split; assumption|]. destruct (N p q n A X L). Qed.

(** ** The top level *)

Lemma main_iff : forall n t a b, is_main_block (If n t a b) = true <-> asks_main t.
Proof.
  intros n t a b. unfold asks_main. split.
  - destruct t as [l ops|]; [|discriminate]. destruct l as [x|s|]; try discriminate. destruct ops as [|[op [y|s|]] [|o ops]]; try discriminate.
    cbn [is_main_block]. rewrite !andb_true_iff, !String.eqb_eq. intros [[-> ->] ->]. reflexivity.
  - intros ->. reflexivity.
Qed.
Lemma quiet : forall body s, visit_module body = [] -> In s body -> is_import s || is_definition s || is_assignment s || is_main_block s = true.
Proof.
  intros body s E I. unfold visit_module in E. apply map_eq_nil in E. destruct (is_import s || is_definition s || is_assignment s || is_main_block s) eqn:X; [reflexivity|].
  assert (J : In s (filter (fun s => negb (is_import s || is_definition s || is_assignment s || is_main_block s)) body)) by (apply filter_In; split; [exact I|rewrite X; reflexivity]).
  rewrite E in J. destruct J.
Qed.
Theorem quiet_allowed : forall body s, visit_module body = [] -> (forall n t a b, In (If n t a b) body -> b = []) -> imported body s -> allowed s.
Proof.
  intros body s E N H. destruct H as [l s I D|l n t a b s I D H|l n t a b s I H].
  - assert (X := quiet l s E I). destruct s as [m|m|m|m|m|m t a b|m]; try exact Logic.I; try discriminate X.
    cbn [is_import is_definition is_assignment orb] in X. apply main_iff in X. destruct (D m t a b eq_refl X).
  - assert (X := quiet l _ E I). cbn [is_import is_definition is_assignment orb] in X. apply main_iff in X. destruct (D X).
  - rewrite (N n t a b I) in H. inversion H; contradiction.
Qed.
Theorem top_right : forall body line, In line (visit_module body) <-> exists s, In s body /\ lineno s = line /\
  match s with Import _ | Def _ | Assign _ => False | If _ t _ _ => ~ asks_main t | _ => True end.
Proof.
  intros body line. unfold visit_module. rewrite in_map_iff. split.
  - intros (s & L & I). apply filter_In in I as [I X]. exists s. split; [exact I|]. split; [exact L|].
    destruct s as [m|m|m|m|m|m t a b|m]; try discriminate X; try exact Logic.I. intro A. apply (main_iff m t a b) in A.
    cbn [is_import is_definition is_assignment orb] in X. rewrite A in X. discriminate X.
  - intros (s & I & L & X). exists s. split; [exact L|]. apply filter_In. split; [exact I|].
    destruct s as [m|m|m|m|m|m t a b|m]; try contradiction; try reflexivity. cbn [is_import is_definition is_assignment orb].
    destruct (is_main_block (If m t a b)) eqn:M; [apply main_iff in M; contradiction|reflexivity].
Qed.
