(** Targets and modules for which the checks are right, and others. *)
From Coq Require Import String List Bool Arith.
From Verif Require Import TargetModel TargetSpec TargetProofs.
Import ListNotations.
Local Open Scope string_scope.
Local Open Scope list_scope.
Local Open Scope nat_scope.

(** [for i, (xs\[j\], *point.x) in ...] *)
Definition mixed : expr := Group [Name "i"; Group [Subscript 1 (Name "xs") (Name "j"); Starred (AssignAttr 2 (Name "point"))]].
Lemma mixed_target : is_target mixed.
Proof.
  apply target_group. intros e [<-|[<-|[]]]; [constructor|]. apply target_group. intros e [<-|[<-|[]]]; [constructor|]. apply target_starred. constructor.
Qed.
Lemma mixed_assigned : assigned mixed (AssignAttr 2 (Name "point")).
Proof.
  eapply assigned_group; [right; left; reflexivity|]. eapply assigned_group; [right; left; reflexivity|]. apply assigned_starred. constructor.
Qed.
Lemma name_inside : forall x q, ~ inside (Name x) q.
Proof. intros x q H. inversion H as [e c C|e c d C]; subst; inversion C. Qed.
Lemma mixed_simple : forall p q m, assigned mixed p -> inside p q -> ~ larger q m.
Proof.
  intros p q m A I L.
  assert (Q : exists x, q = Name x).
  { inversion A as [| | |e l p' J A1|]; subst. destruct J as [<-|[<-|[]]].
    - inversion A1; subst. destruct (name_inside _ _ I).
    - inversion A1 as [| | |e l p' J A2|]; subst. destruct J as [<-|[<-|[]]].
      + inversion A2; subst. inversion I as [e c C|e c d C D]; subst; inversion C; subst; try (eexists; reflexivity); destruct (name_inside _ _ D).
      + inversion A2 as [| | | |e p' A3]; subst. inversion A3; subst. inversion I as [e c C|e c d C D]; subst; inversion C; subst; try (eexists; reflexivity); destruct (name_inside _ _ D). }
  destruct Q as (x & ->). destruct L as [(v & i & H)|(v & H)]; discriminate H.
Qed.
(** [for xs\[ys\[0\]\] in ...]: [ys\[0\]] is only read. *)
Lemma index_refuted : exists e n, is_target e /\ In n (visit_target e) /\ forall p, assigned e p -> ~ larger p n.
Proof.
  exists (Subscript 1 (Name "xs") (Subscript 2 (Name "ys") (Other []))), 2. split; [constructor|]. split; [right; left; reflexivity|].
  intros p A L. inversion A; subst. destruct L as [(v & i & H)|(v & H)]; discriminate H.
Qed.

Definition main : test := Compare (Var "__name__") [("==", Text "__main__")].
(** [import m]; [def f(): ...]; [x = 1]; [if __name__ == "__main__": f()] *)
Definition proper : list stmt := [Import 1; Def 3; Assign 6; If 8 main [Statement 9] []].
Lemma proper_else : forall n t a b, In (If n t a b) proper -> b = [].
Proof. intros n t a b [H|[H|[H|[H|[]]]]]; try discriminate H. congruence. Qed.
Lemma proper_imported : imported proper (Assign 6).
Proof. apply imported_here; [right; right; left; reflexivity|discriminate]. Qed.
(** [if __name__ == "__main__": f()]; [else: g()] *)
Lemma else_refuted : exists body s, visit_module body = [] /\ imported body s /\ ~ allowed s.
Proof.
  exists [If 1 main [Statement 2] [Statement 4]], (Statement 4). split; [reflexivity|]. split; [|intros []].
  apply (imported_orelse _ 1 main [Statement 2] [Statement 4]); [left; reflexivity|]. apply imported_here; [left; reflexivity|discriminate].
Qed.
(** [x: int = 1] *)
Lemma annotated_refuted : exists body, (forall s, In s body -> allowed s) /\ visit_module body <> [].
Proof. exists [AnnAssign 1]. split; [intros s [<-|[]]; exact Logic.I|discriminate]. Qed.
