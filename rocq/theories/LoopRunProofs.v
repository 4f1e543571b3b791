(** Statements have one outcome at most, and the outcome can be computed if it is reached. *)
From Coq Require Import String List Bool Arith NArith ZArith Lia.
From Verif Require Import Base PyModel PySpec FoldModel LocalSpec IterSpec LoopModel LoopSpec LoopProofs.
Import ListNotations.
Local Open Scope string_scope.
Local Open Scope list_scope.

Definition functional {W} (r : run W) : Prop := forall w w1 o1 w2 o2, r w w1 o1 -> r w w2 o2 -> w1 = w2 /\ o1 = o2.
Lemma goes_on_not o : goes_on o -> o <> Broke /\ forall r, o <> Left r.
Proof. intros [-> | ->]; split; try discriminate; intro; discriminate. Qed.
Lemma ends_functional {W} o : functional (@ends W o).
Proof. intros w w1 o1 w2 o2 [-> ->] [-> ->]. auto. Qed.
Lemma sequence_functional {W} (r s : run W) : functional r -> functional s -> functional (sequence r s).
Proof.
  intros R S w w1 o1 w2 o2 [(u & A & B)|[N A]] [(u' & A' & B')|[N' A']]; destruct (R _ _ _ _ _ A A') as [E1 E2]; subst.
  - exact (S _ _ _ _ _ B B').
  - congruence.
  - congruence.
  - auto.
Qed.
Lemma after_functional {W A} (m : comp (W := W) A) k : (forall a, functional (k a)) -> functional (after m k).
Proof.
  intros K w w1 o1 w2 o2. unfold after. destruct (m w) as [u [a|e]].
  - apply K.
  - intros [-> ->] [-> ->]. auto.
Qed.
Ltac state_eq c w := repeat match goal with H : c w = (?u, _), H' : c w = (?u', _) |- _ => first [constr_eq u u'; fail 1 | assert (u = u') by congruence; subst u] end.
Lemma while_functional {W} (c : comp (W := W) bool) b e : functional b -> functional e -> functional (while_runs c b e).
Proof.
  intros B E w w1 o1 w2 o2 R. revert w2 o2.
  induction R as [w w' x T|w u w' o T O|w u u2 w' q o T X G R IH|w u w' T X|w u w' r T X]; intros w2 o2 R2; inversion R2; subst; try congruence;
    try (match goal with H : c w = (?v, Ok _) |- _ => assert (v = u) by congruence; subst v end).
  - split; congruence.
  - eapply E; eassumption.
  - match goal with H : b u ?x ?y |- _ => destruct (B _ _ _ _ _ X H) as [K1 K2]; subst end. apply IH. assumption.
  - match goal with H : b u ?x Broke |- _ => destruct (B _ _ _ _ _ X H) as [K1 K2]; subst end. destruct G; discriminate.
  - match goal with H : b u ?x (Left _) |- _ => destruct (B _ _ _ _ _ X H) as [K1 K2]; subst end. destruct G; discriminate.
  - match goal with H : b u ?x ?y |- _ => destruct (B _ _ _ _ _ X H) as [K1 K2]; subst end. match goal with K : goes_on _ |- _ => destruct K; discriminate end.
  - match goal with H : b u w2 ?y |- _ => destruct (B _ _ _ _ _ X H) as [K1 K2]; subst end. auto.
  - match goal with H : b u w2 ?y |- _ => destruct (B _ _ _ _ _ X H) as [K1 K2]; discriminate end.
  - match goal with H : b u ?x ?y |- _ => destruct (B _ _ _ _ _ X H) as [K1 K2]; subst end. match goal with K : goes_on _ |- _ => destruct K; discriminate end.
  - match goal with H : b u w2 ?y |- _ => destruct (B _ _ _ _ _ X H) as [K1 K2]; discriminate end.
  - match goal with H : b u w2 ?y |- _ => destruct (B _ _ _ _ _ X H) as [K1 K2]; subst end. split; [reflexivity|congruence].
Qed.
Lemma for_functional {W} set (b e : run W) : functional b -> functional e -> forall vs, functional (for_runs set b e vs).
Proof.
  intros B E vs w w1 o1 w2 o2 R. revert w2 o2.
  induction R as [w w' o O|v vs w w' x T|v vs w u u2 w' q o T X G R IH|v vs w u w' T X|v vs w u w' r T X]; intros w2 o2 R2; inversion R2; subst; try congruence;
    try (match goal with H : set v w = (?y, Ok tt) |- _ => assert (y = u) by congruence; subst y end).
  - eapply E; eassumption.
  - split; congruence.
  - match goal with H : b u ?x ?y |- _ => destruct (B _ _ _ _ _ X H) as [K1 K2]; subst end. apply IH. assumption.
  - match goal with H : b u ?x Broke |- _ => destruct (B _ _ _ _ _ X H) as [K1 K2]; subst end. destruct G; discriminate.
  - match goal with H : b u ?x (Left _) |- _ => destruct (B _ _ _ _ _ X H) as [K1 K2]; subst end. destruct G; discriminate.
  - match goal with H : b u ?x ?y |- _ => destruct (B _ _ _ _ _ X H) as [K1 K2]; subst end. match goal with K : goes_on _ |- _ => destruct K; discriminate end.
  - match goal with H : b u w2 ?y |- _ => destruct (B _ _ _ _ _ X H) as [K1 K2]; subst end. auto.
  - match goal with H : b u w2 ?y |- _ => destruct (B _ _ _ _ _ X H) as [K1 K2]; discriminate end.
  - match goal with H : b u ?x ?y |- _ => destruct (B _ _ _ _ _ X H) as [K1 K2]; subst end. match goal with K : goes_on _ |- _ => destruct K; discriminate end.
  - match goal with H : b u w2 ?y |- _ => destruct (B _ _ _ _ _ X H) as [K1 K2]; discriminate end.
  - match goal with H : b u w2 ?y |- _ => destruct (B _ _ _ _ _ X H) as [K1 K2]; subst end. split; [reflexivity|congruence].
Qed.

Section S.
  Context {W : Type}.
  Variable P : program W.
  Lemma block_functional_of l : Forall (fun s => functional (exec P s)) l -> functional (block P l).
  Proof. induction 1; cbn [block]; [apply ends_functional|apply sequence_functional; assumption]. Qed.
  Lemma exec_functional : forall s, functional (exec P s).
  Proof.
    fix IH 1. intro s.
    assert (All : forall l : list stmt, Forall (fun s => functional (exec P s)) l) by (fix AL 1; intros [|t l]; [apply Forall_nil|apply Forall_cons; [exact (IH t)|exact (AL l)]]).
    destruct s as [x e|x o e|t e|e|e| | |c b e|c b e|t i b e|n].
    - apply after_functional. intro. apply ends_functional.
    - apply after_functional. intro. apply ends_functional.
    - apply after_functional. intro. apply ends_functional.
    - apply after_functional. intro. apply ends_functional.
    - apply after_functional. intro. apply ends_functional.
    - apply ends_functional.
    - apply ends_functional.
    - rewrite exec_if. apply after_functional. intros [|]; apply block_functional_of; apply All.
    - rewrite exec_while. apply while_functional; apply block_functional_of; apply All.
    - rewrite exec_for. apply after_functional. intro vs. apply for_functional; apply block_functional_of; apply All.
    - intros w w1 o1 w2 o2. cbn [exec]. destruct (other P n w) as [u [r|]]; intros [-> ->] [-> ->]; auto.
  Qed.
  Lemma block_functional l : functional (block P l).
  Proof. apply block_functional_of. apply Forall_forall. intros s _. apply exec_functional. Qed.

  (** ** Computing an outcome *)
  Definition get_after {A} (m : comp (W := W) A) (k : A -> W -> option (W * out)) (w : W) : option (W * out) :=
    match m w with (w1, Ok a) => k a w1 | (w1, Raise e) => Some (w1, Left (Raise e)) end.
  Fixpoint get_while (n : nat) (c : comp (W := W) bool) (b e : W -> option (W * out)) (w : W) : option (W * out) :=
    match n with
    | 0 => None
    | S m =>
        match c w with
        | (w1, Raise x) => Some (w1, Left (Raise x))
        | (w1, Ok false) => e w1
        | (w1, Ok true) =>
            match b w1 with
            | None => None
            | Some (w2, Broke) => Some (w2, Normal)
            | Some (w2, Left r) => Some (w2, Left r)
            | Some (w2, _) => get_while m c b e w2
            end
        end
    end.
  Fixpoint get_for (set : value -> comp (W := W) unit) (b e : W -> option (W * out)) (vs : list value) (w : W) : option (W * out) :=
    match vs with
    | [] => e w
    | v :: vs =>
        match set v w with
        | (w1, Raise x) => Some (w1, Left (Raise x))
        | (w1, Ok tt) =>
            match b w1 with
            | None => None
            | Some (w2, Broke) => Some (w2, Normal)
            | Some (w2, Left r) => Some (w2, Left r)
            | Some (w2, _) => get_for set b e vs w2
            end
        end
    end.
  Section Fuel.
  Variable n : nat.
  Fixpoint get (s : stmt) : W -> option (W * out) :=
    let fix block (l : list stmt) : W -> option (W * out) :=
      match l with
      | [] => fun w => Some (w, Normal)
      | s :: r => fun w => match get s w with Some (w1, Normal) => block r w1 | g => g end
      end in
    match s with
    | SAssign x e => get_after (andthen (eval (py P) e) (store P (Name x))) (fun _ w => Some (w, Normal))
    | SAug x o e =>
        get_after (andthen (eval (py P) (Name x)) (fun v => andthen (eval (py P) e) (fun u => andthen (augmented P o v u) (store P (Name x)))))
              (fun _ w => Some (w, Normal))
    | SStore t e => get_after (andthen (eval (py P) e) (assign P t)) (fun _ w => Some (w, Normal))
    | SExpr e => get_after (eval (py P) e) (fun _ w => Some (w, Normal))
    | SReturn e => get_after (eval (py P) e) (fun v w => Some (w, Left (Ok v)))
    | SBreak => fun w => Some (w, Broke)
    | SContinue => fun w => Some (w, Continued)
    | SIf c b e => get_after (test (py P) c) (fun t => if t then block b else block e)
    | SWhile c b e => get_while n (test (py P) c) (block b) (block e)
    | SFor t i b e => get_after (andthen (eval (py P) i) (elements P)) (get_for (store P t) (block b) (block e))
    | SOther k => fun w => match other P k w with (w1, None) => Some (w1, Normal) | (w1, Some r) => Some (w1, Left r) end
    end.
  Fixpoint get_block (l : list stmt) : W -> option (W * out) :=
    match l with
    | [] => fun w => Some (w, Normal)
    | s :: r => fun w => match get s w with Some (w1, Normal) => get_block r w1 | g => g end
    end.
  End Fuel.
  Definition sound (g : W -> option (W * out)) (r : run W) : Prop := forall w w' o, g w = Some (w', o) -> r w w' o.
  Lemma get_after_sound {A} (m : comp (W := W) A) k k' : (forall a, sound (k a) (k' a)) -> sound (get_after m k) (after m k').
  Proof. intros K w w' o. unfold get_after, after. destruct (m w) as [u [a|e]]; [apply K|]. intro E. split; congruence. Qed.
  Lemma normal_sound : sound (fun w => Some (w, Normal)) (ends Normal).
  Proof. intros w w' o E. split; congruence. Qed.
  Lemma get_while_sound n c b e b' e' : sound b b' -> sound e e' -> sound (get_while n c b e) (while_runs c b' e').
  Proof.
    intros B E. induction n as [|n IH]; intros w w' o G; cbn [get_while] in G; [discriminate|]. destruct (c w) as [w1 [[|]|x]] eqn:C.
    - destruct (b w1) as [[w2 [| | |r]]|] eqn:X; try discriminate; apply B in X.
      + eapply WNext; [exact C|exact X|left; reflexivity|apply IH; exact G].
      + assert (w2 = w' /\ o = Normal) as [-> ->] by (split; congruence). eapply WBreak; eassumption.
      + eapply WNext; [exact C|exact X|right; reflexivity|apply IH; exact G].
      + assert (w2 = w' /\ o = Left r) as [-> ->] by (split; congruence). eapply WLeave; eassumption.
    - eapply WEnd; [exact C|apply E; exact G].
    - assert (w1 = w' /\ o = Left (Raise x)) as [-> ->] by (split; congruence). eapply WRaise. exact C.
  Qed.
  Lemma get_for_sound set b e b' e' : sound b b' -> sound e e' -> forall vs, sound (get_for set b e vs) (for_runs set b' e' vs).
  Proof.
    intros B E. induction vs as [|v vs IH]; intros w w' o G; cbn [get_for] in G; [apply FEnd, E, G|]. destruct (set v w) as [w1 [[]|x]] eqn:C.
    - destruct (b w1) as [[w2 [| | |r]]|] eqn:X; try discriminate; apply B in X.
      + eapply FNext; [exact C|exact X|left; reflexivity|apply IH; exact G].
      + assert (w2 = w' /\ o = Normal) as [-> ->] by (split; congruence). eapply FBreak; eassumption.
      + eapply FNext; [exact C|exact X|right; reflexivity|apply IH; exact G].
      + assert (w2 = w' /\ o = Left r) as [-> ->] by (split; congruence). eapply FLeave; eassumption.
    - assert (w1 = w' /\ o = Left (Raise x)) as [-> ->] by (split; congruence). eapply FRaise. exact C.
  Qed.
  Lemma get_block_of n l : Forall (fun s => sound (get n s) (exec P s)) l -> sound (get_block n l) (block P l).
  Proof.
    induction 1 as [|s l S _ IH]; [apply normal_sound|]. intros w w' o G. cbn [get_block] in G. cbn [block].
    destruct (get n s w) as [[w1 [| | |r]]|] eqn:E; try discriminate; apply S in E.
    - left. exists w1. split; [exact E|apply IH; exact G].
    - right. assert (w1 = w' /\ o = Broke) as [-> ->] by (split; congruence). split; [discriminate|exact E].
    - right. assert (w1 = w' /\ o = Continued) as [-> ->] by (split; congruence). split; [discriminate|exact E].
    - right. assert (w1 = w' /\ o = Left r) as [-> ->] by (split; congruence). split; [discriminate|exact E].
  Qed.
  Lemma get_sound n : forall s, sound (get n s) (exec P s).
  Proof.
    fix IH 1. intro s.
    assert (All : forall l : list stmt, Forall (fun s => sound (get n s) (exec P s)) l) by (fix AL 1; intros [|t l]; [apply Forall_nil|apply Forall_cons; [exact (IH t)|exact (AL l)]]).
    destruct s as [x e|x o e|t e|e|e| | |c b e|c b e|t i b e|k].
    - apply get_after_sound. intro. apply normal_sound.
    - apply get_after_sound. intro. apply normal_sound.
    - apply get_after_sound. intro. apply normal_sound.
    - apply get_after_sound. intro. apply normal_sound.
    - apply get_after_sound. intros v w w' o E. split; congruence.
    - intros w w' o E. cbn in E. split; congruence.
    - intros w w' o E. cbn in E. split; congruence.
    - change (get n (SIf c b e)) with (get_after (test (py P) c) (fun t : bool => if t then get_block n b else get_block n e)).
      rewrite exec_if. apply get_after_sound. intros [|]; apply get_block_of; apply All.
    - change (get n (SWhile c b e)) with (get_while n (test (py P) c) (get_block n b) (get_block n e)).
      rewrite exec_while. apply get_while_sound; apply get_block_of; apply All.
    - change (get n (SFor t i b e)) with (get_after (andthen (eval (py P) i) (elements P)) (get_for (store P t) (get_block n b) (get_block n e))).
      rewrite exec_for. apply get_after_sound. intro vs. apply get_for_sound; apply get_block_of; apply All.
    - intros w w' o. cbn [get exec]. destruct (other P k w) as [u [r|]]; intro E; split; congruence.
  Qed.
  Lemma get_block_sound n l : sound (get_block n l) (block P l).
  Proof. apply get_block_of. apply Forall_forall. intros s _. apply get_sound. Qed.

  (** Two blocks that end differently. *)
  Lemma differ n l l' w g g' : get_block n l w = Some g -> get_block n l' w = Some g' -> g <> g' -> ~ same_runs (block P l) (block P l').
  Proof.
    intros G G' N S. destruct g as [w1 o1], g' as [w2 o2]. apply get_block_sound in G, G'. apply S in G.
    destruct (block_functional _ _ _ _ _ _ G G') as [-> ->]. congruence.
  Qed.
End S.
