(** Proofs about iterating over a structure directly. *)
From Coq Require Import String List Bool Arith NArith ZArith Lia.
From Verif Require Import Base PyModel PySpec PyProofs IfModel IfSpec IfProofs FoldModel TypeModel LocalSpec LoopModel LoopSpec LoopProofs EachModel EachSpec.
Import ListNotations.
Local Open Scope string_scope.
Local Open Scope list_scope.

(** Induction on expressions. *)
Section ExprInd.
  Variable Q : expr -> Prop.
  Hypothesis QName : forall x, Q (Name x).
  Hypothesis QConst : forall c, Q (Const c).
  Hypothesis QOther : forall n, Q (Other n).
  Hypothesis QUnary : forall o a, Q a -> Q (Unary o a).
  Hypothesis QBinary : forall o a b, Q a -> Q b -> Q (Binary o a b).
  Hypothesis QBool : forall o vs, Forall Q vs -> Q (BoolOp o vs).
  Hypothesis QCompare : forall a ops, Q a -> Forall (fun cv => Q (snd cv)) ops -> Q (Compare a ops).
  Hypothesis QCall : forall f args, Q f -> Forall Q args -> Q (Call f args).
  Hypothesis QAttribute : forall a m, Q a -> Q (Attribute a m).
  Hypothesis QSubscript : forall a s, Q a -> Q s -> Q (Subscript a s).
  Hypothesis QIf : forall c a b, Q c -> Q a -> Q b -> Q (IfExp c a b).
  Fixpoint all_exprs (e : expr) : Q e :=
    let each := fix each (l : list expr) : Forall Q l := match l with [] => Forall_nil _ | a :: r => Forall_cons _ (all_exprs a) (each r) end in
    let each2 := fix each2 (l : list (cmpop * expr)) : Forall (fun cv => Q (snd cv)) l := match l with [] => Forall_nil _ | a :: r => Forall_cons (P := fun cv => Q (snd cv)) a (all_exprs (snd a)) (each2 r) end in
    match e with
    | Name x => QName x
    | Const c => QConst c
    | Other n => QOther n
    | Unary o a => QUnary o a (all_exprs a)
    | Binary o a b => QBinary o a b (all_exprs a) (all_exprs b)
    | BoolOp o vs => QBool o vs (each vs)
    | Compare a ops => QCompare a ops (all_exprs a) (each2 ops)
    | Call f args => QCall f args (all_exprs f) (each args)
    | Attribute a m => QAttribute a m (all_exprs a)
    | Subscript a s => QSubscript a s (all_exprs a) (all_exprs s)
    | IfExp c a b => QIf c a b (all_exprs c) (all_exprs a) (all_exprs b)
    end.
End ExprInd.

(** ** Evaluation *)
Section Same.
  Context {W : Type}.
  Variable P : program W.
  Variables a i x : string.
  Variable keep : bool.
  Variable R : W -> W -> Prop.
  Hypothesis T : in_step P a i x keep R.
  Notation dir := (direct a i x).

  Definition alike {A} (m m' : comp (W := W) A) : Prop := forall w u, R w u -> agree R (m w) (m' u).
  Lemma alike_andthen {A B} (m m' : comp (W := W) A) (k k' : A -> comp B) : alike m m' -> (forall v, alike (k v) (k' v)) -> alike (andthen m k) (andthen m' k').
  Proof.
    intros M K w u Rw. destruct (M w u Rw) as [J E]. unfold andthen. destruct (m w) as [w1 r], (m' u) as [u1 r']. cbn [fst snd] in J, E. subst r'.
    destruct r as [v|e]; [exact (K v w1 u1 J)|]. split; [exact J|reflexivity].
  Qed.
  Lemma alike_pure {A} (v : A) : alike (pure v) (pure v).
  Proof. intros w u Rw. split; [exact Rw|reflexivity]. Qed.
  Lemma alike_truth v : alike (truth (py P) v) (truth (py P) v).
  Proof. intros w u Rw. split; [exact Rw|]. destruct v; try reflexivity. cbn [truth snd]. exact (s_truth _ _ _ _ _ _ T _ w u Rw). Qed.
  Lemma alike_binary o v v' : alike (binary (py P) o v v') (binary (py P) o v v').
  Proof.
    intros w u Rw. unfold binary. destruct (as_int v) as [p|], (as_int v') as [q|]; try exact (s_binary _ _ _ _ _ _ T o v v' w u Rw).
    destruct (int_op o p q) as [[z|e]|]; [split; [exact Rw|reflexivity] ..|exact (s_binary _ _ _ _ _ _ T o v v' w u Rw)].
  Qed.
  Lemma alike_unary o v : alike (unary (py P) o v) (unary (py P) o v).
  Proof.
    unfold unary. destruct o; try (intros w u Rw; destruct (as_int v); [split; [exact Rw|reflexivity]|apply (s_unary _ _ _ _ _ _ T); exact Rw]).
    apply alike_andthen; [apply alike_truth|]. intro. apply alike_pure.
  Qed.
  Lemma alike_compare o v v' : alike (compare (py P) o v v') (compare (py P) o v v').
  Proof.
    assert (C : alike (compare_op (py P) o v v') (compare_op (py P) o v v')) by (intros w u Rw; apply (s_compare _ _ _ _ _ _ T); exact Rw).
    assert (K : forall lt eq, alike (match decide o lt eq with Some b => pure (VBool b) | None => compare_op (py P) o v v' end)
                                    (match decide o lt eq with Some b => pure (VBool b) | None => compare_op (py P) o v v' end))
      by (intros lt eq; destruct (decide o lt eq); [apply alike_pure|exact C]).
    unfold compare. destruct (as_int v), (as_int v'); try apply K; destruct v, v'; try exact C; apply K.
  Qed.

  (** The name [i] is kept or not used. *)
  Definition allowed (b : bool) : Prop := keep = true \/ b = false.
  Lemma allowed_or b c : allowed (b || c) -> allowed b /\ allowed c.
  Proof. intros [K|K]; [split; left; exact K|]. apply orb_false_iff in K. split; right; tauto. Qed.
  Lemma not_eqb y z : String.eqb y z = false -> z <> y.
  Proof. intros E ->. rewrite String.eqb_refl in E. discriminate. Qed.
  Lemma eval_direct : forall e, uses x e = false -> allowed (uses i (dir e)) -> alike (eval (py P) e) (eval (py P) (dir e)).
  Proof.
    apply (all_exprs (fun e => uses x e = false -> allowed (uses i (dir e)) -> alike (eval (py P) e) (eval (py P) (dir e)))).
    - intros y X K w u Rw. split; [exact Rw|]. cbn [direct eval snd]. apply (s_lookup _ _ _ _ _ _ T); [apply not_eqb; exact X| |exact Rw].
      destruct K as [K|K]; [left; exact K|right; apply not_eqb; exact K].
    - intros c _ _. apply alike_pure.
    - intros n _ _ w u Rw. exact (s_opaque _ _ _ _ _ _ T n w u Rw).
    - intros o b B X K. cbn [direct eval]. apply alike_andthen; [exact (B X K)|]. intro. apply alike_unary.
    - intros o b c B C X K. cbn [uses direct] in X, K. apply orb_false_iff in X. apply allowed_or in K. cbn [direct eval]. apply alike_andthen; [apply B; tauto|]. intro. apply alike_andthen; [apply C; tauto|]. intro. apply alike_binary.
    - intros o vs H X K. cbn [uses direct] in X, K. cbn [direct eval]. induction H as [|v vs V Vs IH]; cbn [map]; [apply alike_pure|]. cbn [existsb map] in X, K. apply orb_false_iff in X. apply allowed_or in K.
      specialize (IH (proj2 X) (proj2 K)). specialize (V (proj1 X) (proj1 K)).
      destruct vs as [|v' vs]; cbn [map]; [exact V|].
      apply alike_andthen; [exact V|]. intro. apply alike_andthen; [apply alike_truth|]. intro b. destruct (Bool.eqb b _); [exact IH|apply alike_pure].
    - intros b ops B H X K. cbn [uses direct] in X, K. apply orb_false_iff in X. apply allowed_or in K. destruct X as [X1 X], K as [K1 K]. cbn [direct eval]. apply alike_andthen; [exact (B X1 K1)|]. clear B X1 K1.
      induction H as [|[o c] ops V Vs IH]; intro v; cbn [map]; [apply alike_pure|]. cbn [existsb map fst snd] in *. apply orb_false_iff in X. apply allowed_or in K.
      specialize (IH (proj2 X) (proj2 K)). specialize (V (proj1 X) (proj1 K)).
      apply alike_andthen; [exact V|]. intro v'. destruct ops as [|[o' c'] ops]; cbn [map fst snd] in *; [apply alike_compare|].
      apply alike_andthen; [apply alike_compare|]. intro r. apply alike_andthen; [apply alike_truth|]. intros [|]; [apply IH|apply alike_pure].
    - intros f args F H X K. cbn [uses direct] in X, K. apply orb_false_iff in X. apply allowed_or in K. destruct X as [X1 X], K as [K1 K]. cbn [direct eval]. apply alike_andthen; [exact (F X1 K1)|]. clear F X1 K1. intro g. apply alike_andthen.
      + induction H as [|v vs V Vs IH]; cbn [map]; [apply alike_pure|]. cbn [existsb map] in X, K. apply orb_false_iff in X. apply allowed_or in K. specialize (IH (proj2 X) (proj2 K)). specialize (V (proj1 X) (proj1 K)).
        apply alike_andthen; [exact V|]. intro. apply alike_andthen; [exact IH|]. intro. apply alike_pure.
      + intros vs w u Rw. exact (s_call _ _ _ _ _ _ T g vs w u Rw).
    - intros b m B X K. cbn [direct eval]. apply alike_andthen; [exact (B X K)|]. intros v w u Rw. exact (s_attribute _ _ _ _ _ _ T v m w u Rw).
    - intros b s B C X K. cbn [uses] in X. apply orb_false_iff in X. cbn [direct] in *. destruct (is_element a i b s) eqn:E.
      + destruct b as [b'| | | | | | | | | |]; try discriminate. destruct s as [j| | | | | | | | | |]; try discriminate. cbn [is_element] in E. apply andb_true_iff in E.
        destruct E as [E1 E2]. apply String.eqb_eq in E1, E2. subst. intros w u Rw. rewrite (s_element _ _ _ _ _ _ T w u Rw). split; [exact Rw|reflexivity].
      + cbn [uses] in K. apply allowed_or in K. cbn [eval]. apply alike_andthen; [apply B; tauto|]. intro v. apply alike_andthen; [apply C; tauto|]. intros k w u Rw. exact (s_item _ _ _ _ _ _ T v k w u Rw).
    - intros c b d C B D X K. cbn [uses direct] in X, K. apply orb_false_iff in X. destruct X as [X X3]. apply orb_false_iff in X. apply allowed_or in K. destruct K as [K K3]. apply allowed_or in K.
      cbn [direct eval]. apply alike_andthen; [apply C; tauto|]. intro. apply alike_andthen; [apply alike_truth|]. intros [|]; [apply B|apply D]; tauto.
  Qed.
  Lemma test_direct e : uses x e = false -> allowed (uses i (dir e)) -> alike (test (py P) e) (test (py P) (dir e)).
  Proof. intros X K. apply alike_andthen; [exact (eval_direct e X K)|]. intro. apply alike_truth. Qed.

  (** ** Statements *)
  Notation akin := (agree_runs R).
  Lemma akin_after {A} (m m' : comp (W := W) A) k k' : alike m m' -> (forall v, akin (k v) (k' v)) -> akin (after m k) (after m' k').
  Proof.
    intros M K w u Rw. destruct (M w u Rw) as [J E]. unfold after. destruct (m w) as [w1 r], (m' u) as [u1 r']. cbn [fst snd] in J, E. subst r'. destruct r as [v|e]; [exact (K v w1 u1 J)|].
    split; intros ? ? [-> ->]; eexists; (split; [split; reflexivity|exact J]).
  Qed.
  Lemma akin_ends o : akin (ends o) (ends o).
  Proof. intros w u Rw. split; intros ? ? [-> ->]; eexists; (split; [split; reflexivity|exact Rw]). Qed.
  Lemma akin_sequence r r' s s' : akin r r' -> akin s s' -> akin (sequence r s) (sequence r' s').
  Proof.
    intros A B w u Rw. destruct (A w u Rw) as [A1 A2]. unfold sequence. split.
    - intros w' o [(w1 & X & Y)|[N X]].
      + destruct (A1 _ _ X) as (u1 & X' & R1). destruct (proj1 (B w1 u1 R1) _ _ Y) as (u' & Y' & R'). exists u'. split; [left; exists u1; split; assumption|exact R'].
      + destruct (A1 _ _ X) as (u1 & X' & R1). exists u1. split; [right; split; assumption|exact R1].
    - intros u' o [(u1 & X & Y)|[N X]].
      + destruct (A2 _ _ X) as (w1 & X' & R1). destruct (proj2 (B w1 u1 R1) _ _ Y) as (w' & Y' & R'). exists w'. split; [left; exists w1; split; assumption|exact R'].
      + destruct (A2 _ _ X) as (w1 & X' & R1). exists w1. split; [right; split; assumption|exact R1].
  Qed.
  Lemma alike_step {A} (m m' : comp (W := W) A) w u w1 r : alike m m' -> R w u -> m w = (w1, r) -> exists u1, m' u = (u1, r) /\ R w1 u1.
  Proof. intros M Rw E. destruct (M w u Rw) as [J F]. rewrite E in J, F. cbn [fst snd] in J, F. exists (fst (m' u)). rewrite F. split; [destruct (m' u); reflexivity|exact J]. Qed.
  Lemma alike_back {A} (m m' : comp (W := W) A) w u u1 r : alike m m' -> R w u -> m' u = (u1, r) -> exists w1, m w = (w1, r) /\ R w1 u1.
  Proof. intros M Rw E. destruct (M w u Rw) as [J F]. rewrite E in J, F. cbn [fst snd] in J, F. exists (fst (m w)). rewrite <- F. split; [destruct (m w); reflexivity|exact J]. Qed.
  Lemma akin_while c c' b b' e e' : alike c c' -> akin b b' -> akin e e' -> akin (while_runs c b e) (while_runs c' b' e').
  Proof.
    intros C B E w u Rw. split.
    - intros w' o H. revert u Rw. induction H as [w w' y Q|w w1 w' o Q O|w w1 w2 w' q o Q X G H IH|w w1 w' Q X|w w1 w' r Q X]; intros u Rw; destruct (alike_step _ _ _ _ _ _ C Rw Q) as (u1 & Q' & R1).
      + exists u1. split; [eapply WRaise; exact Q'|exact R1].
      + destruct (proj1 (E _ _ R1) _ _ O) as (u' & O' & R'). exists u'. split; [eapply WEnd; eassumption|exact R'].
      + destruct (proj1 (B _ _ R1) _ _ X) as (u2 & X' & R2). destruct (IH u2 R2) as (u' & Y & R'). exists u'. split; [eapply WNext; eassumption|exact R'].
      + destruct (proj1 (B _ _ R1) _ _ X) as (u2 & X' & R2). exists u2. split; [eapply WBreak; eassumption|exact R2].
      + destruct (proj1 (B _ _ R1) _ _ X) as (u2 & X' & R2). exists u2. split; [eapply WLeave; eassumption|exact R2].
    - intros u' o H. revert w Rw. induction H as [u u' y Q|u u1 u' o Q O|u u1 u2 u' q o Q X G H IH|u u1 u' Q X|u u1 u' r Q X]; intros w Rw; destruct (alike_back _ _ _ _ _ _ C Rw Q) as (w1 & Q' & R1).
      + exists w1. split; [eapply WRaise; exact Q'|exact R1].
      + destruct (proj2 (E _ _ R1) _ _ O) as (w' & O' & R'). exists w'. split; [eapply WEnd; eassumption|exact R'].
      + destruct (proj2 (B _ _ R1) _ _ X) as (w2 & X' & R2). destruct (IH w2 R2) as (w' & Y & R'). exists w'. split; [eapply WNext; eassumption|exact R'].
      + destruct (proj2 (B _ _ R1) _ _ X) as (w2 & X' & R2). exists w2. split; [eapply WBreak; eassumption|exact R2].
      + destruct (proj2 (B _ _ R1) _ _ X) as (w2 & X' & R2). exists w2. split; [eapply WLeave; eassumption|exact R2].
  Qed.
  Lemma akin_for set b b' e e' : (forall v, alike (set v) (set v)) -> akin b b' -> akin e e' -> forall vs, akin (for_runs set b e vs) (for_runs set b' e' vs).
  Proof.
    intros C B E vs w u Rw. split.
    - intros w' o H. revert u Rw. induction H as [w w' o O|v vs w w' y Q|v vs w w1 w2 w' q o Q X G H IH|v vs w w1 w' Q X|v vs w w1 w' r Q X]; intros u Rw; [|destruct (alike_step _ _ _ _ _ _ (C v) Rw Q) as (u1 & Q' & R1) ..].
      + destruct (proj1 (E _ _ Rw) _ _ O) as (u' & O' & R'). exists u'. split; [apply FEnd; exact O'|exact R'].
      + exists u1. split; [eapply FRaise; exact Q'|exact R1].
      + destruct (proj1 (B _ _ R1) _ _ X) as (u2 & X' & R2). destruct (IH u2 R2) as (u' & Y & R'). exists u'. split; [eapply FNext; eassumption|exact R'].
      + destruct (proj1 (B _ _ R1) _ _ X) as (u2 & X' & R2). exists u2. split; [eapply FBreak; eassumption|exact R2].
      + destruct (proj1 (B _ _ R1) _ _ X) as (u2 & X' & R2). exists u2. split; [eapply FLeave; eassumption|exact R2].
    - intros u' o H. revert w Rw. induction H as [u u' o O|v vs u u' y Q|v vs u u1 u2 u' q o Q X G H IH|v vs u u1 u' Q X|v vs u u1 u' r Q X]; intros w Rw; [|destruct (alike_back _ _ _ _ _ _ (C v) Rw Q) as (w1 & Q' & R1) ..].
      + destruct (proj2 (E _ _ Rw) _ _ O) as (w' & O' & R'). exists w'. split; [apply FEnd; exact O'|exact R'].
      + exists w1. split; [eapply FRaise; exact Q'|exact R1].
      + destruct (proj2 (B _ _ R1) _ _ X) as (w2 & X' & R2). destruct (IH w2 R2) as (w' & Y & R'). exists w'. split; [eapply FNext; eassumption|exact R'].
      + destruct (proj2 (B _ _ R1) _ _ X) as (w2 & X' & R2). exists w2. split; [eapply FBreak; eassumption|exact R2].
      + destruct (proj2 (B _ _ R1) _ _ X) as (w2 & X' & R2). exists w2. split; [eapply FLeave; eassumption|exact R2].
  Qed.

  Definition ready (s : stmt) : Prop := parsed s = true /\ assigns_name a s = false /\ assigns_name i s = false /\ uses_stmt x s = false /\ allowed (uses_stmt i (direct_stmt a i x s)).
  Definition ready_all (l : list stmt) : Prop := forallb parsed l = true /\ existsb (assigns_name a) l = false /\ existsb (assigns_name i) l = false /\ existsb (uses_stmt x) l = false /\
    allowed (existsb (uses_stmt i) (map (direct_stmt a i x) l)).
  Lemma alike_store y : y <> a -> y <> i -> y <> x -> forall v, alike (store P (Name y) v) (store P (Name y) v).
  Proof. intros A B C v w u Rw. exact (s_store _ _ _ _ _ _ T y v w u A B C Rw). Qed.
  Lemma block_direct_of l : Forall (fun s => ready s -> akin (exec P s) (exec P (direct_stmt a i x s))) l -> ready_all l -> akin (block P l) (block P (map (direct_stmt a i x) l)).
  Proof.
    induction 1 as [|s l K _ IH]; intros (Ps & A & B & C & D); [apply akin_ends|]. cbn [map block]. cbn [forallb existsb map] in *.
    apply andb_true_iff in Ps. apply orb_false_iff in A, B, C. apply allowed_or in D. apply akin_sequence; [apply K; unfold ready; tauto|apply IH; unfold ready_all; tauto].
  Qed.
  Lemma exec_direct : forall s, ready s -> akin (exec P s) (exec P (direct_stmt a i x s)).
  Proof.
    fix IH 1. intro s.
    assert (All : forall l : list stmt, Forall (fun s => ready s -> akin (exec P s) (exec P (direct_stmt a i x s))) l)
      by (fix AL 1; intros [|t l]; [apply Forall_nil|apply Forall_cons; [exact (IH t)|exact (AL l)]]).
    pose proof (fun l => block_direct_of l (All l)) as Bl. clear IH All.
    destruct s as [y e|y o e|t e|e|e| | |c b e|c b e|t it b e|n]; intros (Ps & A & B & C & D); cbn [assigns_name uses_stmt direct_stmt] in A, B, C, D; cbn [direct_stmt].
    - apply orb_false_iff in C. apply allowed_or in D. cbn [exec]. apply akin_after; [|intro; apply akin_ends]. apply alike_andthen; [apply eval_direct; tauto|]. apply alike_store; apply not_eqb; tauto.
    - apply orb_false_iff in C. apply allowed_or in D. cbn [exec]. apply akin_after; [|intro; apply akin_ends].
      apply alike_andthen; [apply (eval_direct (Name y)); [apply C|right; exact B]|]. intro v. apply alike_andthen; [apply eval_direct; tauto|]. intro v'.
      apply alike_andthen; [|apply alike_store; apply not_eqb; tauto]. unfold augmented. destruct (as_int v), (as_int v');
        first [apply alike_binary|intros w u Rw; exact (s_inplace _ _ _ _ _ _ T o v v' w u Rw)].
    - apply orb_false_iff in C. apply allowed_or in D. cbn [exec]. apply akin_after; [|intro; apply akin_ends]. apply alike_andthen; [apply eval_direct; tauto|]. intro v.
      cbn [parsed] in Ps. apply andb_true_iff in Ps. destruct Ps as [Ps _]. apply andb_true_iff in Ps. destruct Ps as [Ps _].
      destruct t; try discriminate; cbn [direct_target assign]; cbn [uses direct_target] in C, D.
      + apply alike_andthen; [apply eval_direct; tauto|]. intros r w u Rw. apply (s_set_attribute _ _ _ _ _ _ T). exact Rw.
      + destruct C as [C _], D as [D _]. apply orb_false_iff in C. apply allowed_or in D. apply alike_andthen; [apply eval_direct; tauto|]. intro r.
        apply alike_andthen; [apply eval_direct; tauto|]. intros k w u Rw. apply (s_set_item _ _ _ _ _ _ T). exact Rw.
    - cbn [exec]. apply akin_after; [apply eval_direct; assumption|intro; apply akin_ends].
    - cbn [exec]. apply akin_after; [apply eval_direct; assumption|intro; apply akin_ends].
    - apply akin_ends.
    - apply akin_ends.
    - apply orb_false_iff in A, B, C. destruct C as [C C3]. apply orb_false_iff in C. apply allowed_or in D. destruct D as [D D3]. apply allowed_or in D. cbn [parsed] in Ps. apply andb_true_iff in Ps. destruct Ps as [Ps P2]. apply andb_true_iff in Ps. destruct Ps as [_ P1].
      rewrite !exec_if. apply akin_after; [apply test_direct; tauto|]. intros [|]; apply Bl; unfold ready_all; tauto.
    - apply orb_false_iff in A, B, C. destruct C as [C C3]. apply orb_false_iff in C. apply allowed_or in D. destruct D as [D D3]. apply allowed_or in D. cbn [parsed] in Ps. apply andb_true_iff in Ps. destruct Ps as [Ps P2]. apply andb_true_iff in Ps. destruct Ps as [_ P1].
      rewrite !exec_while. apply akin_while; [apply test_direct; tauto|apply Bl; unfold ready_all; tauto|apply Bl; unfold ready_all; tauto].
    - apply orb_false_iff in A, B, C. destruct A as [A1 A2], B as [B1 B2], C as [C C2]. apply orb_false_iff in A1, B1, C. destruct C as [C C3]. apply orb_false_iff in C.
      apply allowed_or in D. destruct D as [D D2]. apply allowed_or in D. destruct D as [D D3]. apply allowed_or in D. cbn [parsed] in Ps. apply andb_true_iff in Ps. destruct Ps as [Ps P3].
      apply andb_true_iff in Ps. destruct Ps as [Ps P2]. apply andb_true_iff in Ps. destruct Ps as [P1 _]. destruct t as [y| | | | | | | | | |]; try discriminate. cbn [uses] in C, D.
      rewrite !exec_for. apply akin_after.
      + apply alike_andthen; [apply eval_direct; tauto|]. intros v w u Rw. exact (s_elements _ _ _ _ _ _ T v w u Rw).
      + intro vs. apply akin_for; [apply alike_store; apply not_eqb; tauto|apply Bl; unfold ready_all; tauto|apply Bl; unfold ready_all; tauto].
    - intros w u Rw. destruct (s_other _ _ _ _ _ _ T n w u Rw) as [J E]. cbn [exec]. destruct (other P n w) as [w1 r], (other P n u) as [u1 r']. cbn [fst snd] in J, E. subst r'.
      destruct r; (split; intros ? ? [-> ->]; eexists; (split; [split; reflexivity|exact J])).
  Qed.
  Lemma block_direct l : ready_all l -> akin (block P l) (block P (map (direct_stmt a i x) l)).
  Proof. apply block_direct_of. apply Forall_forall. intros s _. apply exec_direct. Qed.

  (** ** The loop *)
  Variable R0 : W -> W -> Prop.
  Hypothesis R_R0 : forall w u, R w u -> R0 w u.
  Lemma loop_direct body t ks vs : ready_all body -> Forall2 (next_in_step P i t R0 R) ks vs ->
    agree_runs R0 (for_runs (store P (Name i)) (block P body) (ends Normal) ks) (for_runs (store P t) (block P (map (direct_stmt a i x) body)) (ends Normal) vs).
  Proof.
    intros Rd F. pose proof (block_direct body Rd) as B. induction F as [|k v ks vs N F IH]; intros w u Rw.
    - split; intros ? ? H; inversion H as [? ? ? [E1 E2]| | | |]; subst; eexists; (split; [apply FEnd; split; reflexivity|exact Rw]).
    - destruct (N w u Rw) as (w1 & u1 & S1 & S2 & R1). destruct (B w1 u1 R1) as [B1 B2]. split.
      + intros w' o H. inversion H as [|? ? ? ? e Q|? ? ? z1 z2 ? q ? Q X G Y|? ? ? z1 ? Q X|? ? ? z1 ? r Q X]; subst; try congruence;
          (assert (z1 = w1) by congruence; subst z1; destruct (B1 _ _ X) as (u2 & X' & R2)).
        * destruct (proj1 (IH _ _ (R_R0 _ _ R2)) _ _ Y) as (u' & Y' & R'). exists u'. split; [eapply FNext; eassumption|exact R'].
        * exists u2. split; [eapply FBreak; eassumption|exact (R_R0 _ _ R2)].
        * exists u2. split; [eapply FLeave; eassumption|exact (R_R0 _ _ R2)].
      + intros u' o H. inversion H as [|? ? ? ? e Q|? ? ? z1 z2 ? q ? Q X G Y|? ? ? z1 ? Q X|? ? ? z1 ? r Q X]; subst; try congruence;
          (assert (z1 = u1) by congruence; subst z1; destruct (B2 _ _ X) as (w2 & X' & R2)).
        * destruct (proj2 (IH _ _ (R_R0 _ _ R2)) _ _ Y) as (w' & Y' & R'). exists w'. split; [eapply FNext; eassumption|exact R'].
        * exists w2. split; [eapply FBreak; eassumption|exact (R_R0 _ _ R2)].
        * exists w2. split; [eapply FLeave; eassumption|exact (R_R0 _ _ R2)].
  Qed.
End Same.
