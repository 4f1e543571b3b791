(** Proofs about while loops written as while True, and about ranges with a skipped element. *)
From Coq Require Import String List Bool Arith NArith ZArith Lia.
From Verif Require Import Base PyModel PySpec PyProofs IfModel IfSpec IfProofs SmallProofs FoldModel FoldSpec FoldProofs TypeModel LocalSpec IterSpec IterProofs LoopModel LoopSpec.
Import ListNotations.
Local Open Scope string_scope.
Local Open Scope list_scope.

Section S.
  Context {W : Type}.
  Variable P : program W.

  Lemma exec_if c b e : exec P (SIf c b e) = after (test (py P) c) (fun t : bool => if t then block P b else block P e).
  Proof. reflexivity. Qed.
  Lemma exec_while c b e : exec P (SWhile c b e) = while_runs (test (py P) c) (block P b) (block P e).
  Proof. reflexivity. Qed.
  Lemma exec_for t i b e : exec P (SFor t i b e) = after (andthen (eval (py P) i) (elements P)) (fun vs => for_runs (store P t) (block P b) (block P e) vs).
  Proof. reflexivity. Qed.

  Lemma block_cons s l w w' o : block P (s :: l) w w' o <-> sequence (exec P s) (block P l) w w' o.
  Proof. reflexivity. Qed.
  Lemma block_app l l' : same_runs (block P (l ++ l')) (sequence (block P l) (block P l')).
  Proof.
    induction l as [|s l IH]; intros w w' o.
    - cbn [app block]. unfold sequence, ends. split.
      + intro H. left. exists w. auto.
      + intros [(w1 & [-> _] & H)|[N [_ E]]]; [exact H|congruence].
    - cbn [app block]. split.
      + intros [(w1 & H1 & H2)|[N H]].
        * apply IH in H2. destruct H2 as [(w2 & H2 & H3)|[N H2]].
          -- left. exists w2. split; [left; exists w1; auto|exact H3].
          -- right. split; [exact N|]. left. exists w1. auto.
        * right. split; [exact N|]. right. auto.
      + intros [(w1 & [(w2 & H1 & H2)|[N _]] & H3)|[N [(w2 & H1 & H2)|[_ H]]]].
        * left. exists w2. split; [exact H1|]. apply IH. left. exists w1. auto.
        * congruence.
        * left. exists w2. split; [exact H1|]. apply IH. right. auto.
        * right. auto.
  Qed.
  Lemma block_one s : same_runs (block P [s]) (exec P s).
  Proof.
    intros w w' o. cbn [block]. unfold sequence, ends. split.
    - intros [(w1 & H & -> & ->)|[_ H]]; exact H.
    - intro H. destruct o; [left; exists w'; auto|right; split; [discriminate|exact H]..].
  Qed.

  (** A computation that is the same. *)
  Lemma after_same {A} (m m' : comp (W := W) A) k : (forall w, m w = m' w) -> same_runs (after m k) (after m' k).
  Proof. intros E w w' o. unfold after. rewrite E. reflexivity. Qed.

  (** *** No break or continue, none happens *)
  Lemma existsb_cons {A} f (a : A) l : existsb f (a :: l) = orb (f a) (existsb f l).
  Proof. reflexivity. Qed.
  Lemma while_jump c body orelse q : (q = Broke \/ q = Continued) -> (forall w w', ~ orelse w w' q) -> forall w w', ~ while_runs (W := W) c body orelse w w' q.
  Proof.
    intros Q N w w' R. remember q as o eqn:E. induction R; subst.
    - destruct Q; discriminate.
    - exact (N _ _ H0).
    - apply IHR; auto.
    - destruct Q; discriminate.
    - destruct Q; discriminate.
  Qed.
  Lemma for_jump set body orelse q : (q = Broke \/ q = Continued) -> (forall w w', ~ orelse w w' q) -> forall vs w w', ~ for_runs (W := W) set body orelse vs w w' q.
  Proof.
    intros Q N vs w w' R. remember q as o eqn:E. induction R; subst.
    - exact (N _ _ H).
    - destruct Q; discriminate.
    - apply IHR; auto.
    - destruct Q; discriminate.
    - destruct Q; discriminate.
  Qed.
  Section Jumps.
    Variable mentions : stmt -> bool.
    Variable q : out.
    Hypothesis Q : q = Broke \/ q = Continued.
    Hypothesis M_if : forall c b e, mentions (SIf c b e) = orb (existsb mentions b) (existsb mentions e).
    Hypothesis M_while : forall c b e, mentions (SWhile c b e) = existsb mentions e.
    Hypothesis M_for : forall t i b e, mentions (SFor t i b e) = existsb mentions e.
    Hypothesis M_break : q = Broke -> mentions SBreak = true.
    Hypothesis M_continue : q = Continued -> mentions SContinue = true.
    Lemma block_jump_of l : (forall s, List.In s l -> mentions s = false -> forall w w', ~ exec P s w w' q) -> existsb mentions l = false -> forall w w', ~ block P l w w' q.
    Proof.
      induction l as [|s l IH]; intros H E w w' R.
      - destruct R as [_ R]. destruct Q; congruence.
      - rewrite existsb_cons in E. apply orb_false_iff in E. destruct E as [E1 E2]. destruct R as [(w1 & _ & R)|[_ R]].
        + exact (IH (fun s I => H s (or_intror I)) E2 _ _ R).
        + exact (H s (or_introl eq_refl) E1 _ _ R).
    Qed.
    Lemma no_jump : forall s, mentions s = false -> forall w w', ~ exec P s w w' q.
    Proof.
      fix IH 1. intros s.
      assert (B : forall l : list stmt, (fix all (l : list stmt) : Prop := match l with [] => True | s :: r => (mentions s = false -> forall w w', ~ exec P s w w' q) /\ all r end) l ->
        existsb mentions l = false -> forall w w', ~ block P l w w' q).
      { intros l A. apply block_jump_of. revert A. induction l as [|t l IHl]; intros A u [].
        - subst. apply A.
        - apply IHl; [apply A|assumption]. }
      assert (All : forall l : list stmt, (fix all (l : list stmt) : Prop := match l with [] => True | s :: r => (mentions s = false -> forall w w', ~ exec P s w w' q) /\ all r end) l)
        by (fix AL 1; intros [|t l]; [exact Logic.I|split; [exact (IH t)|exact (AL l)]]).
      destruct s as [x e|x o e|t e|e|e| | |c b e|c b e|t i b e|n]; intros M w w' R.
      - cbn [exec] in R. unfold after in R. destruct (andthen _ _ w) as [w1 [u|x1]]; destruct R as [_ R]; destruct Q; congruence.
      - cbn [exec] in R. unfold after in R. destruct (andthen _ _ w) as [w1 [u|x1]]; destruct R as [_ R]; destruct Q; congruence.
      - cbn [exec] in R. unfold after in R. destruct (andthen _ _ w) as [w1 [u|x1]]; destruct R as [_ R]; destruct Q; congruence.
      - cbn [exec] in R. unfold after in R. destruct (eval _ _ w) as [w1 [u|x1]]; destruct R as [_ R]; destruct Q; congruence.
      - cbn [exec] in R. unfold after in R. destruct (eval _ _ w) as [w1 [u|x1]]; destruct R as [_ R]; destruct Q; congruence.
      - destruct R as [_ R]. rewrite (M_break R) in M. discriminate.
      - destruct R as [_ R]. rewrite (M_continue R) in M. discriminate.
      - rewrite M_if in M. apply orb_false_iff in M. destruct M as [M1 M2]. rewrite exec_if in R. unfold after in R.
        destruct (test (py P) c w) as [w1 [[|]|x1]].
        + exact (B b (All b) M1 _ _ R).
        + exact (B e (All e) M2 _ _ R).
        + destruct R as [_ R]. destruct Q; congruence.
      - rewrite M_while in M. rewrite exec_while in R. revert R. apply while_jump; [exact Q|]. exact (B e (All e) M).
      - rewrite M_for in M. rewrite exec_for in R. unfold after in R. destruct (andthen _ _ w) as [w1 [u|x1]].
        + revert R. apply for_jump; [exact Q|]. exact (B e (All e) M).
        + destruct R as [_ R]. destruct Q; congruence.
      - cbn [exec] in R. destruct (other P n w) as [w1 [r|]]; destruct R as [_ R]; destruct Q; congruence.
    Qed.
    Lemma no_jumps l : existsb mentions l = false -> forall w w', ~ block P l w w' q.
    Proof. apply block_jump_of. intros s _. apply no_jump. Qed.
  End Jumps.
  Lemma no_breaks l : existsb breaks l = false -> forall w w', ~ block P l w w' Broke.
  Proof. apply no_jumps; try reflexivity; [left; reflexivity|discriminate]. Qed.
  Lemma no_continues l : existsb continues l = false -> forall w w', ~ block P l w w' Continued.
  Proof. apply no_jumps; try reflexivity; [right; reflexivity|discriminate]. Qed.

  (** *** While True *)
  Lemma test_not t w : test (py P) (Unary Not t) w = (let (w1, r) := test (py P) t w in (w1, match r with Ok b => Ok (negb b) | Raise e => Raise e end)).
  Proof.
    unfold test. cbn [eval]. unfold andthen. destruct (eval (py P) t w) as [w1 [v|x]]; [|reflexivity]. cbn [unary]. unfold andthen.
    destruct (truth (py P) v w1) as [w2 [b|x]]; reflexivity.
  Qed.
  Lemma test_true c w : bool_value c = true -> test (py P) (Const c) w = (w, Ok true).
  Proof.
    intro B. unfold test, andthen. cbn [eval]. unfold pure, truth. destruct c as [|b|n|r|s]; cbn [bool_value const_value] in *; try discriminate; try (rewrite B; reflexivity).
    destruct n; [discriminate|reflexivity].
  Qed.

  Variable t : expr.
  Variables pre e rest : list stmt.
  Let body := block P (SIf t (pre ++ [SBreak]) e :: rest).
  Let body' := block P (e ++ rest).
  Hypothesis pre_breaks : forall w w', ~ block P pre w w' Broke.
  Hypothesis pre_continues : forall w w', ~ block P pre w w' Continued.
  Let always : comp (W := W) bool := fun w => (w, Ok true).

  Lemma block_pre w w' o : block P (pre ++ [SBreak]) w w' o <-> (o = Broke /\ block P pre w w' Normal) \/ (exists r, o = Left r /\ block P pre w w' o).
  Proof.
    split.
    - intro R. apply block_app in R. destruct R as [(w1 & R & S)|[N R]].
      + apply block_one in S. destruct S as [-> ->]. left. auto.
      + destruct o; [congruence|elim (pre_breaks _ _ R)|elim (pre_continues _ _ R)|]. right. eexists. eauto.
    - intros [[-> R]|(r & -> & R)]; apply block_app.
      + left. exists w'. split; [exact R|]. apply block_one. split; reflexivity.
      + right. split; [discriminate|exact R].
  Qed.
  Lemma body_runs w w' o : body w w' o <->
    match test (py P) t w with
    | (w1, Ok true) => (o = Broke /\ block P pre w1 w' Normal) \/ (exists r, o = Left r /\ block P pre w1 w' o)
    | (w1, Ok false) => body' w1 w' o
    | (w1, Raise x) => w' = w1 /\ o = Left (Raise x)
    end.
  Proof.
    unfold body. rewrite block_cons, exec_if. unfold sequence, after. destruct (test (py P) t w) as [w1 [[|]|x]].
    - split.
      + intros [(w2 & R & S)|[N R]].
        * apply block_pre in R. destruct R as [[R _]|(r & R & _)]; discriminate.
        * apply block_pre. exact R.
      + intro R. right. split; [destruct R as [[-> _]|(r & -> & _)]; discriminate|]. apply block_pre. exact R.
    - unfold body'. split; intro R; apply block_app; exact R.
    - split.
      + intros [(w2 & [_ R] & _)|[_ R]]; [discriminate|exact R].
      + intros [-> ->]. right. split; [discriminate|auto].
  Qed.

  Hypothesis no_other_break : pre = [] \/ forall w w', ~ body' w w' Broke.

  Lemma while_forth w w' o : while_runs always body (ends Normal) w w' o -> sequence (while_runs (test (py P) (Unary Not t)) body' (ends Normal)) (block P pre) w w' o.
  Proof.
    assert (T : forall w, test (py P) (Unary Not t) w = (let (w1, r) := test (py P) t w in (w1, match r with Ok b => Ok (negb b) | Raise e => Raise e end))) by (intro; apply test_not).
    induction 1 as [w w' x E|w w1 w' o E _|w w1 w2 w' q o E B G _ IH|w w1 w' E B|w w1 w' r E B].
    - discriminate.
    - discriminate.
    - injection E as <-. apply body_runs in B. specialize (T w). destruct (test (py P) t w) as [w3 [[|]|x]].
      + destruct B as [[-> _]|(r & -> & _)]; destruct G; discriminate.
      + destruct IH as [(w4 & R & S)|[N R]].
        * left. exists w4. split; [|exact S]. exact (WNext _ _ _ _ _ _ _ _ _ T B G R).
        * right. split; [exact N|]. exact (WNext _ _ _ _ _ _ _ _ _ T B G R).
      + destruct B as [_ ->]. destruct G; discriminate.
    - injection E as <-. apply body_runs in B. specialize (T w). destruct (test (py P) t w) as [w3 [[|]|x]].
      + destruct B as [[_ B]|(r & B & _)]; [|discriminate]. left. exists w3. split; [|exact B]. apply (WEnd _ _ _ _ _ _ _ T). split; reflexivity.
      + destruct no_other_break as [N|N]; [|elim (N _ _ B)]. left. exists w'. split; [|rewrite N; split; reflexivity]. exact (WBreak _ _ _ _ _ _ T B).
      + destruct B as [_ B]. discriminate.
    - injection E as <-. apply body_runs in B. specialize (T w). destruct (test (py P) t w) as [w3 [[|]|x]].
      + destruct B as [[B _]|(r' & Er & B)]; [discriminate|]. left. exists w3. split; [|exact B]. apply (WEnd _ _ _ _ _ _ _ T). split; reflexivity.
      + right. split; [discriminate|]. exact (WLeave _ _ _ _ _ _ _ T B).
      + destruct B as [-> B]. injection B as ->. right. split; [discriminate|]. exact (WRaise _ _ _ _ _ _ T).
  Qed.

  Lemma pre_ends w w' o : block P pre w w' o -> o = Normal \/ exists r, o = Left r.
  Proof. destruct o; eauto; intro R; [elim (pre_breaks _ _ R)|elim (pre_continues _ _ R)]. Qed.

  Lemma while_back_end w w1 : while_runs (test (py P) (Unary Not t)) body' (ends Normal) w w1 Normal ->
    forall w' o, block P pre w1 w' o -> while_runs always body (ends Normal) w w' o.
  Proof.
    intro R. remember Normal as n eqn:En in R. revert En.
    assert (T : forall w, test (py P) (Unary Not t) w = (let (w1, r) := test (py P) t w in (w1, match r with Ok b => Ok (negb b) | Raise e => Raise e end))) by (intro; apply test_not).
    induction R as [w w' x E|w w1 w' o E O|w w1 w2 w' q o E B G _ IH|w w1 w' E B|w w1 w' r E B]; intros En u p S.
    - discriminate.
    - destruct O as [-> _]. specialize (T w). rewrite E in T. pose proof (body_runs w) as K.
      destruct (test (py P) t w) as [w3 [[|]|x]]; cbn [negb] in T; [|discriminate|discriminate]. assert (w3 = w1) by congruence. subst.
      destruct (pre_ends _ _ _ S) as [->|(r & ->)].
      + apply (WBreak _ _ _ w w); [reflexivity|]. apply K. left. auto.
      + apply (WLeave _ _ _ w w); [reflexivity|]. apply K. right. eauto.
    - specialize (T w). rewrite E in T. pose proof (body_runs w) as K.
      destruct (test (py P) t w) as [w3 [[|]|x]]; cbn [negb] in T; [discriminate| |discriminate]. assert (w3 = w1) by congruence. subst.
      apply (WNext _ _ _ w w w2 _ q); [reflexivity|apply K; exact B|exact G|]. apply IH; auto.
    - specialize (T w). rewrite E in T. pose proof (body_runs w) as K.
      destruct (test (py P) t w) as [w3 [[|]|x]]; cbn [negb] in T; [discriminate| |discriminate]. assert (w3 = w1) by congruence. subst.
      destruct no_other_break as [N|N]; [|elim (N _ _ B)]. rewrite N in S. destruct S as [-> ->].
      apply (WBreak _ _ _ w w); [reflexivity|]. apply K. exact B.
    - discriminate.
  Qed.
  Lemma while_back_left w w' o : o <> Normal -> while_runs (test (py P) (Unary Not t)) body' (ends Normal) w w' o -> while_runs always body (ends Normal) w w' o.
  Proof.
    intros N R. revert N.
    assert (T : forall w, test (py P) (Unary Not t) w = (let (w1, r) := test (py P) t w in (w1, match r with Ok b => Ok (negb b) | Raise e => Raise e end))) by (intro; apply test_not).
    induction R as [w w' x E|w w1 w' o E O|w w1 w2 w' q o E B G _ IH|w w1 w' E B|w w1 w' r E B]; intros N.
    - specialize (T w). rewrite E in T. pose proof (body_runs w) as K.
      destruct (test (py P) t w) as [w3 [[|]|y]]; cbn [negb] in T; try discriminate. assert (w3 = w' /\ y = x) as [-> ->] by (split; congruence).
      apply (WLeave _ _ _ w w); [reflexivity|]. apply K. auto.
    - destruct O as [_ ->]. congruence.
    - specialize (T w). rewrite E in T. pose proof (body_runs w) as K.
      destruct (test (py P) t w) as [w3 [[|]|x]]; cbn [negb] in T; [discriminate| |discriminate]. assert (w3 = w1) by congruence. subst.
      apply (WNext _ _ _ w w w2 _ q); [reflexivity|apply K; exact B|exact G|]. apply IH; auto.
    - congruence.
    - specialize (T w). rewrite E in T. pose proof (body_runs w) as K.
      destruct (test (py P) t w) as [w3 [[|]|x]]; cbn [negb] in T; [discriminate| |discriminate]. assert (w3 = w1) by congruence. subst.
      apply (WLeave _ _ _ w w); [reflexivity|]. apply K. exact B.
  Qed.
  Lemma while_same : same_runs (while_runs always body (ends Normal)) (sequence (while_runs (test (py P) (Unary Not t)) body' (ends Normal)) (block P pre)).
  Proof.
    intros w w' o. split; [apply while_forth|]. intros [(w1 & R & S)|[N R]].
    - exact (while_back_end _ _ R _ _ S).
    - exact (while_back_left _ _ _ N R).
  Qed.
End S.

Lemma while_cong {W} (c c' : comp (W := W) bool) b b' e : (forall w, c w = c' w) -> same_runs b b' -> same_runs (while_runs c b e) (while_runs c' b' e).
Proof.
  intros C B w w' o. split; intro R.
  - induction R; try rewrite C in *; [eapply WRaise|eapply WEnd|eapply WNext|eapply WBreak|eapply WLeave]; eauto; apply B; eassumption.
  - induction R; try rewrite <- C in *; [eapply WRaise|eapply WEnd|eapply WNext|eapply WBreak|eapply WLeave]; eauto; apply B; eassumption.
Qed.
Lemma same_runs_trans {W} (r s t : run W) : same_runs r s -> same_runs s t -> same_runs r t.
Proof. intros A B w w' o. rewrite (A w w' o). apply B. Qed.
Lemma sequence_cong {W} (r r' s s' : run W) : same_runs r r' -> same_runs s s' -> same_runs (sequence r s) (sequence r' s').
Proof.
  intros A B w w' o. unfold sequence. split.
  - intros [(w1 & R & S)|[N R]]; [left; exists w1; split; [apply A|apply B]; assumption|right; split; [exact N|apply A; exact R]].
  - intros [(w1 & R & S)|[N R]]; [left; exists w1; split; [apply A|apply B]; assumption|right; split; [exact N|apply A; exact R]].
Qed.
Lemma sequence_nothing {W} (r : run W) : same_runs (sequence r (ends Normal)) r.
Proof.
  intros w w' o. unfold sequence, ends. split.
  - intros [(w1 & H & -> & ->)|[_ H]]; exact H.
  - intro H. destruct o; [left; exists w'; auto|right; split; [discriminate|exact H]..].
Qed.

Lemma ends_with_break_app l : ends_with_break l = true -> exists pre, l = pre ++ [SBreak].
Proof.
  induction l as [|s l IH]; [discriminate|]. destruct l as [|s' l].
  - destruct s; try discriminate. intros _. exists []. reflexivity.
  - intro E. assert (E' : ends_with_break (s' :: l) = true) by (destruct s; exact E). destruct (IH E') as (pre & ->). exists (s :: pre). reflexivity.
Qed.
(** What is reported. *)
Lemma no_while_true_shape s m : no_while_true s = Some m -> exists c t pre e rest orelse, s = SWhile (Const c) (SIf t (pre ++ [SBreak]) e :: rest) orelse /\ bool_value c = true /\ m = as_string t.
Proof.
  destruct s as [| | | | | | | |c [|[| | | | | | |t b e| | |] rest] orelse| |]; try discriminate; destruct c as [|c| | | | | | | | |]; try discriminate. cbn [no_while_true].
  destruct (bool_value c) eqn:B; [|discriminate]. destruct (ends_with_break b) eqn:E; [|discriminate]. cbn [andb]. intro M. injection M as <-.
  destruct (ends_with_break_app b E) as (pre & ->). exists c, t, pre, e, rest, orelse. auto.
Qed.
Theorem while_true_same s m : no_while_true s = Some m -> exists c t pre e rest orelse, s = SWhile c (SIf t (pre ++ [SBreak]) e :: rest) orelse /\
  (fine t = true -> orelse = [] ->
   pre = [] \/ (existsb breaks pre = false /\ existsb continues pre = false /\ existsb breaks (e ++ rest) = false) ->
   exists t', reads m t' /\ forall W (P : program W), same_runs (exec P s) (block P (SWhile (Unary Not t') (e ++ rest) [] :: pre))).
Proof.
  intro M. destruct (no_while_true_shape s m M) as (c & t & pre & e & rest & orelse & -> & B & ->).
  exists (Const c), t, pre, e, rest, orelse. split; [reflexivity|]. intros F -> J.
  destruct (text_node t F) as (t' & R & Same). exists t'. split; [exact R|]. intros W P.
  assert (K1 : forall w w', ~ block P pre w w' Broke) by (destruct J as [->|J]; [intros w w' [_ K]; discriminate|apply no_breaks; tauto]).
  assert (K2 : forall w w', ~ block P pre w w' Continued) by (destruct J as [->|J]; [intros w w' [_ K]; discriminate|apply no_continues; tauto]).
  assert (K3 : pre = [] \/ forall w w', ~ block P (e ++ rest) w w' Broke) by (destruct J as [->|J]; [left; reflexivity|right; apply no_breaks; tauto]).
  rewrite exec_while. eapply same_runs_trans; [apply (while_cong _ (fun w => (w, Ok true)) _ (block P (SIf t (pre ++ [SBreak]) e :: rest)))|].
  - intro w. apply test_true. exact B.
  - intros w w' o. reflexivity.
  - eapply same_runs_trans; [apply (while_same P t pre e rest K1 K2 K3)|]. change (block P (SWhile (Unary Not t') (e ++ rest) [] :: pre)) with (sequence (exec P (SWhile (Unary Not t') (e ++ rest) [])) (block P pre)).
    apply sequence_cong; [|intros w w' o; reflexivity]. rewrite exec_while. apply while_cong; [|intros w w' o; reflexivity].
    intro w. rewrite !test_not. unfold test, andthen. rewrite (Same W (py P) w). reflexivity.
Qed.
