(** Proofs about while loops that count. *)
From Coq Require Import String List Bool Arith NArith ZArith Lia.
From Verif Require Import Base PyModel PySpec PyProofs IfModel IfSpec IfProofs SmallProofs FoldModel FoldSpec FoldProofs TypeModel LocalSpec IterSpec IterProofs LoopModel LoopSpec LoopProofs LoopRangeProofs.
Import ListNotations.
Local Open Scope string_scope.
Local Open Scope list_scope.

(** ** How a statement changes its variable *)
Lemma signed_int o v c d : plus_or_minus o = true -> signed o v = Ok (Some c) -> as_int c = Some d ->
  exists k, as_int v = Some k /\ v <> VNone /\ d = (match o with Add => k | _ => - k end)%Z.
Proof.
  intros O E D. destruct o; try discriminate; cbn [signed] in E.
  - destruct v; try discriminate; assert (EQ : Some c = Some c) by reflexivity; injection E as <-; cbn in D; try discriminate; eexists; (split; [reflexivity|]); (split; [discriminate|]); cbn [as_int] in *; congruence.
  - destruct v as [|b|z|r|s|n]; try discriminate; cbn [negated bind] in E.
    + injection E as <-. cbn in D. injection D as <-. exists (Z.b2z b). split; [reflexivity|]. split; [discriminate|reflexivity].
    + injection E as <-. cbn in D. injection D as <-. exists z. split; [reflexivity|]. split; [discriminate|reflexivity].
    + destruct r as [|ch r]; cbn [bind] in E; [discriminate|]. injection E as <-. destruct (Ascii.eqb ch (Ascii.ascii_of_nat 45)); discriminate.
Qed.
Lemma as_int_binary {W} (P : python W) o v u i k w : plus_or_minus o = true -> as_int v = Some i -> as_int u = Some k ->
  binary P o v u w = (w, Ok (VInt (match o with Add => i + k | _ => i - k end)%Z)).
Proof. intros O V U. unfold binary. rewrite V, U. destruct o; try discriminate; reflexivity. Qed.

Section Change.
  Variable H : host.
  Context {W : Type}.
  Variable P : program W.
  Hypothesis CH : closed_host H.
  Hypothesis A : agrees (py P) H.

  Theorem change_ok s x c d w i : assigns s = Some x -> names_stored P x -> fine_stmt s = true -> subtracts_itself s = false ->
    get_change_value H s = Ok (Some c) -> as_int c = Some d -> counts P w x i ->
    exists w1, counts P w1 x (i + d) /\ forall w' o, exec P s w w' o <-> w' = w1 /\ o = Normal.
  Proof.
    intros S N F Z E D C. unfold counts in *.
    assert (Fin : forall m, m w = (w, Ok (VInt (i + d))) -> exists w1, lookup (py P) x w1 = Ok (VInt (i + d)) /\
      forall w' o, after (andthen m (store P (Name x))) (fun _ => ends Normal) w w' o <-> w' = w1 /\ o = Normal).
    { intros m M. destruct (N (VInt (i + d)) w) as (w1 & N1 & N2). exists w1. split; [exact N2|]. intros w' o. unfold after, andthen. rewrite M, N1. reflexivity. }
    destruct s as [y e|y o e| | | | | | | | |]; try discriminate; cbn [assigns] in S; injection S as ->.
    - destruct e as [|k'|u a|o a b|o vs|a ops|g args|a y|a j|c' a b|n']; cbn [get_change_value] in E; try discriminate.
      destruct (plus_or_minus o) eqn:O; [|discriminate].
      assert (fine a = true /\ fine b = true) as [Fa Fb].
      { cbn [fine_stmt] in F. apply andb_true_iff in F. destruct F as [F1 F2]. cbn in F1, F2. apply andb_true_iff in F1, F2. unfold fine. destruct F1 as [-> ->], F2 as [-> ->]. auto. }
      apply (Fin (eval (py P) (Binary o a b))). cbn [eval]. unfold andthen.
      destruct (text_eqb (as_string b) (as_string (Name x))) eqn:Tb.
      + assert (b = Name x) as -> by (apply norm_is_name; rewrite (same_text_norm b (Name x) Fb eq_refl Tb); reflexivity).
        assert (o = Add) as -> by (destruct o; try discriminate; [reflexivity|]; cbn in Z; rewrite String.eqb_refl in Z; discriminate).
        destruct (if text_eqb (as_string a) (as_string (Name x)) then _ else _) as [u|]; cbn [bind] in E; [|discriminate].
        destruct (get_const_value H a) as [v|] eqn:V; cbn [bind] in E; [|discriminate].
        destruct (signed_int _ _ _ _ O E D) as (k & K & NV & ->). rewrite (folded_value H CH _ _ V NV _ _ A w). cbn [eval]. rewrite C.
        rewrite (as_int_binary (py P) Add v (VInt i) k i w O K eq_refl). rewrite Z.add_comm. reflexivity.
      + destruct (text_eqb (as_string a) (as_string (Name x))) eqn:Ta; [|cbn [bind] in E; destruct o; discriminate].
        pose proof (same_text_same a (Name x) Fa eq_refl Ta) as Sa. rewrite (Sa W (py P) w). cbn [eval]. rewrite C.
        destruct (get_const_value H b) as [v|] eqn:V; cbn [bind] in E; [|discriminate].
        destruct (signed_int _ _ _ _ O E D) as (k & K & NV & ->). rewrite (folded_value H CH _ _ V NV _ _ A w).
        rewrite (as_int_binary (py P) o (VInt i) v i k w O eq_refl K). destruct o; try discriminate; reflexivity.
    - cbn [get_change_value] in E. destruct (plus_or_minus o) eqn:O; [|discriminate].
      destruct (get_const_value H e) as [v|] eqn:V; cbn [bind] in E; [|discriminate].
      destruct (signed_int _ _ _ _ O E D) as (k & K & NV & ->).
      destruct (N (VInt (i + (match o with Add => k | _ => - k end))) w) as (w1 & N1 & N2). exists w1. split; [exact N2|].
      intros w' o'. cbn [exec]. unfold after, andthen. cbn [eval]. rewrite C, (folded_value H CH _ _ V NV _ _ A w). unfold augmented. cbn [as_int]. rewrite K.
      rewrite (as_int_binary (py P) o (VInt i) v i k w O eq_refl K).
      replace (match o with Add => i + k | _ => i - k end)%Z with (i + match o with Add => k | _ => - k end)%Z by (destruct o; lia). rewrite N1. reflexivity.
  Qed.
End Change.

(** ** What is reported *)
Definition direction (up : bool) : Z := if up then 1%Z else (-1)%Z.
Lemma agreed : forall r a c, fold_left agree r a = c -> forall up, unit_change c = Some up ->
  forall d, List.In d (a :: r) -> exists v, d = Some v /\ same_number v (VInt (direction up)) = true.
Proof.
  assert (Back : forall v u k, same_number v u = true -> same_number v (VInt k) = true -> (k = 1 \/ k = -1)%Z -> same_number u (VInt k) = true).
  { intros v u k E1 E2 K. destruct v as [|b|z|s|s|n], u as [|b'|z'|s'|s'|n']; cbn in *; try discriminate; try (destruct b; discriminate); try (destruct b'; discriminate);
      try (apply Z.eqb_eq in E1; apply Z.eqb_eq in E2; apply Z.eqb_eq; congruence);
      try (apply Z.eqb_eq in E2; rewrite E2 in E1; exact E1).
    - apply orb_true_iff in E1, E2. destruct E1 as [E1|E1], E2 as [E2|E2]; apply andb_true_iff in E1, E2; destruct E1 as [E1 E1'], E2 as [E2 E2'];
        apply Z.eqb_eq in E1, E2; apply String.eqb_eq in E1', E2'; try congruence; apply Z.eqb_eq; congruence.
    - apply orb_true_iff in E1, E2. destruct E1 as [E1|E1], E2 as [E2|E2]; apply andb_true_iff in E1, E2; destruct E1 as [E1 E1'], E2 as [E2 E2'];
        apply Z.eqb_eq in E1, E2; apply String.eqb_eq in E1', E2'; try congruence; apply Z.eqb_eq; congruence.
    - apply String.eqb_eq in E1. subst. exact E2. }
  assert (Un : forall c up, unit_change c = Some up -> exists v, c = Some v /\ same_number v (VInt (direction up)) = true).
  { intros [v|] up E; cbn in E; [|discriminate]. exists v. split; [reflexivity|]. destruct (same_number v (VInt 1)) eqn:E1; [injection E as <-; exact E1|].
    destruct (same_number v (VInt (-1))) eqn:E2; [injection E as <-; exact E2|discriminate]. }
  assert (None_ : forall r, fold_left agree r None = None) by (induction r; [reflexivity|exact IHr]).
  induction r as [|b r IH]; intros a c E up U d I; cbn [fold_left] in E.
  - destruct I as [<-|[]]. subst. apply Un. exact U.
  - destruct a as [v|]; [destruct b as [u|]|]; cbn [agree] in E; try (rewrite None_ in E; subst; discriminate).
    destruct (same_number u v) eqn:S; [|rewrite None_ in E; subst; discriminate].
    destruct I as [<-|I]; [|exact (IH _ _ E _ U _ I)]. destruct (IH _ _ E _ U (Some u) (or_introl eq_refl)) as (u' & Q & K). injection Q as <-.
    exists v. split; [reflexivity|]. eapply Back; [exact S|exact K|]. destruct up; cbn; auto.
Qed.
Lemma mapM_in {A B} (f : A -> res B) l l' : mapM f l = Ok l' -> forall a, List.In a l -> exists b, f a = Ok b /\ List.In b l'.
Proof.
  revert l'. induction l as [|x l IH]; intros l' E a I; [destruct I|]. cbn [mapM] in E. destruct (f x) as [b|] eqn:F; cbn [bind] in E; [|discriminate].
  destruct (mapM f l) as [bs|] eqn:M; cbn [bind] in E; [|discriminate]. injection E as <-. destruct I as [<-|I].
  - exists b. split; [exact F|left; reflexivity].
  - destruct (IH _ eq_refl a I) as (b' & F' & J). exists b'. split; [exact F'|right; exact J].
Qed.

(** The comparison with the variable on the left. *)
Definition flipped (o : cmpop) : cmpop := match o with Lt => Gt | Le => Ge | Gt => Lt | Ge => Le | _ => o end.
Lemma reported_loop H test x l placed : use_for_loop H test [(x, l)] placed = Ok true ->
  placed = true /\ l <> [] /\ exists (up : bool) o limit,
    (test = Compare (Name x) [(o, limit)] \/ test = Compare limit [(flipped o, Name x)]) /\ occurs x limit = false /\
    (if up then o = Lt \/ o = Le else o = Gt \/ o = Ge) /\
    forall s, List.In s l -> exists c, get_change_value H s = Ok (Some c) /\ same_number c (VInt (direction up)) = true.
Proof.
  intro E. unfold use_for_loop in E. destruct test as [| | | | |a ops| | | | |]; try discriminate. destruct ops as [|[o b] [|o' ops]]; try discriminate.
  destruct (is_order o && _) eqn:O; [|discriminate]. apply andb_true_iff in O. destruct O as [O _].
  destruct (mapM (get_change_value H) l) as [cs|] eqn:M; cbn [bind] in E; [|discriminate].
  destruct (common_change cs) as [c|] eqn:CC; cbn [bind] in E; [|discriminate]. destruct (unit_change c) as [up|] eqn:U; [|discriminate].
  destruct (var_can_be_from_range x a b) eqn:V; [|discriminate].
  destruct (changes_towards_limit x a o b up) as [t|] eqn:T; cbn [bind] in E; [|discriminate]. injection E as E. apply andb_true_iff in E. destruct E as [-> ->].
  split; [reflexivity|]. destruct cs as [|d ds]; [discriminate|]. cbn [common_change] in CC. injection CC as CC.
  split; [intros ->; discriminate|].
  assert (Changes : forall s, List.In s l -> exists c, get_change_value H s = Ok (Some c) /\ same_number c (VInt (direction up)) = true).
  { intros s I. destruct (mapM_in _ _ _ M s I) as (r & G & J). destruct (agreed _ _ _ CC _ U _ J) as (v & -> & K). exists v. auto. }
  unfold var_can_be_from_range in V. apply andb_true_iff in V. destruct V as [V1 V2]. apply Nat.eqb_eq in V1. rewrite filter_app, app_length in V1.
  assert (Zero : forall e, length (filter (String.eqb x) (names_in e)) = 0 -> occurs x e = false).
  { intros e L. unfold occurs. destruct (existsb (String.eqb x) (names_in e)) eqn:Q; [|reflexivity]. exfalso. apply existsb_exists in Q. destruct Q as (y & I & Y).
    assert (J : List.In y (filter (String.eqb x) (names_in e))) by (apply filter_In; auto). destruct (filter (String.eqb x) (names_in e)); [destruct J|discriminate]. }
  assert (Self : length (filter (String.eqb x) (names_in (Name x))) = 1) by (cbn; rewrite String.eqb_refl; reflexivity).
  assert (Occ : occurs x (Name x) = true) by (unfold occurs; cbn; rewrite String.eqb_refl; reflexivity).
  apply orb_true_iff in V2. unfold changes_towards_limit in T. destruct V2 as [V2|V2].
  - destruct a as [y| | | | | | | | | |]; try discriminate. apply String.eqb_eq in V2. subst y. exists up, o, b. split; [left; reflexivity|].
    split; [apply Zero; lia|]. rewrite Occ in T. split; [|exact Changes]. destruct up, o; cbn in T; try discriminate; auto.
  - destruct b as [y| | | | | | | | | |]; try discriminate. apply String.eqb_eq in V2. subst y. exists up, (flipped o), a.
    split; [right; destruct o; try discriminate; reflexivity|]. assert (Oa : occurs x a = false) by (apply Zero; lia). split; [exact Oa|].
    rewrite Oa, Occ in T. split; [|exact Changes]. destruct up, o; cbn in T; try discriminate; cbn; auto.
Qed.

(** ** The loop counts *)
Section Count.
  Context {W : Type}.
  Variable P : program W.
  Variable x : string.
  Hypothesis again : stored_again P x.
  Variable test : expr.
  Variable o : cmpop.
  Variable limit : expr.
  Variable z : Z.
  Hypothesis shape : test = Compare (Name x) [(o, limit)] \/ test = Compare limit [(flipped o, Name x)].
  Hypothesis fixed_limit : fixed P limit z.
  Variable up : bool.
  Hypothesis towards : if up then o = Lt \/ o = Le else o = Gt \/ o = Ge.
  Local Notation d := (direction up).
  (** Where the range stops. *)
  Definition range_stop : Z := match o with Lt | Gt => z | _ => (z + d)%Z end.
  Definition inside (i : Z) : bool := if up then Z.ltb i range_stop else Z.ltb range_stop i.

  Lemma test_counts w i : counts P w x i -> PySpec.test (py P) test w = (w, Ok (inside i)).
  Proof.
    intro C. unfold counts in C. destruct (fixed_limit w) as (v & G & V). unfold gives in G.
    assert (K : forall b, (match o with Lt => Some (Z.ltb i z) | Le => Some (Z.leb i z) | Gt => Some (Z.ltb z i) | Ge => Some (Z.leb z i) | _ => None end) = Some b -> b = inside i).
    { intros b B. unfold inside, range_stop, direction. destruct up, towards as [E|E]; rewrite E in B |- *; injection B as <-; try reflexivity.
      - destruct (Z.leb_spec i z), (Z.ltb_spec i (z + 1)); lia || reflexivity.
      - destruct (Z.leb_spec z i), (Z.ltb_spec (z + -1) i); lia || reflexivity. }
    assert (O : o = Lt \/ o = Le \/ o = Gt \/ o = Ge) by (destruct up; tauto).
    unfold PySpec.test, andthen. destruct shape as [-> | ->]; cbn [eval]; unfold andthen; cbn [eval]; rewrite ?C, G; [|rewrite C]; unfold compare; rewrite V; cbn [as_int].
    - destruct O as [-> |[-> |[-> | ->]]]; cbn [decide]; unfold pure, truth; f_equal; f_equal; apply K; f_equal;
        destruct (Z.ltb_spec i z), (Z.eqb_spec i z), (Z.leb_spec i z), (Z.leb_spec z i), (Z.ltb_spec z i); cbn; lia || reflexivity.
    - destruct O as [-> |[-> |[-> | ->]]]; cbn [flipped decide]; unfold pure, truth; f_equal; f_equal; apply K; f_equal;
        destruct (Z.ltb_spec z i), (Z.eqb_spec z i), (Z.leb_spec i z), (Z.leb_spec z i), (Z.ltb_spec i z); cbn; lia || reflexivity.
  Qed.

  Variables body orelse : run W.
  Hypothesis counting : forall w w' q i, counts P w x i -> body w w' q -> goes_on q -> counts P w' x (i + d).

  Fixpoint steps (n : nat) (i : Z) : list Z := match n with 0 => [] | S m => i :: steps m (i + d) end.
  Definition remaining (i : Z) : nat := Z.to_nat (if up then range_stop - i else i - range_stop)%Z.

  Lemma while_for n : forall i w w' q, remaining i = n -> counts P w x i ->
    while_runs (PySpec.test (py P) test) body orelse w w' q <-> for_runs (store P (Name x)) body orelse (map VInt (steps n i)) w w' q.
  Proof.
    induction n as [|n IH]; intros i w w' q R C.
    - assert (I : inside i = false) by (unfold inside, remaining in *; destruct up; apply Z.ltb_ge; lia). pose proof (test_counts w i C) as T. rewrite I in T. cbn [steps map]. split.
      + intro K. inversion K; subst; try congruence. match goal with E : PySpec.test _ _ w = (?u, Ok false) |- _ => assert (u = w) by congruence; subst u end. apply FEnd. assumption.
      + intro K. inversion K; subst. eapply WEnd; eassumption.
    - assert (I : inside i = true) by (unfold inside, remaining in *; destruct up; apply Z.ltb_lt; lia). pose proof (test_counts w i C) as T. rewrite I in T. cbn [steps map].
      assert (R' : remaining (i + d) = n) by (unfold remaining, direction in *; destruct up; lia).
      pose proof (again _ _ C) as St. split.
      + intro K. inversion K; subst; try congruence; match goal with E : PySpec.test _ _ w = (?u, Ok true) |- _ => assert (u = w) by congruence; subst u end.
        * eapply FNext; [exact St|eassumption|assumption|]. apply IH; [reflexivity| |assumption]. eapply counting; eassumption.
        * eapply FBreak; eassumption.
        * eapply FLeave; eassumption.
      + intro K. inversion K; subst; try congruence; match goal with E : store P (Name x) (VInt i) w = (?u, Ok tt) |- _ => assert (u = w) by congruence; subst u end.
        * eapply WNext; [exact T|eassumption|assumption|]. apply (IH (i + d)%Z); [reflexivity| |assumption]. eapply counting; eassumption.
        * eapply WBreak; eassumption.
        * eapply WLeave; eassumption.
  Qed.
  Lemma steps_arith n : forall i, steps n i = arith i d n.
  Proof. induction n as [|n IH]; intro i; [reflexivity|]. cbn [steps]. rewrite IH. symmetry. apply arith_cons. Qed.
  Lemma steps_range i : is_range i range_stop d (steps (remaining i) i).
  Proof.
    rewrite steps_arith. split; [unfold direction; destruct up; lia|]. split; [rewrite arith_length; reflexivity|]. intro y. unfold arith. rewrite in_map_iff. unfold member, remaining, direction. split.
    - intros (k & <- & I). apply in_seq in I. exists (Z.of_nat k). destruct up; (split; [lia|]); (split; [lia|]); lia.
    - intros (k & K & -> & U & L). exists (Z.to_nat k). split; [rewrite Z2Nat.id by lia; reflexivity|]. apply in_seq. destruct up; lia.
  Qed.
End Count.

Theorem reported_counts H test x l placed : use_for_loop H test [(x, l)] placed = Ok true ->
  exists (up : bool) o limit, (test = Compare (Name x) [(o, limit)] \/ test = Compare limit [(flipped o, Name x)]) /\
  (forall s, List.In s l -> exists c, get_change_value H s = Ok (Some c) /\ same_number c (VInt (direction up)) = true) /\
  forall W (P : program W) body orelse z, stored_again P x -> fixed P limit z ->
    (forall w w' q i, counts P w x i -> block P body w w' q -> goes_on q -> counts P w' x (i + direction up)) ->
    forall w i, counts P w x i -> exists elts, is_range i (match o with Lt | Gt => z | _ => z + direction up end)%Z (direction up) elts /\
      forall w' q, exec P (SWhile test body orelse) w w' q <-> for_runs (store P (Name x)) (block P body) (block P orelse) (map VInt elts) w w' q.
Proof.
  intro E. destruct (reported_loop _ _ _ _ _ E) as (_ & _ & up & o & limit & S & _ & T & C). exists up, o, limit. split; [exact S|]. split; [exact C|].
  intros W P body orelse z Ag F Cn w i Ci. exists (steps up (remaining o z up i) i). split; [eapply steps_range; eassumption|].
  intros w' q. rewrite exec_while. exact (while_for P x Ag test o limit z S F up T (block P body) (block P orelse) Cn _ i w w' q eq_refl Ci).
Qed.

(** ** The change is the last statement *)
Lemma last_counts H {W} (P : program W) pre s x c up : closed_host H -> agrees (py P) H -> assigns s = Some x -> names_stored P x -> fine_stmt s = true -> subtracts_itself s = false ->
  get_change_value H s = Ok (Some c) -> as_int c = Some (direction up) -> existsb continues pre = false ->
  (forall w w' i, counts P w x i -> block P pre w w' Normal -> counts P w' x i) ->
  forall w w' q i, counts P w x i -> block P (pre ++ [s]) w w' q -> goes_on q -> counts P w' x (i + direction up).
Proof.
  intros CH A S N F Z E D C K w w' q i Ci R G. apply block_app in R. destruct R as [(w1 & R1 & R2)|[Nq R]].
  - pose proof (K _ _ _ Ci R1) as C1. destruct (change_ok H P CH A s x c (direction up) w1 i S N F Z E D C1) as (w2 & C2 & X).
    apply block_one, X in R2. destruct R2 as [-> _]. exact C2.
  - destruct G as [-> | ->]; [congruence|]. destruct (no_continues P pre C _ _ R).
Qed.
Lemma unit_int c up : same_number c (VInt (direction up)) = true -> (forall r, c <> VFloat r) -> as_int c = Some (direction up).
Proof. destruct c as [|b|z|r|s|n], up; cbn; intros E N; try discriminate; try (apply Z.eqb_eq in E; congruence); exfalso; exact (N r eq_refl). Qed.

Theorem last_change_for H x s pre test orelse placed : use_for_loop H test [(x, [s])] placed = Ok true -> assigns s = Some x ->
  fine_stmt s = true -> subtracts_itself s = false -> (forall r, get_change_value H s <> Ok (Some (VFloat r))) -> existsb continues pre = false ->
  exists (d : Z) o limit, (d = 1 \/ d = -1)%Z /\ (test = Compare (Name x) [(o, limit)] \/ test = Compare limit [(flipped o, Name x)]) /\
  forall W (P : program W) z, closed_host H -> agrees (py P) H -> names_stored P x -> stored_again P x -> fixed P limit z ->
    (forall w w' i, counts P w x i -> block P pre w w' Normal -> counts P w' x i) ->
    forall w i, counts P w x i -> exists elts, is_range i (match o with Lt | Gt => z | _ => z + d end)%Z d elts /\
      forall w' q, exec P (SWhile test (pre ++ [s]) orelse) w w' q <-> for_runs (store P (Name x)) (block P (pre ++ [s])) (block P orelse) (map VInt elts) w w' q.
Proof.
  intros E S F Z NF C. destruct (reported_counts _ _ _ _ _ E) as (up & o & limit & Sh & Ch & K). exists (direction up), o, limit.
  split; [destruct up; cbn; auto|]. split; [exact Sh|]. intros W P z CH A N Ag Fx Keep w i Ci.
  destruct (Ch s (or_introl eq_refl)) as (c & G & SN). assert (NV : forall r, c <> VFloat r) by (intros r ->; exact (NF r G)).
  apply (K W P (pre ++ [s]) orelse z Ag Fx); [|exact Ci]. exact (last_counts H P pre s x c up CH A S N F Z G (unit_int _ _ SN NV) C Keep).
Qed.
