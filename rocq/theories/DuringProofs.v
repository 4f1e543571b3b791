(** Proofs about loops that modify what they iterate over. *)
From Coq Require Import List Bool Arith Lia.
From Verif Require Import DuringModel DuringSpec.
Import ListNotations.
Local Open Scope list_scope.
Local Open Scope nat_scope.

Definition of_all (P : stmt -> Prop) (s : stmt) : Prop := match s with If a b => Forall P a /\ Forall P b | _ => True end.
Section Induction.
  Variable P : stmt -> Prop.
  Hypothesis step : forall s, of_all P s -> P s.
  Fixpoint stmt_tree_ind (s : stmt) : P s :=
    step s
      match s as s0 return of_all P s0 with
      | If a b =>
          let go := fix go (l : list stmt) : Forall P l := match l with [] => Forall_nil P | x :: l => Forall_cons x (stmt_tree_ind x) (go l) end in
          conj (go a) (go b)
      | _ => I
      end.
  Lemma block_tree_ind : forall l, Forall P l.
  Proof. intro l. apply Forall_forall. intros s _. apply stmt_tree_ind. Qed.
End Induction.

Lemma somewhere_sub : forall s l m, incl l m -> somewhere s l -> somewhere s m.
Proof.
  intros s l m Inc H. destruct H as [l I|a b l I H|a b l I H].
  - apply somewhere_here, Inc, I.
  - exact (somewhere_body s a b m (Inc _ I) H).
  - exact (somewhere_orelse s a b m (Inc _ I) H).
Qed.
Lemma somewhere_tail : forall s x l, somewhere s l -> somewhere s (x :: l).
Proof. intros s x l. apply somewhere_sub. intros y Y. right. exact Y. Qed.
Lemma somewhere_branch : forall s a b c l, In (If a b) l -> c = a \/ c = b -> somewhere s c -> somewhere s l.
Proof. intros s a b c l I [->| ->] H; [exact (somewhere_body s a b l I H)|exact (somewhere_orelse s a b l I H)]. Qed.

(** ** Executing *)

Lemma exec_passes : forall l b b' log o, exec l b b' log o -> o = Normal -> forallb passes l = true.
Proof.
  intros l b b' log o H. induction H; intro E; cbn [forallb passes]; try (rewrite IHexec by exact E); try reflexivity; try discriminate E.
  rewrite (IHexec2 E), andb_true_r. specialize (IHexec1 eq_refl). destruct H as [->| ->]; rewrite IHexec1; [reflexivity|apply orb_true_r].
Qed.
Lemma exec_jumps : forall l b b' log o j, exec l b b' log o -> o = Jumped j -> somewhere (Jump j) l.
Proof.
  intros l b b' log o j H. induction H; intro E; try (apply somewhere_tail; apply IHexec; exact E); try discriminate E.
  - apply somewhere_tail. apply IHexec2. exact E.
  - apply (somewhere_branch _ a b c); [left; reflexivity|exact H|exact (IHexec E)].
  - apply somewhere_here. left. congruence.
Qed.

(** A block that can be left by its end, followed by others. *)
Definition goes_through (s : stmt) : Prop := passes s = true -> forall bound, exists bound1 log1,
  (~ somewhere Rebind [s] -> bound1 = bound) /\ (forall n, s = Modify n -> bound = true -> In n log1) /\
  forall l bound2 log2 o, exec l bound1 bound2 log2 o -> exec (s :: l) bound bound2 (log1 ++ log2) o.
Lemma block_through : forall l, Forall goes_through l -> forallb passes l = true -> forall bound, exists bound1 log1,
  (~ somewhere Rebind l -> bound1 = bound) /\ (~ somewhere Rebind l -> forall n, In (Modify n) l -> bound = true -> In n log1) /\
  forall l' bound2 log2 o, exec l' bound1 bound2 log2 o -> exec (l ++ l') bound bound2 (log1 ++ log2) o.
Proof.
  intros l F. induction F as [|s l Q F IH]; intros P bound.
  - exists bound, []. split; [reflexivity|]. split; [intros _ n []|]. intros l' b2 log2 o H. exact H.
  - cbn [forallb] in P. apply andb_prop in P as [Ps Pl]. destruct (Q Ps bound) as (b1 & log1 & K1 & M1 & C1). destruct (IH Pl b1) as (b2 & log2 & K2 & M2 & C2).
    assert (Ns : ~ somewhere Rebind (s :: l) -> ~ somewhere Rebind [s]). { intros N H. apply N. revert H. apply somewhere_sub. intros y [<-|[]]. left. reflexivity. }
    assert (Nl : ~ somewhere Rebind (s :: l) -> ~ somewhere Rebind l) by (intros N H; apply N, somewhere_tail, H).
    exists b2, (log1 ++ log2). split; [intro N; rewrite (K2 (Nl N)); exact (K1 (Ns N))|]. split.
    + intros N n [->|I] B; apply in_app_iff; [left; exact (M1 n eq_refl B)|right]. apply (M2 (Nl N) n I). rewrite (K1 (Ns N)). exact B.
    + intros l' b3 log3 o H. rewrite <- app_assoc. cbn [app]. apply C1, C2, H.
Qed.
Lemma all_through : forall s, goes_through s.
Proof.
  apply stmt_tree_ind. intros s F P bound. destruct s as [n|n|n| | |a b|j]; try discriminate P.
  1-3: exists bound, (if bound then [n] else []); split; [reflexivity|]; split; [intros m E B; try discriminate E; rewrite B; left; congruence|];
    intros l b2 log2 o H; replace ((if bound then [n] else []) ++ log2) with (if bound then n :: log2 else log2) by (destruct bound; reflexivity); constructor; exact H.
  - exists false, []. split; [intro N; exfalso; apply N, somewhere_here; left; reflexivity|]. split; [discriminate|]. intros l b2 log2 o H. constructor. exact H.
  - exists bound, []. split; [reflexivity|]. split; [discriminate|]. intros l b2 log2 o H. constructor. exact H.
  - destruct F as [Fa Fb]. cbn [passes] in P. assert (G : exists c, (c = a \/ c = b) /\ Forall goes_through c /\ forallb passes c = true).
    { apply orb_prop in P as [P|P]; [exists a|exists b]; auto. }
    destruct G as (c & C & Fc & Pc). destruct (block_through c Fc Pc bound) as (b1 & log1 & K & _ & X). exists b1, log1.
    split; [intro N; apply K; intro H; apply N; apply (somewhere_branch _ a b c); [left; reflexivity|exact C|exact H]|]. split; [discriminate|].
    intros l b2 log2 o H. apply (exec_if a b c l bound b1 b2 log1 log2 o C); [|exact H]. specialize (X [] b1 [] Normal (exec_nil b1)). rewrite !app_nil_r in X. exact X.
Qed.
Lemma through : forall l, forallb passes l = true -> forall bound, exists bound1 log1,
  (~ somewhere Rebind l -> bound1 = bound) /\ (~ somewhere Rebind l -> forall n, In (Modify n) l -> bound = true -> In n log1) /\
  forall l' bound2 log2 o, exec l' bound1 bound2 log2 o -> exec (l ++ l') bound bound2 (log1 ++ log2) o.
Proof. intros l P. apply block_through; [|exact P]. apply Forall_forall. intros s _. apply all_through. Qed.
Lemma through_alone : forall l, forallb passes l = true -> forall bound, exists bound1 log1, exec l bound bound1 log1 Normal.
Proof.
  intros l P bound. destruct (through l P bound) as (b1 & log1 & _ & _ & X). exists b1, log1. specialize (X [] b1 [] Normal (exec_nil b1)). rewrite !app_nil_r in X. exact X.
Qed.

(** ** What is reported is there *)

Inductive reportable : list stmt -> nat -> Prop :=
| reportable_here l n : In (Modify n) l -> last_leaves l = false -> reportable l n
| reportable_body a b l n : In (If a b) l -> reportable a n -> reportable l n
| reportable_orelse a b l n : In (If a b) l -> reportable b n -> reportable l n.
Lemma reportable_somewhere : forall l n, reportable l n -> somewhere (Modify n) l.
Proof.
  intros l n H. induction H as [l n I _|a b l n I _ IH|a b l n I _ IH]; [exact (somewhere_here _ l I)|exact (somewhere_body _ a b l I IH)|exact (somewhere_orelse _ a b l I IH)].
Qed.
Lemma leaving : forall l, last l Other = Jump Break \/ last l Other = Jump Return -> last_leaves l = true.
Proof. intros l [E|E]; unfold last_leaves; rewrite E; reflexivity. Qed.

Lemma end_exec : forall e bound, e = [] \/ e = [Jump Continue] -> exists o, exec e bound bound [] o /\ goes_on o.
Proof.
  intros e bound [->| ->]; [exists Normal|exists (Jumped Continue)]; (split; [constructor|]); [left|right]; reflexivity.
Qed.
Lemma through_branch : forall l1 a b c l2 e n bound log o, forallb passes (l1 ++ If a b :: l2) = true -> e = [] \/ e = [Jump Continue] -> c = a \/ c = b ->
  ~ somewhere Rebind l1 -> exec c true bound log o -> goes_on o -> In n log ->
  exists bound' log' o', exec ((l1 ++ If a b :: l2) ++ e) true bound' log' o' /\ In n log' /\ goes_on o'.
Proof.
  intros l1 a b c l2 e n bound log o P Ee C N E G I. rewrite forallb_app in P. apply andb_prop in P as [P1 P2]. cbn [forallb] in P2. apply andb_prop in P2 as [_ P2].
  destruct (through l1 P1 true) as (b1 & log1 & K1 & _ & X1). rewrite (K1 N) in X1. rewrite <- app_assoc. cbn [app].
  destruct G as [->| ->].
  - destruct (through l2 P2 bound) as (b2 & log2 & _ & _ & X2). destruct (end_exec e b2 Ee) as (o' & Xe & G').
    exists b2, (log1 ++ log ++ log2 ++ []), o'. split; [|split; [apply in_app_iff; right; apply in_app_iff; left; exact I|exact G']].
    apply X1. apply (exec_if a b c (l2 ++ e) true bound b2 log (log2 ++ []) o' C E). apply X2. exact Xe.
  - exists bound, (log1 ++ log), (Jumped Continue). split; [|split; [apply in_app_iff; right; exact I|right; reflexivity]].
    apply X1. exact (exec_if_jump a b c (l2 ++ e) true bound log Continue C E).
Qed.
Lemma in_end : forall (s : stmt) l e, (e = [] \/ e = [Jump Continue]) -> s <> Jump Continue -> In s (l ++ e) -> In s l.
Proof. intros s l e E N I. apply in_app_iff in I as [I|I]; [exact I|]. destruct E as [->| ->]; [destruct I|]. destruct I as [<-|[]]. destruct (N eq_refl). Qed.
Lemma reportable_happens : forall l n, reportable l n -> tidy l -> ~ somewhere Rebind l -> exists bound log o, exec l true bound log o /\ In n log /\ goes_on o.
Proof.
  assert (Inner : forall l e a b c n bound log o, e = [] \/ e = [Jump Continue] -> In (If a b) (l ++ e) -> c = a \/ c = b -> (exists bound bound' log, exec l bound bound' log Normal) ->
    ~ somewhere Rebind (l ++ e) -> exec c true bound log o -> In n log -> goes_on o -> exists bound' log' o', exec (l ++ e) true bound' log' o' /\ In n log' /\ goes_on o').
  { intros l e a b c n bound log o Ee I C (b1 & b2 & lg & E) N X J G. assert (P := exec_passes _ _ _ _ _ E eq_refl).
    apply (in_end _ _ _ Ee) in I; [|discriminate]. apply in_split in I as (l1 & l2 & ->).
    apply (through_branch l1 a b c l2 e n bound log o P Ee C); try assumption.
    intro H; apply N; revert H; apply somewhere_sub; intros y Y; apply in_app_iff; left; apply in_app_iff; left; exact Y. }
  intros l n R. induction R as [l n I L|a b l n I R IH|a b l n I R IH]; intros T N.
  - destruct T as [l e Ee E Ta Tb|l E X|l X].
    + destruct E as (b1 & b2 & lg & E). assert (P := exec_passes _ _ _ _ _ E eq_refl). destruct (through l P true) as (b' & log' & K & M & X).
      destruct (end_exec e b' Ee) as (o' & Xe & G'). exists b', (log' ++ []), o'. split; [exact (X e b' [] o' Xe)|]. split; [|exact G'].
      rewrite app_nil_r. apply M; [|apply (in_end _ _ _ Ee); [discriminate|exact I]|reflexivity].
      intro H; apply N; revert H; apply somewhere_sub; intros y Y; apply in_app_iff; left; exact Y.
    + rewrite (leaving l E) in L. discriminate L.
    + destruct (X n). apply somewhere_here. exact I.
  - assert (Na : ~ somewhere Rebind a) by (intro H; exact (N (somewhere_body _ a b l I H))). destruct T as [l e Ee E Ta Tb|l E X|l X].
    + assert (I' : In (If a b) l) by (apply (in_end (If a b) l e Ee); [discriminate|exact I]). destruct (IH (Ta a b I') Na) as (b' & log & o & X & J & G). exact (Inner l e a b a n b' log o Ee I (or_introl eq_refl) E N X J G).
    + destruct (proj1 (X a b I) n (reportable_somewhere a n R)).
    + destruct (X n). exact (somewhere_body _ a b l I (reportable_somewhere a n R)).
  - assert (Nb : ~ somewhere Rebind b) by (intro H; exact (N (somewhere_orelse _ a b l I H))). destruct T as [l e Ee E Ta Tb|l E X|l X].
    + assert (I' : In (If a b) l) by (apply (in_end (If a b) l e Ee); [discriminate|exact I]). destruct (IH (Tb a b I') Nb) as (b' & log & o & X & J & G). exact (Inner l e a b b n b' log o Ee I (or_intror eq_refl) E N X J G).
    + destruct (proj2 (X a b I) n (reportable_somewhere b n R)).
    + destruct (X n). exact (somewhere_orelse _ a b l I (reportable_somewhere b n R)).
Qed.

Lemma report_app : forall l m n, In n (report (l ++ m)) -> In n (report l) \/ In n (report m).
Proof.
  induction l as [|e l IH]; intros m n I; [right; exact I|]. cbn [app] in I. destruct e as [k [|]|[|]]; cbn [report] in *.
  - exact (IH m n I).
  - destruct I as [<-|I]; [left; left; reflexivity|]. destruct (IH m n I) as [H|H]; [left; right; exact H|right; exact H].
  - destruct I.
  - exact (IH m n I).
Qed.
Definition in_stmt (lv : bool) (s : stmt) (n : nat) : Prop :=
  (s = Modify n /\ lv = false) \/ exists a b, s = If a b /\ (reportable a n \/ reportable b n).
Definition visits (s : stmt) : Prop := forall lv K n, In n (report (visit false lv s K)) -> in_stmt lv s n \/ In n (report K).
Lemma block_visits : forall l, Forall visits l -> forall lv K n, In n (report (fold_right (visit false lv) K l)) -> (exists s, In s l /\ in_stmt lv s n) \/ In n (report K).
Proof.
  intros l F. induction F as [|s l V F IH]; intros lv K n I; cbn [fold_right] in I; [right; exact I|]. destruct (V lv _ n I) as [H|H].
  - left. exists s. split; [left; reflexivity|exact H].
  - destruct (IH lv K n H) as [(t & T & X)|X]; [left; exists t; split; [right; exact T|exact X]|right; exact X].
Qed.
Lemma in_block : forall l n, (exists s, In s l /\ in_stmt (last_leaves l) s n) -> reportable l n.
Proof.
  intros l n (s & I & [[-> L]|(a & b & -> & [R|R])]).
  - exact (reportable_here l n I L).
  - exact (reportable_body a b l n I R).
  - exact (reportable_orelse a b l n I R).
Qed.
Lemma if_visits : forall a b, Forall visits a -> Forall visits b -> forall ob lv K n, In n (report (visit ob lv (If a b) K)) ->
  reportable a n \/ reportable b n \/ In n (report K).
Proof.
  intros a b Fa Fb ob lv K n I. cbn [visit] in I. destruct (forallb passes a).
  - apply report_app in I as [I|I]; apply block_visits in I; try assumption; destruct I as [I|I]; auto using in_block. destruct I.
  - apply report_app in I as [I|I]; apply block_visits in I; try assumption; destruct I as [I|I]; auto using in_block. destruct I.
Qed.
Lemma all_visits : forall s, visits s.
Proof.
  apply stmt_tree_ind. intros s F lv K n I. destruct s as [m|m|m| | |a b|j].
  - cbn [visit] in I. destruct lv; cbn [report] in I; [right; exact I|]. destruct I as [->|I]; [left; left; split; reflexivity|right; exact I].
  - right. exact I.
  - right. exact I.
  - right. exact I.
  - right. exact I.
  - destruct F as [Fa Fb]. apply if_visits in I; [|exact Fa|exact Fb]. destruct I as [R|[R|I]]; [left|left|right; exact I]; right; exists a, b; auto.
  - destruct I.
Qed.
Lemma body_visits : forall lv body n, In n (report (fold_right (visit true lv) [] body)) ->
  exists l1 s l2, body = l1 ++ s :: l2 /\ ~ In Rebind l1 /\ in_stmt lv s n.
Proof.
  intros lv. induction body as [|s body IH]; intros n I; [destruct I|]. cbn [fold_right] in I.
  assert (Later : s <> Rebind -> In n (report (fold_right (visit true lv) [] body)) -> exists l1 t l2, s :: body = l1 ++ t :: l2 /\ ~ In Rebind l1 /\ in_stmt lv t n).
  { intros N J. destruct (IH n J) as (l1 & t & l2 & -> & R & X). exists (s :: l1), t, l2. split; [reflexivity|]. split; [|exact X]. intros [H|H]; [exact (N H)|exact (R H)]. }
  assert (Here : in_stmt lv s n -> exists l1 t l2, s :: body = l1 ++ t :: l2 /\ ~ In Rebind l1 /\ in_stmt lv t n).
  { intro X. exists [], s, body. split; [reflexivity|]. split; [intros []|exact X]. }
  destruct s as [m|m|m| | |a b|j].
  - cbn [visit] in I. destruct lv; cbn [report] in I; [apply Later; [discriminate|exact I]|]. destruct I as [->|I]; [apply Here; left; split; reflexivity|apply Later; [discriminate|exact I]].
  - apply Later; [discriminate|exact I].
  - destruct I.
  - destruct I.
  - apply Later; [discriminate|exact I].
  - apply if_visits in I; [|apply Forall_forall; intros t _; apply all_visits|apply Forall_forall; intros t _; apply all_visits].
    destruct I as [R|[R|I]]; [apply Here; right; exists a, b; auto|apply Here; right; exists a, b; auto|apply Later; [discriminate|exact I]].
  - destruct I.
Qed.

Theorem reported_right : forall body n, tidy body -> no_inner_rebind body -> In n (check_modifying_iterable body) -> modified_during body n.
Proof.
  intros body n T Ni I. unfold check_modifying_iterable, events in I. destruct (body_visits _ _ n I) as (l1 & s & l2 & E & Nr & X).
  assert (Is : In s body) by (rewrite E; apply in_app_iff; right; left; reflexivity).
  assert (R : reportable body n) by (apply in_block; exists s; split; assumption).
  assert (N1 : ~ somewhere Rebind l1).
  { intro H. destruct H as [l1 H|a b l1 H H'|a b l1 H H']; [exact (Nr H)| |]; destruct (Ni a b) as [A B]; try contradiction; rewrite E; apply in_app_iff; left; exact H. }
  destruct T as [body e Ee Th Ta Tb|body L Q|body Q].
  - destruct Th as (b1 & b2 & lg & Th). assert (P := exec_passes _ _ _ _ _ Th eq_refl).
    assert (Done : exists bound log o, exec (body ++ e) true bound log o /\ In n log /\ goes_on o).
    { assert (Sp : exists l3, body = l1 ++ s :: l3).
      { destruct Ee as [->| ->]; [rewrite app_nil_r in E; exists l2; exact E|]. destruct l2 as [|t l2] using rev_ind.
        - apply app_inj_tail in E as [_ E]. destruct X as [[-> _]|(a & b & -> & _)]; discriminate E.
        - exists l2. change (l1 ++ s :: l2 ++ [t]) with (l1 ++ (s :: l2) ++ [t]) in E. rewrite app_assoc in E. apply app_inj_tail in E as [E _]. exact E. }
      destruct Sp as (l3 & ->). destruct X as [[-> _]|(a & b & -> & Rab)].
      - rewrite forallb_app in P. apply andb_prop in P as [P1 P2]. cbn [forallb passes andb] in P2. destruct (through l1 P1 true) as (b' & log1 & K & _ & X1). rewrite (K N1) in X1.
        destruct (through l3 P2 true) as (b3 & log2 & _ & _ & X2). destruct (end_exec e b3 Ee) as (o' & Xe & G').
        exists b3, (log1 ++ n :: log2 ++ []), o'. split; [|split; [apply in_app_iff; right; left; reflexivity|exact G']]. rewrite <- app_assoc. cbn [app].
        apply X1. exact (exec_modify n (l3 ++ e) true b3 (log2 ++ []) o' (X2 e b3 [] o' Xe)).
      - assert (I' : In (If a b) (l1 ++ If a b :: l3)) by (apply in_app_iff; right; left; reflexivity).
        assert (G : exists c, (c = a \/ c = b) /\ reportable c n /\ tidy c /\ ~ somewhere Rebind c).
        { destruct (Ni a b Is) as [Na Nb]. destruct Rab as [Ra|Rb]; [exists a|exists b]; eauto 7. }
        destruct G as (c & C & Rc & Tc & Nc). destruct (reportable_happens c n Rc Tc Nc) as (bc & log & oc & Ec & J & Gc).
        exact (through_branch l1 a b c l3 e n bc log oc P Ee C N1 Ec Gc J). }
    destruct Done as (b' & log & o & Ex & J & G). exists true, b', log, o. split; [constructor|]. split; [exact Ex|]. split; [exact J|exact G].
  - exfalso. destruct X as [[_ Lv]|(a & b & -> & Rab)]; [rewrite (leaving body L) in Lv; discriminate Lv|]. destruct (Q a b Is) as [A B].
    destruct Rab as [Ra|Rb]; [exact (A n (reportable_somewhere a n Ra))|exact (B n (reportable_somewhere b n Rb))].
  - exfalso. exact (Q n (reportable_somewhere body n R)).
Qed.

(** ** What is there is reported *)

Lemma last_leaves_tail : forall s t l, last_leaves (s :: t :: l) = last_leaves (t :: l).
Proof. reflexivity. Qed.
Lemma leaves_not_on : forall l b b' log o, exec l b b' log o -> last_leaves l = true -> ~ somewhere (Jump Continue) l -> ~ goes_on o.
Proof.
  assert (Tl : forall s l, match s with Jump _ => False | _ => True end -> last_leaves (s :: l) = true -> last_leaves l = true).
  { intros s [|t l] H E; [destruct s; try discriminate E; destruct H|exact E]. }
  assert (Ct : forall s l, ~ somewhere (Jump Continue) (s :: l) -> ~ somewhere (Jump Continue) l) by (intros s l N H; apply N, somewhere_tail, H).
  intros l b b' log o H. induction H as [| | | | | |a b c l x y z lg1 lg2 o C H1 IH1 H2 IH2|a b c l x y lg j C H IH|j l x]; intros L N.
  1: discriminate L.
  1-5: apply IHexec; [eapply Tl; [|exact L]; exact I|exact (Ct _ l N)].
  - apply IH2; [exact (Tl (If a b) l I L)|exact (Ct _ l N)].
  - intros [G|G]; [discriminate G|]. apply N. apply (somewhere_branch _ a b c); [left; reflexivity|exact C|]. exact (exec_jumps _ _ _ _ _ Continue H G).
  - intros [G|G]; [discriminate G|]. apply N, somewhere_here. left. congruence.
Qed.
Definition keeps (s : stmt) : Prop := forall ob lv K, passes s = true -> incl K (visit ob lv s K).
Lemma block_keeps : forall l, Forall keeps l -> forall ob lv K, forallb passes l = true -> incl K (fold_right (visit ob lv) K l).
Proof.
  intros l F. induction F as [|s l Q F IH]; intros ob lv K P; cbn [fold_right]; [apply incl_refl|]. cbn [forallb] in P. apply andb_prop in P as [Ps Pl].
  apply incl_tran with (fold_right (visit ob lv) K l); [apply IH; exact Pl|apply Q; exact Ps].
Qed.
Lemma all_keeps : forall s, keeps s.
Proof.
  apply stmt_tree_ind. intros s F ob lv K P. destruct s as [n|n|n| | |a b|j]; cbn [visit]; try apply incl_refl; try (intros e E; right; exact E).
  - destruct F as [Fa Fb]. cbn [passes] in P. destruct (forallb passes a) eqn:Pa.
    + apply incl_appl, block_keeps; assumption.
    + cbn [orb] in P. apply incl_appr, block_keeps; assumption.
  - discriminate P.
Qed.
Lemma keeps_block : forall l ob lv K, forallb passes l = true -> incl K (fold_right (visit ob lv) K l).
Proof. intros l. apply block_keeps. apply Forall_forall. intros s _. apply all_keeps. Qed.

Lemma leaves_last : forall l, last_leaves l = true -> last l Other = Jump Break \/ last l Other = Jump Return.
Proof. intros l H. unfold last_leaves in H. destruct (last l Other) as [n|n|n| | |a b|[]]; try discriminate H; auto. Qed.
Lemma good_branch : forall a b c l, In (If a b) l -> c = a \/ c = b -> leaves_for_good l -> leaves_for_good c.
Proof. intros a b c l I [->| ->] G d D; apply G; [exact (block_body d a b l I D)|exact (block_orelse d a b l I D)]. Qed.
Lemma good_on : forall l b b' log o, exec l b b' log o -> leaves_for_good l -> goes_on o -> last_leaves l = false.
Proof.
  intros l b b' log o H L G. destruct (last_leaves l) eqn:E; [|reflexivity]. destruct (leaves_not_on _ _ _ _ _ H E (L l (block_itself l) (leaves_last l E)) G).
Qed.

Lemma happening_visited : forall l b b' log o, exec l b b' log o -> goes_on o -> (forall a b c, In (If a b) l -> c = a \/ c = b -> leaves_for_good c) ->
  forall n, In n log -> ~ somewhere (Del n) l -> ~ somewhere (Extend n) l -> forall ob K, In (Direct n false) (fold_right (visit ob false) K l).
Proof.
  assert (Tl : forall s l, (forall a b c, In (If a b) (s :: l) -> c = a \/ c = b -> leaves_for_good c) -> forall a b c, In (If a b) l -> c = a \/ c = b -> leaves_for_good c).
  { intros s l N a b c I. apply (N a b c). right. exact I. }
  assert (Inner : forall c, leaves_for_good c -> forall a b d, In (If a b) c -> d = a \/ d = b -> leaves_for_good d) by (intros c G a b d I D; exact (good_branch a b d c I D G)).
  intros l b b' log o H.
  induction H as [x|m l x y lg o H IH|m l x y lg o H IH|m l x y lg o H IH|l x y lg o H IH|l x y lg o H IH|a b c l x y z lg1 lg2 o C H1 IH1 H2 IH2|a b c l x y lg j C H IH|j l x];
    intros G Nc n I Nd Ne ob K; cbn [fold_right].
  - destruct I.
  - assert (Rest : In n lg -> In (Direct n false) (fold_right (visit ob false) K l)).
    { intro J. apply IH; [exact G|exact (Tl _ _ Nc)|exact J|intro Z; apply Nd, somewhere_tail, Z|intro Z; apply Ne, somewhere_tail, Z]. }
    cbn [visit]. destruct x; [destruct I as [->|I]; [left; reflexivity|]|]; right; apply Rest; exact I.
  - assert (J : In n lg). { destruct x; [|exact I]. destruct I as [->|I]; [|exact I]. exfalso. apply Nd, somewhere_here. left. reflexivity. }
    cbn [visit]. apply IH; [exact G|exact (Tl _ _ Nc)|exact J|intro Z; apply Nd, somewhere_tail, Z|intro Z; apply Ne, somewhere_tail, Z].
  - assert (J : In n lg). { destruct x; [|exact I]. destruct I as [->|I]; [|exact I]. exfalso. apply Ne, somewhere_here. left. reflexivity. }
    cbn [visit]. right. apply IH; [exact G|exact (Tl _ _ Nc)|exact J|intro Z; apply Nd, somewhere_tail, Z|intro Z; apply Ne, somewhere_tail, Z].
  - cbn [visit]. right. apply IH; [exact G|exact (Tl _ _ Nc)|exact I|intro Z; apply Nd, somewhere_tail, Z|intro Z; apply Ne, somewhere_tail, Z].
  - cbn [visit]. apply IH; [exact G|exact (Tl _ _ Nc)|exact I|intro Z; apply Nd, somewhere_tail, Z|intro Z; apply Ne, somewhere_tail, Z].
  - assert (Pc := exec_passes _ _ _ _ _ H1 eq_refl).
    assert (Sub : forall s, ~ somewhere s (If a b :: l) -> ~ somewhere s c). { intros s N Z. apply N. apply (somewhere_branch _ a b c); [left; reflexivity|exact C|exact Z]. }
    assert (Gc : leaves_for_good c) by (apply (Nc a b c); [left; reflexivity|exact C]).
    assert (Lc : last_leaves c = false) by (apply (good_on _ _ _ _ _ H1 Gc); left; reflexivity).
    set (after := fold_right (visit ob false) K l).
    assert (Into : In n lg1 -> forall K', In (Direct n false) (fold_right (visit false (last_leaves c)) K' c)).
    { intros J K'. rewrite Lc. apply IH1; [left; reflexivity|exact (Inner c Gc)|exact J|exact (Sub _ Nd)|exact (Sub _ Ne)]. }
    assert (Aft : In n lg2 -> In (Direct n false) after).
    { intro J. apply IH2; [exact G|exact (Tl _ _ Nc)|exact J|intro Z; apply Nd, somewhere_tail, Z|intro Z; apply Ne, somewhere_tail, Z]. }
    cbn [visit]. fold after. apply in_app_iff in I. destruct (forallb passes a) eqn:Pa; apply in_app_iff.
    + destruct I as [I|I]; [destruct C as [->| ->]; [left|right]; exact (Into I _)|]. left. apply (keeps_block a false (last_leaves a) after Pa). exact (Aft I).
    + assert (c = b) by (destruct C as [->| ->]; [congruence|reflexivity]). subst c. right. destruct I as [I|I]; [exact (Into I _)|].
      apply (keeps_block b false (last_leaves b) after Pc). exact (Aft I).
  - assert (Sub : forall s, ~ somewhere s (If a b :: l) -> ~ somewhere s c). { intros s N Z. apply N. apply (somewhere_branch _ a b c); [left; reflexivity|exact C|exact Z]. }
    assert (Gc : leaves_for_good c) by (apply (Nc a b c); [left; reflexivity|exact C]).
    assert (Lc := good_on _ _ _ _ _ H Gc G).
    assert (Into : forall K', In (Direct n false) (fold_right (visit false (last_leaves c)) K' c)).
    { intro K'. rewrite Lc. apply IH; [exact G|exact (Inner c Gc)|exact I|exact (Sub _ Nd)|exact (Sub _ Ne)]. }
    cbn [visit]. destruct (forallb passes a); apply in_app_iff; destruct C as [->| ->]; [left|right|left|right]; apply Into.
  - destruct I.
Qed.

Definition hides (s : stmt) : Prop := forall lv K, ~ In (Assigned true) K -> ~ In (Assigned true) (visit false lv s K).
Lemma block_hides : forall l, Forall hides l -> forall lv K, ~ In (Assigned true) K -> ~ In (Assigned true) (fold_right (visit false lv) K l).
Proof. intros l F. induction F as [|s l Q F IH]; intros lv K N; cbn [fold_right]; [exact N|]. apply Q, IH, N. Qed.
Lemma if_hides : forall a b, Forall hides a -> Forall hides b -> forall ob lv K, ~ In (Assigned true) K -> ~ In (Assigned true) (visit ob lv (If a b) K).
Proof.
  intros a b Fa Fb ob lv K N. cbn [visit]. destruct (forallb passes a); rewrite in_app_iff; intros [I|I]; revert I; apply block_hides; try assumption; intros [].
Qed.
Lemma all_hides : forall s, hides s.
Proof.
  apply stmt_tree_ind. intros s F lv K N. destruct s as [n|n|n| | |a b|j]; try (cbn [visit]; intros [H|H]; [discriminate H|exact (N H)]); try exact N.
  - destruct F as [Fa Fb]. apply if_hides; assumption.
  - intros [].
Qed.
Lemma body_hides : forall lv body, ~ In Rebind body -> (forall m, ~ In (Extend m) body) -> ~ In (Assigned true) (fold_right (visit true lv) [] body).
Proof.
  intros lv. induction body as [|s body IH]; intros Nr Ne; cbn [fold_right]; [intros []|].
  assert (R : ~ In (Assigned true) (fold_right (visit true lv) [] body)) by (apply IH; [intro H; apply Nr; right; exact H|intros m H; apply (Ne m); right; exact H]).
  destruct s as [n|n|n| | |a b|j]; try exact R.
  - cbn [visit]. intros [H|H]; [discriminate H|exact (R H)].
  - destruct (Ne n). left. reflexivity.
  - destruct Nr. left. reflexivity.
  - apply if_hides; [apply Forall_forall; intros t _; apply all_hides|apply Forall_forall; intros t _; apply all_hides|exact R].
  - intros [].
Qed.
Lemma report_has : forall l n, ~ In (Assigned true) l -> In (Direct n false) l -> In n (report l).
Proof.
  induction l as [|e l IH]; intros n N I; [destruct I|]. assert (Nl : ~ In (Assigned true) l) by (intro H; apply N; right; exact H).
  destruct e as [k [|]|[|]]; cbn [report].
  - destruct I as [H|I]; [discriminate H|exact (IH n Nl I)].
  - destruct I as [H|I]; [left; congruence|right; exact (IH n Nl I)].
  - destruct N. left. reflexivity.
  - destruct I as [H|I]; [discriminate H|exact (IH n Nl I)].
Qed.

Theorem modified_reported : forall body n, ~ In Rebind body -> (forall m, ~ In (Extend m) body) -> leaves_for_good body ->
  ~ somewhere (Del n) body -> ~ somewhere (Extend n) body -> modified_during body n -> In n (check_modifying_iterable body).
Proof.
  intros body n Nr Nx Gd Nd Ne (b & b' & log & o & _ & E & I & G). unfold check_modifying_iterable. apply report_has; [apply body_hides; assumption|].
  unfold events. rewrite (good_on _ _ _ _ _ E Gd G). apply (happening_visited _ _ _ _ _ E G); try assumption. intros c d e J D. exact (good_branch c d e body J D Gd).
Qed.
