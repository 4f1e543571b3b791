(** Proofs about modifications that are found for sure. *)
From Coq Require Import String List Bool Arith Lia.
From Verif Require Import Base SureModel SureSpec.
Import ListNotations.
Local Open Scope list_scope.
Local Open Scope nat_scope.

Lemma checked_iff : forall x l, checked_name x l = true <-> In x l.
Proof.
  intros x l. unfold checked_name. rewrite existsb_exists. split; [intros (y & I & E); apply Nat.eqb_eq in E as ->; exact I|]. intro I. exists x. split; [exact I|apply Nat.eqb_refl].
Qed.
Lemma modified_iff : forall l, modified_in l = true <-> In Change l.
Proof.
  intro l. unfold modified_in. rewrite existsb_exists. split; [intros (i & I & E); destruct i; try discriminate E; exact I|]. intro I. exists Change. split; [exact I|reflexivity].
Qed.

Section Proofs.
Variable body_of : nat -> list item.
Variable mutable : bool.
Notation over_definitions := (over_definitions body_of mutable).
Notation over_events := (over_events body_of mutable).
Notation in_functions := (in_functions body_of mutable).
Notation directly := (directly mutable).

(** ** The answer no *)

(** The names that are called in a block, if they have definitions, are in a set. *)
Definition calls_in (C : list nat) (l : list item) : Prop := forall x ds d, In (Call x ds) l -> In d ds -> In x C.
Variable start : list item.
Notation code := (code body_of start).
(** A name has a definition that is all right: its calls are in the set. *)
Definition done (C : list nat) (x : nat) : Prop :=
  exists l ds f, code l /\ In (Call x ds) l /\ In (Fun f) ds /\ directly (body_of f) = false /\ calls_in C (body_of f).
Lemma calls_more : forall C D l, incl C D -> calls_in C l -> calls_in D l.
Proof. intros C D l I H x ds d J K. exact (I x (H x ds d J K)). Qed.
Lemma done_more : forall C D x, incl C D -> done C x -> done D x.
Proof. intros C D x I (l & ds & f & A & B & E & F & G). exists l, ds, f. repeat (split; [assumption|]). exact (calls_more C D _ I G). Qed.

Definition good_no (rec : list item -> list nat -> res (bool * list nat)) : Prop := forall l checked C, code l -> rec l checked = Ok (false, C) ->
  incl checked C /\ calls_in C l /\ forall x, In x C -> In x checked \/ done C x.
Lemma definitions_no : forall rec, good_no rec -> forall l x ds0, code l -> In (Call x ds0) l -> forall ds checked C, incl ds ds0 -> over_definitions rec x ds checked = Ok (false, C) ->
  incl checked C /\ (ds <> [] -> In x C) /\ forall y, In y C -> In y checked \/ done C y.
Proof.
  intros rec G l x ds0 Cl I. induction ds as [|d ds IH]; intros checked C Inc E; cbn [SureModel.over_definitions] in E.
  - assert (checked = C) as -> by congruence. split; [apply incl_refl|]. split; [intro N; destruct (N eq_refl)|]. intros y Y. left. exact Y.
  - assert (Inc' : incl ds ds0) by (intros z Z; apply Inc; right; exact Z). destruct (checked_name x checked) eqn:X.
    + apply checked_iff in X. destruct (IH checked C Inc' E) as (A & _ & B). split; [exact A|]. split; [intros _; exact (A x X)|exact B].
    + destruct d as [f|]; [|discriminate E]. destruct (directly (body_of f)) eqn:D; [discriminate E|].
      destruct (rec (body_of f) (x :: checked)) as [[r C1]|] eqn:R; cbn [bind fst snd] in E; [|discriminate E]. destruct r; [discriminate E|].
      destruct (G (body_of f) (x :: checked) C1 (or_intror (ex_intro _ f eq_refl)) R) as (A1 & B1 & K1). destruct (IH C1 C Inc' E) as (A2 & _ & K2).
      assert (Dx : done C1 x) by (exists l, ds0, f; split; [exact Cl|]; split; [exact I|]; split; [apply Inc; left; reflexivity|]; split; [exact D|exact B1]).
      split; [intros z Z; apply A2, A1; right; exact Z|]. split; [intros _; apply A2, A1; left; reflexivity|].
      intros y Y. destruct (K2 y Y) as [H|H]; [|right; exact H]. destruct (K1 y H) as [[<-|H']|H']; [right; exact (done_more _ _ _ A2 Dx)|left; exact H'|right; exact (done_more _ _ _ A2 H')].
Qed.
Lemma events_no : forall rec, good_no rec -> forall l0, code l0 -> forall l checked C, incl l l0 -> over_events rec l checked = Ok (false, C) ->
  incl checked C /\ calls_in C l /\ forall x, In x C -> In x checked \/ done C x.
Proof.
  intros rec G l0 Cl. induction l as [|i l IH]; intros checked C Inc E.
  - cbn [SureModel.over_events] in E. assert (checked = C) as -> by congruence. split; [apply incl_refl|]. split; [intros x ds d []|]. intros y Y. left. exact Y.
  - assert (Inc' : incl l l0) by (intros z Z; apply Inc; right; exact Z).
    assert (Skip : (forall x ds, i <> Call x ds) -> over_events rec l checked = Ok (false, C) -> incl checked C /\ calls_in C (i :: l) /\ forall x, In x C -> In x checked \/ done C x).
    { intros N E'. destruct (IH checked C Inc' E') as (A & B & K). split; [exact A|]. split; [|exact K]. intros x ds d [->|J] D; [destruct (N x ds eq_refl)|exact (B x ds d J D)]. }
    destruct i as [|x ds|fs]; cbn [SureModel.over_events] in E; [apply Skip; [discriminate|exact E]| |apply Skip; [discriminate|exact E]].
    destruct (over_definitions rec x ds checked) as [[r C1]|] eqn:R; cbn [bind fst snd] in E; [|discriminate E]. destruct r; [discriminate E|].
    destruct (definitions_no rec G l0 x ds Cl (Inc _ (or_introl eq_refl)) ds checked C1 (incl_refl ds) R) as (A1 & B1 & K1). destruct (IH C1 C Inc' E) as (A2 & B2 & K2).
    split; [exact (incl_tran A1 A2)|]. split.
    + intros y es d [H|J] D; [|exact (B2 y es d J D)]. assert (y = x) as -> by congruence. assert (es = ds) as -> by congruence. apply A2, B1. intros ->. destruct D.
    + intros y Y. destruct (K2 y Y) as [H|H]; [|right; exact H]. destruct (K1 y H) as [H'|H']; [left; exact H'|right; exact (done_more _ _ _ A2 H')].
Qed.
Lemma functions_no : forall fuel, good_no (in_functions fuel).
Proof.
  induction fuel as [|fuel IH]; intros l checked C Cl E; [discriminate E|]. cbn [SureModel.in_functions] in E. exact (events_no (in_functions fuel) IH l Cl l checked C (incl_refl l) E).
Qed.
Theorem sure : one_meaning body_of start -> no_methods body_of start -> forall fuel, may_be_modified_in body_of mutable fuel start = Ok false -> ~ may_change body_of start.
Proof.
  intros One Nm fuel E. unfold may_be_modified_in in E. destruct (directly start) eqn:Ds; [discriminate E|].
  destruct (in_functions fuel start []) as [[r C]|] eqn:R; cbn [bind fst] in E; [|discriminate E]. assert (r = false) as -> by congruence.
  assert (Cs : code start) by (left; reflexivity). destruct (functions_no fuel start [] C Cs R) as (_ & B & K).
  assert (Main : forall l, may_change body_of l -> code l -> calls_in C l -> directly l = false -> False).
  { intros l H. induction H as [l I|l x ds I U|l x ds f I F H IH|l fs f I _ _ _]; intros Cl Ca D.
    - apply modified_iff in I. unfold SureModel.directly in D. rewrite I, orb_true_r in D. discriminate D.
    - destruct (K x (Ca x ds Unknown I U)) as [[]|(l' & ds' & f & Cl' & I' & F & _)]. discriminate (One l l' x ds ds' Unknown (Fun f) Cl Cl' I I' U F).
    - destruct (K x (Ca x ds (Fun f) I F)) as [[]|(l' & ds' & f' & Cl' & I' & F' & D' & B')]. assert (X := One l l' x ds ds' (Fun f) (Fun f') Cl Cl' I I' F F').
      assert (f' = f) as -> by congruence. apply IH; [right; exists f; reflexivity|exact B'|exact D'].
    - exact (Nm l fs Cl I). }
  intro H. exact (Main start H Cs B Ds).
Qed.

(** ** The answer yes *)

Definition good_yes (rec : list item -> list nat -> res (bool * list nat)) : Prop := forall l checked C, rec l checked = Ok (true, C) -> may_change body_of l.
Lemma definitions_yes : mutable = false -> forall rec, good_yes rec -> forall x ds checked C, over_definitions rec x ds checked = Ok (true, C) ->
  In Unknown ds \/ exists f, In (Fun f) ds /\ may_change body_of (body_of f).
Proof.
  intros Mu rec G x. induction ds as [|d ds IH]; intros checked C E; cbn [SureModel.over_definitions] in E; [discriminate E|].
  assert (Later : forall c, over_definitions rec x ds c = Ok (true, C) -> In Unknown (d :: ds) \/ exists f, In (Fun f) (d :: ds) /\ may_change body_of (body_of f)).
  { intros c H. destruct (IH c C H) as [U|(f & F & M)]; [left; right; exact U|right; exists f; split; [right; exact F|exact M]]. }
  destruct (checked_name x checked); [exact (Later _ E)|]. destruct d as [f|]; [|left; left; reflexivity]. destruct (directly (body_of f)) eqn:D.
  - right. exists f. split; [left; reflexivity|]. unfold SureModel.directly in D. rewrite Mu in D. apply change_here. apply modified_iff. exact D.
  - destruct (rec (body_of f) (x :: checked)) as [[r C1]|] eqn:R; cbn [bind fst snd] in E; [|discriminate E]. destruct r; [|exact (Later _ E)].
    right. exists f. split; [left; reflexivity|exact (G _ _ _ R)].
Qed.
Lemma events_yes : mutable = false -> forall rec, good_yes rec -> good_yes (over_events rec).
Proof.
  intros Mu rec G. assert (Tl : forall i l, may_change body_of l -> may_change body_of (i :: l)).
  { intros i l H. destruct H as [l I|l x ds I U|l x ds f I F H|l fs f I F H].
    - apply change_here. right. exact I.
    - apply (change_unknown _ _ x ds); [right; exact I|exact U].
    - apply (change_called _ _ x ds f); [right; exact I|exact F|exact H].
    - apply (change_method _ _ fs f); [right; exact I|exact F|exact H]. }
  intro l. induction l as [|i l IH]; intros checked C E; cbn [SureModel.over_events] in E; [discriminate E|]. destruct i as [|x ds|fs]; [apply Tl; exact (IH _ _ E)| |apply Tl; exact (IH _ _ E)].
  destruct (over_definitions rec x ds checked) as [[r C1]|] eqn:R; cbn [bind fst snd] in E; [|discriminate E]. destruct r; [|apply Tl; exact (IH _ _ E)].
  destruct (definitions_yes Mu rec G x ds checked C1 R) as [U|(f & F & M)]; [apply (change_unknown _ _ x ds)|apply (change_called _ _ x ds f)]; try assumption; left; reflexivity.
Qed.
Lemma functions_yes : mutable = false -> forall fuel, good_yes (in_functions fuel).
Proof. intros Mu. induction fuel as [|fuel IH]; intros l checked C E; [discriminate E|]. exact (events_yes Mu (in_functions fuel) IH l checked C E). Qed.
Theorem only : mutable = false -> forall fuel, may_be_modified_in body_of mutable fuel start = Ok true -> may_change body_of start.
Proof.
  intros Mu fuel E. unfold may_be_modified_in in E. destruct (directly start) eqn:D.
  - unfold SureModel.directly in D. rewrite Mu in D. apply change_here, modified_iff. exact D.
  - destruct (in_functions fuel start []) as [[r C]|] eqn:R; cbn [bind fst] in E; [|discriminate E]. assert (r = true) as -> by congruence. exact (functions_yes Mu fuel start [] C R).
Qed.

(** ** There is an answer *)

Section Ends.
Variable names : list nat.
Hypothesis Among : names_among body_of start names.
Definition left_over (checked : list nat) : nat := length (filter (fun x => negb (checked_name x checked)) names).
Lemma left_more : forall c d, incl c d -> left_over d <= left_over c.
Proof.
  intros c d I. unfold left_over. clear Among. induction names as [|x l IH]; [apply le_n|]. cbn [filter]. destruct (checked_name x c) eqn:A; cbn [negb].
  - apply checked_iff in A. apply I in A. apply checked_iff in A. rewrite A. cbn [negb]. exact IH.
  - destruct (checked_name x d); cbn [negb length]; lia.
Qed.
Lemma left_less : forall x c, In x names -> checked_name x c = false -> left_over (x :: c) < left_over c.
Proof.
  intros x c I N. unfold left_over.
  assert (G : forall l, length (filter (fun y => negb (checked_name y (x :: c))) l) <= length (filter (fun y => negb (checked_name y c)) l)).
  { induction l as [|y l IH]; [apply le_n|]. cbn [filter]. unfold checked_name at 1. cbn [existsb]. fold (checked_name y c). destruct (Nat.eqb y x), (checked_name y c); cbn [orb negb length]; lia. }
  clear Among. induction names as [|y l IH]; [destruct I|]. cbn [filter]. destruct I as [->|I].
  - rewrite N. unfold checked_name at 1. cbn [existsb]. rewrite Nat.eqb_refl. cbn [orb negb length]. specialize (G l). lia.
  - specialize (IH I). unfold checked_name at 1. cbn [existsb]. fold (checked_name y c). destruct (Nat.eqb y x), (checked_name y c); cbn [orb negb length]; lia.
Qed.
Definition ends (rec : list item -> list nat -> res (bool * list nat)) (n : nat) : Prop := forall l checked, code l -> left_over checked < n -> exists r C, rec l checked = Ok (r, C) /\ incl checked C.
Lemma definitions_end : forall rec n, ends rec n -> forall x, In x names -> forall ds checked, left_over checked < S n -> exists r C, over_definitions rec x ds checked = Ok (r, C) /\ incl checked C.
Proof.
  intros rec n H x Ix. induction ds as [|d ds IH]; intros checked L; cbn [SureModel.over_definitions]; [exists false, checked; split; [reflexivity|apply incl_refl]|].
  destruct (checked_name x checked) eqn:X; [exact (IH checked L)|]. destruct d as [f|]; [|exists true, (x :: checked); split; [reflexivity|intros z Z; right; exact Z]].
  destruct (directly (body_of f)); [exists true, (x :: checked); split; [reflexivity|intros z Z; right; exact Z]|].
  assert (L1 := left_less x checked Ix X). destruct (H (body_of f) (x :: checked) (or_intror (ex_intro _ f eq_refl)) ltac:(lia)) as (r & C & E & I). rewrite E. cbn [bind fst snd].
  assert (I' : incl checked C) by (intros z Z; apply I; right; exact Z). destruct r; [exists true, C; split; [reflexivity|exact I']|].
  destruct (IH C) as (r & C2 & E2 & I2); [assert (Y := left_more checked C I'); lia|]. exists r, C2. split; [exact E2|exact (incl_tran I' I2)].
Qed.
Lemma events_end : forall rec n, ends rec n -> ends (over_events rec) (S n).
Proof.
  intros rec n H l0 checked0 Cl L0.
  assert (G : forall l checked, incl l l0 -> left_over checked < S n -> exists r C, over_events rec l checked = Ok (r, C) /\ incl checked C).
  { induction l as [|i l IH]; intros checked Inc L; cbn [SureModel.over_events]; [exists false, checked; split; [reflexivity|apply incl_refl]|].
    assert (Inc' : incl l l0) by (intros z Z; apply Inc; right; exact Z). destruct i as [|x ds|fs]; try exact (IH checked Inc' L).
    destruct (definitions_end rec n H x (Among l0 x ds Cl (Inc _ (or_introl eq_refl))) ds checked L) as (r & C & E & I). rewrite E. cbn [bind fst snd].
    destruct r; [exists true, C; split; [reflexivity|exact I]|]. destruct (IH C Inc') as (r & C2 & E2 & I2); [assert (Y := left_more checked C I); lia|].
    exists r, C2. split; [exact E2|exact (incl_tran I I2)]. }
  exact (G l0 checked0 (incl_refl l0) L0).
Qed.
Lemma functions_end : forall fuel, ends (in_functions fuel) fuel.
Proof. induction fuel as [|fuel IH]; [intros l c _ L; inversion L|exact (events_end (in_functions fuel) fuel IH)]. Qed.
Theorem answered : forall fuel, length names < fuel -> exists r, may_be_modified_in body_of mutable fuel start = Ok r.
Proof.
  intros fuel L. unfold may_be_modified_in. destruct (directly start); [exists true; reflexivity|].
  destruct (functions_end fuel start [] (or_introl eq_refl)) as (r & C & E & _); [|rewrite E; cbn [bind fst]; exists r; reflexivity].
  apply Nat.le_lt_trans with (length names); [|exact L]. unfold left_over. clear. induction names as [|x l IH]; cbn [filter length]; [apply le_n|]. destruct (negb (checked_name x [])); cbn [length]; lia.
Qed.
End Ends.
End Proofs.
