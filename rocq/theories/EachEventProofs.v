(** Proofs about what the events of a loop's body tell. *)
From Coq Require Import String List Bool Arith NArith ZArith Lia.
From Verif Require Import Base PyModel PySpec PyProofs IfModel IfSpec IfProofs SmallProofs FoldModel TypeModel SolverProofs LocalSpec LoopModel LoopSpec LoopProofs EachModel EachSpec EachProofs.
Import ListNotations.
Local Open Scope string_scope.
Local Open Scope list_scope.

(** Induction on statements. *)
Section StmtInd.
  Variable Q : stmt -> Prop.
  Hypothesis QAssign : forall y e, Q (SAssign y e).
  Hypothesis QAug : forall y o e, Q (SAug y o e).
  Hypothesis QStore : forall t e, Q (SStore t e).
  Hypothesis QExpr : forall e, Q (SExpr e).
  Hypothesis QReturn : forall e, Q (SReturn e).
  Hypothesis QBreak : Q SBreak.
  Hypothesis QContinue : Q SContinue.
  Hypothesis QIf : forall c b e, Forall Q b -> Forall Q e -> Q (SIf c b e).
  Hypothesis QWhile : forall c b e, Forall Q b -> Forall Q e -> Q (SWhile c b e).
  Hypothesis QFor : forall t c b e, Forall Q b -> Forall Q e -> Q (SFor t c b e).
  Hypothesis QOther : forall n, Q (SOther n).
  Fixpoint all_stmts (s : stmt) : Q s :=
    let each := fix each (l : list stmt) : Forall Q l := match l with [] => Forall_nil _ | a :: r => Forall_cons _ (all_stmts a) (each r) end in
    match s with
    | SAssign y e => QAssign y e
    | SAug y o e => QAug y o e
    | SStore t e => QStore t e
    | SExpr e => QExpr e
    | SReturn e => QReturn e
    | SBreak => QBreak
    | SContinue => QContinue
    | SIf c b e => QIf c b e (each b) (each e)
    | SWhile c b e => QWhile c b e (each b) (each e)
    | SFor t c b e => QFor t c b e (each b) (each e)
    | SOther n => QOther n
    end.
End StmtInd.

Lemma norm_name v x : norm v = Name x -> v = Name x.
Proof. destruct v; cbn [norm]; intro H; try discriminate; [exact H|]. unfold onto in H. destruct (norm _); discriminate. Qed.
Lemma text_name v a : fine v = true -> text_eqb (as_string v) (as_string (Name a)) = true -> v = Name a.
Proof. intros F E. apply norm_name. apply (same_text_norm v (Name a) F eq_refl E). Qed.

Section Events.
  Variables a i x : string.
  Notation dir := (direct a i x).
  (** An event of [i] other than an index of [a]. *)
  Definition outside (ev : event) : bool := String.eqb i (name ev) && match par ev with SliceOf v => negb (text_eqb (as_string v) (as_string (Name a))) | _ => true end.
  Definition slice_of_a (p : parent) : bool := match p with SliceOf v => text_eqb (as_string v) (as_string (Name a)) | _ => false end.
  Lemma outside_used l : existsb outside l = used_outside (Name a) (events_for i l).
  Proof.
    induction l as [|ev l IH]; [reflexivity|]. cbn [existsb events_for filter]. unfold outside at 1. destruct (String.eqb i (name ev)); cbn [andb].
    - unfold used_outside. cbn [existsb]. f_equal. exact IH.
    - exact IH.
  Qed.
  Lemma fine_unary o b : fine (Unary o b) = true -> fine b = true.
  Proof. exact (fun H => H). Qed.
  Lemma fine_two (wb wc nb nc : bool) : (wb && wc) && (nb && nc) = true -> wb && nb = true /\ wc && nc = true.
  Proof. destruct wb, wc, nb, nc; cbn; intro; try discriminate; split; reflexivity. Qed.
  Lemma fine_all vs : forallb well_formed vs && forallb no_nested_compare vs = true -> Forall (fun v => fine v = true) vs.
  Proof.
    intro H. apply andb_true_iff in H. destruct H as [A B]. rewrite forallb_forall in A, B. apply Forall_forall. intros v V. unfold fine. rewrite (A v V), (B v V). reflexivity.
  Qed.
  Lemma fine_ops (ops : list (cmpop * expr)) : forallb (fun cv => well_formed (snd cv)) ops && forallb (fun cv => no_nested_compare (snd cv)) ops = true -> Forall (fun cv => fine (snd cv) = true) ops.
  Proof.
    intro H. apply andb_true_iff in H. destruct H as [A B]. rewrite forallb_forall in A, B. apply Forall_forall. intros v V. unfold fine. rewrite (A v V), (B v V). reflexivity.
  Qed.
  Lemma any_app {A} (f : A -> bool) l m : existsb f (l ++ m) = existsb f l || existsb f m.
  Proof. apply existsb_app. Qed.
  Hypothesis i_x : i <> x.

  (** A use of [i] that remains has an event. *)
  Lemma remains_event lv : forall e, fine e = true -> forall p g, uses i (dir e) = true -> e <> Name i \/ slice_of_a p = false -> existsb outside (events_of lv e p g) = true.
  Proof.
    apply (all_exprs (fun e => fine e = true -> forall p g, uses i (dir e) = true -> e <> Name i \/ slice_of_a p = false -> existsb outside (events_of lv e p g) = true)).
    - intros y _ p g U N. cbn [direct uses] in U. apply String.eqb_eq in U. subst y. destruct N as [N|N]; [contradiction N; reflexivity|]. cbn [events_of existsb]. unfold outside. cbn [name par].
      rewrite String.eqb_refl. cbn [andb]. destruct p; cbn [slice_of_a] in N; try reflexivity. rewrite N. reflexivity.
    - intros; discriminate.
    - intros; discriminate.
    - intros o b B F p g U _. cbn [events_of]. apply (B F); [exact U|right; reflexivity].
    - intros o b c B C F p g U _. cbn [events_of]. rewrite any_app. cbn [direct uses] in U. destruct (fine_two _ _ _ _ F) as [F1 F2].
      apply orb_true_iff in U. destruct U as [U|U]; [rewrite (B F1) by (first [exact U|right; reflexivity])|rewrite (C F2) by (first [exact U|right; reflexivity])]; [reflexivity|apply orb_true_r].
    - intros o vs H F p g U _. cbn [events_of]. cbn [direct uses] in U. unfold fine in F. cbn [well_formed no_nested_compare] in F. apply andb_true_iff in F. destruct F as [F1 F2]. apply andb_true_iff in F1. destruct F1 as [_ F1].
      assert (F : forallb well_formed vs && forallb no_nested_compare vs = true) by (rewrite F1, F2; reflexivity). apply fine_all in F. clear F1 F2.
      induction H as [|v vs V Vs IH]; [discriminate|]. inversion F; subst. cbn [map existsb flat_map] in *. rewrite any_app. apply orb_true_iff in U.
      destruct U as [U|U]; [rewrite V by (first [assumption|right; reflexivity]); reflexivity|]. rewrite (IH U) by assumption. apply orb_true_r.
    - intros b ops B H F p g U _. cbn [events_of]. rewrite any_app. cbn [direct uses] in U. unfold fine in F. cbn [well_formed no_nested_compare] in F.
      apply andb_true_iff in F. destruct F as [F1 F2]. apply andb_true_iff in F1. destruct F1 as [F1 F1']. apply andb_true_iff in F1. destruct F1 as [_ F1]. apply andb_true_iff in F2. destruct F2 as [F2 F2']. apply andb_true_iff in F2. destruct F2 as [_ F2].
      apply orb_true_iff in U. destruct U as [U|U].
      + rewrite B; [reflexivity|unfold fine; rewrite F1, F2; reflexivity|exact U|right; reflexivity].
      + clear B F1 F2. assert (F : forallb (fun cv => well_formed (snd cv)) ops && forallb (fun cv => no_nested_compare (snd cv)) ops = true) by (rewrite F1', F2'; reflexivity). apply fine_ops in F.
        apply orb_true_iff. right. clear F1' F2'. induction H as [|v vs V Vs IH]; [discriminate|]. inversion F; subst. cbn [map existsb flat_map fst snd] in *. rewrite any_app. apply orb_true_iff in U.
        destruct U as [U|U]; [rewrite V by (first [assumption|right; reflexivity]); reflexivity|]. rewrite (IH U) by assumption. apply orb_true_r.
    - intros f vs B H F p g U _. cbn [events_of]. rewrite any_app. cbn [direct uses] in U. unfold fine in F. cbn [well_formed no_nested_compare] in F.
      apply andb_true_iff in F. destruct F as [F1 F2]. apply andb_true_iff in F1. destruct F1 as [F1 F1']. apply andb_true_iff in F2. destruct F2 as [F2 F2'].
      apply orb_true_iff in U. destruct U as [U|U].
      + rewrite B; [reflexivity|unfold fine; rewrite F1, F2; reflexivity|exact U|right; reflexivity].
      + clear B F1 F2. assert (F : forallb well_formed vs && forallb no_nested_compare vs = true) by (rewrite F1', F2'; reflexivity). apply fine_all in F.
        apply orb_true_iff. right. clear F1' F2'. induction H as [|v vs V Vs IH]; [discriminate|]. inversion F; subst. cbn [map existsb flat_map fst snd] in *. rewrite any_app. apply orb_true_iff in U.
        destruct U as [U|U]; [rewrite V by (first [assumption|right; reflexivity]); reflexivity|]. rewrite (IH U) by assumption. apply orb_true_r.
    - intros b m B F p g U _. cbn [events_of]. rewrite any_app. rewrite (B F) by (first [exact U|right; reflexivity]). apply orb_true_r.
    - intros b s B C F p g U _. cbn [events_of]. rewrite any_app. cbn [direct] in U. destruct (fine_two _ _ _ _ F) as [F1 F2]. destruct (is_element a i b s) eqn:E.
      + cbn [uses] in U. apply String.eqb_eq in U. contradiction.
      + cbn [uses] in U. apply orb_true_iff in U. destruct U as [U|U]; [rewrite (B F1) by (first [exact U|right; reflexivity]); reflexivity|].
        rewrite (C F2); [apply orb_true_r|exact U|]. cbn [slice_of_a]. destruct (text_eqb (as_string b) (as_string (Name a))) eqn:X; [|right; reflexivity]. left. intros ->.
        rewrite (text_name b a F1 X) in E. cbn [is_element] in E. rewrite !String.eqb_refl in E. discriminate.
    - intros c b d C B D F p g U _. cbn [events_of]. rewrite !any_app. cbn [direct uses] in U. unfold fine in F. cbn [well_formed no_nested_compare] in F.
      apply andb_true_iff in F. destruct F as [F1 F2]. apply andb_true_iff in F1. destruct F1 as [F1 F1']. apply andb_true_iff in F1. destruct F1 as [F1 F1'']. apply andb_true_iff in F2. destruct F2 as [F2 F2']. apply andb_true_iff in F2. destruct F2 as [F2 F2''].
      apply orb_true_iff in U. destruct U as [U|U]; [apply orb_true_iff in U; destruct U as [U|U]|].
      + rewrite C; [reflexivity|unfold fine; rewrite F1, F2; reflexivity|exact U|right; reflexivity].
      + rewrite B; [apply orb_true_r|unfold fine; rewrite F1'', F2''; reflexivity|exact U|right; reflexivity].
      + rewrite D; [rewrite !orb_true_r; reflexivity|unfold fine; rewrite F1', F2'; reflexivity|exact U|right; reflexivity].
  Qed.

  (** An event of [i] other than an index of [a] is a use that remains. *)
  Hypothesis a_i : a <> i.
  Lemma strip_remains : forall e p g q h, strip_to_name e p g = Some (i, q, h) -> uses i (dir e) = true.
  Proof.
    apply (all_exprs (fun e => forall p g q h, strip_to_name e p g = Some (i, q, h) -> uses i (dir e) = true)); try (intros; discriminate).
    - intros y p g q h E. cbn [strip_to_name] in E. assert (y = i) by congruence. subst. cbn [direct uses]. apply String.eqb_refl.
    - intros b m B p g q h E. exact (B _ _ _ _ E).
    - intros b s B _ p g q h E. cbn [strip_to_name] in E. cbn [direct]. destruct (is_element a i b s) eqn:El.
      + destruct b as [b'| | | | | | | | | |]; try discriminate. destruct s as [j| | | | | | | | | |]; try discriminate. cbn [is_element] in El. apply andb_true_iff in El. destruct El as [El _]. apply String.eqb_eq in El.
        cbn [strip_to_name] in E. congruence.
      + cbn [uses]. rewrite (B _ _ _ _ E). reflexivity.
  Qed.
  Lemma modify_remains lv e p g (c : bool) : existsb outside (match kind_of p, c, strip_to_name e ExprOf g with KCall, true, Some (y, q, h) => [{| name := y; type := Modify; par := q; grand := h; leaves := lv |}] | _, _, _ => [] end) = true ->
    uses i (dir e) = true.
  Proof.
    destruct (kind_of p); try discriminate. destruct c; [|discriminate]. destruct (strip_to_name e ExprOf g) as [[[y q] h]|] eqn:E; [|discriminate]. intro X. cbn [existsb] in X. apply orb_true_iff in X. destruct X as [X|X]; [|discriminate].
    unfold outside in X. cbn [name] in X. apply andb_true_iff in X. destruct X as [X _]. apply String.eqb_eq in X. rewrite <- X in E. exact (strip_remains _ _ _ _ _ E).
  Qed.
  Lemma event_remains lv : forall e p g, existsb outside (events_of lv e p g) = true -> uses i (dir e) = true.
  Proof.
    apply (all_exprs (fun e => forall p g, existsb outside (events_of lv e p g) = true -> uses i (dir e) = true)).
    - intros y p g X. cbn [events_of existsb] in X. apply orb_true_iff in X. destruct X as [X|X]; [|discriminate]. unfold outside in X. cbn [name] in X. apply andb_true_iff in X. apply X.
    - intros; discriminate.
    - intros; discriminate.
    - intros o b B p g X. exact (B _ _ X).
    - intros o b c B C p g X. cbn [events_of] in X. rewrite any_app in X. cbn [direct uses]. apply orb_true_iff in X. destruct X as [X|X]; [rewrite (B _ _ X); reflexivity|rewrite (C _ _ X); apply orb_true_r].
    - intros o vs H p g X. cbn [events_of] in X. cbn [direct uses]. induction H as [|v vs V Vs IH]; [discriminate|]. cbn [flat_map map existsb] in *. rewrite any_app in X. apply orb_true_iff in X.
      destruct X as [X|X]; [rewrite (V _ _ X); reflexivity|rewrite (IH X); apply orb_true_r].
    - intros b ops B H p g X. cbn [events_of] in X. rewrite any_app in X. cbn [direct uses]. apply orb_true_iff in X. destruct X as [X|X]; [rewrite (B _ _ X); reflexivity|]. apply orb_true_iff. right.
      clear B. induction H as [|v vs V Vs IH]; [discriminate|]. cbn [flat_map map existsb fst snd] in *. rewrite any_app in X. apply orb_true_iff in X.
      destruct X as [X|X]; [rewrite (V _ _ X); reflexivity|rewrite (IH X); apply orb_true_r].
    - intros f vs B H p g X. cbn [events_of] in X. rewrite any_app in X. cbn [direct uses]. apply orb_true_iff in X. destruct X as [X|X]; [rewrite (B _ _ X); reflexivity|]. apply orb_true_iff. right.
      clear B. induction H as [|v vs V Vs IH]; [discriminate|]. cbn [flat_map map existsb fst snd] in *. rewrite any_app in X. apply orb_true_iff in X.
      destruct X as [X|X]; [rewrite (V _ _ X); reflexivity|rewrite (IH X); apply orb_true_r].
    - intros b m B p g X. cbn [events_of] in X. rewrite any_app in X. cbn [direct uses]. apply orb_true_iff in X. destruct X as [X|X]; [|exact (B _ _ X)]. exact (modify_remains _ _ _ _ _ X).
    - intros b s B C p g X. cbn [events_of] in X. rewrite any_app in X. cbn [direct]. destruct (is_element a i b s) eqn:E.
      + exfalso. destruct b as [b'| | | | | | | | | |]; try discriminate. destruct s as [j| | | | | | | | | |]; try discriminate. cbn [is_element] in E. apply andb_true_iff in E. destruct E as [E1 E2]. apply String.eqb_eq in E1, E2. subst.
        cbn [events_of existsb] in X. unfold outside in X. cbn [name par] in X. rewrite text_eqb_refl in X. cbn [negb] in X. rewrite andb_false_r in X. apply String.eqb_neq in a_i. rewrite String.eqb_sym, a_i in X. discriminate.
      + cbn [uses]. apply orb_true_iff in X. destruct X as [X|X]; [rewrite (B _ _ X); reflexivity|rewrite (C _ _ X); apply orb_true_r].
    - intros c b d C B D p g X. cbn [events_of] in X. rewrite !any_app in X. cbn [direct uses]. apply orb_true_iff in X. destruct X as [X|X]; [rewrite (C _ _ X); reflexivity|].
      apply orb_true_iff in X. destruct X as [X|X]; [rewrite (B _ _ X), orb_true_r; reflexivity|rewrite (D _ _ X); apply orb_true_r].
  Qed.

  (** ** Statements *)
  Lemma target_remains lv t : existsb outside (target_events lv t) = true -> uses i (direct_target a i x t) = true.
  Proof.
    assert (M : forall r, existsb outside (match r with Some (y, q, h) => [{| name := y; type := Modify; par := q; grand := h; leaves := lv |}] | None => [] end) = true -> exists q h, r = Some (i, q, h)).
    { intros [[[y q] h]|]; [|discriminate]. intro X. cbn [existsb] in X. apply orb_true_iff in X. destruct X as [X|X]; [|discriminate]. unfold outside in X. cbn [name] in X.
      apply andb_true_iff in X. destruct X as [X _]. apply String.eqb_eq in X. exists q, h. rewrite X. reflexivity. }
    intro X. destruct t; try discriminate; cbn [target_events] in X; cbn [direct_target uses].
    - cbn [existsb] in X. apply orb_true_iff in X. destruct X as [X|X]; [|discriminate]. unfold outside in X. cbn [name] in X. apply andb_true_iff in X. apply X.
    - rewrite any_app in X. apply orb_true_iff in X. destruct X as [X|X]; [exact (event_remains _ _ _ _ X)|]. destruct (M _ X) as (q & h & E). exact (strip_remains _ _ _ _ _ E).
    - rewrite !any_app in X. apply orb_true_iff in X. destruct X as [X|X]; [rewrite (event_remains _ _ _ _ X); reflexivity|]. apply orb_true_iff in X.
      destruct X as [X|X]; [rewrite (event_remains _ _ _ _ X); apply orb_true_r|]. destruct (M _ X) as (q & h & E). rewrite (strip_remains _ _ _ _ _ E). reflexivity.
  Qed.
  Lemma block_events_remain lv l : Forall (fun s => forall lv, existsb outside (stmt_events lv s) = true -> uses_stmt i (direct_stmt a i x s) = true) l ->
    existsb outside (flat_map (stmt_events lv) l) = true -> existsb (uses_stmt i) (map (direct_stmt a i x) l) = true.
  Proof.
    induction 1 as [|s l K _ IH]; [discriminate|]. cbn [flat_map map existsb]. rewrite any_app. intro X. apply orb_true_iff in X. destruct X as [X|X]; [rewrite (K _ X); reflexivity|rewrite (IH X); apply orb_true_r].
  Qed.
  Lemma stmt_events_remain : forall s lv, existsb outside (stmt_events lv s) = true -> uses_stmt i (direct_stmt a i x s) = true.
  Proof.
    assert (N : forall lv y ty, existsb outside [{| name := y; type := ty; par := ChildOf KOther; grand := KOther; leaves := lv |}] = true -> String.eqb i y = true)
      by (intros lv y ty X; cbn [existsb] in X; apply orb_true_iff in X; destruct X as [X|X]; [|discriminate]; unfold outside in X; cbn [name] in X; apply andb_true_iff in X; apply X).
    apply (all_stmts (fun s => forall lv, existsb outside (stmt_events lv s) = true -> uses_stmt i (direct_stmt a i x s) = true)); try (intros; discriminate); cbn [stmt_events direct_stmt uses_stmt]; unfold top.
    - intros y e lv X. rewrite any_app in X. apply orb_true_iff in X. destruct X as [X|X]; [rewrite (event_remains _ _ _ _ X); apply orb_true_r|]. cbn [target_events] in X. rewrite (N _ _ _ X). reflexivity.
    - intros y o e lv X. rewrite !any_app in X. apply orb_true_iff in X. destruct X as [X|X]; [rewrite (N _ _ _ X); reflexivity|]. apply orb_true_iff in X.
      destruct X as [X|X]; [rewrite (event_remains _ _ _ _ X); apply orb_true_r|]. cbn [target_events] in X. rewrite (N _ _ _ X). reflexivity.
    - intros t e lv X. rewrite any_app in X. apply orb_true_iff in X. destruct X as [X|X]; [rewrite (event_remains _ _ _ _ X); apply orb_true_r|]. rewrite (target_remains _ _ X). reflexivity.
    - intros e lv X. exact (event_remains _ _ _ _ X).
    - intros e lv X. exact (event_remains _ _ _ _ X).
    - intros c b e B E lv X. rewrite !any_app in X. apply orb_true_iff in X. destruct X as [X|X]; [rewrite (event_remains _ _ _ _ X); reflexivity|]. apply orb_true_iff in X.
      destruct X as [X|X]; [rewrite (block_events_remain _ _ B X), orb_true_r; reflexivity|rewrite (block_events_remain _ _ E X), orb_true_r; reflexivity].
    - intros c b e B E lv X. rewrite !any_app in X. apply orb_true_iff in X. destruct X as [X|X]; [rewrite (event_remains _ _ _ _ X); reflexivity|]. apply orb_true_iff in X.
      destruct X as [X|X]; [rewrite (block_events_remain _ _ B X), orb_true_r; reflexivity|rewrite (block_events_remain _ _ E X), orb_true_r; reflexivity].
    - intros t c b e B E lv X. rewrite !any_app in X. apply orb_true_iff in X. destruct X as [X|X].
      + rewrite (target_remains _ _ X). reflexivity.
      + apply orb_true_iff in X. destruct X as [X|X]; [rewrite (event_remains _ _ _ _ X), !orb_true_r; reflexivity|]. apply orb_true_iff in X.
        destruct X as [X|X]; [rewrite (block_events_remain _ _ B X), !orb_true_r; reflexivity|rewrite (block_events_remain _ _ E X), !orb_true_r; reflexivity].
  Qed.
End Events.

Section Reported.
  Variables a i x : string.
  Hypothesis i_x : i <> x.
  Notation dir := (direct a i x).
  Notation out := (outside a i).
  (** An assignment into [a]. *)
  Definition into (ev : event) : bool := String.eqb a (name ev) && match type ev with Read => false | _ => match grand ev with KOther => true | _ => false end end.
  Lemma into_assigned l : existsb into l = assigned_into (events_for a l).
  Proof.
    induction l as [|ev l IH]; [reflexivity|]. cbn [existsb events_for filter]. unfold into at 1. destruct (String.eqb a (name ev)); cbn [andb]; [|exact IH].
    unfold assigned_into. cbn [existsb]. f_equal. exact IH.
  Qed.
  Lemma remains_target lv t : parsed_target t = true -> fine t = true -> existsb into (target_events lv t) = false -> uses i (direct_target a i x t) = true -> existsb out (target_events lv t) = true.
  Proof.
    intros Pt F N U. destruct t as [| | | | | | |v m|v s| |]; try discriminate; cbn [target_events direct_target uses] in *.
    - rewrite any_app. rewrite (remains_event a i x i_x lv v F) by (first [exact U|right; reflexivity]). reflexivity.
    - destruct (fine_two _ _ _ _ F) as [F1 F2]. rewrite !any_app in *. apply orb_true_iff in U. destruct U as [U|U]; [rewrite (remains_event a i x i_x lv v F1) by (first [exact U|right; reflexivity]); reflexivity|].
      rewrite (remains_event a i x i_x lv s F2); [apply orb_true_r|exact U|]. cbn [slice_of_a]. destruct (text_eqb (as_string v) (as_string (Name a))) eqn:X; [|right; reflexivity].
      exfalso. rewrite (text_name v a F1 X) in N. apply orb_false_iff in N. destruct N as [_ N]. apply orb_false_iff in N. destruct N as [_ N]. cbn [strip_to_name existsb] in N. unfold into in N. cbn [name type grand kind_of] in N.
      rewrite String.eqb_refl in N. discriminate.
  Qed.
  Notation Q := (fun s => parsed s = true -> forall lv, existsb into (stmt_events lv s) = false -> uses_stmt i (direct_stmt a i x s) = true -> existsb out (stmt_events lv s) = true).
  Lemma block_remains lv l : Forall Q l -> forallb parsed l = true -> existsb into (flat_map (stmt_events lv) l) = false -> existsb (uses_stmt i) (map (direct_stmt a i x) l) = true ->
    existsb out (flat_map (stmt_events lv) l) = true.
  Proof.
    induction 1 as [|s l K _ IH]; intros Ps N U; [discriminate|]. cbn [flat_map map existsb forallb] in *. rewrite any_app in *. apply andb_true_iff in Ps. apply orb_false_iff in N. apply orb_true_iff in U.
    destruct U as [U|U]; [rewrite K by tauto; reflexivity|rewrite IH by tauto; apply orb_true_r].
  Qed.
  Lemma named lv y ty : String.eqb i y = true -> existsb out [{| name := y; type := ty; par := ChildOf KOther; grand := KOther; leaves := lv |}] = true.
  Proof. intro E. cbn [existsb]. unfold outside. cbn [name par]. rewrite E. reflexivity. Qed.
  Lemma remains_top lv e : fine e = true -> uses i (dir e) = true -> existsb out (top lv e) = true.
  Proof. intros F U. apply (remains_event a i x i_x lv e F); [exact U|right; reflexivity]. Qed.
  Lemma stmt_remains : forall s, Q s.
  Proof.
    refine (all_stmts Q _ _ _ _ _ _ _ _ _ _ _); try (intros; discriminate); cbn [stmt_events direct_stmt uses_stmt parsed].
    - intros y e F lv N U. rewrite any_app. apply orb_true_iff in U. destruct U as [U|U]; [cbn [target_events]; rewrite (named _ _ _ U); apply orb_true_r|rewrite (remains_top _ _ F U); reflexivity].
    - intros y o e F lv N U. rewrite !any_app. apply orb_true_iff in U. destruct U as [U|U]; [rewrite (named _ _ _ U); reflexivity|rewrite (remains_top _ _ F U), orb_true_r; reflexivity].
    - intros t e F lv N U. rewrite any_app in *. apply orb_false_iff in N. apply andb_true_iff in F. destruct F as [F F2]. apply andb_true_iff in F. apply orb_true_iff in U.
      destruct U as [U|U]; [rewrite remains_target by tauto; apply orb_true_r|rewrite (remains_top _ _ F2 U); reflexivity].
    - intros e F lv N U. exact (remains_top _ _ F U).
    - intros e F lv N U. exact (remains_top _ _ F U).
    - intros c b e B E F lv N U. rewrite !any_app in *. apply orb_false_iff in N. destruct N as [_ N]. apply orb_false_iff in N. apply andb_true_iff in F. destruct F as [F F3]. apply andb_true_iff in F. destruct F as [F1 F2].
      apply orb_true_iff in U. destruct U as [U|U]; [apply orb_true_iff in U; destruct U as [U|U]|].
      + rewrite (remains_top _ _ F1 U). reflexivity.
      + rewrite (block_remains _ _ B F2 (proj1 N) U), orb_true_r. reflexivity.
      + rewrite (block_remains _ _ E F3 (proj2 N) U), !orb_true_r. reflexivity.
    - intros c b e B E F lv N U. rewrite !any_app in *. apply orb_false_iff in N. destruct N as [_ N]. apply orb_false_iff in N. apply andb_true_iff in F. destruct F as [F F3]. apply andb_true_iff in F. destruct F as [F1 F2].
      apply orb_true_iff in U. destruct U as [U|U]; [apply orb_true_iff in U; destruct U as [U|U]|].
      + rewrite (remains_top _ _ F1 U). reflexivity.
      + rewrite (block_remains _ _ B F2 (proj1 N) U), orb_true_r. reflexivity.
      + rewrite (block_remains _ _ E F3 (proj2 N) U), !orb_true_r. reflexivity.
    - intros t c b e B E F lv N U. rewrite !any_app in *. apply orb_false_iff in N. destruct N as [_ N]. apply orb_false_iff in N. destruct N as [_ N]. apply orb_false_iff in N.
      apply andb_true_iff in F. destruct F as [F F3]. apply andb_true_iff in F. destruct F as [F F2]. apply andb_true_iff in F. destruct F as [F0 F1]. destruct t as [y| | | | | | | | | |]; try discriminate.
      apply orb_true_iff in U. destruct U as [U|U]; [apply orb_true_iff in U; destruct U as [U|U]; [apply orb_true_iff in U; destruct U as [U|U]|]|].
      + cbn [target_events]. rewrite (named _ _ _ U). reflexivity.
      + rewrite (remains_top _ _ F1 U), orb_true_r. reflexivity.
      + rewrite (block_remains _ _ B F2 (proj1 N) U), !orb_true_r. reflexivity.
      + rewrite (block_remains _ _ E F3 (proj2 N) U), !orb_true_r. reflexivity.
  Qed.
End Reported.

(** ** Assignments *)
Definition assigned_event (z : string) (ev : event) : bool := String.eqb z (name ev) && match type ev, grand ev with Assigned, KOther => true | _, _ => false end.
Lemma block_assigned z lv l : Forall (fun s => forall lv, assigns_name z s = true -> existsb (assigned_event z) (stmt_events lv s) = true) l -> existsb (assigns_name z) l = true ->
  existsb (assigned_event z) (flat_map (stmt_events lv) l) = true.
Proof.
  induction 1 as [|s l K _ IH]; [discriminate|]. cbn [flat_map existsb]. rewrite any_app. intro X. apply orb_true_iff in X. destruct X as [X|X]; [rewrite (K _ X); reflexivity|rewrite (IH X); apply orb_true_r].
Qed.
Lemma stmt_assigned z : forall s lv, assigns_name z s = true -> existsb (assigned_event z) (stmt_events lv s) = true.
Proof.
  assert (N : forall lv y, String.eqb z y = true -> existsb (assigned_event z) (target_events lv (Name y)) = true)
    by (intros lv y E; cbn [target_events existsb]; unfold assigned_event; cbn [name type grand]; rewrite E; reflexivity).
  apply (all_stmts (fun s => forall lv, assigns_name z s = true -> existsb (assigned_event z) (stmt_events lv s) = true)); try (intros; discriminate); cbn [stmt_events assigns_name].
  - intros y e lv X. rewrite any_app, (N _ _ X). apply orb_true_r.
  - intros y o e lv X. rewrite !any_app, (N _ _ X), !orb_true_r. reflexivity.
  - intros t e lv X. destruct t; try discriminate. rewrite any_app, (N _ _ X). apply orb_true_r.
  - intros c b e B E lv X. rewrite !any_app. apply orb_true_iff in X. destruct X as [X|X]; [rewrite (block_assigned _ _ _ B X)|rewrite (block_assigned _ _ _ E X)]; rewrite !orb_true_r; reflexivity.
  - intros c b e B E lv X. rewrite !any_app. apply orb_true_iff in X. destruct X as [X|X]; [rewrite (block_assigned _ _ _ B X)|rewrite (block_assigned _ _ _ E X)]; rewrite !orb_true_r; reflexivity.
  - intros t c b e B E lv X. rewrite !any_app. apply orb_true_iff in X. destruct X as [X|X]; [apply orb_true_iff in X; destruct X as [X|X]|].
    + destruct t; try discriminate. rewrite (N _ _ X). reflexivity.
    + rewrite (block_assigned _ _ _ B X), !orb_true_r. reflexivity.
    + rewrite (block_assigned _ _ _ E X), !orb_true_r. reflexivity.
Qed.

(** ** Reads of the elements *)
Section Elements.
  Variables a i x : string.
  Notation dir := (direct a i x).
  (** The value of a[i], read. *)
  Definition reads (ev : event) : bool := String.eqb a (name ev) && match par ev with ValueOf (Name j) true => String.eqb j i | _ => false end.
  Definition element_value (p : parent) : bool := match p with ValueOf (Name j) true => String.eqb j i | _ => false end.
  Lemma reads_indexing l : is_structure_read (events_for a l) = true -> indexed_just_by i (events_for a l) = true -> existsb reads l = true.
  Proof.
    induction l as [|ev l IH]; [discriminate|]. cbn [existsb events_for filter]. unfold reads at 1. destruct (String.eqb a (name ev)); cbn [andb]; [|exact IH].
    unfold is_structure_read, indexed_just_by. cbn [existsb forallb]. unfold indexing at 1 3. intros R J. apply andb_true_iff in J. destruct J as [J J']. destruct (par ev) as [s l'| | |]; try exact (IH R J').
    destruct l'; [|apply orb_true_iff in R; destruct R as [R|R]; [discriminate|]; rewrite (IH R J'); apply orb_true_r]. destruct s; try discriminate. rewrite J. reflexivity.
  Qed.
  Lemma element_dir v s : is_element a i v s = true -> uses x (dir (Subscript v s)) = true.
  Proof. intro E. cbn [direct]. rewrite E. cbn [uses]. apply String.eqb_refl. Qed.
  Lemma part_dir v s : uses x (dir v) = true \/ uses x (dir s) = true -> uses x (dir (Subscript v s)) = true.
  Proof.
    intro U. cbn [direct]. destruct (is_element a i v s) eqn:E; [cbn [uses]; apply String.eqb_refl|]. cbn [uses]. apply orb_true_iff. exact U.
  Qed.
  Lemma strip_reads : forall e p g q h, strip_to_name e p g = Some (a, q, h) -> element_value q = true -> (e = Name a /\ element_value p = true) \/ uses x (dir e) = true.
  Proof.
    apply (all_exprs (fun e => forall p g q h, strip_to_name e p g = Some (a, q, h) -> element_value q = true -> (e = Name a /\ element_value p = true) \/ uses x (dir e) = true)); try (intros; discriminate).
    - intros y p g q h E V. cbn [strip_to_name] in E. left. assert (y = a /\ p = q) as [-> ->] by (split; congruence). split; [reflexivity|exact V].
    - intros b m B p g q h E V. right. destruct (B _ _ _ _ E V) as [[_ X]|U]; [discriminate|exact U].
    - intros b s B _ p g q h E V. right. cbn [strip_to_name] in E. destruct (B _ _ _ _ E V) as [[-> X]|U]; [|apply part_dir; left; exact U].
      apply element_dir. cbn [element_value] in X. destruct s; try discriminate. cbn [is_element]. rewrite String.eqb_refl. exact X.
  Qed.
  Lemma reads_modify lv y q h : existsb reads [{| name := y; type := Modify; par := q; grand := h; leaves := lv |}] = true -> y = a /\ element_value q = true.
  Proof.
    intro X. cbn [existsb] in X. apply orb_true_iff in X. destruct X as [X|X]; [|discriminate]. unfold reads in X. cbn [name par] in X. apply andb_true_iff in X. destruct X as [X V]. apply String.eqb_eq in X. split; [symmetry; exact X|exact V].
  Qed.
  Lemma event_reads lv : forall e p g, existsb reads (events_of lv e p g) = true -> (e = Name a /\ element_value p = true) \/ uses x (dir e) = true.
  Proof.
    apply (all_exprs (fun e => forall p g, existsb reads (events_of lv e p g) = true -> (e = Name a /\ element_value p = true) \/ uses x (dir e) = true)).
    - intros y p g X. left. cbn [events_of existsb] in X. apply orb_true_iff in X. destruct X as [X|X]; [|discriminate]. unfold reads in X. cbn [name par] in X. apply andb_true_iff in X. destruct X as [X V]. apply String.eqb_eq in X. subst y. split; [reflexivity|exact V].
    - intros; discriminate.
    - intros; discriminate.
    - intros o b B p g X. right. destruct (B _ _ X) as [[_ V]|U]; [discriminate|exact U].
    - intros o b c B C p g X. right. cbn [events_of] in X. rewrite any_app in X. cbn [direct uses]. apply orb_true_iff in X.
      destruct X as [X|X]; [destruct (B _ _ X) as [[_ V]|U]|destruct (C _ _ X) as [[_ V]|U]]; try discriminate; rewrite U; [reflexivity|apply orb_true_r].
    - intros o vs H p g X. right. cbn [events_of] in X. cbn [direct uses]. induction H as [|v vs V Vs IH]; [discriminate|]. cbn [flat_map map existsb] in *. rewrite any_app in X. apply orb_true_iff in X.
      destruct X as [X|X]; [destruct (V _ _ X) as [[_ Z]|U]; [discriminate|rewrite U; reflexivity]|rewrite (IH X); apply orb_true_r].
    - intros b ops B H p g X. right. cbn [events_of] in X. rewrite any_app in X. cbn [direct uses]. apply orb_true_iff in X. destruct X as [X|X]; [destruct (B _ _ X) as [[_ Z]|U]; [discriminate|rewrite U; reflexivity]|]. apply orb_true_iff. right.
      clear B. induction H as [|v vs V Vs IH]; [discriminate|]. cbn [flat_map map existsb fst snd] in *. rewrite any_app in X. apply orb_true_iff in X.
      destruct X as [X|X]; [destruct (V _ _ X) as [[_ Z]|U]; [discriminate|rewrite U; reflexivity]|rewrite (IH X); apply orb_true_r].
    - intros f vs B H p g X. right. cbn [events_of] in X. rewrite any_app in X. cbn [direct uses]. apply orb_true_iff in X. destruct X as [X|X]; [destruct (B _ _ X) as [[_ Z]|U]; [discriminate|rewrite U; reflexivity]|]. apply orb_true_iff. right.
      clear B. induction H as [|v vs V Vs IH]; [discriminate|]. cbn [flat_map map existsb fst snd] in *. rewrite any_app in X. apply orb_true_iff in X.
      destruct X as [X|X]; [destruct (V _ _ X) as [[_ Z]|U]; [discriminate|rewrite U; reflexivity]|rewrite (IH X); apply orb_true_r].
    - intros b m B p g X. right. cbn [events_of] in X. rewrite any_app in X. cbn [direct uses]. apply orb_true_iff in X. destruct X as [X|X].
      + destruct (kind_of p); try discriminate. destruct (non_pure m); [|discriminate]. destruct (strip_to_name b ExprOf _) as [[[y q] h]|] eqn:E; [|discriminate]. destruct (reads_modify _ _ _ _ X) as [-> V].
        destruct (strip_reads _ _ _ _ _ E V) as [[_ Z]|U]; [discriminate|exact U].
      + destruct (B _ _ X) as [[_ Z]|U]; [discriminate|exact U].
    - intros b s B C p g X. right. cbn [events_of] in X. rewrite any_app in X. apply orb_true_iff in X. destruct X as [X|X].
      + destruct (B _ _ X) as [[-> V]|U]; [|apply part_dir; left; exact U]. apply element_dir. cbn [element_value] in V. destruct s; try discriminate. cbn [is_element]. rewrite String.eqb_refl. exact V.
      + destruct (C _ _ X) as [[_ Z]|U]; [discriminate|apply part_dir; right; exact U].
    - intros c b d C B D p g X. right. cbn [events_of] in X. rewrite !any_app in X. cbn [direct uses]. apply orb_true_iff in X. destruct X as [X|X]; [destruct (C _ _ X) as [[_ Z]|U]; [discriminate|rewrite U; reflexivity]|].
      apply orb_true_iff in X. destruct X as [X|X]; [destruct (B _ _ X) as [[_ Z]|U]|destruct (D _ _ X) as [[_ Z]|U]]; try discriminate; rewrite U, ?orb_true_r; reflexivity.
  Qed.
  Lemma top_reads lv e : existsb reads (top lv e) = true -> uses x (dir e) = true.
  Proof. intro X. destruct (event_reads _ _ _ _ X) as [[_ Z]|U]; [discriminate|exact U]. Qed.
  Lemma target_reads lv t : existsb reads (target_events lv t) = true -> uses x (direct_target a i x t) = true.
  Proof.
    intro X. destruct t as [y| | | | | | |v m|v s| |]; try discriminate; cbn [target_events] in X; cbn [direct_target uses].
    - cbn [existsb] in X. apply orb_true_iff in X. destruct X as [X|X]; [|discriminate]. unfold reads in X. cbn [par] in X. rewrite andb_false_r in X. discriminate.
    - rewrite any_app in X. apply orb_true_iff in X. destruct X as [X|X]; [destruct (event_reads _ _ _ _ X) as [[_ Z]|U]; [discriminate|exact U]|].
      destruct (strip_to_name v _ _) as [[[y q] h]|] eqn:E; [|discriminate]. destruct (reads_modify _ _ _ _ X) as [-> V]. destruct (strip_reads _ _ _ _ _ E V) as [[_ Z]|U]; [discriminate|exact U].
    - rewrite !any_app in X. apply orb_true_iff in X. destruct X as [X|X].
      + destruct (event_reads _ _ _ _ X) as [[_ Z]|U]; [|rewrite U; reflexivity]. cbn [element_value] in Z. destruct s; discriminate.
      + apply orb_true_iff in X. destruct X as [X|X]; [destruct (event_reads _ _ _ _ X) as [[_ Z]|U]; [discriminate|rewrite U; apply orb_true_r]|].
        destruct (strip_to_name v _ _) as [[[y q] h]|] eqn:E; [|discriminate]. destruct (reads_modify _ _ _ _ X) as [-> V]. destruct (strip_reads _ _ _ _ _ E V) as [[_ Z]|U]; [|rewrite U; reflexivity].
        cbn [element_value] in Z. destruct s; discriminate.
  Qed.
  Lemma block_reads lv l : Forall (fun s => forall lv, existsb reads (stmt_events lv s) = true -> uses_stmt x (direct_stmt a i x s) = true) l ->
    existsb reads (flat_map (stmt_events lv) l) = true -> existsb (uses_stmt x) (map (direct_stmt a i x) l) = true.
  Proof.
    induction 1 as [|s l K _ IH]; [discriminate|]. cbn [flat_map map existsb]. rewrite any_app. intro X. apply orb_true_iff in X. destruct X as [X|X]; [rewrite (K _ X); reflexivity|rewrite (IH X); apply orb_true_r].
  Qed.
  Lemma stmt_reads : forall s lv, existsb reads (stmt_events lv s) = true -> uses_stmt x (direct_stmt a i x s) = true.
  Proof.
    apply (all_stmts (fun s => forall lv, existsb reads (stmt_events lv s) = true -> uses_stmt x (direct_stmt a i x s) = true)); try (intros; discriminate); cbn [stmt_events direct_stmt uses_stmt].
    - intros y e lv X. rewrite any_app in X. apply orb_true_iff in X. destruct X as [X|X]; [rewrite (top_reads _ _ X); apply orb_true_r|]. pose proof (target_reads _ _ X) as U. cbn [direct_target uses] in U. rewrite U. reflexivity.
    - intros y o e lv X. rewrite !any_app in X. apply orb_true_iff in X. destruct X as [X|X]; [cbn [existsb] in X; unfold reads in X; cbn [par] in X; rewrite andb_false_r in X; discriminate|]. apply orb_true_iff in X.
      destruct X as [X|X]; [rewrite (top_reads _ _ X); apply orb_true_r|]. pose proof (target_reads _ _ X) as U. cbn [direct_target uses] in U. rewrite U. reflexivity.
    - intros t e lv X. rewrite any_app in X. apply orb_true_iff in X. destruct X as [X|X]; [rewrite (top_reads _ _ X); apply orb_true_r|]. rewrite (target_reads _ _ X). reflexivity.
    - intros e lv X. exact (top_reads _ _ X).
    - intros e lv X. exact (top_reads _ _ X).
    - intros c b e B E lv X. rewrite !any_app in X. apply orb_true_iff in X. destruct X as [X|X]; [rewrite (top_reads _ _ X); reflexivity|]. apply orb_true_iff in X.
      destruct X as [X|X]; [rewrite (block_reads _ _ B X), orb_true_r; reflexivity|rewrite (block_reads _ _ E X), orb_true_r; reflexivity].
    - intros c b e B E lv X. rewrite !any_app in X. apply orb_true_iff in X. destruct X as [X|X]; [rewrite (top_reads _ _ X); reflexivity|]. apply orb_true_iff in X.
      destruct X as [X|X]; [rewrite (block_reads _ _ B X), orb_true_r; reflexivity|rewrite (block_reads _ _ E X), orb_true_r; reflexivity].
    - intros t c b e B E lv X. rewrite !any_app in X. apply orb_true_iff in X. destruct X as [X|X]; [rewrite (target_reads _ _ X); reflexivity|]. apply orb_true_iff in X.
      destruct X as [X|X]; [rewrite (top_reads _ _ X), !orb_true_r; reflexivity|]. apply orb_true_iff in X.
      destruct X as [X|X]; [rewrite (block_reads _ _ B X), !orb_true_r; reflexivity|rewrite (block_reads _ _ E X), !orb_true_r; reflexivity].
  Qed.
End Elements.

(** ** The message *)
Lemma is_const_zero e : is_const e 0 = true -> zero_const e.
Proof.
  unfold zero_const. destruct e as [|c| | | | | | | | |]; try discriminate. destruct c as [|b|n|r|]; try discriminate; cbn [is_const]; intro H.
  - destruct b; [discriminate|]. auto.
  - apply Z.eqb_eq in H. assert (n = 0%N) by lia. subst. auto.
  - cbn in H. rewrite orb_false_r in H. apply String.eqb_eq in H. subst. auto.
Qed.
Lemma is_const_one e : is_const e 1 = true -> one_const e.
Proof.
  unfold one_const. destruct e as [|c| | | | | | | | |]; try discriminate. destruct c as [|b|n|r|]; try discriminate; cbn [is_const]; intro H.
  - destruct b; [|discriminate]. auto.
  - apply Z.eqb_eq in H. assert (n = 1%N) by lia. subst. auto.
  - cbn in H. apply String.eqb_eq in H. subst. auto.
Qed.
Lemma range_len_shape iter a : fine iter = true -> range_len iter = Some (Name a) -> over_indices iter a.
Proof.
  intro F. unfold range_len. destruct (get_range_params iter) as [[[start stop] step]|] eqn:G; [|discriminate]. intro H.
  destruct stop as [| | | | | |f args| | | |]; try discriminate. destruct f as [f| | | | | | | | | |]; try discriminate. destruct args as [|b [|c args]]; try discriminate.
  destruct (is_const start 0 && is_const step 1 && String.eqb f "len") eqn:C; [|discriminate]. apply andb_true_iff in C. destruct C as [Z C]. apply String.eqb_eq in C. subst f. assert (b = Name a) by congruence. subst b. clear H.
  apply andb_true_iff in Z. destruct Z as [Z O]. apply is_const_zero in Z. apply is_const_one in O.
  unfold get_range_params in G. destruct iter as [| | | | | |r args| | | |]; try discriminate.
  destruct (text_eqb (as_string r) [TName "range"]) eqn:E; [|discriminate]. apply text_name in E.
  - subst r. exists args. split; [reflexivity|]. destruct args as [|p [|q [|s [|t args]]]]; try discriminate.
    + left. congruence.
    + right. left. exists p. assert (p = start) by congruence. subst p. split; [exact Z|congruence].
    + right. right. exists p, s. assert (p = start /\ s = step) as [-> ->] by (split; congruence). split; [exact Z|]. split; [exact O|congruence].
  - unfold fine in *. cbn [well_formed no_nested_compare] in F. apply andb_true_iff in F. destruct F as [F1 F2]. apply andb_true_iff in F1, F2. destruct F1 as [F1 _], F2 as [F2 _]. rewrite F1, F2. reflexivity.
Qed.
Lemma existsb_false {A} (f g : A -> bool) l : (forall v, g v = true -> f v = true) -> existsb f l = false -> existsb g l = false.
Proof. intros H. induction l as [|v l IH]; [reflexivity|]. cbn [existsb]. intro N. apply orb_false_iff in N. destruct (g v) eqn:G; [rewrite (H v G) in N; destruct N; discriminate|]. apply IH. apply N. Qed.
Lemma reported_body i iter body orelse m : improve_for_loop (SFor (Name i) iter body orelse) = Some m -> fine iter = true -> forallb parsed body = true -> exists a, over_indices iter a /\
  existsb (assigns_name a) body = false /\ existsb (assigns_name i) body = false /\
  forall x, i <> x ->
    existsb (uses_stmt x) (map (direct_stmt a i x) body) = true /\
    (m = UseForeach -> existsb (uses_stmt i) (map (direct_stmt a i x) body) = false) /\
    (m = UseEnumerate -> a <> i -> existsb (uses_stmt i) (map (direct_stmt a i x) body) = true).
Proof.
  cbn [improve_for_loop]. destruct (range_len iter) as [s|] eqn:Rl; [|discriminate]. destruct s as [a| | | | | | | | | |]; try discriminate. intros H Fi Ps. exists a.
  destruct (is_structure_read (events_for a (body_events body))) eqn:C1; [|discriminate].
  destruct (indexed_just_by i (events_for a (body_events body))) eqn:C2; [|discriminate].
  destruct (index_used_just_for (Name a) (events_for i (body_events body))) eqn:C3; [|discriminate].
  destruct (index_modified (events_for i (body_events body))) eqn:C4; [discriminate|].
  destruct (directly_modified (events_for a (body_events body))) eqn:C5; [discriminate|].
  destruct (assigned_into (events_for a (body_events body))) eqn:C6; [discriminate|]. cbn [negb orb] in H.
  split; [exact (range_len_shape _ _ Fi Rl)|]. rewrite <- into_assigned in C6.
  split; [|split].
  - destruct (existsb (assigns_name a) body) eqn:A; [|reflexivity]. apply (block_assigned a (block_leaves body)) in A; [|apply Forall_forall; intros s _; apply stmt_assigned].
    fold (body_events body) in A. rewrite (existsb_false (into a) (assigned_event a) (body_events body)) in A; [discriminate| |exact C6]. intros ev E. unfold assigned_event, into in *. destruct (type ev); [rewrite andb_false_r in E; discriminate ..|exact E].
  - destruct (existsb (assigns_name i) body) eqn:A; [|reflexivity]. apply (block_assigned i (block_leaves body)) in A; [|apply Forall_forall; intros s _; apply stmt_assigned].
    fold (body_events body) in A. unfold index_modified, events_for in C4. revert C4 A. clear. induction (body_events body) as [|ev l IH]; [discriminate|]. cbn [filter existsb]. unfold assigned_event at 1.
    destruct (String.eqb i (name ev)); cbn [andb orb existsb]; [|exact IH]. intros N A. apply orb_false_iff in N. destruct N as [N N']. destruct (type ev); [exact (IH N' A)|discriminate|discriminate].
  - intros x Ix. split; [|split].
    + apply (block_reads a i x (block_leaves body)); [apply Forall_forall; intros s _; apply stmt_reads|]. exact (reads_indexing a i _ C1 C2).
    + intros ->. destruct (used_outside (Name a) (events_for i (body_events body))) eqn:U; [discriminate|]. rewrite <- outside_used in U.
      destruct (existsb (uses_stmt i) (map (direct_stmt a i x) body)) eqn:X; [|reflexivity]. apply (block_remains a i x (block_leaves body)) in X; [|apply Forall_forall; intros s _; apply (stmt_remains a i x Ix)|exact Ps|exact C6].
      unfold body_events in U. congruence.
    + intros -> Ai. destruct (used_outside (Name a) (events_for i (body_events body))) eqn:U; [|discriminate]. rewrite <- outside_used in U.
      apply (block_events_remain a i x (block_leaves body)); [apply Forall_forall; intros s _; apply (stmt_events_remain a i x Ai)|exact U].
Qed.
Lemma reported_loop i iter body m : improve_for_loop (SFor (Name i) iter body []) = Some m -> fine iter = true -> forallb parsed body = true -> exists a, over_indices iter a /\
  forall x t it, i <> x -> existsb (uses_stmt x) body = false -> forall W (P : program W) (R0 R : W -> W -> Prop) ks vs w u w1 u1,
    in_step P a i x (kept m) R -> (forall w u, R w u -> R0 w u) ->
    andthen (eval (py P) iter) (elements P) w = (w1, Ok ks) -> andthen (eval (py P) it) (elements P) u = (u1, Ok vs) -> R0 w1 u1 -> Forall2 (next_in_step P i t R0 R) ks vs ->
    agree_outcomes R0 (exec P (SFor (Name i) iter body []) w) (exec P (SFor t it (map (direct_stmt a i x) body) []) u).
Proof.
  intros H Fi Ps. destruct (reported_body _ _ _ _ _ H Fi Ps) as (a & Sh & A & B & X). exists a. split; [exact Sh|].
  intros x t it Ix Fx W P R0 R ks vs w u w1 u1 T Sub E1 E2 Rw F. destruct (X x Ix) as (_ & Xf & _).
  assert (Rd : ready_all a i x (kept m) body). { split; [exact Ps|]. split; [exact A|]. split; [exact B|]. split; [exact Fx|]. destruct m; [right; exact (Xf eq_refl)|left; reflexivity]. }
  pose proof (loop_direct P a i x (kept m) R T R0 Sub body t ks vs Rd F w1 u1 Rw) as L. rewrite !exec_for. unfold after. rewrite E1, E2. exact L.
Qed.

