(** Lemmas about [ConfigModel]. *)
From Coq Require Import String Ascii List Bool Arith Lia.
From Verif Require Import Base ConfigModel ConfigSpec.
Import ListNotations.
Local Open Scope list_scope.

Lemma opt_eqb_eq : forall a b, opt_eqb a b = true <-> a = b.
Proof. split; [destruct a, b; vm_compute; congruence | intros ->; apply Nat.eqb_refl]. Qed.
Lemma opt_eqb_refl : forall a, opt_eqb a a = true.
Proof. intros. now apply opt_eqb_eq. Qed.
Lemma opt_eqb_neq : forall a b, opt_eqb a b = false <-> a <> b.
Proof.
  intros. split; intros H.
  - intros ->. rewrite opt_eqb_refl in H. discriminate.
  - destruct (opt_eqb a b) eqn:E; auto. apply opt_eqb_eq in E. contradiction.
Qed.
Lemma opt_eqb_sym : forall a b, opt_eqb a b = opt_eqb b a.
Proof. intros. apply Nat.eqb_sym. Qed.
Lemma opt_eqb_same : forall a b, opt_eqb a b = if same_opt a b then true else false.
Proof.
  intros. destruct (same_opt a b); [subst; apply opt_eqb_refl | now apply opt_eqb_neq].
Qed.

Lemma nth_error_set_nth : forall A (l : list A) i j a,
  nth_error (set_nth i a l) j =
  if Nat.eqb i j then (if j <? List.length l then Some a else None) else nth_error l j.
Proof.
  induction l as [|x l IH]; intros i j a.
  - destruct i, j; simpl; auto. destruct (i =? j); auto.
  - destruct i, j; simpl; auto. rewrite IH.
    change (S j <? S (List.length l)) with (j <? List.length l). reflexivity.
Qed.

Lemma set_nth_length : forall A (l : list A) i a, List.length (set_nth i a l) = List.length l.
Proof. induction l; intros; destruct i; simpl; auto. Qed.

Lemma set_nth_app : forall A (pre post : list A) x a,
  set_nth (List.length pre) a (pre ++ x :: post) = pre ++ a :: post.
Proof. induction pre; intros; simpl; auto. now rewrite IHpre. Qed.

(** ** [_combine] refines a fold over plain lists *)

Definition is_opt (o : Opt) (a : parg) : bool := opt_eqb o (fst a).
Definition remove_opt (o : Opt) (l : list parg) : list parg := filter (fun a => negb (is_opt o a)) l.
Definition comb_total (k : combine_kind) (a b : val) : val :=
  match k, a, b with EXTEND, VList x, VList y => VList (x ++ y) | _, _, _ => b end.
Definition alw (allowed : list combine_kind) (o : Opt) : bool :=
  existsb (kind_eqb (combine_of (parse_of o))) allowed.

Definition sstep (allowed : list combine_kind) (acc : list parg) (a : parg) : list parg :=
  let '(o, v) := a in
  if alw allowed o then
    match find (is_opt o) acc with
    | Some (_, old) => remove_opt o acc ++ [(o, comb_total (combine_of (parse_of o)) old v)]
    | None => acc ++ [(o, v)]
    end
  else acc ++ [(o, v)].

Definition typed (a : parg) : Prop :=
  match conv_of (parse_of (fst a)), snd a with
  | CBool, VBool _ | CList, VList _ | CComma, VList _ | CStr, VOptStr _ => True
  | _, _ => False
  end.

Definition Inv (allowed : list combine_kind) (st : list (option parg) * (Opt -> option nat))
    (acc : list parg) : Prop :=
  somes (fst st) = acc /\
  forall o, alw allowed o = true ->
    match snd st o with
    | None => forall j v, nth_error (fst st) j <> Some (Some (o, v))
    | Some i => (exists v, nth_error (fst st) i = Some (Some (o, v))) /\
                (forall j v, nth_error (fst st) j = Some (Some (o, v)) -> j = i)
    end.

Lemma in_somes : forall A (a : A) l, In a (somes l) <-> exists j, nth_error l j = Some (Some a).
Proof.
  induction l as [|[x|] l IH]; simpl.
  - split; [tauto | intros [[|j] H]; discriminate].
  - rewrite IH. split.
    + intros [->|[j H]]; [exists 0; auto | exists (S j); auto].
    + intros [[|j] H]; simpl in H; [inversion H; auto | right; exists j; auto].
  - rewrite IH. split; intros [j H]; [exists (S j); auto | destruct j; simpl in H; [discriminate | exists j; auto]].
Qed.

Lemma find_none_filter : forall o l, (forall v, ~ In (o, v) l) -> find (is_opt o) l = None.
Proof.
  intros o l H. destruct (find (is_opt o) l) as [[o' v]|] eqn:E; auto.
  apply find_some in E as [E1 E2]. apply opt_eqb_eq in E2. simpl in E2. subst.
  exfalso. eapply H; eauto.
Qed.

Lemma remove_opt_none : forall o l, (forall v, ~ In (o, v) l) -> remove_opt o l = l.
Proof.
  induction l as [|[o' v'] l IH]; intros; simpl; auto.
  unfold is_opt at 1; simpl. destruct (opt_eqb o o') eqn:E; simpl.
  - apply opt_eqb_eq in E; subst. exfalso. apply (H v'). now left.
  - f_equal. apply IH. intros v C. apply (H v). now right.
Qed.

Lemma remove_opt_app : forall o a b, remove_opt o (a ++ b) = remove_opt o a ++ remove_opt o b.
Proof. intros. apply filter_app. Qed.

Lemma Inv_snoc : forall allowed results indices acc o v',
  Inv allowed (results, indices) acc ->
  forall results',
  (results' = results ++ [Some (o, v')] /\ (alw allowed o = true -> indices o = None)) \/
  (exists i, indices o = Some i /\ alw allowed o = true /\
             results' = set_nth i None (results ++ [Some (o, v')])) ->
  Inv allowed (results', fun o' => if opt_eqb o o' then Some (List.length results' - 1) else indices o')
      (somes results').
Proof.
  intros allowed results indices acc o v' [I1 I2] results' Hr.
  cbn [snd fst] in *. split; [reflexivity|]. intros o' A'. cbn [snd fst].
  assert (L : List.length results' = S (List.length results)).
  { destruct Hr as [[-> _]|[i [_ [_ ->]]]]; rewrite ?set_nth_length, app_length; simpl; lia. }
  assert (N : forall j x, nth_error results' j = Some (Some x) ->
              (j < List.length results /\ nth_error results j = Some (Some x))
              \/ (j = List.length results /\ x = (o, v'))).
  { intros j x H. assert (H2 : nth_error (results ++ [Some (o, v')]) j = Some (Some x)).
    { destruct Hr as [[-> _]|[i [_ [_ ->]]]]; auto.
      rewrite nth_error_set_nth in H. destruct (i =? j); auto.
      destruct (j <? _); discriminate. }
    destruct (lt_dec j (List.length results)).
    - left. split; auto. now rewrite nth_error_app1 in H2 by auto.
    - right. rewrite nth_error_app2 in H2 by lia.
      destruct (j - List.length results) eqn:D; simpl in H2.
      + inversion H2. split; auto. lia.
      + destruct n0; discriminate. }
  assert (Happ : nth_error (results ++ [Some (o, v')]) (List.length results) = Some (Some (o, v'))).
  { rewrite nth_error_app2 by lia. now rewrite Nat.sub_diag. }
  assert (Last : nth_error results' (List.length results) = Some (Some (o, v'))).
  { destruct Hr as [[-> _]|[i [Hi [Ha ->]]]]; auto.
    rewrite nth_error_set_nth. destruct (i =? List.length results) eqn:E; auto.
    apply Nat.eqb_eq in E. pose proof (I2 o Ha) as J. rewrite Hi in J.
    destruct J as [[w Hw] _]. exfalso.
    assert (i < List.length results) by (apply nth_error_Some; congruence). lia. }
  destruct (opt_eqb o o') eqn:E.
  - apply opt_eqb_eq in E; subst o'. rewrite L.
    replace (S (List.length results) - 1) with (List.length results) by lia.
    split; [exists v'; auto|].
    intros j w H. destruct (N _ _ H) as [[J1 J2]|[J1 J2]]; auto. exfalso.
    pose proof (I2 o A') as J. destruct Hr as [[_ Hn]|[i [Hi [_ Hr']]]].
    + rewrite (Hn A') in J. apply (J j w); auto.
    + rewrite Hi in J. destruct J as [_ U]. specialize (U _ _ J2). subst j.
      rewrite Hr' in H. rewrite nth_error_set_nth, Nat.eqb_refl in H.
      destruct (i <? _); discriminate.
  - apply opt_eqb_neq in E. pose proof (I2 o' A') as J.
    destruct (indices o') as [i'|] eqn:D.
    + destruct J as [[w Hw] U]. split.
      * exists w. assert (B : i' < List.length results) by (apply nth_error_Some; congruence).
        assert (H1 : nth_error (results ++ [Some (o, v')]) i' = Some (Some (o', w)))
          by (rewrite nth_error_app1 by auto; auto).
        destruct Hr as [[-> _]|[i [Hi [Ha ->]]]]; auto.
        rewrite nth_error_set_nth. destruct (i =? i') eqn:E2; auto. exfalso.
        apply Nat.eqb_eq in E2. subst i'.
        pose proof (I2 o Ha) as K. rewrite Hi in K. destruct K as [[w' Hw'] _]. congruence.
      * intros j w' H. destruct (N _ _ H) as [[J1 J2]|[J1 J2]]; [eauto|].
        inversion J2. congruence.
    + intros j w H. destruct (N _ _ H) as [[J1 J2]|[J1 J2]]; [eapply J; eauto|].
      inversion J2. congruence.
Qed.

Lemma apply_combine_typed : forall o a b, typed (o, a) -> typed (o, b) ->
  apply_combine (combine_of (parse_of o)) a b = Ok (comb_total (combine_of (parse_of o)) a b)
  /\ typed (o, comb_total (combine_of (parse_of o)) a b).
Proof.
  intros o a b Ha Hb; destruct o, a, b; cbn in *; try tauto; split; auto.
Qed.

Lemma combine_step_ok : forall allowed st acc o v,
  Inv allowed st acc -> Forall typed acc -> typed (o, v) ->
  exists st', combine_step allowed st (Some (o, v)) = Ok st' /\
              Inv allowed st' (sstep allowed acc (o, v)) /\ Forall typed (sstep allowed acc (o, v)).
Proof.
  intros allowed [results indices] acc o v HI HT Hv.
  pose proof HI as [I1 I2]. cbn [snd fst] in *. unfold combine_step, sstep.
  fold (alw allowed o). destruct (alw allowed o) eqn:A.
  - pose proof (I2 o A) as J. destruct (indices o) as [i|] eqn:D.
    + destruct J as [[w Hw] U]. rewrite Hw.
      apply nth_error_split in Hw as Hs. destruct Hs as [pre [post [Hs Hl]]].
      assert (Hpre : forall x, ~ In (o, x) (somes pre)).
      { intros x C. apply in_somes in C as [j Hj]. assert (j = i).
        { apply (U j x). rewrite Hs. rewrite nth_error_app1; auto. apply nth_error_Some. congruence. }
        subst j. assert (i < List.length pre) by (apply nth_error_Some; congruence). lia. }
      assert (Hpost : forall x, ~ In (o, x) (somes post)).
      { intros x C. apply in_somes in C as [j Hj]. assert (i + S j = i); [|lia].
        apply (U _ x). rewrite Hs. rewrite nth_error_app2 by lia.
        replace (i + S j - List.length pre) with (S j) by lia. exact Hj. }
      assert (Hacc : acc = somes pre ++ (o, w) :: somes post).
      { rewrite <- I1, Hs, somes_app. reflexivity. }
      assert (Tw : typed (o, w)).
      { rewrite Forall_forall in HT. apply HT. rewrite Hacc. apply in_or_app. right. now left. }
      destruct (apply_combine_typed o w v Tw Hv) as [E T']. rewrite E. cbn [bind].
      assert (F : find (is_opt o) acc = Some (o, w)).
      { rewrite Hacc. clear - Hpre. induction (somes pre) as [|[o1 v1] l IH]; simpl.
        - unfold is_opt; simpl. now rewrite opt_eqb_refl.
        - unfold is_opt at 1; simpl. destruct (opt_eqb o o1) eqn:E.
          + apply opt_eqb_eq in E; subst. exfalso. apply (Hpre v1). now left.
          + apply IH. intros x C. apply (Hpre x). now right. }
      rewrite F.
      set (v' := comb_total (combine_of (parse_of o)) w v) in *.
      assert (R : somes (set_nth i None (results ++ [Some (o, v')])) = remove_opt o acc ++ [(o, v')]).
      { rewrite Hs. rewrite <- app_assoc. simpl. rewrite <- Hl, set_nth_app.
        rewrite somes_app. simpl. rewrite somes_app. simpl.
        rewrite Hacc, remove_opt_app.
        assert (Q : remove_opt o ((o, w) :: somes post) = remove_opt o (somes post))
          by (unfold remove_opt; simpl; unfold is_opt at 1; simpl; now rewrite opt_eqb_refl).
        rewrite Q, (remove_opt_none o (somes pre)), (remove_opt_none o (somes post)) by auto.
        now rewrite app_assoc. }
      eexists. split; [reflexivity|]. split.
      * rewrite <- R. eapply Inv_snoc; [exact HI|]. right. exists i. auto.
      * apply Forall_app. split; [|constructor; auto].
        rewrite Forall_forall in *. intros x Hx. apply filter_In in Hx. apply HT; tauto.
    + cbn [bind].
      assert (forall x, ~ In (o, x) acc).
      { intros x C. rewrite <- I1 in C. apply in_somes in C as [j Hj]. eapply J; eauto. }
      rewrite find_none_filter by auto.
      eexists. split; [reflexivity|]. split.
      * replace (acc ++ [(o, v)]) with (somes (results ++ [Some (o, v)])) by (rewrite somes_app; simpl; now rewrite I1).
        eapply Inv_snoc; [exact HI|]. left. auto.
      * apply Forall_app; split; auto.
  - cbn [bind]. eexists. split; [reflexivity|]. split.
    + replace (acc ++ [(o, v)]) with (somes (results ++ [Some (o, v)])) by (rewrite somes_app; simpl; now rewrite I1).
      eapply Inv_snoc; [exact HI|]. left. split; auto. congruence.
    + apply Forall_app; split; auto.
Qed.

Lemma combine_loop_ok : forall allowed args st acc,
  Inv allowed st acc -> Forall typed acc -> Forall typed (somes args) ->
  exists r, combine_loop allowed args st = Ok r /\
            somes r = fold_left (sstep allowed) (somes args) acc.
Proof.
  induction args as [|[[o v]|] args IH]; intros st acc HI HT HA.
  - simpl. exists (fst st). split; auto. apply HI.
  - simpl in HA. inversion HA; subst.
    destruct (combine_step_ok allowed st acc o v) as [st' [E [I' T']]]; auto.
    change (combine_loop allowed (Some (o, v) :: args) st)
      with (do st' <- combine_step allowed st (Some (o, v)); combine_loop allowed args st').
    rewrite E. cbn [bind].
    destruct (IH st' _ I' T' H2) as [r [R1 R2]]. exists r. split; auto.
  - simpl. destruct st. cbn [bind]. apply IH; auto.
Qed.

Lemma combine_args_ok : forall allowed args, Forall typed (somes args) ->
  exists r, combine_args allowed args = Ok r /\
            somes r = fold_left (sstep allowed) (somes args) [].
Proof.
  intros. apply combine_loop_ok; auto. split; auto. simpl. intros o _ j v H2.
  destruct j; discriminate.
Qed.

Lemma convert_typed : forall l, Forall typed (convert_args l).
Proof.
  intros. unfold convert_args. rewrite Forall_forall. intros x H. apply in_map_iff in H as [[o v] [<- _]].
  destruct o; simpl; exact I.
Qed.

(** ** Replacing *)

Definition not_later (P : list parg) (a : parg) : bool :=
  accumulates (fst a) || negb (existsb (is_opt (fst a)) P).
Fixpoint eff (l : list parg) : list parg :=
  match l with
  | [] => []
  | a :: r => if not_later r a then a :: eff r else eff r
  end.

Lemma alw_replace : forall o, alw [REPLACE] o = negb (accumulates o).
Proof. destruct o; reflexivity. Qed.
Lemma alw_both : forall o, alw [REPLACE; EXTEND] o = true.
Proof. destruct o; reflexivity. Qed.
Lemma comb_replace : forall o a b, accumulates o = false -> comb_total (combine_of (parse_of o)) a b = b.
Proof. destruct o; intros; try discriminate; reflexivity. Qed.

Lemma sstep_replace : forall acc a,
  sstep [REPLACE] acc a = (if accumulates (fst a) then acc else remove_opt (fst a) acc) ++ [a].
Proof.
  intros acc [o v]. unfold sstep. rewrite alw_replace. simpl.
  destruct (accumulates o) eqn:A; simpl; auto.
  destruct (find (is_opt o) acc) as [[o' old]|] eqn:F.
  - now rewrite comb_replace.
  - rewrite remove_opt_none; auto. intros w C.
    eapply find_none in F; eauto. unfold is_opt in F; simpl in F. now rewrite opt_eqb_refl in F.
Qed.

Lemma not_later_cons : forall o v P o' v',
  not_later ((o, v) :: P) (o', v') = accumulates o' || negb (opt_eqb o' o || existsb (is_opt o') P).
Proof. reflexivity. Qed.

Lemma fold_replace : forall P acc, fold_left (sstep [REPLACE]) P acc = filter (not_later P) acc ++ eff P.
Proof.
  induction P as [|a P IH]; intros acc; simpl.
  - rewrite app_nil_r. induction acc as [|x acc IHa]; simpl; auto.
    change (not_later [] x) with (accumulates (fst x) || true). rewrite orb_true_r. f_equal. exact IHa.
  - rewrite IH, sstep_replace, filter_app, <- app_assoc. simpl.
    assert (X : filter (not_later P) (if accumulates (fst a) then acc else remove_opt (fst a) acc)
                = filter (not_later (a :: P)) acc).
    { destruct a as [o v]; simpl. destruct (accumulates o) eqn:A.
      - apply filter_ext. intros [o' v']. unfold not_later; simpl.
        destruct (accumulates o') eqn:A'; simpl; auto. unfold is_opt at 2; simpl.
        destruct (opt_eqb o' o) eqn:E; simpl; auto. apply opt_eqb_eq in E; congruence.
      - unfold remove_opt. clear -A. induction acc as [|[o' v'] acc IHa]; simpl; auto.
        rewrite not_later_cons. change (is_opt o (o', v')) with (opt_eqb o o').
        rewrite (opt_eqb_sym o o'). destruct (opt_eqb o' o) eqn:E; simpl.
        + apply opt_eqb_eq in E; subst o'. rewrite A. exact IHa.
        + rewrite IHa. reflexivity. }
    rewrite X. destruct (not_later P a); reflexivity.
Qed.

Lemma existsb_eff : forall o P, existsb (is_opt o) (eff P) = existsb (is_opt o) P.
Proof.
  induction P as [|[o' v'] P IH]; simpl; auto.
  destruct (not_later P (o', v')) eqn:N; simpl; rewrite IH; auto.
  unfold is_opt at 2; simpl. destruct (opt_eqb o o') eqn:E; simpl; auto.
  apply opt_eqb_eq in E; subst. unfold not_later in N; simpl in N.
  apply orb_false_iff in N as [_ N]. apply negb_false_iff in N. exact N.
Qed.

Lemma not_later_ext : forall P Q a, (forall o, existsb (is_opt o) P = existsb (is_opt o) Q) ->
  not_later P a = not_later Q a.
Proof. intros. unfold not_later. now rewrite H. Qed.

Lemma eff_app : forall a b, eff (a ++ b) = filter (not_later b) (eff a) ++ eff b.
Proof.
  induction a as [|x a IH]; intros; simpl; auto.
  rewrite IH.
  assert (N : not_later (a ++ b) x = not_later a x && not_later b x).
  { unfold not_later. rewrite existsb_app. destruct (accumulates (fst x)); simpl; auto.
    apply negb_orb. }
  rewrite N. destruct (not_later a x); simpl; auto. destruct (not_later b x); reflexivity.
Qed.

Lemma eff_idem : forall a, eff (eff a) = eff a.
Proof.
  induction a as [|x a IH]; simpl; auto.
  destruct (not_later a x) eqn:N; simpl; auto.
  rewrite (not_later_ext _ a) by (intros; apply existsb_eff). rewrite N. now rewrite IH.
Qed.

Lemma eff_eff_app : forall a b, eff (eff a ++ eff b) = eff (a ++ b).
Proof.
  intros. rewrite !eff_app, !eff_idem. f_equal. apply filter_ext. intros.
  apply not_later_ext. intros. apply existsb_eff.
Qed.

Lemma eff_typed : forall l, Forall typed l -> Forall typed (eff l).
Proof.
  induction l; intros; simpl; auto. inversion H; subst. destruct (not_later l a); auto.
Qed.

Lemma last_in_existsb : forall o l,
  existsb (is_opt o) (convert_args l) = match last_in o l with Some _ => true | None => false end.
Proof.
  induction l as [|[o' v] l IH]; simpl; auto.
  unfold is_opt at 1; simpl. rewrite IH. destruct (last_in o l); [apply orb_true_r|].
  rewrite opt_eqb_same. destruct (same_opt o o'); auto.
Qed.

Lemma eff_convert : forall l, eff (convert_args l) = convert_args (in_effect l).
Proof.
  induction l as [|[o v] l IH]; simpl; auto.
  unfold not_later; simpl. rewrite last_in_existsb.
  destruct (accumulates o) eqn:A; simpl.
  - now rewrite IH.
  - destruct (last_in o l); simpl; now rewrite IH.
Qed.

Definition holds_args (c : config) (l : list parg) : Prop := somes (args_of c) = eff l /\ Forall typed l.

Lemma make_config_ok : forall e l, exists c, make_config e l = Ok c /\ holds_args c (convert_args l)
  /\ (e = None -> enablers_of c = []).
Proof.
  intros. unfold make_config.
  assert (S : somes (map Some (convert_args l)) = convert_args l).
  { induction (convert_args l); simpl; congruence. }
  destruct (combine_args_ok [REPLACE] (map Some (convert_args l))) as [r [E R]].
  - rewrite S. apply convert_typed.
  - rewrite E. cbn [bind]. eexists. split; [reflexivity|]. split.
    + split; simpl; [|apply convert_typed]. rewrite R, S, fold_replace. reflexivity.
    + intros ->. reflexivity.
Qed.

Lemma config_combine_ok : forall a b la lb, holds_args a la -> holds_args b lb ->
  exists c, config_combine a b = Ok c /\ holds_args c (la ++ lb).
Proof.
  intros a b la lb [A1 A2] [B1 B2]. unfold config_combine.
  destruct (combine_args_ok [REPLACE] (args_of a ++ args_of b)) as [r [E R]].
  - rewrite somes_app, A1, B1. apply Forall_app. split; now apply eff_typed.
  - rewrite E. cbn [bind]. eexists. split; [reflexivity|]. split; simpl.
    + rewrite R, fold_replace. simpl. rewrite somes_app, A1, B1. apply eff_eff_app.
    + apply Forall_app; auto.
Qed.

(** ** Accumulating *)

Definition vals_of (o : Opt) (P : list parg) : list val := map snd (filter (is_opt o) P).
Definition list_of (v : val) : list string := match v with VList l => l | _ => [] end.
Definition merged (o : Opt) (P : list parg) : option val :=
  match vals_of o P with
  | [] => None
  | vs => Some (if accumulates o then VList (flat_map list_of vs) else last vs (VBool false))
  end.

Lemma filter_remove_same : forall o l, filter (is_opt o) (remove_opt o l) = [].
Proof.
  induction l as [|a l IH]; simpl; auto. destruct (is_opt o a) eqn:E; simpl; auto. now rewrite E.
Qed.
Lemma filter_remove_other : forall o o' l, o <> o' -> filter (is_opt o) (remove_opt o' l) = filter (is_opt o) l.
Proof.
  induction l as [|a l IH]; intros; simpl; auto.
  destruct (is_opt o' a) eqn:E; simpl; rewrite IH by auto; auto.
  destruct (is_opt o a) eqn:E2; auto. exfalso. apply H.
  unfold is_opt in *. apply opt_eqb_eq in E, E2. congruence.
Qed.

Lemma vals_of_app : forall o a b, vals_of o (a ++ b) = vals_of o a ++ vals_of o b.
Proof. intros. unfold vals_of. now rewrite filter_app, map_app. Qed.

Lemma last_snoc : forall A (l : list A) x d, last (l ++ [x]) d = x.
Proof. induction l as [|a l IH]; intros; simpl; auto. rewrite IH. destruct (l ++ [x]) eqn:E; auto. destruct l; discriminate. Qed.

Lemma typed_acc : forall o v, accumulates o = true -> typed (o, v) -> exists l, v = VList l.
Proof. intros o v A T. destruct o; try discriminate; destruct v; try (destruct T); eauto. Qed.
Lemma comb_extend : forall o a b, accumulates o = true ->
  comb_total (combine_of (parse_of o)) (VList a) (VList b) = VList (a ++ b).
Proof. destruct o; intros; try discriminate; reflexivity. Qed.

Lemma merged_snoc : forall o P v, typed (o, v) -> Forall typed P ->
  merged o (P ++ [(o, v)]) =
  Some (match merged o P with
        | Some old => comb_total (combine_of (parse_of o)) old v
        | None => v
        end).
Proof.
  intros o P v Hv HP. unfold merged. rewrite vals_of_app.
  unfold vals_of at 2. simpl. unfold is_opt; simpl. rewrite opt_eqb_refl. simpl.
  destruct (vals_of o P) as [|w ws] eqn:E; simpl.
  - destruct (accumulates o) eqn:A; auto.
    destruct (typed_acc o v A Hv) as [l ->]. simpl. now rewrite app_nil_r.
  - destruct (accumulates o) eqn:A.
    + destruct (typed_acc o v A Hv) as [l ->]. rewrite comb_extend by auto.
      rewrite flat_map_app. simpl. now rewrite app_nil_r, app_assoc.
    + rewrite comb_replace by auto. f_equal.
      change (match ws ++ [v] with [] => w | _ :: _ => last (ws ++ [v]) (VBool false) end)
        with (last ((w :: ws) ++ [v]) (VBool false)). apply last_snoc.
Qed.

Lemma merged_other : forall o o' v P, o <> o' -> merged o (P ++ [(o', v)]) = merged o P.
Proof.
  intros. unfold merged. rewrite vals_of_app. unfold vals_of at 2. simpl.
  unfold is_opt; simpl. apply opt_eqb_neq in H. rewrite H. simpl. now rewrite app_nil_r.
Qed.

Lemma fold_both : forall P, Forall typed P -> forall o,
  filter (is_opt o) (fold_left (sstep [REPLACE; EXTEND]) P []) =
  match merged o P with Some v => [(o, v)] | None => [] end.
Proof.
  induction P as [|[o' v] P IH] using rev_ind; intros HP o; auto.
  apply Forall_app in HP as [HP Hv]. inversion Hv; subst.
  rewrite fold_left_app. cbn [fold_left]. unfold sstep at 1. rewrite alw_both.
  set (acc := fold_left (sstep [REPLACE; EXTEND]) P []) in *.
  assert (F : find (is_opt o') acc = match merged o' P with Some w => Some (o', w) | None => None end).
  { assert (G : forall l, find (is_opt o') l = hd_error (filter (is_opt o') l)).
    { induction l as [|y l IHl]; simpl; auto. destruct (is_opt o' y); auto. }
    rewrite G, (IH HP o'). destruct (merged o' P); auto. }
  rewrite F. destruct (same_opt o o') as [->|N].
  - rewrite merged_snoc by auto. destruct (merged o' P) as [w|] eqn:M.
    + rewrite filter_app, filter_remove_same. simpl. unfold is_opt; simpl. now rewrite opt_eqb_refl.
    + rewrite filter_app, (IH HP o'), M. simpl. unfold is_opt; simpl. now rewrite opt_eqb_refl.
  - rewrite merged_other by auto. apply opt_eqb_neq in N as N'.
    destruct (merged o' P) as [w|] eqn:M.
    + rewrite filter_app, filter_remove_other by auto. rewrite (IH HP o). simpl.
      unfold is_opt; simpl. rewrite N'. apply app_nil_r.
    + rewrite filter_app, (IH HP o). simpl. unfold is_opt; simpl. rewrite N'. apply app_nil_r.
Qed.

(** ** Ordering *)

Definition ordered_ok (ord : list parg) : Prop :=
  List.length ord = 10 /\ forall o, exists v, nth_error ord (opt_index o) = Some (o, v).
Definition finish (o : Opt) (v : val) : val :=
  match o, v with PYLINT, VList l => VList (resolve_enable_disable_all l) | _, _ => v end.

Lemma opt_index_lt : forall o, opt_index o < 10.
Proof. destruct o; simpl; lia. Qed.
Lemma opt_index_inj : forall a b, opt_index a = opt_index b -> a = b.
Proof. destruct a, b; simpl; intros; congruence. Qed.

Lemma order_step_eq : forall ord o v, typed (o, v) ->
  order_step ord (Some (o, v)) = Ok (set_nth (opt_index o) (o, finish o v) ord).
Proof.
  intros. destruct o; try reflexivity.
  destruct (typed_acc PYLINT v eq_refl H) as [l ->]. reflexivity.
Qed.

Lemma ordered_set : forall ord o w o', ordered_ok ord ->
  nth_error (set_nth (opt_index o) (o, w) ord) (opt_index o') =
  if opt_eqb o o' then Some (o, w) else nth_error ord (opt_index o').
Proof.
  intros ord o w o' [L _]. rewrite nth_error_set_nth. unfold opt_eqb.
  destruct (Nat.eqb (opt_index o) (opt_index o')); auto.
  rewrite L. pose proof (opt_index_lt o'). apply Nat.ltb_lt in H. now rewrite H.
Qed.

Lemma order_loop_ok : forall r ord, Forall typed (somes r) -> ordered_ok ord ->
  exists ord', order_loop r ord = Ok ord' /\ ordered_ok ord' /\
  forall o, nth_error ord' (opt_index o) =
            match rev (vals_of o (somes r)) with
            | v :: _ => Some (o, finish o v)
            | [] => nth_error ord (opt_index o)
            end.
Proof.
  induction r as [|[[o v]|] r IH]; intros ord HT HO.
  - simpl. eexists. split; [reflexivity|]. split; auto.
  - simpl in HT. inversion HT; subst.
    change (order_loop (Some (o, v) :: r) ord)
      with (do ord' <- order_step ord (Some (o, v)); order_loop r ord').
    rewrite order_step_eq by auto. cbn [bind].
    destruct (IH (set_nth (opt_index o) (o, finish o v) ord)) as [ord' [E [O' N]]]; auto.
    + destruct HO as [L HO]. split; [now rewrite set_nth_length|].
      intros o'. rewrite ordered_set by (split; auto). destruct (opt_eqb o o') eqn:E; auto.
      apply opt_eqb_eq in E. subst. eauto.
    + exists ord'. split; auto. split; auto. intros o'. rewrite N.
      cbn [somes].
      assert (X : vals_of o' ((o, v) :: somes r) = (if opt_eqb o' o then [v] else []) ++ vals_of o' (somes r)).
      { unfold vals_of. simpl. change (is_opt o' (o, v)) with (opt_eqb o' o). destruct (opt_eqb o' o); auto. }
      rewrite X, rev_app_distr. rewrite ordered_set by auto. rewrite (opt_eqb_sym o o').
      destruct (rev (vals_of o' (somes r))); simpl; auto.
      destruct (opt_eqb o' o) eqn:E'; simpl; auto. apply opt_eqb_eq in E'. now subst.
  - simpl. cbn [bind]. apply IH; auto.
Qed.

Lemma default_ordered : ordered_ok default_args.
Proof. split; [reflexivity|]. destruct o; eexists; reflexivity. Qed.

(** ** Translation *)

Definition set_ok (s : option_set) : Prop := forall l vals, In (l, vals) s -> l <> EDULINT_L.

Lemma linter_to_option_ok : forall l, l <> EDULINT_L ->
  linter_to_option l = Ok (match l with PYLINT_L => PYLINT | _ => FLAKE8 end).
Proof. destruct l; intros; try congruence; reflexivity. Qed.

Lemma linter_vals : forall l o vals, l = PYLINT_L \/ l = FLAKE8_L -> accumulates o = true ->
  flat_map list_of (vals_of o (map (fun v => (match l with PYLINT_L => PYLINT | _ => FLAKE8 end,
     convert (conv_of (parse_of (match l with PYLINT_L => PYLINT | _ => FLAKE8 end))) (Some v))) vals))
  = if belongs o l then vals else [].
Proof.
  intros l o vals HL A. induction vals as [|v vals IH].
  - destruct (belongs o l); reflexivity.
  - destruct HL; subst l; destruct o; try discriminate; unfold vals_of in *; simpl in *;
      try (now rewrite IH); exact IH.
Qed.

Lemma apply_option_set_ok : forall s, set_ok s -> exists ps, apply_option_set s = Ok ps /\
  Forall typed ps /\ Forall (fun a => accumulates (fst a) = true) ps /\
  forall o, accumulates o = true -> flat_map list_of (vals_of o ps) = set_supplies o s.
Proof.
  unfold apply_option_set. induction s as [|[l vals] s IH]; intros HS.
  - simpl. exists []. repeat split; auto.
  - destruct IH as [ps [E [T [F S]]]].
    { intros l' v' H. apply (HS l' v'). now right. }
    simpl. rewrite linter_to_option_ok by (apply (HS l vals); now left). cbn [bind].
    destruct (mapM _ s) as [ls|]; [|discriminate]. cbn [bind] in *. inversion E; subst ps.
    assert (HL : l = PYLINT_L \/ l = FLAKE8_L).
    { destruct l; auto. exfalso. eapply HS; [now left | reflexivity]. }
    eexists. split; [reflexivity|]. simpl. repeat split.
    + apply Forall_app; split; auto. rewrite Forall_forall. intros x Hx.
      apply in_map_iff in Hx as [v [<- _]]. destruct HL; subst l; exact I.
    + apply Forall_app; split; auto. rewrite Forall_forall. intros x Hx.
      apply in_map_iff in Hx as [v [<- _]]. destruct HL; subst l; reflexivity.
    + intros o Ho. rewrite vals_of_app, flat_map_app, S by auto. f_equal.
      exact (linter_vals l o vals HL Ho).
Qed.

Lemma translate_groups_ok : forall sets gs, sets_wellformed sets ->
  exists ps, translate_groups sets gs = Ok ps /\
  Forall typed ps /\ Forall (fun a => accumulates (fst a) = true) ps /\
  forall o, accumulates o = true ->
            flat_map list_of (vals_of o ps) = flat_map (named_set_supplies o sets) gs.
Proof.
  intros sets gs W. induction gs as [|g gs [ps [E [T [F S]]]]].
  - simpl. exists []. repeat split; auto.
  - simpl. assert (X : exists qs, match dget g sets with None => Ok [] | Some s => apply_option_set s end = Ok qs
      /\ Forall typed qs /\ Forall (fun a => accumulates (fst a) = true) qs /\
      forall o, accumulates o = true -> flat_map list_of (vals_of o qs) = named_set_supplies o sets g).
    { unfold named_set_supplies. destruct (dget g sets) as [s|] eqn:D.
      - apply apply_option_set_ok. apply dget_in in D. exact (W g s D).
      - exists []. repeat split; auto. }
    destruct X as [qs [E2 [T2 [F2 S2]]]]. rewrite E2, E. cbn [bind].
    exists (qs ++ ps). split; auto. split; [apply Forall_app; auto|]. split; [apply Forall_app; auto|].
    intros o Ho. rewrite vals_of_app, flat_map_app, S, S2 by auto. reflexivity.
Qed.

Lemma convert_groups : forall v, exists gs, convert (conv_of (parse_of SET_GROUPS)) v = VList gs /\
  gs = match v with Some s => comma_parts s | None => [] end.
Proof. intros [s|]; simpl; eauto. Qed.

Lemma translate_arg_ok : forall sets o v, sets_wellformed sets ->
  exists ps, translate_arg sets (o, convert (conv_of (parse_of o)) v) = Ok ps /\
  Forall typed ps /\
  (forall o', accumulates o' = true -> flat_map list_of (vals_of o' ps) = supplies o' sets (o, v)) /\
  (forall o', accumulates o' = false ->
     vals_of o' ps = if same_opt o' o then [convert (conv_of (parse_of o)) v] else []).
Proof.
  intros sets o v W. unfold translate_arg. simpl fst. simpl snd.
  assert (G : exists gp, match o, convert (conv_of (parse_of o)) v with
               | SET_GROUPS, VList gs => translate_groups sets gs
               | SET_GROUPS, _ => Raise TypeError
               | _, _ => Ok []
               end = Ok gp /\ Forall typed gp /\ Forall (fun a => accumulates (fst a) = true) gp /\
               forall o', accumulates o' = true -> flat_map list_of (vals_of o' gp) =
                 match o, v with SET_GROUPS, Some s => flat_map (named_set_supplies o' sets) (comma_parts s) | _, _ => [] end).
  { destruct (same_opt o SET_GROUPS) as [->|N].
    - destruct (convert_groups v) as [gs [E1 E2]]. rewrite E1.
      destruct (translate_groups_ok sets gs W) as [ps [A [B [C D]]]].
      exists ps. repeat split; auto. intros o' Ho. rewrite D by auto. rewrite E2. destruct v; auto.
    - exists []. destruct o; try congruence; repeat split; auto. }
  destruct G as [gp [G1 [G2 [G3 G4]]]]. rewrite G1. cbn [bind].
  assert (X : exists qs, match dget (to_name o) sets with None => Ok [] | Some s => apply_option_set s end = Ok qs
      /\ Forall typed qs /\ Forall (fun a => accumulates (fst a) = true) qs /\
      forall o', accumulates o' = true -> flat_map list_of (vals_of o' qs) = named_set_supplies o' sets (to_name o)).
  { unfold named_set_supplies. destruct (dget (to_name o) sets) as [s|] eqn:D.
    - apply apply_option_set_ok. apply dget_in in D. exact (W _ s D).
    - exists []. repeat split; auto. }
  destruct X as [qs [X1 [X2 [X3 X4]]]]. rewrite X1. cbn [bind].
  eexists. split; [reflexivity|]. split; [|split].
  - constructor; [destruct o; exact I|]. apply Forall_app; auto.
  - intros o' Ho. change ((o, convert (conv_of (parse_of o)) v) :: gp ++ qs)
      with ([(o, convert (conv_of (parse_of o)) v)] ++ (gp ++ qs)).
    rewrite !vals_of_app, !flat_map_app, G4, X4 by auto. unfold supplies. cbn [fst snd]. f_equal.
    unfold vals_of; simpl. unfold is_opt; simpl. rewrite opt_eqb_same.
    destruct (same_opt o' o) as [->|N].
    + destruct (same_opt o o); [|congruence]. simpl. rewrite app_nil_r.
      destruct o; try discriminate; reflexivity.
    + destruct (same_opt o o'); [congruence|]. reflexivity.
  - intros o' Ho. change ((o, convert (conv_of (parse_of o)) v) :: gp ++ qs)
      with ([(o, convert (conv_of (parse_of o)) v)] ++ (gp ++ qs)).
    assert (Z : forall l, Forall (fun a => accumulates (fst a) = true) l -> vals_of o' l = []).
    { clear -Ho. induction l as [|[a b] l IH]; intros H; auto. inversion H; subst.
      unfold vals_of in *. simpl. unfold is_opt at 1; simpl.
      destruct (opt_eqb o' a) eqn:E; auto. apply opt_eqb_eq in E; subst. simpl in *. congruence. }
    rewrite !vals_of_app, (Z gp G3), (Z qs X3), !app_nil_r.
    unfold vals_of; simpl. unfold is_opt; simpl. rewrite opt_eqb_same. destruct (same_opt o' o); auto.
Qed.

Lemma translate_ok : forall sets l args, sets_wellformed sets -> somes args = convert_args l ->
  exists ps, translate sets args = Ok (map Some ps) /\ Forall typed ps /\
  (forall o, accumulates o = true -> flat_map list_of (vals_of o ps) = flat_map (supplies o sets) l) /\
  (forall o, accumulates o = false -> vals_of o ps = vals_of o (convert_args l)).
Proof.
  intros sets l args W E. unfold translate. rewrite E. clear E args.
  induction l as [|[o v] l IH].
  - simpl. exists []. repeat split; auto.
  - simpl. destruct (translate_arg_ok sets o v W) as [ps [A [B [C D]]]]. rewrite A. cbn [bind].
    destruct IH as [qs [A2 [B2 [C2 D2]]]].
    destruct (mapM (translate_arg sets) (convert_args l)) as [ls|]; [|discriminate].
    cbn [bind] in *. inversion A2. exists (ps ++ qs). split.
    + simpl. rewrite !map_app, H0. reflexivity.
    + split; [apply Forall_app; auto|]. split.
      * intros o' Ho. rewrite vals_of_app, flat_map_app, C, C2 by auto. reflexivity.
      * intros o' Ho. rewrite vals_of_app, D, D2 by auto.
        change ((o, convert (conv_of (parse_of o)) v) :: convert_args l)
          with ([(o, convert (conv_of (parse_of o)) v)] ++ convert_args l).
        rewrite vals_of_app. f_equal. unfold vals_of; simpl. unfold is_opt; simpl.
        rewrite opt_eqb_same. destruct (same_opt o' o); auto.
Qed.

(** ** Enablers never fail on well-formed option sets *)

Lemma set_enablers_ok : forall name s d, set_ok s -> exists d', set_enablers name s d = Ok d'.
Proof.
  induction s as [|[l vals] s IH]; intros d H; simpl; eauto.
  assert (L : l <> EDULINT_L) by (apply (H l vals); now left).
  destruct vals; cbn [bind].
  - apply IH. intros l' v' H'. apply (H l' v'). now right.
  - rewrite linter_to_option_ok by auto. cbn [bind].
    apply IH. intros l' v' H'. apply (H l' v'). now right.
Qed.

Lemma sets_enablers_ok : forall sets d, sets_wellformed sets -> exists d', sets_enablers sets d = Ok d'.
Proof.
  induction sets as [|[name s] sets IH]; intros d H; simpl; eauto.
  destruct (set_enablers_ok name s d) as [d' E].
  - exact (H name s (or_introl eq_refl)).
  - rewrite E. cbn [bind]. apply IH. intros n' s' H'. apply (H n' s'). now right.
Qed.

(** ** The immutable configuration *)

Lemma somes_map_some : forall A (l : list A), somes (map Some l) = l.
Proof. induction l; simpl; congruence. Qed.

Lemma rev_vals_merged : forall o r ps,
  filter (is_opt o) (somes r) = match merged o ps with Some v => [(o, v)] | None => [] end ->
  rev (vals_of o (somes r)) = match merged o ps with Some v => [v] | None => [] end.
Proof. intros. unfold vals_of. rewrite H. destruct (merged o ps); auto. Qed.

Lemma to_immutable_ok : forall c l sets, sets_wellformed sets ->
  somes (args_of c) = convert_args l ->
  exists ic, to_immutable c sets = Ok ic /\
  (exists es, sets_enablers sets [] = Ok es /\ ienablers ic = dmerge es (enablers_of c)) /\
  forall o, iget ic o =
    Ok (if accumulates o
        then finish o (VList (flat_map (supplies o sets) l))
        else match rev (vals_of o (convert_args l)) with
             | v :: _ => v
             | [] => default (parse_of o)
             end).
Proof.
  intros c l sets W E. unfold to_immutable.
  destruct (translate_ok sets l (args_of c) W E) as [ps [T1 [T2 [T3 T4]]]].
  rewrite T1. cbn [bind].
  destruct (combine_args_ok [REPLACE; EXTEND] (map Some ps)) as [r [R1 R2]].
  { now rewrite somes_map_some. }
  rewrite R1. cbn [bind]. rewrite somes_map_some in R2.
  assert (M : forall o, rev (vals_of o (somes r)) = match merged o ps with Some v => [v] | None => [] end).
  { intros o. apply rev_vals_merged. rewrite R2. now apply fold_both. }
  destruct (order_loop_ok r default_args) as [ord [O1 [O2 O3]]].
  { rewrite Forall_forall. intros [o v] Hin.
    assert (In v (rev (vals_of o (somes r)))).
    { rewrite <- in_rev. unfold vals_of. apply in_map_iff. exists (o, v). split; auto.
      apply filter_In. split; auto. unfold is_opt; simpl. apply opt_eqb_refl. }
    rewrite M in H. unfold merged in H. destruct (vals_of o ps) as [|w ws] eqn:D; [destruct H|].
    destruct H as [<-|[]]. destruct (accumulates o) eqn:A.
    - destruct o; try discriminate; exact I.
    - assert (In (o, last (w :: ws) (VBool false)) ps).
      { assert (In (last (w :: ws) (VBool false)) (vals_of o ps)).
        { rewrite D. destruct (exists_last (l := w :: ws)) as [l' [a ->]]; [discriminate|].
          rewrite last_snoc. apply in_or_app. right. now left. }
        unfold vals_of in H. apply in_map_iff in H as [[o' v'] [H1 H2]].
        apply filter_In in H2 as [H2 H3]. apply opt_eqb_eq in H3. simpl in *. congruence. }
      rewrite Forall_forall in T2. now apply T2. }
  { apply default_ordered. }
  rewrite O1. cbn [bind]. destruct (sets_enablers_ok sets [] W) as [es Es]. rewrite Es. cbn [bind].
  eexists. split; [reflexivity|]. split; [exists es; auto|]. intros o. unfold iget. simpl.
  rewrite O3, M. destruct (accumulates o) eqn:A.
  - rewrite <- (T3 o A). unfold merged. destruct (vals_of o ps) as [|w ws] eqn:D.
    + simpl. destruct o; try discriminate; reflexivity.
    + rewrite A. reflexivity.
  - unfold merged. rewrite (T4 o A), A.
    destruct (vals_of o (convert_args l)) as [|w ws] eqn:D.
    + simpl. destruct o; reflexivity.
    + destruct (exists_last (l := w :: ws)) as [l' [a ->]]; [discriminate|].
      rewrite rev_app_distr, last_snoc. simpl.
      f_equal. destruct o; try discriminate; reflexivity.
Qed.

(** ** C01 and C02 *)

Lemma last_in_in_effect : forall o l, accumulates o = false ->
  rev (vals_of o (convert_args (in_effect l))) =
  match last_in o l with Some v => [convert (conv_of (parse_of o)) v] | None => [] end.
Proof.
  intros o l A. induction l as [|[o' v] l IH]; simpl; auto.
  assert (X : forall a b, vals_of o ((o', a) :: b) = (if same_opt o o' then [a] else []) ++ vals_of o b).
  { intros. unfold vals_of. simpl. unfold is_opt at 1; simpl. rewrite opt_eqb_same.
    destruct (same_opt o o'); auto. }
  destruct (accumulates o') eqn:A'; simpl.
  - rewrite X. destruct (same_opt o o'); [congruence|]. simpl. rewrite IH. destruct (last_in o l); auto.
  - destruct (last_in o' l) eqn:L; simpl.
    + rewrite IH. destruct (last_in o l) eqn:L2; auto.
      destruct (same_opt o o'); auto. congruence.
    + rewrite X, rev_app_distr, IH. destruct (same_opt o o') as [->|N].
      * now rewrite L.
      * destruct (last_in o l); auto.
Qed.

Lemma last_in_app : forall o a b, last_in o (a ++ b) =
  match last_in o b with Some v => Some v | None => last_in o a end.
Proof.
  induction a as [|[o' v] a IH]; intros; simpl; [destruct (last_in o b); auto|].
  rewrite IH. destruct (last_in o b); auto.
Qed.

Lemma convert_means : forall o t, Means o t (convert (conv_of (parse_of o)) t).
Proof.
  intros. destruct o; simpl; auto; destruct t as [s|]; auto;
  try (right; discriminate);
  eexists; (split; [reflexivity|]); unfold CommaParts; destruct (String.eqb s "") eqn:E;
  [apply String.eqb_eq in E; auto | | apply String.eqb_eq in E; auto | | apply String.eqb_eq in E; auto | | apply String.eqb_eq in E; auto | ];
  right; apply String.eqb_neq in E; (split; [auto|]); (split; [apply split_on_nonempty|]);
  (split; [apply join_split_on|]); clear E; induction s as [|c s IH]; simpl; repeat constructor;
  destruct (Ascii.eqb c ",") eqn:E; repeat constructor; auto;
  destruct (split_on "," s); repeat constructor; simpl; rewrite ?E; inversion IH; subst; auto.
Qed.

Lemma chain_ok : forall files base lb, holds_args base lb ->
  exists c, chain base files = Ok c /\ holds_args c (lb ++ convert_args (concat (map snd files))).
Proof.
  induction files as [|[n l] files IH]; intros base lb H; simpl.
  - exists base. rewrite app_nil_r. auto.
  - destruct (make_config_ok (Some n) l) as [c [E [Hc _]]]. rewrite E. cbn [bind].
    destruct (config_combine_ok base c _ _ H Hc) as [b [E2 H2]]. rewrite E2. cbn [bind].
    destruct (IH b _ H2) as [c' [E3 H3]]. exists c'. split; auto.
    unfold convert_args in *. now rewrite map_app, app_assoc.
Qed.

Lemma holds_effect : forall c l, holds_args c (convert_args l) ->
  somes (args_of c) = convert_args (in_effect l).
Proof. intros c l [H _]. now rewrite H, eff_convert. Qed.

Lemma final_config_ok : forall sets files infile cmd, sets_wellformed sets ->
  exists ic, final_config sets files infile cmd = Ok ic /\
  let l := concat (map snd files) ++ infile ++ cmd in
  forall o, iget ic o =
    Ok (if accumulates o
        then finish o (VList (flat_map (supplies o sets) (in_effect l)))
        else match last_in o l with
             | Some v => convert (conv_of (parse_of o)) v
             | None => default (parse_of o)
             end).
Proof.
  intros sets files infile cmd W. unfold final_config.
  destruct (make_config_ok None []) as [b [E1 [H1 _]]]. rewrite E1. cbn [bind].
  destruct (chain_ok files b _ H1) as [f [E2 H2]]. rewrite E2. cbn [bind].
  destruct (make_config_ok (Some "in-file"%string) infile) as [i [E3 [H3 _]]]. rewrite E3. cbn [bind].
  destruct (make_config_ok (Some "cmd"%string) cmd) as [c [E4 [H4 _]]]. rewrite E4. cbn [bind].
  destruct (config_combine_ok i c _ _ H3 H4) as [ic [E5 H5]]. rewrite E5. cbn [bind].
  destruct (config_combine_ok f ic _ _ H2 H5) as [a [E6 H6]]. rewrite E6. cbn [bind].
  simpl in H6. unfold convert_args in H6. rewrite <- !map_app in H6. fold (convert_args (concat (map snd files) ++ infile ++ cmd)) in H6.
  destruct (to_immutable_ok a (in_effect _) sets W (holds_effect _ _ H6)) as [r [E7 [_ H7]]].
  exists r. split; auto. cbv zeta. intros o. rewrite H7. f_equal.
  destruct (accumulates o) eqn:A; auto. rewrite last_in_in_effect by auto.
  destruct (last_in o _); auto.
Qed.

Lemma strongest_last : forall o (files : list (string * list uarg)) infile cmd,
  strongest o (cmd :: infile :: rev (map snd files)) = last_in o (concat (map snd files) ++ infile ++ cmd).
Proof.
  intros. simpl. rewrite !last_in_app. destruct (last_in o cmd); auto. destruct (last_in o infile); auto.
  induction files as [|[n l] files IH] using rev_ind; simpl; auto.
  rewrite map_app, rev_app_distr, concat_app. simpl. rewrite app_nil_r, last_in_app, <- IH. reflexivity.
Qed.

Lemma default_documented : forall o, default (parse_of o) = documented_default o.
Proof. destruct o; reflexivity. Qed.

Lemma C01_lemma : forall sets files infile cmd o, sets_wellformed sets -> accumulates o = false ->
  exists ic v, final_config sets files infile cmd = Ok ic /\ iget ic o = Ok v /\
  match strongest o (cmd :: infile :: rev (map snd files)) with
  | Some text => Means o text v
  | None => v = documented_default o
  end.
Proof.
  intros sets files infile cmd o W A.
  destruct (final_config_ok sets files infile cmd W) as [ic [E H]]. exists ic.
  cbv zeta in H. rewrite (H o), A. rewrite strongest_last.
  destruct (last_in o _); eexists; (split; [exact E|]); (split; [reflexivity|]).
  - apply convert_means.
  - apply default_documented.
Qed.

Lemma C02_lemma : forall sets files infile cmd, sets_wellformed sets ->
  exists ic, final_config sets files infile cmd = Ok ic /\
  let l := in_effect (concat (map snd files) ++ infile ++ cmd) in
  iget ic FLAKE8 = Ok (VList (flat_map (supplies FLAKE8 sets) l)) /\
  iget ic PYLINT = Ok (VList (resolve_enable_disable_all (flat_map (supplies PYLINT sets) l))).
Proof.
  intros sets files infile cmd W.
  destruct (final_config_ok sets files infile cmd W) as [ic [E H]]. exists ic. split; auto.
  split; [apply (H FLAKE8) | apply (H PYLINT)].
Qed.

Lemma in_effect_acc : forall o l, accumulates o = true ->
  filter (fun a => if same_opt (fst a) o then true else false) (in_effect l) =
  filter (fun a => if same_opt (fst a) o then true else false) l.
Proof.
  intros o l A. induction l as [|[o' v] l IH]; simpl; auto.
  destruct (accumulates o') eqn:A'; simpl.
  - now rewrite IH.
  - destruct (same_opt o' o); [congruence|]. destruct (last_in o' l); simpl; auto.
    destruct (same_opt o' o); [congruence|]. auto.
Qed.

(** Without option sets: exactly the values written, in order. *)
Lemma supplies_no_sets : forall o l,
  flat_map (supplies o []) l =
  flat_map (fun a => if same_opt (fst a) o then match snd a with Some v => [v] | None => [] end else []) l.
Proof.
  intros. apply flat_map_ext. intros [o' v]. unfold supplies, named_set_supplies. simpl.
  rewrite app_nil_r. destruct o'; try (now rewrite app_nil_r).
  destruct v; try (now rewrite app_nil_r).
  assert (X : forall l : list string, flat_map (fun _ => @nil string) l = []) by (induction l0; simpl; auto).
  rewrite X, app_nil_r. reflexivity.
Qed.

Lemma flat_map_filter_zero : forall A B (p : A -> bool) (f : A -> list B) l,
  (forall a, p a = false -> f a = []) -> flat_map f (filter p l) = flat_map f l.
Proof.
  induction l as [|a l IH]; intros; simpl; auto.
  destruct (p a) eqn:E; simpl; rewrite IH by auto; auto. now rewrite (H a E).
Qed.

Lemma C02_plain_lemma : forall files infile cmd o, accumulates o = true -> o = FLAKE8 ->
  exists ic, final_config [] files infile cmd = Ok ic /\
  iget ic o = Ok (VList (flat_map (fun a => if same_opt (fst a) o then match snd a with Some v => [v] | None => [] end else [])
                          (concat (map snd files) ++ infile ++ cmd))).
Proof.
  intros files infile cmd o A ->.
  destruct (C02_lemma [] files infile cmd) as [ic [E [H _]]]; [intros ? ? []|].
  exists ic. split; auto. rewrite H. do 2 f_equal. rewrite supplies_no_sets.
  rewrite <- (flat_map_filter_zero _ _ (fun a => if same_opt (fst a) FLAKE8 then true else false)).
  2:{ intros [o' v']; simpl. destruct (same_opt o' FLAKE8); congruence. }
  rewrite in_effect_acc by reflexivity. apply flat_map_filter_zero.
  intros [o' v']; simpl. destruct (same_opt o' FLAKE8); congruence.
Qed.

(** ** C03 and C04: enable/disable all *)

Lemma run_settings : forall msg X matches os ow a (s1 s2 : state msg X), snd s1 = snd s2 ->
  snd (run_arg msg X matches os ow a s1) = snd (run_arg msg X matches os ow a s2).
Proof.
  intros. unfold run_arg. destruct (String.prefix "--enable=" a); auto.
  destruct (String.prefix "--disable=" a); auto. simpl. now rewrite H.
Qed.

Lemma run_switch_settings : forall msg X matches os ow a (s : state msg X),
  String.prefix "--enable=" a = true \/ String.prefix "--disable=" a = true ->
  snd (run_arg msg X matches os ow a s) = snd s.
Proof.
  intros. unfold run_arg. destruct (String.prefix "--enable=" a); auto.
  destruct (String.prefix "--disable=" a); auto. destruct H; discriminate.
Qed.

Lemma resolve_settings : forall msg X matches os ow r e (s : state msg X),
  Forall (fun a => plain_switch (lower a)) r ->
  snd (fold_right (run_arg msg X matches os ow) s (resolve_loop r true e)) =
  snd (fold_right (run_arg msg X matches os ow) s (map lower r)).
Proof.
  intros msg X matches os ow r e s H. induction r as [|a r IH]; auto.
  inversion H as [|? ? [P1 P2] Hr]; subst. specialize (IH Hr). cbn [resolve_loop map fold_right].
  destruct (String.eqb (lower a) "--enable=noop"); [cbn [fold_right]; now apply run_settings|].
  destruct (String.eqb (lower a) "--disable=all" || String.eqb (lower a) "--enable=all") eqn:E.
  - rewrite run_switch_settings; auto.
    apply orb_true_iff in E as [E|E]; apply String.eqb_eq in E; rewrite E; [right | left]; reflexivity.
  - destruct (true && (String.prefix "--disable" (lower a) && e || String.prefix "--enable" (lower a) && negb e)) eqn:D.
    + simpl in D. rewrite run_switch_settings; auto.
      apply orb_true_iff in D as [D|D]; apply andb_true_iff in D as [D _]; auto.
    + cbn [fold_right]. now apply run_settings.
Qed.

Lemma run_all : forall msg X matches os ow a (s1 s2 : state msg X),
  (a = "--disable=all" \/ a = "--enable=all")%string -> snd s1 = snd s2 ->
  run_arg msg X matches os ow a s1 = run_arg msg X matches os ow a s2.
Proof. intros msg X matches os ow a [f1 x1] [f2 x2] [->| ->] H; simpl in H; subst; reflexivity. Qed.

Lemma resolve_run : forall msg X matches os ow r e (s : state msg X),
  Forall (fun a => plain_switch (lower a)) r ->
  fold_right (run_arg msg X matches os ow) s (resolve_loop r false e) =
  fold_right (run_arg msg X matches os ow) s (map lower r).
Proof.
  intros msg X matches os ow r e s H. revert e. induction r as [|a r IH]; intros e; auto.
  inversion H as [|? ? P Hr]; subst. specialize (IH Hr). cbn [resolve_loop map fold_right].
  destruct (String.eqb (lower a) "--enable=noop"); [cbn [fold_right]; now rewrite IH|].
  destruct (String.eqb (lower a) "--disable=all" || String.eqb (lower a) "--enable=all") eqn:E.
  - cbn [fold_right]. apply run_all.
    + apply orb_true_iff in E as [E|E]; apply String.eqb_eq in E; auto.
    + now apply resolve_settings.
  - cbn [andb fold_right]. now rewrite IH.
Qed.

Lemma C03_lemma : forall msg X matches os ow l (s : state msg X),
  Forall (fun a => plain_switch (lower a)) l ->
  run_args msg X matches os ow (resolve_enable_disable_all l) s =
  run_args msg X matches os ow (map lower l) s.
Proof.
  intros. unfold run_args, resolve_enable_disable_all.
  rewrite <- !(fold_left_rev_right (run_arg msg X matches os ow)), rev_involutive.
  rewrite resolve_run; [|apply Forall_rev; auto]. now rewrite map_rev.
Qed.

Lemma subseq_refl : forall A (l : list A), subseq l l.
Proof. induction l; constructor; auto. Qed.
Lemma subseq_app : forall A (a a' b b' : list A), subseq a a' -> subseq b b' -> subseq (a ++ b) (a' ++ b').
Proof. induction 1; intros; simpl; try constructor; auto. Qed.
Lemma subseq_rev : forall A (l l' : list A), subseq l l' -> subseq (rev l) (rev l').
Proof.
  induction 1; simpl.
  - constructor.
  - apply subseq_app; auto. apply subseq_refl.
  - rewrite <- (app_nil_r (rev l)). apply subseq_app; auto. constructor. constructor.
Qed.

Lemma resolve_subseq : forall r a e, subseq (resolve_loop r a e) (map lower r).
Proof.
  induction r as [|x r IH]; intros; [constructor|]. cbn [resolve_loop map].
  destruct (String.eqb (lower x) "--enable=noop"); [constructor; auto|].
  destruct (String.eqb (lower x) "--disable=all" || String.eqb (lower x) "--enable=all").
  - destruct a; [apply subseq_drop | apply subseq_keep]; auto.
  - destruct (a && _); [apply subseq_drop | apply subseq_keep]; auto.
Qed.

Lemma C04_subseq : forall l, subseq (resolve_enable_disable_all l) (map lower l).
Proof.
  intros. unfold resolve_enable_disable_all. rewrite <- (rev_involutive (map lower l)), <- map_rev.
  apply subseq_rev, resolve_subseq.
Qed.

Lemma C04_lower_lemma : forall l, map lower l = l -> subseq (resolve_enable_disable_all l) l.
Proof. intros l H. pose proof (C04_subseq l) as S. now rewrite H in S. Qed.

(** Every argument that is not a message switch survives. *)
Lemma resolve_keeps : forall r x a e, In x r ->
  String.prefix "--enable" (lower x) = false -> String.prefix "--disable" (lower x) = false ->
  In (lower x) (resolve_loop r a e).
Proof.
  induction r as [|y r IH]; intros x a e H E D; [destruct H|]. cbn [resolve_loop].
  destruct H as [->|H].
  - destruct (String.eqb (lower x) "--enable=noop"); [now left|].
    destruct (String.eqb (lower x) "--disable=all" || String.eqb (lower x) "--enable=all") eqn:Q.
    + exfalso. apply orb_true_iff in Q as [Q|Q]; apply String.eqb_eq in Q; rewrite Q in *; discriminate.
    + rewrite E, D. simpl. rewrite andb_false_r. now left.
  - destruct (String.eqb (lower y) "--enable=noop"); [right; auto|].
    destruct (String.eqb (lower y) "--disable=all" || String.eqb (lower y) "--enable=all").
    + destruct a; [auto | right; auto].
    + destruct (a && _); [auto | right; auto].
Qed.

Lemma C03_keeps_lemma : forall l x, In x l ->
  String.prefix "--enable" (lower x) = false -> String.prefix "--disable" (lower x) = false ->
  In (lower x) (resolve_enable_disable_all l).
Proof.
  intros. unfold resolve_enable_disable_all. rewrite <- in_rev. apply resolve_keeps; auto.
  now rewrite <- in_rev.
Qed.

(** ** C14: option splitting *)

Lemma to_name_no_eq : forall o, has_char "=" (to_name o) = false.
Proof. destruct o; reflexivity. Qed.

Lemma lower_ascii_eq : forall c, Ascii.eqb (lower_ascii c) "=" = Ascii.eqb c "=".
Proof. intros [[|] [|] [|] [|] [|] [|] [|] [|]]; reflexivity. Qed.
Lemma has_eq_lower : forall s, has_char "=" (lower s) = has_char "=" s.
Proof. induction s; simpl; auto. now rewrite lower_ascii_eq, IHs. Qed.

Lemma safe_from_name_to_name : forall o s, lower s = to_name o -> opt_safe_from_name s = Some o.
Proof. intros o s H. unfold opt_safe_from_name. rewrite H. destruct o; reflexivity. Qed.
Lemma safe_from_name_alias : forall s, lower s = "config"%string -> opt_safe_from_name s = Some CONFIG_FILE.
Proof. intros s H. unfold opt_safe_from_name. now rewrite H. Qed.
Lemma safe_from_name_inv : forall s o, opt_safe_from_name s = Some o ->
  lower s = to_name o \/ (lower s = "config"%string /\ o = CONFIG_FILE).
Proof.
  intros s o H. unfold opt_safe_from_name, alias in H.
  destruct (String.eqb (lower s) "config") eqn:E.
  - apply String.eqb_eq in E. inversion H; auto.
  - apply find_some in H as [_ H]. apply String.eqb_eq in H. auto.
Qed.

Lemma documented_name_from : forall o s, documented_name o s <-> opt_safe_from_name s = Some o.
Proof.
  split.
  - intros [H|[H ->]]; [now apply safe_from_name_to_name | now apply safe_from_name_alias].
  - apply safe_from_name_inv.
Qed.

Lemma documented_no_eq : forall o s, documented_name o s -> has_char "=" s = false.
Proof.
  intros o s [H|[H _]]; rewrite <- has_eq_lower, H; [apply to_name_no_eq | reflexivity].
Qed.

Lemma parse_args_app : forall a b, parse_args (a ++ b) = parse_args a ++ parse_args b.
Proof.
  induction a as [|x a IH]; intros; simpl; auto. destruct (get_name_val x) as [n v].
  destruct (parse_option n _); simpl; now rewrite IH.
Qed.

Lemma C14_value_lemma : forall o name v, documented_name o name -> o <> NO_FLAKE8 ->
  parse_args [(name ++ "=" ++ v)%string] = [(o, Some v)].
Proof.
  intros o name v H N. unfold parse_args, get_name_val. simpl append.
  rewrite split_first_app by (eapply documented_no_eq; eauto).
  unfold parse_option. apply documented_name_from in H. rewrite H.
  destruct o; try congruence; reflexivity.
Qed.

Lemma C14_flag_lemma : forall name, documented_name NO_FLAKE8 name ->
  parse_args [name] = [(NO_FLAKE8, None)] /\ forall v, parse_args [(name ++ "=" ++ v)%string] = [].
Proof.
  intros name H. pose proof (documented_no_eq _ _ H) as NE. apply documented_name_from in H. split.
  - unfold parse_args, get_name_val. rewrite split_first_none by auto. unfold parse_option.
    rewrite H. reflexivity.
  - intros v. unfold parse_args, get_name_val. simpl append. rewrite split_first_app by auto.
    unfold parse_option. rewrite H. reflexivity.
Qed.

Lemma C14_only_lemma : forall a o v, parse_args [a] = [(o, v)] ->
  exists name, documented_name o name /\
    match v with Some x => a = (name ++ "=" ++ x)%string | None => a = name /\ o = NO_FLAKE8 end.
Proof.
  intros a o v H. unfold parse_args, get_name_val in H.
  destruct (split_first "=" a) as [[n x]|] eqn:S.
  - apply split_first_some in S as [-> _]. unfold parse_option in H.
    destruct (opt_safe_from_name n) as [o'|] eqn:F; [|discriminate].
    apply documented_name_from in F.
    destruct (takes (parse_of o')) eqn:T; inversion H; subst. exists n. auto.
  - unfold parse_option in H. destruct (opt_safe_from_name a) as [o'|] eqn:F; [|discriminate].
    apply documented_name_from in F.
    destruct (takes (parse_of o')) eqn:T; inversion H; subst. exists a. split; auto. split; auto.
    destruct o; try discriminate; auto.
Qed.
