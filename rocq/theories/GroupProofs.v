From Coq Require Import String Ascii List Bool Arith Lia Permutation.
From Verif Require Import Base ConfigModel ConfigSpec ConfigProofs PathModel ConfigFileModel ConfigFileSpec
  ConfigFileProofs.
Import ListNotations.
Local Open Scope string_scope.
Local Open Scope list_scope.
Local Open Scope nat_scope.

(** ** Python file names *)

Lemma str_app_nil : forall s : string, (s ++ "")%string = s.
Proof. induction s; simpl; congruence. Qed.
Lemma str_app_assoc : forall a b c : string, ((a ++ b) ++ c)%string = (a ++ (b ++ c))%string.
Proof. induction a; simpl; intros; congruence. Qed.
Lemma str_length_app : forall a b : string, String.length (a ++ b) = String.length a + String.length b.
Proof. induction a; simpl; intros; auto. Qed.
Lemma drop_app : forall a b, drop (String.length a) (a ++ b)%string = b.
Proof. induction a; simpl; intros; auto. Qed.
Lemma substring_app : forall a b, substring 0 (String.length a) (a ++ b)%string = a.
Proof.
  induction a; simpl; intros; [destruct b; reflexivity|]. now rewrite IHa.
Qed.
Lemma split_at : forall n s, n <= String.length s -> exists a b, s = (a ++ b)%string /\ String.length a = n.
Proof.
  induction n; intros s H.
  - exists EmptyString, s. auto.
  - destruct s as [|c s]; simpl in H; [lia|]. destruct (IHn s) as [a [b [-> E]]]; [lia|].
    exists (String c a), b. simpl. auto.
Qed.
Lemma lower_app : forall a b, lower (a ++ b) = (lower a ++ lower b)%string.
Proof. induction a; simpl; intros; congruence. Qed.
Lemma lower_length : forall a, String.length (lower a) = String.length a.
Proof. induction a; simpl; congruence. Qed.
Lemma lower_ascii_dot : forall c, Ascii.eqb (lower_ascii c) "." = Ascii.eqb c ".".
Proof. intros [[][][][][][][][]]; reflexivity. Qed.
Lemma has_dot_lower : forall s, has_char "." (lower s) = has_char "." s.
Proof. induction s as [|c s IH]; simpl; auto. now rewrite lower_ascii_dot, IH. Qed.

Lemma ends_with_iff : forall suf s, ends_with suf s = true <-> exists a, s = (a ++ suf)%string.
Proof.
  intros. unfold ends_with. rewrite andb_true_iff, String.eqb_eq, Nat.leb_le. split.
  - intros [H1 H2]. destruct (split_at (String.length s - String.length suf) s) as [a [b [E L]]]; [lia|].
    exists a. rewrite <- L, E, drop_app in H1. now subst b.
  - intros [a ->]. rewrite str_length_app.
    replace (String.length a + String.length suf - String.length suf) with (String.length a) by lia.
    rewrite drop_app. split; auto. lia.
Qed.

Lemma split_on_app_last : forall c a b, has_char c b = false ->
  split_on c (a ++ String c b) = split_on c a ++ [b].
Proof.
  induction a as [|x a IH]; simpl; intros b H.
  - rewrite Ascii.eqb_refl. now rewrite split_on_no_char.
  - rewrite IH by auto. destruct (Ascii.eqb x c); auto.
    destruct (split_on c a) eqn:E; [exfalso; eapply split_on_nonempty; eauto|]. reflexivity.
Qed.

Lemma strip_dots_app : forall a b, strip_dots (a ++ b) =
  if String.eqb (strip_dots a) "" then strip_dots b else (strip_dots a ++ b)%string.
Proof.
  induction a as [|c a IH]; intros; [reflexivity|]. simpl.
  destruct (Ascii.eqb c "."); [apply IH|]. reflexivity.
Qed.
Lemma strip_dots_no : forall s, has_char "." s = false -> strip_dots s = s.
Proof. destruct s; simpl; auto. destruct (Ascii.eqb a "."); auto. discriminate. Qed.
Lemma strip_dots_spec : forall s, exists d, s = (d ++ strip_dots s)%string /\ strip_dots d = "".
Proof.
  induction s as [|c s [d [E D]]]; [exists ""; auto|]. simpl. destruct (Ascii.eqb c ".") eqn:H.
  - exists (String c d). simpl. rewrite H. split; auto. congruence.
  - exists "". auto.
Qed.
Lemma strip_dots_head : forall s c r, strip_dots s = String c r -> Ascii.eqb c "." = false.
Proof.
  induction s as [|x s IH]; simpl; intros c r H; [discriminate|].
  destruct (Ascii.eqb x ".") eqn:E; [eauto|]. inversion H; subst; auto.
Qed.

Lemma last_app_one : forall A (l : list A) x d, last (l ++ [x]) d = x.
Proof. induction l; intros; auto. simpl. rewrite IHl. destruct (l ++ [x]) eqn:E; auto. destruct l; discriminate. Qed.

Lemma is_py_name : forall path, is_py path = python_name (basename path).
Proof.
  intros path. unfold is_py. generalize (basename path). intros b. unfold python_name.
  destruct (ends_with ".py" (lower b)) eqn:E.
  - apply ends_with_iff in E as [a0 Ea]. simpl.
    assert (L : String.length b = String.length a0 + 3).
    { rewrite <- (lower_length b), Ea, str_length_app. reflexivity. }
    destruct (split_at (String.length b - 3) b) as [p [e [Eb Lp]]]; [lia|].
    assert (Le : String.length e = 3).
    { assert (String.length b = String.length p + String.length e) by (rewrite Eb at 1; apply str_length_app). lia. }
    rewrite <- Lp. subst b. rewrite substring_app.
    assert (lower e = ".py").
    { rewrite lower_app in Ea.
      assert (X : drop (String.length (lower p)) (lower p ++ lower e)%string = drop (String.length a0) (a0 ++ ".py")%string).
      { rewrite Ea. f_equal. rewrite lower_length. rewrite str_length_app in L. lia. }
      now rewrite !drop_app in X. }
    destruct e as [|d e2]; [discriminate|]. simpl in H. inversion H.
    assert (Hd : d = "."%char).
    { destruct d as [[][][][][][][][]]; vm_compute in H1; congruence. }
    subst d.
    assert (Nd : has_char "." e2 = false) by (rewrite <- has_dot_lower, H2; reflexivity).
    rewrite strip_dots_app. destruct (String.eqb (strip_dots p) "") eqn:Ep.
    + simpl. rewrite strip_dots_no by auto. rewrite split_on_no_char by auto. reflexivity.
    + rewrite split_on_app_last by auto. rewrite last_app_one, H2.
      destruct (split_on "." (strip_dots p)) as [|x [|y l]] eqn:S; [exfalso; eapply split_on_nonempty; eauto| |]; reflexivity.
  - simpl. destruct (split_on "." (strip_dots b)) as [|x l] eqn:S; auto. destruct l as [|y l]; auto.
    destruct (String.eqb (lower (last (x :: y :: l) "")) "py") eqn:P; auto. exfalso.
    apply String.eqb_eq in P.
    assert (M : forall t, ends_with ".py" (lower t) = true -> ends_with ".py" (lower b) = true -> False) by congruence.
    apply (M ".py"); [reflexivity|].
    apply ends_with_iff. destruct (strip_dots_spec b) as [d [Eb _]].
    assert (J : strip_dots b = join "." (x :: y :: l)) by (rewrite <- S; symmetry; apply join_split_on).
    destruct (exists_last (l := y :: l)) as [l' [z Ez]]; [discriminate|].
    rewrite Ez in *.
    assert (Q : forall l' x, join "." (x :: l' ++ [z]) = (join "." (x :: l') ++ "." ++ z)%string).
    { clear. induction l' as [|y l' IH]; intros x; [reflexivity|].
      change (join "." (x :: (y :: l') ++ [z])) with (x ++ String "." (join "." (y :: l' ++ [z])))%string.
      rewrite IH. change (join "." (x :: y :: l')) with (x ++ String "." (join "." (y :: l')))%string.
      rewrite str_app_assoc. reflexivity. }
    rewrite Q in J. exists (lower d ++ lower (join "." (x :: l')))%string.
    rewrite Eb, J, !lower_app, str_app_assoc. f_equal. f_equal.
    assert (last (x :: l' ++ [z]) "" = z) by (change (x :: l' ++ [z]) with ((x :: l') ++ [z]); apply last_app_one).
    rewrite H in P. rewrite P. reflexivity.
Qed.

(** ** Keys *)

Definition good_key (k : iconfig) : Prop := NoDup (map fst (ienablers k)).

Lemma fold_dset_nodup : forall A (f : A -> string * string) l (d : dict string), NoDup (map fst d) ->
  NoDup (map fst (fold_left (fun d a => dset (fst (f a)) (snd (f a)) d) l d)).
Proof. induction l; simpl; intros; auto. apply IHl, dset_nodup, H. Qed.

Lemma extract_nodup : forall e p v d, NoDup (map fst d) -> NoDup (map fst (extract_enabled e p v d)).
Proof.
  intros. unfold extract_enabled. destruct (String.prefix p v); auto.
  apply (fold_dset_nodup string (fun s => (s, e))); auto.
Qed.
Lemma add_enabled_nodup : forall e d o v, NoDup (map fst d) -> NoDup (map fst (add_enabled e d o v)).
Proof.
  intros. destruct o; simpl; auto; repeat apply extract_nodup; auto. now apply dset_nodup.
Qed.
Lemma fold_add_nodup : forall e o l d, NoDup (map fst d) ->
  NoDup (map fst (fold_left (fun d v => add_enabled e d o v) l d)).
Proof. induction l; simpl; intros; auto. apply IHl. now apply add_enabled_nodup. Qed.
Lemma set_enablers_nodup : forall n s d d', set_enablers n s d = Ok d' -> NoDup (map fst d) -> NoDup (map fst d').
Proof.
  induction s as [|[l vals] s IH]; simpl; intros d d' H N; [inversion H; subst; auto|].
  destruct vals as [|v vals].
  - cbn [bind] in H. eapply IH; eauto.
  - destruct (linter_to_option l); [|discriminate]. cbn [bind] in H. eapply IH; eauto.
    apply fold_add_nodup. auto.
Qed.
Lemma sets_enablers_nodup : forall s d d', sets_enablers s d = Ok d' -> NoDup (map fst d) -> NoDup (map fst d').
Proof.
  induction s as [|[n x] s IH]; simpl; intros d d' H N; [inversion H; subst; auto|].
  destruct (set_enablers n x d) eqn:E; [|discriminate]. cbn [bind] in H.
  eapply IH; eauto. eapply set_enablers_nodup; eauto.
Qed.
Lemma to_immutable_good : forall c sets k, to_immutable c sets = Ok k -> good_key k.
Proof.
  unfold to_immutable. intros c sets k H.
  destruct (translate sets (args_of c)); [|discriminate]. cbn [bind] in H.
  destruct (combine_args _ a); [|discriminate]. cbn [bind] in H.
  destruct (order_loop a0 default_args); [|discriminate]. cbn [bind] in H.
  destruct (sets_enablers sets []) eqn:E; [|discriminate]. cbn [bind] in H. inversion H; subst.
  unfold good_key; simpl. apply dmerge_nodup. eapply sets_enablers_nodup; eauto. constructor.
Qed.

Lemma list_eqb_eq : forall A (eqb : A -> A -> bool), (forall x y, eqb x y = true -> x = y) ->
  forall a b, list_eqb eqb a b = true -> a = b.
Proof.
  intros A eqb E. induction a as [|x a IH]; intros [|y b] H; simpl in H; try discriminate; auto.
  apply andb_true_iff in H as [H1 H2]. f_equal; auto.
Qed.
Lemma val_eqb_eq : forall a b, val_eqb a b = true -> a = b.
Proof.
  intros [x|x|[x|]] [y|y|[y|]] H; simpl in H; try discriminate.
  - apply Bool.eqb_prop in H. congruence.
  - f_equal. eapply list_eqb_eq; eauto. intros. now apply String.eqb_eq.
  - apply String.eqb_eq in H. congruence.
  - reflexivity.
Qed.

Lemma dict_eqb_get : forall a b, NoDup (map fst a) -> NoDup (map fst b) -> dict_eqb a b = true ->
  forall k, dget k a = dget k b.
Proof.
  intros a b Na Nb H k. unfold dict_eqb in H. apply andb_true_iff in H as [H1 H2].
  apply Nat.eqb_eq in H1. rewrite forallb_forall in H2.
  assert (I : incl (map fst a) (map fst b)).
  { intros x Hx. apply in_map_iff in Hx as [[k' v'] [E Hin]]. simpl in E; subst.
    specialize (H2 _ Hin). simpl in H2. destruct (dget x b) eqn:D; [|discriminate].
    apply dget_in in D. apply in_map_iff. exists (x, s). auto. }
  assert (J : incl (map fst b) (map fst a)).
  { apply NoDup_length_incl; auto. rewrite !map_length. lia. }
  destruct (dget k a) as [v|] eqn:D.
  - pose proof (dget_in _ _ _ _ D) as Hin. specialize (H2 _ Hin). simpl in H2.
    destruct (dget k b); [|discriminate]. apply String.eqb_eq in H2. congruence.
  - apply dget_none in D. symmetry. apply dget_none. intros X. apply D, J, X.
Qed.

Lemma iconfig_eqb_same : forall a b, good_key a -> good_key b -> iconfig_eqb a b = true -> same_iconfig a b.
Proof.
  intros a b Ga Gb H. unfold iconfig_eqb in H. apply andb_true_iff in H as [H1 H2]. split.
  - eapply list_eqb_eq; [|exact H1]. intros [o v] [o' v'] H. simpl in H.
    apply andb_true_iff in H as [X Y]. apply opt_eqb_eq in X. apply val_eqb_eq in Y. congruence.
  - now apply dict_eqb_get.
Qed.

Lemma same_refl : forall a, same_iconfig a a. Proof. split; auto. Qed.
Lemma same_trans : forall a b c, same_iconfig a b -> same_iconfig b c -> same_iconfig a c.
Proof. intros a b c [A1 A2] [B1 B2]. split; [congruence|]. intros. now rewrite A2. Qed.
Lemma same_sym : forall a b, same_iconfig a b -> same_iconfig b a.
Proof. intros a b [A1 A2]. split; [congruence|]. intros. now rewrite A2. Qed.

(** ** Grouping *)

Section Grouping.
  Variable infile : string -> res config.

  Definition tagged := list (iconfig * (config * list (string * node))).
  Definition untag (t : tagged) : groups :=
    map (fun '(k, (c, l)) => (k, (c, map fst l))) t.
  Definition files_of (l : list (string * node)) : list string := flat_map (fun '(p, n) => py_files p n) l.
  Definition all_of (t : tagged) : list string := flat_map (fun '(_, (_, l)) => files_of l) t.
  Definition under (roots : list (string * node)) (p : string) (n : node) : Prop :=
    exists a b, In (a, b) roots /\ below a b p n.

  Definition Good (roots : list (string * node)) (t : tagged) : Prop :=
    (forall k c l, In (k, (c, l)) t -> good_key k /\
       (exists f k', In f (files_of l) /\ infile f = Ok c /\ to_immutable c [] = Ok k' /\ same_iconfig k' k) /\
       (forall p n, In (p, n) l -> under roots p n) /\
       (forall f, In f (files_of l) -> exists c' k', infile f = Ok c' /\ to_immutable c' [] = Ok k' /\ same_iconfig k' k)) /\
    Permutation (all_of t) (files_of roots).

  Lemma files_of_app : forall a b, files_of (a ++ b) = files_of a ++ files_of b.
  Proof. intros. apply flat_map_app. Qed.

  Fixpoint add_tagged (k : iconfig) (c : config) (l : list (string * node)) (t : tagged) : tagged :=
    match t with
    | [] => [(k, (c, l))]
    | (k', (c', l')) :: r =>
        if iconfig_eqb k k' then (k', (c', l' ++ l)) :: r else (k', (c', l')) :: add_tagged k c l r
    end.
  Lemma untag_add : forall k c l t, untag (add_tagged k c l t) = add_group k c (map fst l) (untag t).
  Proof.
    induction t as [|[k' [c' l']] t IH]; simpl; auto.
    destruct (iconfig_eqb k k'); simpl; [now rewrite map_app | now rewrite IH].
  Qed.
  Lemma all_of_add : forall k c l t, Permutation (all_of (add_tagged k c l t)) (all_of t ++ files_of l).
  Proof.
    induction t as [|[k' [c' l']] t IH]; simpl.
    - now rewrite app_nil_r.
    - destruct (iconfig_eqb k k'); simpl.
      + rewrite files_of_app, <- !app_assoc. apply Permutation_app_head. apply Permutation_app_comm.
      + rewrite IH, app_assoc. reflexivity.
  Qed.
  Lemma in_add_tagged : forall k c l t k' c' l', In (k', (c', l')) (add_tagged k c l t) ->
    In (k', (c', l')) t \/ (k', (c', l')) = (k, (c, l)) \/
    exists l0, In (k', (c', l0)) t /\ iconfig_eqb k k' = true /\ l' = l0 ++ l.
  Proof.
    induction t as [|[k2 [c2 l2]] t IH]; simpl; intros k' c' l' H.
    - destruct H as [H|[]]. inversion H; auto.
    - destruct (iconfig_eqb k k2) eqn:E.
      + destruct H as [H|H]; [inversion H; subst; right; right; exists l2; auto | auto].
      + destruct H as [H|H]; [inversion H; subst; auto|]. apply IH in H as [H|[H|[l0 [H1 [H2 H3]]]]]; auto.
        right. right. exists l0. auto.
  Qed.

  Definition merge_tagged (t s : tagged) : tagged :=
    fold_left (fun t kv => add_tagged (fst kv) (fst (snd kv)) (snd (snd kv)) t) s t.
  Lemma untag_merge : forall s t, untag (merge_tagged t s) = merge_groups (untag t) (untag s).
  Proof.
    unfold merge_tagged, merge_groups. induction s as [|[k [c l]] s IH]; simpl; intros t; auto.
    now rewrite IH, untag_add.
  Qed.
  Lemma under_app_l : forall a b p n, under a p n -> under (a ++ b) p n.
  Proof. intros a b p n [x [y [H1 H2]]]. exists x, y. split; auto. apply in_or_app; auto. Qed.
  Lemma under_app_r : forall a b p n, under b p n -> under (a ++ b) p n.
  Proof. intros a b p n [x [y [H1 H2]]]. exists x, y. split; auto. apply in_or_app; auto. Qed.

  Lemma Good_merge : forall s rs, Good rs s -> forall t rt, Good rt t -> Good (rt ++ rs) (merge_tagged t s).
  Proof.
    intros s rs [S1 S2] t rt [T1 T2]. split.
    - unfold merge_tagged.
      assert (G : forall s' t', (forall k c l, In (k, (c, l)) s' -> In (k, (c, l)) s) ->
        (forall k c l, In (k, (c, l)) t' -> good_key k /\
         (exists f k', In f (files_of l) /\ infile f = Ok c /\ to_immutable c [] = Ok k' /\ same_iconfig k' k) /\
         (forall p n, In (p, n) l -> under (rt ++ rs) p n) /\
         (forall f, In f (files_of l) -> exists c' k', infile f = Ok c' /\ to_immutable c' [] = Ok k' /\ same_iconfig k' k)) ->
        forall k c l, In (k, (c, l)) (fold_left (fun t kv => add_tagged (fst kv) (fst (snd kv)) (snd (snd kv)) t) s' t') ->
         good_key k /\
         (exists f k', In f (files_of l) /\ infile f = Ok c /\ to_immutable c [] = Ok k' /\ same_iconfig k' k) /\
         (forall p n, In (p, n) l -> under (rt ++ rs) p n) /\
         (forall f, In f (files_of l) -> exists c' k', infile f = Ok c' /\ to_immutable c' [] = Ok k' /\ same_iconfig k' k)).
      { induction s' as [|[k [c l]] s' IH]; simpl; intros t' Hs Ht; [exact Ht|].
        apply IH; [intros; apply Hs; auto|]. clear IH.
        destruct (S1 k c l (Hs _ _ _ (or_introl eq_refl))) as [Gk [Rk [Uk Fk]]].
        intros k2 c2 l2 Hin. apply in_add_tagged in Hin as [Hin|[Hin|[l0 [H1 [H2 H3]]]]].
        - apply Ht, Hin.
        - inversion Hin; subst. split; [auto|]. split; [auto|]. split; [|auto].
          intros. apply under_app_r. auto.
        - destruct (Ht _ _ _ H1) as [Gk2 [[f [k' [R1 R2]]] [Uk2 Fk2]]]. subst l2.
          assert (SK : same_iconfig k k2) by (apply iconfig_eqb_same; auto).
          split; [auto|]. split.
          + exists f, k'. split; auto. rewrite files_of_app. apply in_or_app; auto.
          + split.
            * intros p n Hp. apply in_app_or in Hp as [Hp|Hp]; [auto | apply under_app_r; auto].
            * intros g Hg. rewrite files_of_app in Hg. apply in_app_or in Hg as [Hg|Hg]; [auto|].
              destruct (Fk g Hg) as [c' [k3 [A [B C]]]]. exists c', k3. repeat split; auto; eapply same_trans; eauto. }
      apply G; auto. intros k c l Hin. destruct (T1 _ _ _ Hin) as [A [B [C D]]].
      repeat split; auto. intros. apply under_app_l. auto.
    - rewrite files_of_app, <- T2, <- S2. clear S1 T1 S2 T2. unfold merge_tagged.
      revert t. induction s as [|[k [c l]] s IH]; simpl; intros t; [now rewrite app_nil_r|].
      rewrite IH, all_of_add, <- app_assoc. reflexivity.
  Qed.

  Lemma Good_file : forall path g, parse_rec infile path File = Ok g ->
    exists t, untag t = g /\ Good [(path, File)] t.
  Proof.
    intros path g H. simpl in H. rewrite is_py_name in H. destruct (python_name (basename path)) eqn:E.
    - destruct (infile path) as [c|] eqn:I; [|discriminate]. cbn [bind] in H.
      destruct (to_immutable c []) as [k|] eqn:K; [|discriminate]. cbn [bind] in H. inversion H; subst.
      exists [(k, (c, [(path, File)]))]. split; auto. split.
      + intros k0 c0 l0 [X|[]]. inversion X; subst. split; [eapply to_immutable_good; eauto|].
        assert (F : files_of [(path, File)] = [path]) by (simpl; rewrite E; reflexivity).
        rewrite F. split; [|split].
        * exists path, k0. repeat split; simpl; auto.
        * intros p n [Y|[]]. inversion Y; subst. exists p, File. split; [now left|constructor].
        * intros f [<-|[]]. exists c0, k0. repeat split; auto.
      + simpl. rewrite !app_nil_r. reflexivity.
    - inversion H; subst. exists []. split; auto. split; [intros ? ? ? []|]. simpl. rewrite E. constructor.
  Qed.

  Fixpoint node_ind' (P : node -> Prop) (HF : P File)
    (HD : forall es, Forall (fun e => P (snd e)) es -> P (Dir es)) (n : node) : P n :=
    match n with
    | File => HF
    | Dir es => HD es ((fix go (l : list (string * node)) : Forall (fun e => P (snd e)) l :=
                          match l with
                          | [] => Forall_nil _
                          | e :: r => Forall_cons e (node_ind' P HF HD (snd e)) (go r)
                          end) es)
    end.

  Lemma Good_rec : forall n path g, parse_rec infile path n = Ok g ->
    exists t, untag t = g /\ Good [(path, n)] t.
  Proof.
    induction n using node_ind'; intros path g H0.
    - now apply Good_file.
    - cbn [parse_rec] in H0.
      set (agg := fix aggregate (es : list (string * node)) (acc : groups) : res groups :=
             match es with
             | [] => Ok acc
             | (name, n') :: r => do sub <- parse_rec infile (pjoin path name) n'; aggregate r (merge_groups acc sub)
             end) in H0.
      set (kids := map (fun e => (pjoin path (fst e), snd e)) es).
      assert (A : forall es' acc roots g', Forall (fun e => forall path g, parse_rec infile path (snd e) = Ok g ->
                 exists t, untag t = g /\ Good [(path, snd e)] t) es' ->
                 agg es' acc = Ok g' -> (exists t, untag t = acc /\ Good roots t) ->
                 exists t, untag t = g' /\ Good (roots ++ map (fun e => (pjoin path (fst e), snd e)) es') t).
      { clear. induction es' as [|[name n'] es' IH]; intros acc roots g' HF HA HG.
        - simpl in HA. inversion HA; subst. simpl. rewrite app_nil_r. exact HG.
        - inversion HF as [|x y Hx Hr]; subst. cbn in HA.
          destruct (parse_rec infile (pjoin path name) n') as [sub|] eqn:P; [|discriminate]. cbn [bind] in HA.
          destruct (Hx _ _ P) as [ts [E1 G1]]. destruct HG as [t [E2 G2]].
          destruct (IH (merge_groups acc sub) (roots ++ [(pjoin path name, n')]) g' Hr HA) as [t' [E3 G3]].
          + exists (merge_tagged t ts). split; [rewrite untag_merge; congruence|]. now apply Good_merge.
          + exists t'. split; auto. simpl. rewrite <- app_assoc in G3. exact G3. }
      destruct (agg es []) as [g0|] eqn:AG; [|discriminate]. cbn [bind] in H0.
      destruct (A es [] [] g0 H AG) as [t [E G]].
      { exists []. split; auto. split; [intros ? ? ? []|constructor]. }
      simpl in G. fold kids in G.
      assert (FK : files_of kids = py_files path (Dir es)).
      { unfold kids, files_of. simpl. clear. induction es as [|[a b] es IH]; simpl; auto. now rewrite IH. }
      assert (UK : forall p n, under kids p n -> under [(path, Dir es)] p n).
      { intros p n [a [b [H1 H2]]]. unfold kids in H1. apply in_map_iff in H1 as [[nm nd] [H3 H4]].
        simpl in H3. inversion H3; subst. exists path, (Dir es). split; [now left|].
        eapply below_child; eauto. }
      destruct G as [G1 G2].
      assert (GG : Good [(path, Dir es)] t).
      { split.
        - intros k c l Hin. destruct (G1 _ _ _ Hin) as [X1 [X2 [X3 X4]]]. repeat split; auto.
        - rewrite G2, FK. unfold files_of. simpl. now rewrite app_nil_r. }
      destruct g0 as [|[k [c ps]] [|y g0]].
      + inversion H0; subst. exists t. auto.
      + inversion H0; subst. destruct t as [|[k' [c' l']] [|z t]]; try discriminate.
        inversion E; subst. exists [(k, (c, [(path, Dir es)]))]. split; auto.
        destruct (G1 k c l' (or_introl eq_refl)) as [X1 [[f [k' [X2 X2']]] [X3 X4]]].
        assert (PF : forall f, In f (files_of l') <-> In f (files_of [(path, Dir es)])).
        { intros f0. assert (P2 : Permutation (files_of l') (files_of kids)).
          { rewrite <- G2. simpl. now rewrite app_nil_r. }
          assert (F2 : files_of [(path, Dir es)] = files_of kids).
          { rewrite FK. unfold files_of. simpl. now rewrite app_nil_r. }
          rewrite F2. split; apply Permutation_in; [auto | now apply Permutation_sym]. }
        split.
        * intros k0 c0 l0 [Y|[]]. inversion Y; subst. split; [auto|]. split; [|split].
          -- exists f, k'. split; auto. apply PF; auto.
          -- intros p n [Z|[]]. inversion Z; subst. exists p, (Dir es). split; [now left|constructor].
          -- intros f0 Hf. apply X4. apply PF; auto.
        * simpl. rewrite !app_nil_r. reflexivity.
      + inversion H0; subst. exists t. auto.
  Qed.

  Lemma Good_args : forall args acc roots g, aggregate_args infile args acc = Ok g ->
    (exists t, untag t = acc /\ Good roots t) -> exists t, untag t = g /\ Good (roots ++ args) t.
  Proof.
    induction args as [|[path n] args IH]; intros acc roots g HA HG; simpl in HA.
    - inversion HA; subst. rewrite app_nil_r. exact HG.
    - destruct (parse_rec infile path n) as [sub|] eqn:P; [|discriminate]. cbn [bind] in HA.
      destruct (Good_rec _ _ _ P) as [ts [E1 G1]]. destruct HG as [t [E2 G2]].
      destruct (IH (merge_groups acc sub) (roots ++ [(path, n)]) g HA) as [t' [E3 G3]].
      + exists (merge_tagged t ts). split; [rewrite untag_merge; congruence|]. now apply Good_merge.
      + exists t'. split; auto. rewrite <- app_assoc in G3. exact G3.
  Qed.

  Lemma C06_lemma : forall args g, aggregate_args infile args [] = Ok g ->
    exists t : list (iconfig * (config * list (string * node))),
      g = map (fun '(k, (c, l)) => (k, (c, map fst l))) t /\
      Permutation (flat_map (fun '(_, (_, l)) => flat_map (fun '(p, n) => py_files p n) l) t)
                  (flat_map (fun '(p, n) => py_files p n) args) /\
      forall k c l, In (k, (c, l)) t ->
        (forall p n, In (p, n) l -> exists a b, In (a, b) args /\ below a b p n) /\
        (forall f, In f (flat_map (fun '(p, n) => py_files p n) l) ->
           exists c' k', infile f = Ok c' /\ to_immutable c' [] = Ok k' /\ same_iconfig k' k) /\
        (exists f k', In f (flat_map (fun '(p, n) => py_files p n) l) /\ infile f = Ok c /\
           to_immutable c [] = Ok k' /\ same_iconfig k' k).
  Proof.
    intros args g H. destruct (Good_args args [] [] g H) as [t [E [G1 G2]]].
    { exists []. split; auto. split; [intros ? ? ? []|constructor]. }
    exists t. split; [symmetry; exact E|]. split; [exact G2|].
    intros k c l Hin. destruct (G1 _ _ _ Hin) as [_ [X1 [X2 X3]]].
    split; [exact X2|]. split; [exact X3|exact X1].
  Qed.
End Grouping.
