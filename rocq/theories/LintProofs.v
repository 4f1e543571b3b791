(** Lemmas about overriding, tweaking, sorting and the report. *)
From Coq Require Import String Ascii List Bool Arith ZArith Lia Permutation Sorted.
From Verif Require Import Base ConfigModel PathModel PathSpec PathProofs ConfigFileModel RegexModel LintModel LintSpec.
Import ListNotations.
Local Open Scope string_scope.
Local Open Scope list_scope.

Lemma str_in_iff : forall s l, str_in s l = true <-> In s l.
Proof.
  intros. unfold str_in. rewrite existsb_exists. split.
  - intros [x [I E]]. apply String.eqb_eq in E. now subst.
  - intros I. exists s. split; auto. apply String.eqb_refl.
Qed.

(** ** Overriding *)

Lemma picks_filter : forall A (P : A -> Prop) f l, (forall a, In a l -> (f a = true <-> P a)) -> picks P l (filter f l).
Proof.
  induction l as [|a l IH]; intros H; cbn [filter]; [constructor|].
  assert (picks P l (filter f l)) by (apply IH; intros; apply H; now right).
  specialize (H a (or_introl eq_refl)). destruct (f a) eqn:E.
  - constructor; auto. now apply H.
  - constructor; auto. intros X. apply H in X. discriminate.
Qed.
Lemma codes_on_line_in : forall ps pa li c, In c (codes_on_line ps pa li) <->
  exists q, In q ps /\ path q = pa /\ line q = li /\ code q = c.
Proof.
  intros. unfold codes_on_line. rewrite in_map_iff. split.
  - intros [q [E I]]. apply filter_In in I as [I F]. apply andb_true_iff in F as [F1 F2].
    apply String.eqb_eq in F1. apply Z.eqb_eq in F2. eauto.
  - intros [q [I [E1 [E2 E3]]]]. exists q. split; auto. apply filter_In. split; auto.
    rewrite E1, E2, String.eqb_refl, Z.eqb_refl. reflexivity.
Qed.

Definition overrule (ps : list problem) (table : dict (list string)) (p : problem) : bool :=
  negb (existsb (fun c => str_in c (codes_on_line ps (path p) (line p)))
          (match dget (code p) table with Some o => o | None => [] end)).
Lemma apply_overrides_filter : forall ps t, apply_overrides ps t = filter (overrule ps t) ps.
Proof. reflexivity. Qed.
Lemma overrule_iff : forall ps t p, overrule ps t p = true <-> ~ overridden t ps p.
Proof.
  intros. unfold overrule. rewrite negb_true_iff.
  destruct (existsb _ _) eqn:E; split; try discriminate; try tauto.
  - intros N. exfalso. apply N. apply existsb_exists in E as [c [I C]].
    apply str_in_iff, codes_on_line_in in C as [q [Q [Q1 [Q2 Q3]]]].
    destruct (dget (code p) t) as [o|] eqn:D; [|contradiction].
    exists q, o. repeat split; auto. now rewrite Q3.
  - intros _ [q [o [Q [[Q1 Q2] [D I]]]]]. rewrite D in E.
    assert (existsb (fun c => str_in c (codes_on_line ps (path p) (line p))) o = true); [|congruence].
    apply existsb_exists. exists (code q). split; auto. apply str_in_iff, codes_on_line_in. eauto.
Qed.
Lemma overrides_exact : forall problems table,
  picks (fun p => ~ overridden table problems p) problems (apply_overrides problems table).
Proof. intros. rewrite apply_overrides_filter. apply picks_filter. intros. apply overrule_iff. Qed.

Lemma overrides_idempotent : forall problems table,
  apply_overrides (apply_overrides problems table) table = apply_overrides problems table.
Proof.
  intros. rewrite (apply_overrides_filter (apply_overrides problems table)).
  apply filter_all, Forall_forall. intros p I. rewrite apply_overrides_filter in I.
  apply filter_In in I as [I O]. apply overrule_iff. apply overrule_iff in O. intros [q [o [Q X]]]. apply O.
  exists q, o. split; auto. rewrite apply_overrides_filter in Q. now apply filter_In in Q.
Qed.

(** A table in which overriding goes down in rank. *)
Lemma lowest : forall (rank : string -> nat) table ps,
  (forall c codes d, dget c table = Some codes -> In d codes -> rank d < rank c) ->
  forall n p, In p ps -> rank (code p) <= n ->
  exists q, In q (apply_overrides ps table) /\ same_line q p /\
    (q = p \/ exists c codes, dget c table = Some codes /\ In (code q) codes).
Proof.
  intros rank table ps R. induction n as [|n IH]; intros p I L.
  - exists p. repeat split; auto. rewrite apply_overrides_filter. apply filter_In. split; auto.
    apply overrule_iff. intros [q [o [Q [S [D C]]]]]. specialize (R _ _ _ D C). lia.
  - destruct (overrule ps table p) eqn:O.
    + exists p. repeat split; auto. rewrite apply_overrides_filter. now apply filter_In.
    + assert (X : ~ ~ overridden table ps p) by (intros X; apply overrule_iff in X; congruence).
      assert (Y : overridden table ps p).
      { unfold overrule in O. apply negb_false_iff, existsb_exists in O as [c [J C]].
        apply str_in_iff, codes_on_line_in in C as [q [Q [Q1 [Q2 Q3]]]].
        destruct (dget (code p) table) as [o|] eqn:D; [|contradiction].
        exists q, o. repeat split; auto. now rewrite Q3. }
      destruct Y as [q [o [Q [[S1 S2] [D C]]]]].
      destruct (IH q Q) as [q' [Q' [[T1 T2] T]]]; [specialize (R _ _ _ D C); lia|].
      exists q'. repeat split; try congruence; auto. right. destruct T as [->|T]; eauto.
Qed.
Lemma overrides_keep_lines : forall table, well_founded_table table -> forall problems p, In p problems ->
  exists q, In q (apply_overrides problems table) /\ same_line q p.
Proof.
  intros table [rank R] ps p I. destruct (lowest rank table ps R _ p I (le_n _)) as [q [Q [S _]]]. eauto.
Qed.

Definition code_rank (c : string) : nat :=
  if String.eqb c "R6213" then 2
  else if str_in c ["C0104"; "C0103"; "E225"; "R1705"; "R6610"; "W0107"; "C0201"; "R6216"; "R6221"; "R6218"] then 1
  else 0.
Lemma dget_In : forall V k (v : V) d, dget k d = Some v -> In (k, v) d.
Proof.
  induction d as [|[k' v'] d IH]; cbn [dget]; [discriminate|].
  destruct (String.eqb k k') eqn:E; intros H.
  - apply String.eqb_eq in E. inversion H; subst. now left.
  - right. auto.
Qed.
Lemma OVERRIDERS_ranked : forall c codes d, dget c OVERRIDERS = Some codes -> In d codes -> code_rank d < code_rank c.
Proof.
  intros c codes d H I. apply dget_In in H.
  assert (F : forallb (fun e => forallb (fun d => Nat.ltb (code_rank d) (code_rank (fst e))) (snd e)) OVERRIDERS = true)
    by (vm_compute; reflexivity).
  rewrite forallb_forall in F. specialize (F _ H). cbn [fst snd] in F. rewrite forallb_forall in F.
  apply Nat.ltb_lt. auto.
Qed.
Lemma OVERRIDERS_well_founded : well_founded_table OVERRIDERS.
Proof. exists code_rank. exact OVERRIDERS_ranked. Qed.
Lemma OVERRIDERS_no_tweaker : forall c codes d s, dget c OVERRIDERS = Some codes -> In d codes -> tweaker_of s d = None.
Proof.
  intros c codes d s H I. apply dget_In in H.
  assert (F : forallb (fun e => forallb (fun d => negb (str_in d ["C0104"; "R6607"; "C0325"; "W0622"; "F401"; "E712"])) (snd e)) OVERRIDERS = true)
    by (vm_compute; reflexivity).
  rewrite forallb_forall in F. specialize (F _ H). cbn [snd] in F. rewrite forallb_forall in F. specialize (F _ I).
  apply negb_true_iff in F. unfold str_in in F. cbn [existsb] in F.
  repeat (apply orb_false_iff in F as [? F]).
  destruct s; unfold tweaker_of; repeat match goal with E : String.eqb d _ = false |- _ => rewrite E; clear E end; reflexivity.
Qed.

(** ** Tweaking *)

Lemma same_but_text_refl : forall p, same_but_text p p.
Proof. repeat split. Qed.
Lemma same_but_text_with : forall p t, same_but_text p (with_text p t).
Proof. repeat split. Qed.
Lemma tweaks_thinned : forall tweakers c problems r, apply_tweaks problems tweakers c = Ok r -> thinned problems r.
Proof.
  induction problems as [|p l IH]; intros r H; cbn [apply_tweaks] in H.
  - inversion H. constructor.
  - destruct (tweakers (source p) (code p)) as [t|]; cbn [bind] in H.
    + destruct (keep t _ p _) as [[]|] eqn:K; cbn [bind] in H; [| |discriminate].
      * destruct (get_reword t p) as [w|]; cbn [bind] in H; [|discriminate].
        destruct (apply_tweaks l tweakers c) as [r'|]; cbn [bind] in H; [|discriminate].
        inversion H. constructor; auto. apply same_but_text_with.
      * destruct (apply_tweaks l tweakers c) as [r'|]; cbn [bind] in H; [|discriminate].
        inversion H. constructor. auto.
    + destruct (apply_tweaks l tweakers c) as [r'|]; cbn [bind] in H; [|discriminate].
      inversion H. constructor; auto. apply same_but_text_refl.
Qed.
Definition untweaked (tweakers : Linter -> string -> option tweaker) (p : problem) : bool :=
  match tweakers (source p) (code p) with None => true | Some _ => false end.
Lemma tweaks_untouched : forall tweakers c problems r, apply_tweaks problems tweakers c = Ok r ->
  filter (untweaked tweakers) r = filter (untweaked tweakers) problems.
Proof.
  induction problems as [|p l IH]; intros r H; cbn [apply_tweaks] in H.
  - inversion H. reflexivity.
  - cbn [filter]. unfold untweaked at 2. destruct (tweakers (source p) (code p)) as [t|] eqn:T; cbn [bind] in H.
    + destruct (keep t _ p _) as [[]|] eqn:K; cbn [bind] in H; [| |discriminate].
      * destruct (get_reword t p) as [w|]; cbn [bind] in H; [|discriminate].
        destruct (apply_tweaks l tweakers c) as [r'|]; cbn [bind] in H; [|discriminate].
        inversion H. cbn [app filter]. unfold untweaked at 1. cbn [with_text source code]. rewrite T. auto.
      * destruct (apply_tweaks l tweakers c) as [r'|]; cbn [bind] in H; [|discriminate].
        inversion H. cbn [app]. auto.
    + destruct (apply_tweaks l tweakers c) as [r'|]; cbn [bind] in H; [|discriminate].
      inversion H. cbn [app filter]. unfold untweaked at 1. rewrite T. f_equal. auto.
Qed.
Lemma overridden_line_survives : forall problems c r p,
  apply_tweaks (apply_overrides problems OVERRIDERS) tweaker_of c = Ok r ->
  In p problems -> ~ In p (apply_overrides problems OVERRIDERS) -> exists q, In q r /\ In q problems /\ same_line q p.
Proof.
  intros ps c r p H I N.
  destruct (lowest code_rank OVERRIDERS ps OVERRIDERS_ranked _ p I (le_n _)) as [q [Q [S [->|[k [codes [D C]]]]]]]; [contradiction|].
  exists q. assert (U : In q (filter (untweaked tweaker_of) r)).
  { rewrite (tweaks_untouched _ _ _ _ H). apply filter_In. split; auto. unfold untweaked.
    now rewrite (OVERRIDERS_no_tweaker _ _ _ _ D C). }
  apply filter_In in U as [U _]. rewrite apply_overrides_filter in Q. apply filter_In in Q as [Q _]. auto.
Qed.

(** ** Sorting *)

Lemma prefix_iff : forall a s, String.prefix a s = true <-> exists b, s = (a ++ b)%string.
Proof.
  induction a as [|x a IH]; intros s.
  - split; [exists s; reflexivity|now destruct s].
  - destruct s as [|y s]; [split; [discriminate|intros [b H]; discriminate]|].
    cbn [String.prefix]. destruct (ascii_dec x y) as [<-|N].
    + rewrite IH. split; intros [b H]; exists b; [cbn [append]; now rewrite H|cbn [append] in H; congruence].
    + split; [discriminate|]. intros [b H]. cbn [append] in H. congruence.
Qed.
Lemma contains_iff : forall w s, contains w s = true <-> exists a b, s = (a ++ w ++ b)%string.
Proof.
  intros w. assert (P : forall s, contains w s = (String.prefix w s || match s with EmptyString => false | String _ r => contains w r end)%bool)
    by (intros []; reflexivity).
  induction s as [|c s IH]; rewrite P, orb_true_iff, prefix_iff.
  - split; [intros [[b H]|]; [exists "", b; auto|discriminate]|].
    intros [[|x a] [b H]]; [left; eauto|discriminate].
  - rewrite IH. split.
    + intros [[b H]|[a [b H]]]; [exists "", b; auto|]. exists (String c a), b. cbn [append]. now rewrite H.
    + intros [[|x a] [b H]]; [left; eauto|]. right. exists a, b. cbn [append] in H. congruence.
Qed.
Lemma outside_iff : forall p, is_pylint_out_of_file_problem p = true <-> outside_files p.
Proof. intros. unfold is_pylint_out_of_file_problem, outside_files, mentions. now rewrite orb_true_iff, !contains_iff. Qed.

Lemma is_prefix_iff : forall a b, is_prefix a b = true <-> exists m, b = a ++ m.
Proof.
  induction a as [|x a IH]; intros b; cbn [is_prefix]; [split; [exists b; reflexivity|reflexivity]|].
  destruct b as [|y b]; [split; [discriminate|intros (m & H); discriminate]|].
  rewrite andb_true_iff, String.eqb_eq, IH. split.
  - intros [-> [m ->]]. exists m. reflexivity.
  - intros [m H]. cbn [app] in H. inversion H. eauto.
Qed.
Lemma names_parts : forall p, names p = path_parts p.
Proof.
  intros. unfold names, path_parts, sl. apply filter_ext. intros a. now rewrite negb_orb.
Qed.
Lemma root_start : forall p, path_root p = match start_of p with Here => 0 | Root => 1 | DoubleRoot => 2 end.
Proof.
  assert (N : forall c s t, c <> "/"%char -> String.prefix (String "/" t) (String c s) = false)
    by (intros c s t N; cbn [String.prefix]; destruct (ascii_dec "/" c); congruence).
  assert (Y : forall s t, String.prefix (String "/" t) (String "/" s) = String.prefix t s) by reflexivity.
  assert (E : forall s, String.prefix "" s = true) by (intros []; reflexivity).
  intros p. unfold path_root, initial_slashes.
  assert (D : forall c : ascii, c = "/"%char \/ c <> "/"%char) by (intros c; destruct (ascii_dec c "/"); auto).
  destruct p as [|a p]; [reflexivity|].
  destruct (D a) as [->|Na].
  2:{ rewrite !N by auto. cbn [andb]. destruct a as [[] [] [] [] [] [] [] []]; try reflexivity; congruence. }
  rewrite !Y, !E. destruct p as [|b p]; [reflexivity|].
  destruct (D b) as [->|Nb].
  2:{ rewrite !N by auto. cbn [andb]. destruct b as [[] [] [] [] [] [] [] []]; try reflexivity; congruence. }
  rewrite !Y, !E. destruct p as [|c p]; [reflexivity|].
  destruct (D c) as [->|Nc].
  2:{ rewrite !N by auto. cbn [andb]. destruct c as [[] [] [] [] [] [] [] []]; try reflexivity; congruence. }
  rewrite !Y, !E. reflexivity.
Qed.
Lemma under_iff : forall fd p, path_under fd p = true <-> covers fd p.
Proof.
  intros. unfold path_under, covers. rewrite andb_true_iff, Nat.eqb_eq, is_prefix_iff, !names_parts, !root_start.
  split; intros [A B]; split; auto; destruct (start_of fd), (start_of p); congruence.
Qed.

Lemma index_from_ok : forall fds p i n, index_from i fds p = Ok n ->
  exists before fd after, fds = before ++ fd :: after /\ covers fd p /\ (forall g, In g before -> ~ covers g p) /\
    n = (i + Z.of_nat (List.length before))%Z.
Proof.
  induction fds as [|fd r IH]; intros p i n H; cbn [index_from] in H; [discriminate|].
  destruct (path_under fd p) eqn:U.
  - inversion H; subst. exists [], fd, r. split; auto. split; [now apply under_iff|]. split; [intros g []|].
    cbn [List.length Z.of_nat]. lia.
  - apply IH in H as [b [f [a [-> [C [N ->]]]]]]. exists (fd :: b), f, a. split; auto. split; auto. split.
    + intros g [<-|G]; auto. intros X. apply under_iff in X. congruence.
    + cbn [List.length]. lia.
Qed.
Lemma index_from_total : forall fds p i, (exists fd, In fd fds /\ covers fd p) -> exists n, index_from i fds p = Ok n.
Proof.
  induction fds as [|fd r IH]; intros p i [f [I C]]; [contradiction|]. cbn [index_from].
  destruct (path_under fd p) eqn:U; eauto. destruct I as [<-|I]; [apply under_iff in C; congruence|eauto].
Qed.
Lemma index_ok : forall fds p n, get_file_or_dir_index fds p = Ok n -> Position fds p n.
Proof.
  intros fds p n H. unfold get_file_or_dir_index in H. destruct (is_pylint_out_of_file_problem p) eqn:O.
  - inversion H. left. split; auto. now apply outside_iff.
  - right. split; [intros X; apply outside_iff in X; congruence|].
    apply index_from_ok in H as [b [f [a [E [C [N L]]]]]]. exists b, f, a. repeat split; try apply C; auto.
Qed.
Lemma index_total : forall fds p, outside_files p \/ (exists fd, In fd fds /\ covers fd p) <->
  exists n, get_file_or_dir_index fds p = Ok n.
Proof.
  intros. unfold get_file_or_dir_index. destruct (is_pylint_out_of_file_problem p) eqn:O.
  - split; eauto. intros _. left. now apply outside_iff.
  - split.
    + intros [X|X]; [apply outside_iff in X; congruence|]. now apply index_from_total.
    + intros [n H]. right. apply index_from_ok in H as [b [f [a [-> [C _]]]]]. exists f. split; auto.
      apply in_or_app. right. now left.
Qed.

Definition key_le (a b : key) : Prop := key_leb a b = true.
Lemma str_leb_compare : forall a b, str_leb a b = match String.compare a b with Gt => false | _ => true end.
Proof.
  induction a as [|x a IH]; intros [|y b]; cbn [str_leb String.compare]; auto.
  destruct (Ascii.eqb x y) eqn:E.
  - apply Ascii.eqb_eq in E. subst. unfold Ascii.compare. now rewrite N.compare_refl, IH.
  - apply Ascii.eqb_neq in E. unfold Ascii.compare, nat_of_ascii.
    destruct (N.compare_spec (N_of_ascii x) (N_of_ascii y)) as [H|H|H].
    + exfalso. apply E. rewrite <- (ascii_N_embedding x), <- (ascii_N_embedding y). now rewrite H.
    + apply Nat.ltb_lt. lia.
    + apply Nat.ltb_ge. lia.
Qed.
Lemma compare_refl : forall s, String.compare s s = Eq.
Proof. induction s; cbn [String.compare]; auto. unfold Ascii.compare. now rewrite N.compare_refl. Qed.
Lemma key_le_iff : forall i p l c j q m d, key_le (i, p, l, c) (j, q, m, d) <->
  (i < j \/ i = j /\ (String.compare p q = Lt \/ p = q /\ (l < m \/ l = m /\ c <= d)))%Z.
Proof.
  intros. unfold key_le, key_leb. destruct (Z.eqb_spec i j) as [->|N].
  2:{ rewrite Z.ltb_lt. intuition lia. }
  destruct (String.eqb p q) eqn:E.
  - apply String.eqb_eq in E. subst q. rewrite compare_refl. destruct (Z.eqb_spec l m) as [->|N].
    + rewrite Z.leb_le. intuition (try lia; try discriminate).
    + rewrite Z.ltb_lt. intuition (try lia; try discriminate).
  - apply String.eqb_neq in E. rewrite str_leb_compare. destruct (String.compare p q) eqn:C.
    + apply String.compare_eq_iff in C. contradiction.
    + intuition.
    + intuition (try lia; try discriminate; try congruence).
Qed.

Lemma compare_trans_lt : forall a b c, String.compare a b = Lt -> String.compare b c = Lt -> String.compare a c = Lt.
Proof.
  induction a as [|x a IH]; intros [|y b] [|z c] H1 H2; cbn [String.compare] in *; auto; try discriminate.
  unfold Ascii.compare in *.
  destruct (N.compare_spec (N_of_ascii x) (N_of_ascii y)) as [E1|E1|E1]; try discriminate;
  destruct (N.compare_spec (N_of_ascii y) (N_of_ascii z)) as [E2|E2|E2]; try discriminate.
  - rewrite E1, E2, N.compare_refl. eauto.
  - rewrite E1. apply N.compare_lt_iff in E2. now rewrite E2.
  - rewrite <- E2. apply N.compare_lt_iff in E1. now rewrite E1.
  - assert (E : (N_of_ascii x < N_of_ascii z)%N) by lia. apply N.compare_lt_iff in E. now rewrite E.
Qed.
Lemma key_trans : forall a b c, key_le a b -> key_le b c -> key_le a c.
Proof.
  intros [[[i p] l] x] [[[j q] m] y] [[[k r] n] z]. rewrite !key_le_iff.
  intros [A|[A [B|[B [C|[C D]]]]]] [A'|[A' [B'|[B' [C'|[C' D']]]]]]; subst; try (left; lia); right; split; auto;
    try (left; eapply compare_trans_lt; eassumption); try (left; congruence); right; split; auto; lia.
Qed.
Lemma key_total : forall a b, key_leb a b = false -> key_le b a.
Proof.
  intros [[[i p] l] x] [[[j q] m] y] H. unfold key_le, key_leb in *.
  rewrite (Z.eqb_sym j i), (String.eqb_sym q p), (Z.eqb_sym m l).
  destruct (Z.eqb_spec i j); [|apply Z.ltb_ge in H; apply Z.ltb_lt; lia].
  destruct (String.eqb p q) eqn:E.
  - destruct (Z.eqb_spec l m); [apply Z.leb_gt in H; apply Z.leb_le; lia|apply Z.ltb_ge in H; apply Z.ltb_lt; lia].
  - rewrite str_leb_compare in *. rewrite String.compare_antisym. now destruct (String.compare p q).
Qed.

Definition le2 (a b : key * problem) : Prop := key_le (fst a) (fst b).
Lemma insert_perm : forall x l, Permutation (x :: l) (insert x l).
Proof.
  induction l as [|y l IH]; cbn [insert]; auto. destruct (key_leb (fst x) (fst y)); auto.
  rewrite perm_swap. now constructor.
Qed.
Lemma stable_sort_perm : forall l, Permutation l (stable_sort l).
Proof.
  induction l as [|x l IH]; cbn [stable_sort fold_right]; auto.
  rewrite <- insert_perm. now constructor.
Qed.
Lemma insert_sorted : forall x l, StronglySorted le2 l -> StronglySorted le2 (insert x l).
Proof.
  induction 1 as [|y l S IH F]; cbn [insert]; [repeat constructor|].
  destruct (key_leb (fst x) (fst y)) eqn:K.
  - constructor; [now constructor|]. constructor; [exact K|]. eapply Forall_impl; [|exact F].
    intros z Z. eapply key_trans; eassumption.
  - constructor; auto. apply Forall_forall. intros z Z.
    apply (Permutation_in _ (Permutation_sym (insert_perm x l))) in Z. destruct Z as [<-|Z].
    + now apply key_total.
    + rewrite Forall_forall in F. auto.
Qed.
Lemma stable_sort_sorted : forall l, StronglySorted le2 (stable_sort l).
Proof. induction l; cbn [stable_sort fold_right]; [constructor|now apply insert_sorted]. Qed.

Lemma key_refl : forall k, key_le k k.
Proof. intros [[[i p] l] c]. apply key_le_iff. right. split; auto. right. split; auto. lia. Qed.
Lemma insert_stable : forall (f : key * problem -> bool) x l,
  (forall a b, f a = true -> f b = true -> fst a = fst b) ->
  filter f (insert x l) = filter f (x :: l).
Proof.
  intros f x l T. induction l as [|y l IH]; cbn [insert]; auto.
  destruct (key_leb (fst x) (fst y)) eqn:K; auto.
  cbn [filter]. rewrite IH. cbn [filter]. destruct (f x) eqn:X, (f y) eqn:Y; auto.
  exfalso. rewrite (T x y X Y) in K. pose proof (key_refl (fst y)) as R. unfold key_le in R. congruence.
Qed.
Lemma stable_sort_stable : forall (f : key * problem -> bool) l,
  (forall a b, f a = true -> f b = true -> fst a = fst b) -> filter f (stable_sort l) = filter f l.
Proof.
  intros f l T. induction l as [|x l IH]; cbn [stable_sort fold_right]; auto.
  rewrite insert_stable by auto. cbn [filter]. fold (stable_sort l). now rewrite IH.
Qed.

Lemma mapM_ok : forall A B (f : A -> res B) l r, mapM f l = Ok r -> Forall2 (fun a b => f a = Ok b) l r.
Proof.
  induction l as [|a l IH]; intros r H; cbn [mapM] in H; [inversion H; constructor|].
  destruct (f a) as [b|] eqn:F; cbn [bind] in H; [|discriminate].
  destruct (mapM f l) as [bs|]; cbn [bind] in H; [|discriminate]. inversion H. constructor; auto.
Qed.
Lemma mapM_total : forall A B (f : A -> res B) l, (forall a, In a l -> exists b, f a = Ok b) -> exists r, mapM f l = Ok r.
Proof.
  induction l as [|a l IH]; intros H; cbn [mapM]; [eauto|].
  destruct (H a (or_introl eq_refl)) as [b ->]. destruct IH as [r ->]; [intros; apply H; now right|].
  cbn [bind]. eauto.
Qed.

(** The key that [sort] computes, given a function for the positions. *)
Definition pos_of (fds : list string) (p : string) : Z :=
  match get_file_or_dir_index fds p with Ok i => i | Raise _ => 0%Z end.
Definition with_key (fds : list string) (p : problem) : key * problem :=
  ((pos_of fds (path p), path p, line p, column p), p).
Lemma sort_shape : forall fds ps out, sort fds ps = Ok out ->
  out = map snd (stable_sort (map (with_key fds) ps)) /\
  (forall p, In p ps -> get_file_or_dir_index fds (path p) = Ok (pos_of fds (path p))).
Proof.
  intros fds ps out H. unfold sort in H.
  destruct (mapM _ ps) as [ks|] eqn:M; cbn [bind] in H; [|discriminate]. inversion H; subst. clear H.
  apply mapM_ok in M.
  assert (X : ks = map (with_key fds) ps /\ forall p, In p ps -> get_file_or_dir_index fds (path p) = Ok (pos_of fds (path p))).
  { induction M as [|p k ps ks K M [-> IH]]; [split; auto; intros p []|].
    unfold with_key, pos_of in *. destruct (get_file_or_dir_index fds (path p)) as [i|] eqn:G; cbn [bind] in K; [|discriminate].
    inversion K. split.
    - cbn [map]. now rewrite G.
    - intros q [<-|Q]; auto. now rewrite G. }
  destruct X as [-> X]. auto.
Qed.
Lemma keyed_in : forall fds ps x, In x (stable_sort (map (with_key fds) ps)) -> x = with_key fds (snd x).
Proof.
  intros fds ps x I. apply (Permutation_in _ (Permutation_sym (stable_sort_perm _))) in I.
  apply in_map_iff in I as [p [<- _]]. reflexivity.
Qed.
Lemma map_snd_keyed : forall fds ps, map snd (map (with_key fds) ps) = ps.
Proof. intros. rewrite map_map. cbn [with_key snd]. apply map_id. Qed.

Lemma sort_ordered : forall fds ps out, sort fds ps = Ok out ->
  exists pos : string -> Z,
    (forall p, In p ps -> Position fds (path p) (pos (path p))) /\
    Permutation ps out /\
    StronglySorted (not_after pos) out /\
    forall f, (forall p q, f p = true -> f q = true -> tied p q) -> filter f out = filter f ps.
Proof.
  intros fds ps out H. destruct (sort_shape _ _ _ H) as [-> G]. exists (pos_of fds).
  split; [intros p I; apply index_ok; auto|]. split.
  { rewrite <- (map_snd_keyed fds ps) at 1. apply Permutation_map, stable_sort_perm. }
  split.
  - pose proof (keyed_in fds ps) as K. pose proof (stable_sort_sorted (map (with_key fds) ps)) as S.
    set (L := stable_sort (map (with_key fds) ps)) in *. clearbody L. clear H.
    induction S as [|x l S IH F]; cbn [map]; constructor.
    + apply IH. intros y Y. apply K. now right.
    + rewrite Forall_map. rewrite Forall_forall in *. intros y Y. specialize (F y Y). unfold le2 in F.
      rewrite (K x), (K y) in F by (cbn; auto). cbn [with_key fst] in F. apply key_le_iff in F. exact F.
  - intros f T. 
    assert (X : forall l, filter f (map snd l) = map snd (filter (fun x => f (snd x)) l : list (key * problem))).
    { induction l as [|x l IH]; auto. cbn [map filter]. destruct (f (snd x)); cbn [map]; now rewrite IH. }
    assert (Y : filter (fun x => f (snd x)) (stable_sort (map (with_key fds) ps)) = filter (fun x => f (snd x)) (map (with_key fds) ps)).
    { set (g := fun x : key * problem => f (snd x) && key_leb (fst x) (fst (with_key fds (snd x))) && key_leb (fst (with_key fds (snd x))) (fst x)).
      assert (E : forall l, (forall x, In x l -> x = with_key fds (snd x)) -> filter (fun x => f (snd x)) l = filter g l).
      { intros l K. apply filter_ext_in. intros x I. unfold g. rewrite <- (K x I).
        pose proof (key_refl (fst x)) as R. unfold key_le in R. now rewrite R, !andb_true_r. }
      assert (A : forall a b, key_le a b -> key_le b a -> a = b).
      { intros [[[i p] l] c] [[[j q] m] d]. rewrite !key_le_iff. rewrite (String.compare_antisym q p).
        intros [A|[A [B|[B [C|[C D]]]]]] [A'|[A' [B'|[B' [C'|[C' D']]]]]]; subst; try lia;
          try (rewrite B in B'; discriminate); try (rewrite compare_refl in *; discriminate).
        repeat f_equal. lia. }
      rewrite !E; [|intros x I; apply in_map_iff in I as [p [<- _]]; reflexivity|apply keyed_in].
      apply stable_sort_stable. intros a b Ha Hb. unfold g in *.
      apply andb_true_iff in Ha as [Ha Ha2]. apply andb_true_iff in Ha as [Ha Ha1].
      apply andb_true_iff in Hb as [Hb Hb2]. apply andb_true_iff in Hb as [Hb Hb1].
      rewrite (A _ _ Ha1 Ha2), (A _ _ Hb1 Hb2). cbn [with_key fst].
      destruct (T _ _ Ha Hb) as [-> [-> ->]]. reflexivity. }
    rewrite X, Y, <- X, map_snd_keyed. reflexivity.
Qed.

Lemma sort_succeeds : forall fds ps,
  (exists out, sort fds ps = Ok out) <->
  forall p, In p ps -> outside_files (path p) \/ exists fd, In fd fds /\ covers fd (path p).
Proof.
  intros. split.
  - intros [out H] p I. destruct (sort_shape _ _ _ H) as [_ G]. apply index_total. eauto.
  - intros H. unfold sort.
    destruct (mapM_total _ _ (fun p => do i <- get_file_or_dir_index fds (path p); Ok ((i, path p, line p, column p), p)) ps) as [r ->].
    + intros p I. destruct (proj1 (index_total fds (path p)) (H p I)) as [n ->]. cbn [bind]. eauto.
    + cbn [bind]. eauto.
Qed.

(** ** Report *)

Lemma report_entries : forall single ps prev, entries (report single prev ps) = ps.
Proof.
  induction ps as [|p r IH]; intros prev; cbn [report]; auto.
  destruct (negb single && _); unfold entries; cbn [flat_map app]; f_equal; apply IH.
Qed.
Lemma report_single : forall ps prev, report true prev ps = map Entry ps.
Proof. induction ps; intros; cbn [report negb andb map]; auto. now rewrite IHps. Qed.

Lemma last_free : forall l d, Forall (fun x => has_char "/" x = false) l -> has_char "/" d = false -> has_char "/" (last l d) = false.
Proof. induction l as [|x l IH]; intros d F D; auto. inversion F; subst. destruct l; auto. apply IH; auto. Qed.
Lemma join_last : forall l, l <> [] ->
  exists d, join "/" l = (d ++ last l "")%string /\ (d = ""%string \/ exists e, d = (e ++ "/")%string).
Proof.
  induction l as [|x l IH]; [congruence|]. intros _. destruct l as [|y l].
  - exists "". split; auto.
  - destruct IH as [d [E D]]; [discriminate|]. exists (x ++ String "/" d)%string. split.
    + change (join "/" (x :: y :: l)) with (x ++ String "/" (join "/" (y :: l)))%string. rewrite E.
      rewrite append_assoc. reflexivity.
    + right. destruct D as [->|[e ->]]; [exists x; reflexivity|]. exists (x ++ String "/" e)%string.
      now rewrite append_assoc.
Qed.
Lemma basename_file_name : forall p, file_name p (basename p).
Proof.
  intros p. unfold basename, sl. destruct (join_last (split_on "/" p)) as [d [E D]]; [apply split_on_nonempty|].
  rewrite join_split_on in E. exists d. split; auto. exists (last (split_on "/" p) ""). repeat split; auto.
  apply last_free; auto. apply split_on_free.
Qed.

(** Where headers and entries stand. [prev] is the path of the last header. *)
Lemma report_entry_header : forall ps prev a b p, report false prev ps = a ++ Entry p :: b ->
  (exists a1 a2, a = a1 ++ Header (basename (path p)) :: a2 /\ exists ents, a2 = map Entry ents /\ forall q, In q ents -> path q = path p) \/
  (prev = Some (path p) /\ exists ents, a = map Entry ents /\ forall q, In q ents -> path q = path p).
Proof.
  induction ps as [|x ps IH]; intros prev a b p H; cbn [report negb andb] in H; [destruct a; discriminate|].
  destruct (match prev with None => true | Some q => negb (String.eqb q (path x)) end) eqn:C.
  - destruct a as [|h [|e a]]; cbn [app] in H; [discriminate| |].
    + inversion H; subst. left. exists [], []. split; auto. exists []. split; auto. intros q [].
    + inversion H; subst. destruct (IH _ _ _ _ H3) as [[a1 [a2 [-> X]]]|[P [ents [-> X]]]].
      * left. exists (Header (basename (path x)) :: Entry x :: a1), a2. split; auto.
      * assert (P' : path x = path p) by congruence. left. exists [], (Entry x :: map Entry ents). rewrite P'. split; auto.
        exists (x :: ents). split; auto. intros q [<-|Q]; auto.
  - destruct prev as [q|]; [|discriminate]. apply negb_false_iff, String.eqb_eq in C. subst q.
    destruct a as [|e a]; cbn [app] in H.
    + inversion H; subst. right. split; auto. exists []. split; auto. intros q [].
    + inversion H; subst. destruct (IH _ _ _ _ H2) as [[a1 [a2 [-> X]]]|[P [ents [-> X]]]].
      * left. exists (Entry x :: a1), a2. split; auto.
      * right. split; auto. assert (P' : path x = path p) by congruence. exists (x :: ents). split; auto. intros q [<-|Q]; auto.
Qed.
Lemma report_header_entry : forall ps prev a n b, report false prev ps = a ++ Header n :: b ->
  exists p b', b = Entry p :: b' /\ n = basename (path p) /\
    (a = [] /\ prev <> Some (path p) \/ exists a' q, a = a' ++ [Entry q] /\ path q <> path p).
Proof.
  induction ps as [|x ps IH]; intros prev a n b H; cbn [report negb andb] in H; [destruct a; discriminate|].
  destruct (match prev with None => true | Some q => negb (String.eqb q (path x)) end) eqn:C.
  - destruct a as [|h [|e a]]; cbn [app] in H; [|discriminate|].
    + inversion H; subst. exists x, (report false (Some (path x)) ps). repeat split; auto. left. split; auto.
      destruct prev as [q|]; [|discriminate]. apply negb_true_iff, String.eqb_neq in C. congruence.
    + inversion H; subst. destruct (IH _ _ _ _ H3) as [p [b' [-> [-> [[-> N]|[a' [q [-> N]]]]]]]]; exists p, b'; repeat split; auto; right.
      * exists [Header (basename (path x))], x. split; auto. congruence.
      * exists (Header (basename (path x)) :: Entry x :: a'), q. split; auto.
  - destruct prev as [q|]; [|discriminate]. apply negb_false_iff, String.eqb_eq in C. subst q.
    destruct a as [|e a]; cbn [app] in H; [discriminate|].
    inversion H; subst. destruct (IH _ _ _ _ H2) as [p [b' [-> [-> [[-> N]|[a' [q [-> N]]]]]]]]; exists p, b'; repeat split; auto; right.
    + exists [], x. split; auto. congruence.
    + exists (Entry x :: a'), q. split; auto.
Qed.
Lemma report_shape : forall ps,
  (forall a p b, report false None ps = a ++ Entry p :: b ->
     exists n a1 ents, a = a1 ++ Header n :: map Entry ents /\ file_name (path p) n /\ forall q, In q ents -> path q = path p) /\
  (forall a n b, report false None ps = a ++ Header n :: b ->
     exists p b', b = Entry p :: b' /\ file_name (path p) n /\ (a = [] \/ exists a' q, a = a' ++ [Entry q] /\ path q <> path p)).
Proof.
  split.
  - intros a p b H. apply report_entry_header in H as [[a1 [a2 [-> [ents [-> X]]]]]|[P _]]; [|discriminate].
    exists (basename (path p)), a1, ents. auto using basename_file_name.
  - intros a n b H. apply report_header_entry in H as [p [b' [-> [-> [[-> _]|X]]]]]; exists p, b'; auto using basename_file_name.
Qed.
