(** Lemmas about the paths of reported problems. *)
From Coq Require Import String Ascii List Bool Arith ZArith Lia.
From Verif Require Import Base ConfigModel PathModel PathSpec PathProofs ConfigFileModel RegexModel LintModel LintSpec LintProofs.
Import ListNotations.
Local Open Scope string_scope.
Local Open Scope list_scope.

Lemma split_free : forall c s, has_char c s = false -> split_on c s = [s].
Proof.
  induction s as [|x s IH]; intros H; auto. cbn [has_char] in H. apply orb_false_iff in H as [H1 H2].
  cbn [split_on]. now rewrite H1, IH.
Qed.
Lemma comp_isabs : forall c, comp c -> isabs c = false.
Proof.
  intros [|x c] [N [_ F]]; [contradiction|]. rewrite isabs_cons. cbn [has_char] in F. now apply orb_false_iff in F.
Qed.
Lemma walk_comp : forall st c, comp c -> walk st c = follow st c.
Proof. intros st c [_ [_ F]]. unfold walk. now rewrite split_free. Qed.

(** ** The path computed for a pylint message *)

Lemma place_fold : forall cwd l acc, Forall comp l -> place cwd (fold_left pjoin l acc) = fold_left follow l (place cwd acc).
Proof.
  induction l as [|c l IH]; intros acc H; auto. inversion H; subst. cbn [fold_left]. rewrite IH by auto.
  rewrite place_pjoin, comp_isabs by auto. now rewrite walk_comp.
Qed.
Lemma dots_comp : forall n, Forall comp (repeat ".." n).
Proof. intros. apply Forall_forall. intros x I. apply repeat_spec in I. subst. repeat split; discriminate. Qed.
Lemma name_comp : forall l, Forall name l -> Forall comp l.
Proof. intros l H. eapply Forall_impl; [|exact H]. now intros a [C _]. Qed.
Lemma last_index_spec : forall a b k, a <> [] -> b <> [] ->
  exists j, last_index a b k = k + j /\ j < List.length a /\ j < List.length b /\ firstn j a = firstn j b.
Proof.
  induction a as [|x a IH]; intros [|y b] k A B; try congruence. cbn [last_index].
  destruct (String.eqb x y) eqn:E; [|exists 0; cbn [List.length firstn]; repeat split; lia].
  apply String.eqb_eq in E. subst y.
  destruct a as [|a0 a]; [exists 0; cbn [List.length firstn]; repeat split; lia|].
  destruct b as [|b0 b]; [exists 0; cbn [List.length firstn]; repeat split; lia|].
  destruct (IH (b0 :: b) (S k)) as [j [-> [L1 [L2 F]]]]; try discriminate.
  exists (S j). cbn [List.length firstn] in *. repeat split; try lia. now rewrite F.
Qed.
Lemma resolve_place : forall cwd p, isabs cwd = true -> resolve cwd p = rev (place cwd p).
Proof. intros. unfold resolve. now apply abspath_comps. Qed.

(** Going from the working directory to a place. *)
Definition way (cwd_parts abs_parts : list string) : string :=
  let i := last_index ("/" :: cwd_parts) ("/" :: abs_parts) 0 in
  path_of (repeat ".." (List.length ("/" :: cwd_parts) - i) ++ skipn i ("/" :: abs_parts)).
Lemma way_place : forall cwd t, isabs cwd = true -> Forall name t ->
  place cwd (way (rev (walk [] cwd)) (rev t)) = t.
Proof.
  intros cwd t A N. unfold way. set (C := rev (walk [] cwd)).
  destruct (last_index_spec ("/" :: C) ("/" :: rev t) 0) as [i [-> [L1 [L2 F]]]]; try discriminate.
  rewrite Nat.add_0_l. unfold path_of.
  assert (NR : Forall name (rev t)) by now apply Forall_rev.
  assert (PE : place cwd "" = walk [] cwd) by reflexivity.
  destruct i as [|i].
  - cbn [skipn]. rewrite fold_left_app. cbn [fold_left].
    assert (J : forall a, pjoin a "/" = "/") by reflexivity. rewrite J.
    rewrite place_fold by now apply name_comp. rewrite place_abs by reflexivity.
    rewrite fold_names by auto. rewrite rev_involutive. cbn. apply app_nil_r.
  - cbn [skipn List.length] in *. rewrite place_fold.
    + rewrite PE, fold_left_app, fold_dots, fold_names.
      * cbn [firstn] in F. inversion F as [F']. clear F.
        assert (K : skipn (S (List.length C) - S i) (walk [] cwd) = rev (firstn i C)).
        { unfold C. rewrite firstn_rev, rev_involutive. f_equal. rewrite rev_length. lia. }
        rewrite K, F', <- rev_app_distr, firstn_skipn. apply rev_involutive.
      * rewrite <- (firstn_skipn i (rev t)) in NR. now apply Forall_app in NR.
    + apply Forall_app. split; [apply dots_comp|]. apply name_comp.
      rewrite <- (firstn_skipn i (rev t)) in NR. now apply Forall_app in NR.
Qed.

Lemma walk_abs_join : forall l, Forall name l -> walk [] (String "/" (join "/" l)) = rev l.
Proof.
  intros l H. rewrite walk_lead, walk_join by now apply name_comp. rewrite fold_names by auto. apply app_nil_r.
Qed.
Lemma used_filename_cases : forall cwd fds p u, isabs cwd = true -> used_filename cwd fds p = Ok u ->
  exists before fd after, fds = before ++ fd :: after /\
    (exists more, rev (place cwd p) = rev (place cwd fd) ++ more) /\
    u = if isabs fd then String "/" (join "/" (rev (place cwd p)))
        else way (rev (walk [] cwd)) (rev (place cwd p)).
Proof.
  intros cwd fds p u A. induction fds as [|fd r IH]; intros H; cbn [used_filename] in H; [discriminate|].
  rewrite !resolve_place in H by auto.
  destruct (is_prefix (rev (place cwd fd)) (rev (place cwd p))) eqn:P.
  - exists [], fd, r. split; auto. split; [now apply is_prefix_iff|].
    destruct (isabs fd); inversion H; reflexivity.
  - destruct (IH H) as [b [f [a [-> X]]]]. exists (fd :: b), f, a. split; auto.
Qed.
Lemma used_filename_place : forall cwd fds p u, isabs cwd = true -> used_filename cwd fds p = Ok u -> place cwd u = place cwd p.
Proof.
  intros cwd fds p u A H. destruct (used_filename_cases _ _ _ _ A H) as [b [fd [a [_ [_ ->]]]]].
  pose proof (place_names cwd p) as N. destruct (isabs fd).
  - rewrite place_abs by now rewrite isabs_cons. rewrite walk_abs_join by now apply Forall_rev. apply rev_involutive.
  - now apply way_place.
Qed.
Lemma used_filename_total : forall cwd fds p, isabs cwd = true ->
  (exists fd more, In fd fds /\ rev (place cwd p) = rev (place cwd fd) ++ more) ->
  exists u, used_filename cwd fds p = Ok u.
Proof.
  intros cwd fds p A. induction fds as [|fd r IH]; intros [f [m [I E]]]; [contradiction|]. cbn [used_filename].
  destruct (is_prefix (resolve cwd fd) (resolve cwd p)) eqn:P; [destruct (isabs fd); eauto|].
  apply IH. exists f, m. split; auto. destruct I as [<-|I]; auto.
  rewrite !resolve_place in P by auto. assert (is_prefix (rev (place cwd fd)) (rev (place cwd p)) = true) by (apply is_prefix_iff; eauto).
  congruence.
Qed.

Lemma pylint_path : forall cwd fds enablers raw p, isabs cwd = true ->
  pylint_to_problem cwd fds enablers raw = Ok p -> ~ outside_files (r_path raw) ->
  place cwd (path p) = place cwd (r_path raw).
Proof.
  intros cwd fds en raw p A H O. unfold pylint_to_problem, get_used_filename in H.
  destruct (is_pylint_out_of_file_problem (r_path raw)) eqn:E; [apply outside_iff in E; contradiction|].
  destruct (used_filename cwd fds (r_path raw)) as [u|] eqn:U; cbn [bind] in H; [|discriminate].
  inversion H. cbn [path]. rewrite place_proper by auto. eapply used_filename_place; eauto.
Qed.
Lemma flake8_path : forall cwd enablers raw, isabs cwd = true ->
  place cwd (path (flake8_to_problem cwd enablers raw)) = place cwd (f_filename raw).
Proof. intros. cbn [flake8_to_problem path]. now apply place_proper. Qed.

(** ** Paths without '..' *)


Lemma fold_follow_names : forall l st, ~ In ".."%string (filter (fun c => negb (String.eqb c "") && negb (String.eqb c ".")) l) ->
  fold_left follow l st = rev (filter (fun c => negb (String.eqb c "") && negb (String.eqb c ".")) l) ++ st.
Proof.
  induction l as [|c l IH]; intros st H; auto. cbn [fold_left filter] in *.
  destruct (negb (String.eqb c "") && negb (String.eqb c ".")) eqn:E.
  - cbn [In] in H. apply andb_true_iff in E as [E1 E2]. apply negb_true_iff in E1, E2.
    assert (D : String.eqb c ".." = false) by (apply String.eqb_neq; intuition).
    unfold follow at 2. rewrite E1, E2, D. cbn [orb rev]. rewrite IH by intuition. now rewrite <- app_assoc.
  - rewrite follow_skip; auto. apply andb_false_iff in E as [E|E]; apply negb_false_iff in E; rewrite E; auto using orb_true_r.
Qed.
Lemma walk_no_dots : forall st p, no_dots p -> walk st p = rev (names p) ++ st.
Proof. intros. unfold walk. now apply fold_follow_names. Qed.
Lemma names_are_names : forall p, no_dots p -> Forall name (names p).
Proof.
  intros p H. apply Forall_forall. intros c I. split; [|intros ->; contradiction].
  apply filter_In in I as [I F]. apply andb_true_iff in F as [F1 F2]. apply negb_true_iff, String.eqb_neq in F1, F2.
  repeat split; auto. pose proof (split_on_free "/" p) as S. rewrite Forall_forall in S. auto.
Qed.
Lemma names_join : forall n l, Forall name l -> names (slashes n ++ join "/" l) = l.
Proof.
  induction n as [|n IH]; intros l H; cbn [slashes append].
  - unfold names. destruct l as [|c l]; [reflexivity|].
    rewrite split_on_join; [|discriminate|apply comp_free, name_comp; auto].
    apply filter_all. eapply Forall_impl; [|exact H]. intros a [[X [Y _]] _].
    apply String.eqb_neq in X, Y. now rewrite X, Y.
  - unfold names, sl in *. cbn [split_on]. rewrite Ascii.eqb_refl. cbn [filter String.eqb negb andb]. now apply IH.
Qed.
Lemma start_here : forall p, isabs p = false -> start_of p = Here.
Proof.
  intros p H. pose proof (root_start p) as R. unfold path_root in R.
  pose proof (initial_slashes_abs p) as I. rewrite H in I. cbn [negb] in I. apply Nat.eqb_eq in I.
  rewrite I in R. destruct (start_of p); auto; discriminate.
Qed.
Lemma start_not_here : forall p, isabs p = true -> start_of p <> Here.
Proof.
  intros p H E. pose proof (root_start p) as R. rewrite E in R. unfold path_root in R.
  pose proof (initial_slashes_abs p) as I. rewrite H in I. cbn [negb] in I. rewrite R in I. discriminate.
Qed.

Lemma common_app : forall a b, common a (a ++ b) = List.length a.
Proof. induction a; intros; cbn [common app List.length]; auto. rewrite String.eqb_refl. now rewrite IHa. Qed.
(** The relative spelling of something below the working directory. *)
Lemma relpath_below : forall cwd u extra, isabs cwd = true -> Forall name extra ->
  place cwd u = rev extra ++ walk [] cwd ->
  names (relpath cwd u) = extra /\ isabs (relpath cwd u) = false.
Proof.
  intros cwd u extra A N P. unfold relpath.
  destruct (abspath_comps cwd "." A) as [-> _]. destruct (abspath_comps cwd u A) as [-> _].
  assert (D : place cwd "." = walk [] cwd) by reflexivity. rewrite D, P, rev_app_distr, rev_involutive.
  rewrite common_app, Nat.sub_diag. cbn [repeat app].
  rewrite skipn_app, skipn_all, Nat.sub_diag. cbn [skipn app].
  destruct extra as [|c l]; [split; reflexivity|]. unfold sl. split.
  - exact (names_join 0 (c :: l) N).
  - apply join_comps_rel. inversion N; subst. now destruct H1.
Qed.
Lemma normpath_root : forall p, isabs p = true -> no_dots p ->
  normpath p = (slashes (initial_slashes p) ++ join "/" (names p))%string.
Proof.
  intros p A H. pose proof (initial_slashes_abs p) as I. rewrite A in I. cbn [negb] in I.
  unfold normpath. destruct (String.eqb p "") eqn:E; [apply String.eqb_eq in E; subst; discriminate|].
  rewrite I. cbn [negb]. unfold sl. rewrite norm_comps_abs by (auto; apply split_on_free).
  change (fold_left follow (split_on "/" p) []) with (walk [] p). rewrite walk_no_dots by auto.
  rewrite app_nil_r, rev_involutive.
  destruct (initial_slashes p) as [|n]; [discriminate|]. reflexivity.
Qed.
Lemma start_slashes : forall n l, (n = 1 \/ n = 2) -> Forall name l ->
  start_of (slashes n ++ join "/" l) = if Nat.eqb n 1 then Root else DoubleRoot.
Proof.
  intros n l N F.
  assert (J : forall r, (exists c s, r = String c s /\ c <> "/"%char) \/ r = ""%string ->
             start_of (String "/" r) = Root /\ start_of (String "/" (String "/" r)) = DoubleRoot).
  { intros r [[c [s [-> X]]]| ->]; [|split; reflexivity].
    destruct c as [[] [] [] [] [] [] [] []]; try (split; reflexivity); congruence. }
  destruct (J (join "/" l)) as [J1 J2].
  { destruct l as [|c l]; [now right|]. left. destruct (join_comps_rel c l) as [X Y]; [inversion F; subst; now destruct H1|].
    destruct (join "/" (c :: l)) as [|x s]; [congruence|]. exists x, s. split; auto. rewrite isabs_cons in Y.
    now apply Ascii.eqb_neq. }
  destruct N as [->| ->]; cbn [slashes append Nat.eqb]; unfold sl; auto.
Qed.

Lemma proper_no_dots : forall cwd p, isabs cwd = true -> no_dots p ->
  names (get_proper_path cwd p) = names p /\ start_of (get_proper_path cwd p) = start_of p.
Proof.
  intros cwd p A H. unfold get_proper_path. pose proof (names_are_names p H) as N. destruct (isabs p) eqn:P.
  - unfold abspath. rewrite P, normpath_root by auto. split; [now apply names_join|].
    pose proof (root_start p) as R. unfold path_root in R.
    pose proof (start_not_here p P) as S. rewrite R.
    rewrite start_slashes by (auto; destruct (start_of p); auto; congruence).
    destruct (start_of p); auto; congruence.
  - destruct (relpath_below cwd p (names p)) as [X Y]; auto.
    + rewrite place_rel by auto. now apply walk_no_dots.
    + split; auto. now rewrite !start_here.
Qed.
Lemma flake8_covered : forall cwd enablers raw fd, isabs cwd = true -> no_dots (f_filename raw) ->
  covers fd (f_filename raw) -> covers fd (path (flake8_to_problem cwd enablers raw)).
Proof.
  intros cwd en raw fd A H [S [m M]]. cbn [flake8_to_problem path].
  destruct (proper_no_dots cwd (f_filename raw) A H) as [X Y]. split; [congruence|]. rewrite X. eauto.
Qed.

Lemma pjoin_rel : forall l acc, Forall comp l -> acc <> ""%string -> isabs (fold_left pjoin l acc) = isabs acc.
Proof.
  induction l as [|c l IH]; intros acc H N; auto. inversion H; subst. cbn [fold_left].
  assert (X : pjoin acc c <> ""%string /\ isabs (pjoin acc c) = isabs acc).
  { unfold pjoin. rewrite comp_isabs by auto.
    destruct (String.eqb acc "" || ends_slash acc); split; try (now apply isabs_app); destruct acc; try contradiction; discriminate. }
  destruct X as [X Y]. rewrite IH; auto.
Qed.
Lemma last_index_pos : forall a b x y, String.eqb x y = true -> a <> [] -> b <> [] -> 1 <= last_index (x :: a) (y :: b) 0.
Proof.
  intros a b x y E A B. cbn [last_index]. rewrite E. destruct a; [contradiction|]. destruct b; [contradiction|].
  destruct (last_index_spec (s :: a) (s0 :: b) 1) as [j [-> _]]; try discriminate. lia.
Qed.
Lemma way_rel : forall C T, C <> [] -> T <> [] -> Forall name T -> isabs (way C T) = false.
Proof.
  intros C T NC NT F. unfold way.
  pose proof (last_index_pos C T "/" "/" eq_refl NC NT) as L.
  destruct (last_index_spec ("/" :: C) ("/" :: T) 0) as [i [E [L1 [L2 _]]]]; try discriminate.
  rewrite E in *. rewrite Nat.add_0_l in *. destruct i as [|i]; [lia|]. cbn [List.length skipn] in *.
  unfold path_of. destruct (S (List.length C) - S i) as [|k] eqn:K; [lia|]. cbn [repeat app fold_left].
  assert (P : pjoin "" ".." = "..") by reflexivity. rewrite P. rewrite pjoin_rel; [reflexivity| |discriminate].
  apply Forall_app. split; [apply dots_comp|]. apply name_comp.
  rewrite <- (firstn_skipn i T) in F. now apply Forall_app in F.
Qed.

Lemma pylint_covered : forall cwd fds enablers raw p,
  isabs cwd = true -> place cwd "." <> [] ->
  (forall fd, In fd fds -> no_dots fd /\ start_of fd <> DoubleRoot) ->
  pylint_to_problem cwd fds enablers raw = Ok p -> ~ outside_files (r_path raw) ->
  exists fd, In fd fds /\ covers fd (path p).
Proof.
  intros cwd fds en raw p A NC D H O. unfold pylint_to_problem, get_used_filename in H.
  destruct (is_pylint_out_of_file_problem (r_path raw)) eqn:E; [apply outside_iff in E; contradiction|].
  destruct (used_filename cwd fds (r_path raw)) as [u|] eqn:U; cbn [bind] in H; [|discriminate].
  inversion H. cbn [path]. clear H.
  destruct (used_filename_cases _ _ _ _ A U) as [b [fd [a [-> [[m M] Eu]]]]].
  exists fd. assert (I : In fd (b ++ fd :: a)) by (apply in_or_app; right; now left). split; auto.
  destruct (D fd I) as [ND SD]. pose proof (place_names cwd (r_path raw)) as N. apply Forall_rev in N.
  assert (NM : Forall name m) by (rewrite M in N; now apply Forall_app in N).
  pose proof (names_are_names fd ND) as NF. destruct (isabs fd) eqn:P.
  - rewrite (place_abs cwd fd) in M by auto. rewrite walk_no_dots, app_nil_r, rev_involutive in M by auto.
    assert (NU : names u = rev (place cwd (r_path raw))) by (subst u; exact (names_join 1 _ N)).
    assert (SU : start_of u = Root) by (subst u; exact (start_slashes 1 _ (or_introl eq_refl) N)).
    assert (DU : no_dots u).
    { unfold no_dots. rewrite NU. intros X. rewrite Forall_forall in N. destruct (N _ X) as [_ Y]. now apply Y. }
    destruct (proper_no_dots cwd u A DU) as [Q1 Q2]. split.
    + rewrite Q2, SU. pose proof (start_not_here fd P). destruct (start_of fd); congruence.
    + rewrite Q1, NU, M. eauto.
  - rewrite (place_rel cwd fd) in M by auto. rewrite walk_no_dots, rev_app_distr, rev_involutive in M by auto.
    assert (W : walk [] cwd <> []) by exact NC.
    assert (RU : isabs u = false).
    { subst u. apply way_rel; auto.
      - intros X. apply W. rewrite <- (rev_involutive (walk [] cwd)), X. reflexivity.
      - rewrite M. destruct (walk [] cwd) as [|w ws]; [contradiction|]. cbn [rev]. intros X.
        apply app_eq_nil in X as [X _]. apply app_eq_nil in X as [X _]. apply app_eq_nil in X as [_ X]. discriminate. }
    unfold get_proper_path. rewrite RU.
    destruct (relpath_below cwd u (names fd ++ m)) as [X Y]; auto.
    + apply Forall_app. split; auto.
    + rewrite (used_filename_place _ _ _ _ A U). rewrite <- (rev_involutive (place cwd (r_path raw))), M.
      rewrite <- app_assoc, rev_app_distr. now rewrite rev_involutive.
    + split; [now rewrite !start_here|]. rewrite X. eauto.
Qed.

Lemma proper_name : forall cwd c, isabs cwd = true -> name c -> get_proper_path cwd c = c.
Proof.
  intros cwd c A N. assert (C : comp c) by now destruct N. unfold get_proper_path. rewrite comp_isabs by auto.
  unfold relpath. destruct (abspath_comps cwd "." A) as [-> _]. destruct (abspath_comps cwd c A) as [-> _].
  assert (D : place cwd "." = walk [] cwd) by reflexivity. rewrite D.
  rewrite (place_rel cwd c) by now apply comp_isabs. rewrite (walk_comp _ c), (follow_name _ c) by auto. cbn [rev].
  rewrite common_app, Nat.sub_diag. cbn [repeat app].
  rewrite skipn_app, skipn_all, Nat.sub_diag. reflexivity.
Qed.
Lemma pylint_outside : forall cwd fds en raw p, pylint_to_problem cwd fds en raw = Ok p ->
  outside_files (r_path raw) -> path p = get_proper_path cwd (r_path raw).
Proof.
  intros cwd fds en raw p H O. unfold pylint_to_problem, get_used_filename in H. apply outside_iff in O. rewrite O in H.
  cbn [bind] in H. now inversion H.
Qed.
Lemma sort_found : forall cwd fds ps, isabs cwd = true -> place cwd "." <> [] ->
  (forall fd, In fd fds -> no_dots fd /\ start_of fd <> DoubleRoot) ->
  Forall (found_in cwd fds) ps -> exists out, sort fds ps = Ok out.
Proof.
  intros cwd fds ps A W D F. apply sort_succeeds. rewrite Forall_forall in F. intros p I.
  destruct (F p I) as [p fd If C|en raw fd If C N|en raw p H [E|O]].
  - right. eauto.
  - right. exists fd. split; auto. now apply flake8_covered.
  - left. assert (M : outside_files "Command line or configuration file").
    { left. exists "", " or configuration file". reflexivity. }
    assert (O : outside_files (r_path raw)) by now rewrite E.
    rewrite (pylint_outside _ _ _ _ _ H O), E, proper_name; auto. repeat split; discriminate.
  - right. eapply pylint_covered; eauto.
Qed.
