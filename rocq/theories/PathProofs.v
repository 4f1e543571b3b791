(** Lemmas about paths. *)
From Coq Require Import String Ascii List Bool Arith Lia.
From Verif Require Import Base PathModel PathSpec.
Import ListNotations.
Local Open Scope string_scope.
Local Open Scope list_scope.

Lemma append_assoc : forall a b c : string, ((a ++ b) ++ c = a ++ (b ++ c))%string.
Proof. induction a; intros; cbn [append]; congruence. Qed.
Lemma append_nil : forall a : string, (a ++ "" = a)%string.
Proof. induction a; cbn [append]; congruence. Qed.

Lemma split_on_sep : forall c a b, split_on c (a ++ String c b) = split_on c a ++ split_on c b.
Proof.
  induction a as [|x a IH]; intros b; cbn [append split_on].
  - rewrite Ascii.eqb_refl. reflexivity.
  - destruct (Ascii.eqb x c); [rewrite IH; reflexivity|].
    rewrite IH. pose proof (split_on_nonempty c a). destruct (split_on c a); [contradiction|reflexivity].
Qed.
Lemma split_on_free : forall c s, Forall (fun x => has_char c x = false) (split_on c s).
Proof.
  induction s as [|x s IH]; cbn [split_on]; [repeat constructor|].
  destruct (Ascii.eqb x c) eqn:E; [constructor; auto|].
  destruct (split_on c s); [repeat constructor; cbn [has_char]; now rewrite E|].
  inversion IH; subst. constructor; auto. cbn [has_char]. now rewrite E.
Qed.

Lemma walk_sep : forall st a b, walk st (a ++ String "/" b) = walk (walk st a) b.
Proof. intros. unfold walk. rewrite split_on_sep. apply fold_left_app. Qed.
Lemma walk_empty : forall st, walk st "" = st.
Proof. reflexivity. Qed.
Lemma ends_slash_split : forall a, ends_slash a = true -> exists e, a = (e ++ "/")%string.
Proof.
  induction a as [|c a IH]; [discriminate|]. intros H. destruct a as [|c' a].
  - cbn [ends_slash] in H. apply Ascii.eqb_eq in H. subst. exists "". reflexivity.
  - destruct (IH H) as [e E]. exists (String c e). cbn [append]. now rewrite <- E.
Qed.
Lemma walk_slashed : forall st e b, walk st ((e ++ "/") ++ b) = walk (walk st (e ++ "/")) b.
Proof. intros. rewrite append_assoc. cbn [append]. now rewrite !walk_sep, walk_empty. Qed.

Lemma isabs_cons : forall c r, isabs (String c r) = Ascii.eqb c "/".
Proof.
  intros. unfold isabs. cbn [String.prefix]. destruct (ascii_dec "/" c) as [<-|N].
  - now destruct r.
  - symmetry. apply Ascii.eqb_neq. congruence.
Qed.
Lemma isabs_app : forall a b, a <> ""%string -> isabs (a ++ b) = isabs a.
Proof. intros [|c a] b H; [contradiction|]. cbn [append]. now rewrite !isabs_cons. Qed.
Lemma place_abs : forall cwd p, isabs p = true -> place cwd p = walk [] p.
Proof. intros cwd p H. unfold place. unfold isabs in H. now rewrite H. Qed.
Lemma place_rel : forall cwd p, isabs p = false -> place cwd p = walk (walk [] cwd) p.
Proof. intros cwd p H. unfold place. unfold isabs in H. now rewrite H. Qed.
Lemma place_app : forall cwd a b r, a <> ""%string ->
  (forall st, walk st (a ++ b) = walk (walk st a) r) -> place cwd (a ++ b) = walk (place cwd a) r.
Proof.
  intros cwd a b r N H. destruct (isabs a) eqn:A.
  - rewrite !place_abs; auto. now rewrite isabs_app.
  - rewrite !place_rel; auto. now rewrite isabs_app.
Qed.

Lemma place_pjoin : forall cwd a b,
  place cwd (pjoin a b) = if isabs b then place cwd b else walk (place cwd a) b.
Proof.
  intros. unfold pjoin. destruct (isabs b) eqn:B; auto.
  destruct (String.eqb a "") eqn:E.
  - apply String.eqb_eq in E. subst. cbn [orb append]. now rewrite !place_rel.
  - apply String.eqb_neq in E. cbn [orb]. destruct (ends_slash a) eqn:S.
    + apply place_app; auto. intros. apply ends_slash_split in S as [e ->]. apply walk_slashed.
    + apply place_app; auto. intros. apply walk_sep.
Qed.

(** ** Normalisation *)

Definition comp (c : string) : Prop := c <> ""%string /\ c <> "."%string /\ has_char "/" c = false.
Definition name (c : string) : Prop := comp c /\ c <> ".."%string.

Lemma follow_name : forall st c, name c -> follow st c = c :: st.
Proof.
  intros st c [[A [B _]] D]. unfold follow. apply String.eqb_neq in A, B, D. now rewrite A, B, D.
Qed.
Lemma follow_skip : forall st c, String.eqb c "" || String.eqb c "." = true -> follow st c = st.
Proof. intros st c H. unfold follow. now rewrite H. Qed.
Lemma comp_of : forall c, has_char "/" c = false -> String.eqb c "" || String.eqb c "." = false -> comp c.
Proof.
  intros c H E. apply orb_false_iff in E as [E1 E2]. apply String.eqb_neq in E1, E2. repeat split; auto.
Qed.

Lemma norm_comps_comps : forall abs comps acc, Forall (fun c => has_char "/" c = false) comps ->
  Forall comp acc -> Forall comp (norm_comps abs comps acc).
Proof.
  induction comps as [|c r IH]; intros acc H A; cbn [norm_comps]; [now apply Forall_rev|].
  inversion H; subst.
  destruct (String.eqb c "" || String.eqb c ".") eqn:E; [auto|].
  match goal with |- context [if ?b then _ else _] => destruct b end; apply IH; auto.
  - constructor; auto. now apply comp_of.
  - destruct A; cbn [tl]; auto.
Qed.
Lemma norm_comps_walk : forall abs comps acc st, Forall (fun c => has_char "/" c = false) comps ->
  Forall comp acc -> (abs = true -> st = []) ->
  fold_left follow (norm_comps abs comps acc) st = fold_left follow comps (fold_left follow (rev acc) st).
Proof.
  induction comps as [|c r IH]; intros acc st H A S; cbn [norm_comps fold_left]; [reflexivity|].
  inversion H; subst.
  destruct (String.eqb c "" || String.eqb c ".") eqn:E.
  { rewrite IH by auto. now rewrite follow_skip. }
  match goal with |- context [if ?b then _ else _] => destruct b eqn:B end.
  - rewrite IH; auto.
    + cbn [rev]. now rewrite fold_left_app.
    + constructor; auto. now apply comp_of.
  - apply orb_false_iff in B as [B B3]. apply orb_false_iff in B as [B1 B2].
    apply negb_false_iff, String.eqb_eq in B1. subst c.
    destruct acc as [|t acc].
    + rewrite andb_true_r in B2. apply negb_false_iff in B2. rewrite (S B2). cbn [tl].
      rewrite IH; auto.
    + inversion A; subst. cbn [tl]. rewrite IH; auto. cbn [rev]. rewrite fold_left_app. cbn [fold_left].
      rewrite (follow_name _ t); [reflexivity|]. split; auto. now apply String.eqb_neq.
Qed.
Lemma norm_comps_abs : forall comps acc, Forall (fun c => has_char "/" c = false) comps ->
  Forall name acc -> norm_comps true comps acc = rev (fold_left follow comps acc).
Proof.
  induction comps as [|c r IH]; intros acc H A; cbn [norm_comps fold_left]; [reflexivity|].
  inversion H; subst. unfold follow at 2.
  destruct (String.eqb c "" || String.eqb c ".") eqn:E; [auto|].
  cbn [negb andb]. rewrite orb_false_r.
  assert (T : match acc with [] => false | t :: _ => String.eqb t ".." end = false).
  { destruct A as [|t acc [_ N] _]; auto. now apply String.eqb_neq. }
  rewrite T, orb_false_r.
  destruct (String.eqb c "..") eqn:D; cbn [negb]; apply IH; auto.
  - destruct A; cbn [tl]; auto.
  - constructor; auto. split; [now apply comp_of|]. now apply String.eqb_neq.
Qed.
Lemma walk_names : forall p st, Forall name st -> Forall name (walk st p).
Proof.
  intros p. unfold walk. pose proof (split_on_free "/" p) as F. induction F as [|c r H F IH]; intros st A; auto.
  cbn [fold_left]. apply IH. unfold follow.
  destruct (String.eqb c "" || String.eqb c ".") eqn:E; auto.
  destruct (String.eqb c "..") eqn:D; [destruct A; cbn [tl]; auto|].
  constructor; auto. split; [now apply comp_of|]. now apply String.eqb_neq.
Qed.
Lemma place_names : forall cwd p, Forall name (place cwd p).
Proof. intros. unfold place. destruct (String.prefix "/" p); auto using walk_names. Qed.

Lemma comp_free : forall l, Forall comp l -> Forall (fun s => has_char "/" s = false) l.
Proof. intros l H. eapply Forall_impl; [|exact H]. now intros a [_ [_ F]]. Qed.
Lemma walk_join : forall l st, Forall comp l -> walk st (join "/" l) = fold_left follow l st.
Proof.
  intros l st H. destruct l as [|c l]; [reflexivity|]. unfold walk. rewrite split_on_join; [reflexivity|discriminate|].
  now apply comp_free.
Qed.
Lemma join_comps_rel : forall c l, comp c -> join "/" (c :: l) <> ""%string /\ isabs (join "/" (c :: l)) = false.
Proof.
  intros c l [N [_ F]].
  assert (A : isabs c = false).
  { destruct c as [|x c]; [contradiction|]. rewrite isabs_cons. cbn [has_char] in F. now apply orb_false_iff in F. }
  destruct l as [|d l]; cbn [join]; [auto|].
  split; [|rewrite isabs_app; auto]. destruct c; [contradiction|discriminate].
Qed.
Lemma walk_lead : forall st r, walk st (String "/" r) = walk st r.
Proof. intros. exact (walk_sep st "" r). Qed.
Lemma walk_slashes : forall n st r, walk st (slashes n ++ r) = walk st r.
Proof. induction n; intros; cbn [slashes append]; auto. unfold sl. rewrite walk_lead. auto. Qed.

Lemma initial_slashes_abs : forall p, Nat.eqb (initial_slashes p) 0 = negb (isabs p).
Proof.
  intros [|c p]; [reflexivity|]. unfold initial_slashes, isabs. cbn [String.prefix].
  destruct (ascii_dec "/" c).
  - destruct p; cbn [String.prefix]; [reflexivity|].
    destruct (_ && _); reflexivity.
  - reflexivity.
Qed.

Lemma normpath_abs : forall p, isabs p = true -> isabs (normpath p) = true /\
  exists n l, normpath p = (slashes n ++ join "/" l)%string /\ l = rev (walk [] p).
Proof.
  intros p A. pose proof (initial_slashes_abs p) as I. rewrite A in I. cbn [negb] in I.
  unfold normpath. destruct (String.eqb p "") eqn:E; [apply String.eqb_eq in E; subst; discriminate|].
  rewrite I. cbn [negb]. destruct (initial_slashes p) as [|n] eqn:N; [discriminate|].
  cbn [slashes append String.eqb]. split; [unfold sl; now rewrite isabs_cons|].
  exists (S n). eexists. split; [reflexivity|]. apply norm_comps_abs; [apply split_on_free|constructor].
Qed.

Lemma place_normpath : forall cwd p, place cwd (normpath p) = place cwd p.
Proof.
  intros. destruct (isabs p) eqn:A.
  - destruct (normpath_abs p A) as [B [n [l [E L]]]]. rewrite !place_abs by auto. rewrite E, walk_slashes, L.
    pose proof (walk_names p [] (Forall_nil _)) as W.
    rewrite walk_join by (apply Forall_rev; eapply Forall_impl; [|exact W]; now intros a [C _]).
    clear - W. rewrite <- (rev_involutive (walk [] p)) at 2. 
    assert (G : forall l st, Forall name l -> fold_left follow l st = rev l ++ st).
    { clear. induction l as [|c l IH]; intros st H; auto. inversion H; subst. cbn [fold_left rev].
      rewrite follow_name, IH by auto. now rewrite <- app_assoc. }
    rewrite G by now apply Forall_rev. now rewrite app_nil_r.
  - rewrite (place_rel _ p) by auto. pose proof (initial_slashes_abs p) as I. rewrite A in I. cbn [negb] in I.
    unfold normpath. destruct (String.eqb p "") eqn:E; [apply String.eqb_eq in E; subst; reflexivity|].
    rewrite I. cbn [negb]. apply Nat.eqb_eq in I. rewrite I. cbn [slashes append].
    pose proof (norm_comps_comps false (split_on sl p) [] (split_on_free _ _) (Forall_nil _)) as C.
    pose proof (fun st => norm_comps_walk false (split_on sl p) [] st (split_on_free _ _) (Forall_nil _)) as W.
    cbn [rev fold_left] in W. unfold walk at 1. change "/"%char with sl. rewrite <- W by discriminate.
    destruct (norm_comps false (split_on sl p) []) as [|c l] eqn:N.
    + reflexivity.
    + inversion C; subst. destruct (join_comps_rel c l) as [J1 J2]; auto.
      unfold sl. apply String.eqb_neq in J1. rewrite J1. rewrite place_rel by auto. now apply walk_join.
Qed.

Lemma place_abspath : forall cwd p, place cwd (abspath cwd p) = if isabs p then place cwd p else
  walk (place cwd cwd) p.
Proof. intros. unfold abspath. rewrite place_normpath. destruct (isabs p) eqn:A; auto. rewrite place_pjoin, A. reflexivity. Qed.
Lemma place_abspath_abs : forall cwd p, isabs cwd = true -> place cwd (abspath cwd p) = place cwd p.
Proof.
  intros cwd p A. rewrite place_abspath. destruct (isabs p) eqn:B; auto.
  rewrite (place_abs cwd cwd) by auto. now rewrite place_rel.
Qed.

(** ** [relpath] *)

Lemma filter_all : forall A (f : A -> bool) l, Forall (fun x => f x = true) l -> filter f l = l.
Proof. induction 1; auto. cbn [filter]. now rewrite H, IHForall. Qed.
Lemma rel_comps_join : forall n l, Forall comp l -> rel_comps (slashes n ++ join "/" l) = l.
Proof.
  induction n as [|n IH]; intros l H; cbn [slashes append].
  - unfold rel_comps, sl. destruct l as [|c l]; [reflexivity|].
    rewrite split_on_join; [|discriminate|now apply comp_free].
    apply filter_all. eapply Forall_impl; [|exact H]. intros a [N _]. apply String.eqb_neq in N. now rewrite N.
  - unfold rel_comps in *. cbn [split_on]. rewrite Ascii.eqb_refl. cbn [filter]. now apply IH.
Qed.
Lemma isabs_pjoin' : forall a b, isabs a = true -> isabs (pjoin a b) = true.
Proof.
  intros a b H. unfold pjoin. destruct (isabs b) eqn:B; auto.
  assert (a <> ""%string) by (intros ->; discriminate).
  destruct (String.eqb a "" || ends_slash a); now rewrite isabs_app.
Qed.
Lemma abspath_comps : forall cwd p, isabs cwd = true -> rel_comps (abspath cwd p) = rev (place cwd p) /\ isabs (abspath cwd p) = true.
Proof.
  intros cwd p A. unfold abspath.
  assert (J : isabs (if isabs p then p else pjoin cwd p) = true)
    by (destruct (isabs p) eqn:B; auto using isabs_pjoin').
  destruct (normpath_abs _ J) as [B [n [l [E L]]]]. split; auto. rewrite E.
  assert (W : walk [] (if isabs p then p else pjoin cwd p) = place cwd p).
  { rewrite <- (place_abs cwd) by auto. destruct (isabs p) eqn:P; auto. rewrite place_pjoin, P.
    rewrite (place_abs cwd cwd) by auto. now rewrite place_rel. }
  rewrite W in L. subst l. apply rel_comps_join. apply Forall_rev.
  eapply Forall_impl; [|apply (place_names cwd p)]. now intros a [C _].
Qed.
Lemma common_firstn : forall a b, firstn (common a b) a = firstn (common a b) b /\ common a b <= List.length a.
Proof.
  induction a as [|x a IH]; intros [|y b]; cbn [common firstn List.length]; auto with arith.
  destruct (String.eqb x y) eqn:E; cbn [firstn]; auto with arith.
  apply String.eqb_eq in E. subst. destruct (IH b) as [H1 H2]. rewrite H1. auto with arith.
Qed.
Lemma fold_names : forall l st, Forall name l -> fold_left follow l st = rev l ++ st.
Proof.
  induction l as [|c l IH]; intros st H; auto. inversion H; subst. cbn [fold_left rev].
  rewrite follow_name, IH by auto. now rewrite <- app_assoc.
Qed.
Lemma fold_dots : forall k st, fold_left follow (repeat ".." k) st = skipn k st.
Proof.
  induction k as [|k IH]; intros st; cbn [repeat fold_left]; [now destruct st|].
  rewrite IH. destruct st; cbn [follow tl String.eqb orb]; [now rewrite skipn_nil|reflexivity].
Qed.

Lemma place_relpath : forall cwd p, isabs cwd = true -> place cwd (relpath cwd p) = place cwd p.
Proof.
  intros cwd p A. unfold relpath.
  destruct (abspath_comps cwd "." A) as [S _]. destruct (abspath_comps cwd p A) as [P _]. rewrite S, P.
  assert (C : place cwd "." = walk [] cwd) by reflexivity. rewrite C.
  set (start := rev (walk [] cwd)). set (path := rev (place cwd p)).
  destruct (common_firstn start path) as [F L]. set (i := common start path) in *.
  assert (NP : Forall name path) by (apply Forall_rev, place_names).
  assert (W : fold_left follow (repeat ".." (List.length start - i) ++ skipn i path) (walk [] cwd) = place cwd p).
  { rewrite fold_left_app, fold_dots, fold_names.
    - assert (K : skipn (List.length start - i) (walk [] cwd) = rev (firstn i start)).
      { unfold start at 2. rewrite firstn_rev, rev_involutive. f_equal. unfold start. rewrite rev_length. reflexivity. }
      rewrite K, F, <- rev_app_distr, firstn_skipn. unfold path. apply rev_involutive.
    - rewrite <- (firstn_skipn i path) in NP. now apply Forall_app in NP. }
  destruct (repeat ".." (List.length start - i) ++ skipn i path) as [|c l] eqn:R.
  - exact W.
  - assert (FC : Forall comp (c :: l)).
    { rewrite <- R. apply Forall_app. split.
      - apply Forall_forall. intros x I. apply repeat_spec in I. subst. repeat split; discriminate.
      - rewrite <- (firstn_skipn i path) in NP. apply Forall_app in NP as [_ NP].
        eapply Forall_impl; [|exact NP]. now intros a [X _]. }
    inversion FC; subst. destruct (join_comps_rel c l) as [_ J]; auto. unfold sl.
    rewrite place_rel by auto. now rewrite walk_join.
Qed.

Lemma place_proper : forall cwd p, isabs cwd = true -> place cwd (get_proper_path cwd p) = place cwd p.
Proof.
  intros cwd p A. unfold get_proper_path. destruct (isabs p); [now apply place_abspath_abs|now apply place_relpath].
Qed.

(** ** [dirname] *)

Lemma has_char_app : forall c a b, has_char c (a ++ b) = has_char c a || has_char c b.
Proof. induction a; intros; cbn [append has_char]; auto. now rewrite IHa, orb_assoc. Qed.
Lemma upto_app : forall e b, has_char "/" b = false -> upto_last_slash ((e ++ "/") ++ b) = (e ++ "/")%string.
Proof.
  induction e as [|c e IH]; intros b H; cbn [append upto_last_slash].
  - cbn [has_char]. rewrite Ascii.eqb_refl. cbn [orb]. f_equal.
    destruct b as [|c b]; [reflexivity|]. cbn [upto_last_slash]. unfold sl. now rewrite H.
  - cbn [has_char]. rewrite !has_char_app. cbn [has_char]. unfold sl. rewrite Ascii.eqb_refl. cbn [orb].
    rewrite !orb_true_r. cbn [orb]. rewrite ?orb_true_r. f_equal. now apply IH.
Qed.
Lemma upto_none : forall b, has_char "/" b = false -> upto_last_slash b = ""%string.
Proof. intros [|c b] H; [reflexivity|]. cbn [upto_last_slash]. unfold sl. now rewrite H. Qed.
Lemma rstrip_spec : forall s, exists n, s = (rstrip_slash s ++ slashes n)%string.
Proof.
  induction s as [|c s [n IH]]; [exists 0; reflexivity|]. cbn [rstrip_slash].
  destruct (all_slashes (String c s)) eqn:A.
  - exists (S (String.length s)). cbn [append]. clear IH. revert c A. induction s as [|d s IH]; intros c A;
      cbn [all_slashes] in A; apply andb_true_iff in A as [A1 A2]; apply Ascii.eqb_eq in A1; subst c.
    + reflexivity.
    + cbn [String.length slashes]. f_equal. now apply IH.
  - exists n. cbn [append]. now rewrite <- IH.
Qed.
Lemma walk_tail_slashes : forall n st a, walk st (a ++ slashes n) = walk st a.
Proof.
  induction n as [|n IH]; intros st a; cbn [slashes]; [now rewrite append_nil|].
  unfold sl. rewrite walk_sep. rewrite <- (append_nil (slashes n)), walk_slashes. reflexivity.
Qed.
Lemma place_rstrip : forall cwd d, all_slashes d = false -> place cwd (rstrip_slash d) = place cwd d.
Proof.
  intros cwd d A. destruct (rstrip_spec d) as [n E].
  assert (N : rstrip_slash d <> ""%string) by (destruct d as [|c d]; [discriminate|]; cbn [rstrip_slash]; rewrite A; discriminate).
  rewrite E at 2. symmetry. rewrite (place_app cwd _ _ ""); auto. intros. now rewrite walk_tail_slashes.
Qed.
Lemma place_dirname : forall cwd p d, directory_part p d -> place cwd (dirname p) = place cwd d.
Proof.
  intros cwd p d [b [-> [F D]]]. unfold dirname.
  assert (U : upto_last_slash (d ++ b) = d).
  { destruct D as [->|[e ->]]; [now apply upto_none|now apply upto_app]. }
  rewrite U. destruct (all_slashes d) eqn:A; auto. now apply place_rstrip.
Qed.

(** ** C15 *)

Lemma only_acceptable_iff : forall p, only_acceptable_chars p = true <-> packaged_name p.
Proof.
  assert (C : forall c, acceptable c = true <-> In c name_chars).
  { intros c. split; intros H.
    - destruct c as [[] [] [] [] [] [] [] []]; try discriminate H; vm_compute; tauto.
    - unfold name_chars in H. cbn [list_ascii_of_string In] in H. repeat (destruct H as [<-|H]; [reflexivity|]). contradiction. }
  unfold packaged_name. induction p as [|c p IH]; cbn [only_acceptable_chars list_ascii_of_string].
  - split; auto. intros _ c [].
  - rewrite andb_true_iff, IH, C. split.
    + intros [A B] x [<-|I]; auto.
    + intros H. split; [apply H; now left|intros x I; apply H; now right].
Qed.

Lemma prefix_app : forall a b, String.prefix a b = true <-> exists r, b = (a ++ r)%string.
Proof.
  induction a as [|c a IH]; intros b; cbn [String.prefix append].
  - split; eauto. intros _. destruct b; reflexivity.
  - destruct b as [|d b]; [split; [discriminate|intros [r H]; discriminate]|].
    cbn [String.prefix]. destruct (ascii_dec c d) as [<-|N].
    + rewrite IH. split; intros [r H]; exists r; congruence.
    + split; [discriminate|]. intros [r H]. congruence.
Qed.
Lemma config_type_url : forall p, get_config_type p = REMOTE <-> url p.
Proof.
  intros p. unfold get_config_type, url.
  destruct (String.prefix "http://" p) eqn:A; cbn [orb].
  { apply prefix_app in A as [r A]. split; eauto. }
  destruct (String.prefix "https://" p) eqn:B.
  { apply prefix_app in B as [r B]. split; eauto. }
  assert (U : ~ exists r, p = ("http://" ++ r)%string \/ p = ("https://" ++ r)%string).
  { intros [r [H|H]].
    - assert (String.prefix "http://" p = true) by (apply prefix_app; eauto). congruence.
    - assert (String.prefix "https://" p = true) by (apply prefix_app; eauto). congruence. }
  destruct (only_acceptable_chars p); split; try discriminate; intros; contradiction.
Qed.
Lemma config_type_name : forall p, ~ url p -> (get_config_type p = PACKAGED <-> packaged_name p).
Proof.
  intros p U. rewrite <- config_type_url in U. rewrite <- only_acceptable_iff. unfold get_config_type in *.
  destruct (_ || _); [now contradiction U|]. destruct (only_acceptable_chars p); split; auto; discriminate.
Qed.

Lemma C15_meaning_lemma : forall cwd isdir p parent d q, isabs cwd = true -> directory_part parent d ->
  get_path_relative_to cwd isdir p parent = Ok q ->
  ((url p \/ packaged_name p \/ isabs p = true) -> q = p) /\
  (~ url p -> ~ packaged_name p -> isabs p = false -> isabs q = true /\ place cwd q = walk (place cwd d) p).
Proof.
  intros cwd isdir p parent d q A D H. unfold get_path_relative_to in H. split.
  - intros [U|[N|I]].
    + apply config_type_url in U. rewrite U in H. now inversion H.
    + destruct (get_config_type p) eqn:T; try now inversion H. exfalso.
      assert (U : ~ url p) by (rewrite <- config_type_url; congruence).
      apply config_type_name in N; auto. congruence.
    + rewrite I in H. destruct (get_config_type p); now inversion H.
  - intros U N I.
    assert (T : get_config_type p = LOCAL).
    { destruct (get_config_type p) eqn:T; auto; [apply config_type_url in T|apply config_type_name in T]; auto; contradiction. }
    rewrite T, I in H. destruct (isdir parent); inversion H; subst. split; [now apply abspath_comps|].
    rewrite place_abspath_abs, place_pjoin, I by auto. f_equal. now apply place_dirname.
Qed.
