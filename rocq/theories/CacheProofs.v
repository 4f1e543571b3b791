(** Proofs about the cache of remote configurations. *)
From Coq Require Import String Ascii List Bool Arith ZArith Lia.
From Verif Require Import Base TweakProofs CacheModel CacheSpec.
Import ListNotations.
Local Open Scope string_scope.
Local Open Scope list_scope.

(** ** Line ends *)

Lemma newlines_same : forall s, same_lines s (newlines s).
Proof.
  intros s. remember (String.length s) as n eqn:L. revert s L.
  induction n as [n IH] using lt_wf_ind. intros [|c s] L; [constructor|]. cbn [String.length] in L.
  destruct (Ascii.eqb_spec c "013") as [->|N].
  - destruct s as [|d s].
    + cbn. apply same_cr; [discriminate|constructor].
    + destruct (Ascii.eqb_spec d "010") as [->|M].
      * cbn [newlines]. apply same_crlf. apply (IH (String.length s)); auto. cbn [String.length] in L. lia.
      * assert (E : newlines (String "013" (String d s)) = String "010" (newlines (String d s)))
          by (destruct d as [[] [] [] [] [] [] [] []]; try reflexivity; congruence).
        rewrite E. apply same_cr; [intros r X; congruence|]. apply (IH (String.length (String d s))); auto.
        cbn [String.length] in L |- *. lia.
  - assert (E : newlines (String c s) = String c (newlines s))
      by (destruct c as [[] [] [] [] [] [] [] []]; try reflexivity; congruence).
    rewrite E. apply same_char; auto. apply (IH (String.length s)); auto. lia.
Qed.
Lemma same_empty : forall s, same_lines s "" -> s = ""%string.
Proof. intros s H. inversion H; reflexivity. Qed.
Lemma same_no_cr : forall s t, same_lines s t -> has_char "013" s = false -> t = s.
Proof.
  induction 1 as [|s t S IH|s t N S IH|c s t N S IH]; intros H; auto; cbn [has_char] in H.
  - discriminate.
  - discriminate.
  - apply orb_false_iff in H as [_ H]. now rewrite IH.
Qed.
Lemma nonempty_some : forall o c, nonempty o = Some c <-> o = Some c /\ c <> ""%string.
Proof. intros [[|a s]|] c; cbn; split; try discriminate; try (intros [? ?]; congruence); intros H; inversion H; split; congruence. Qed.
Lemma nonempty_none : forall o, nonempty o = None <-> o = None \/ o = Some ""%string.
Proof. intros [[|a s]|]; cbn; split; try tauto; try discriminate; intros [|]; congruence. Qed.

(** ** Writing *)

Fixpoint prefix_of (k : nat) (s : string) : string :=
  match k, s with S k, String c r => String c (prefix_of k r) | _, _ => "" end.
Lemma prefix_beginning : forall s k, beginning (prefix_of k s) s.
Proof.
  induction s as [|c s IH]; intros [|k]; cbn [prefix_of]; try (now exists ""%string); [now exists (String c s)|].
  destruct (IH k) as [e E]. exists e. cbn [append]. now rewrite <- E.
Qed.
Lemma prefix_full : forall s k, String.length s <= k -> prefix_of k s = s.
Proof.
  induction s as [|c s IH]; intros [|k] H; cbn [prefix_of String.length] in *; auto; try lia. now rewrite IH by lia.
Qed.
Lemma put_same : forall p s d, put p s d p = Some s.
Proof. intros. unfold put. now rewrite String.eqb_refl. Qed.
Lemma put_other : forall p q s d, q <> p -> put p s d q = d q.
Proof. intros p q s d N. unfold put. now rewrite (proj2 (String.eqb_neq q p) N). Qed.
Lemma puts_same : forall p s k d t, d p = Some t ->
  run_ops (firstn k (map (Put p) (list_ascii_of_string s))) d p = Some (t ++ prefix_of k s)%string.
Proof.
  induction s as [|c s IH]; intros k d t H.
  - destruct k; cbn; now rewrite H, app_nil_s.
  - destruct k as [|k]; cbn [list_ascii_of_string map firstn run_ops prefix_of]; [now rewrite H, app_nil_s|].
    rewrite (IH k _ (t ++ String c "")%string).
    + now rewrite app_assoc_s.
    + cbn [run_op]. rewrite H. apply put_same.
Qed.
Lemma puts_other : forall p q s k d, q <> p -> run_ops (firstn k (map (Put p) (list_ascii_of_string s))) d q = d q.
Proof.
  induction s as [|c s IH]; intros k d N; [destruct k; reflexivity|].
  destruct k as [|k]; cbn [list_ascii_of_string map firstn run_ops]; auto. rewrite IH by auto. cbn [run_op]. now apply put_other.
Qed.
Lemma write_file_same : forall p s k d, run_ops (firstn (S k) (write_file p s)) d p = Some (prefix_of k s).
Proof.
  intros. cbn [write_file firstn run_ops]. rewrite (puts_same p s k _ "");  [reflexivity|]. cbn [run_op]. apply put_same.
Qed.
Lemma write_file_other : forall p q s k d, q <> p -> run_ops (firstn k (write_file p s)) d q = d q.
Proof.
  intros p q s [|k] d N; auto. cbn [write_file firstn run_ops]. rewrite puts_other by auto. cbn [run_op]. now apply put_other.
Qed.
Lemma run_app : forall a b d, run_ops (a ++ b) d = run_ops b (run_ops a d).
Proof. induction a as [|o a IH]; intros; cbn [Datatypes.app run_ops]; auto. Qed.
Lemma length_chars : forall s, List.length (list_ascii_of_string s) = String.length s.
Proof. induction s; cbn; auto. Qed.
Lemma length_write : forall p s, List.length (write_file p s) = S (String.length s).
Proof. intros. unfold write_file. cbn [List.length]. now rewrite map_length, length_chars. Qed.

Section Proofs.
  Variable digest : string -> string.
  Variable dump : Z -> string -> string.
  Variable timestamp : string -> option Z.
  Variable decodes : string -> bool.
  Variable used : list string.
  Hypothesis lib : library digest dump timestamp used.
  Notation content_path := (content_path digest).
  Notation metadata_path := (metadata_path digest).
  Notation write_version := (write_version digest dump).
  Notation read_version := (read_version digest timestamp decodes).
  Notation http_get := (http_get digest dump timestamp decodes).
  Notation history := (history digest dump timestamp decodes).

  Lemma same_length_app : forall a b x y, String.length a = String.length b -> (a ++ x = b ++ y)%string -> a = b /\ x = y.
  Proof.
    induction a as [|c a IH]; intros [|d b] x y L E; cbn [String.length append] in *; try discriminate; auto.
    injection E as -> E. destruct (IH b x y) as [-> ->]; auto.
  Qed.
  Lemma content_injective : forall u v, In u used -> In v used -> content_path u = content_path v -> u = v.
  Proof.
    intros u v U V E. apply same_length_app in E as [E _]; [|apply (digest_length _ _ _ _ lib)].
    now apply (digest_injective _ _ _ _ lib).
  Qed.
  Lemma metadata_injective : forall u v, In u used -> In v used -> metadata_path u = metadata_path v -> u = v.
  Proof.
    intros u v U V E. apply same_length_app in E as [E _]; [|apply (digest_length _ _ _ _ lib)].
    now apply (digest_injective _ _ _ _ lib).
  Qed.
  Lemma content_not_metadata : forall u v, content_path u <> metadata_path v.
  Proof. intros u v E. apply same_length_app in E as [_ E]; [discriminate|apply (digest_length _ _ _ _ lib)]. Qed.

  Lemma write_other : forall u v s t f d, In u used -> In v used -> u <> v ->
    write_version u s t f d (content_path v) = d (content_path v) /\ write_version u s t f d (metadata_path v) = d (metadata_path v).
  Proof.
    intros u v s t f d U V N.
    assert (X : forall k p, p <> content_path u -> p <> metadata_path u ->
      run_ops (firstn k (write_file (content_path u) s ++ write_file (metadata_path u) (dump t u))) d p = d p).
    { intros k p A B. rewrite firstn_app, run_app, !write_file_other; auto. }
    assert (Y : forall p, p <> content_path u -> p <> metadata_path u -> write_version u s t f d p = d p).
    { intros p A B. unfold CacheModel.write_version. destruct f as [|k|k]; auto.
      rewrite <- (firstn_all (write_file (content_path u) s ++ write_file (metadata_path u) (dump t u))). auto. }
    split; apply Y.
    - intros E. apply content_injective in E; congruence.
    - apply content_not_metadata.
    - intros E. symmetry in E. now apply content_not_metadata in E.
    - intros E. apply metadata_injective in E; congruence.
  Qed.
  Lemma write_prefix : forall u s t k d,
    let d' := run_ops (firstn k (write_file (content_path u) s ++ write_file (metadata_path u) (dump t u))) d in
    (d' (content_path u) = d (content_path u) \/ exists p, d' (content_path u) = Some p /\ beginning p s) /\
    (d' (metadata_path u) = d (metadata_path u) \/ exists p, d' (metadata_path u) = Some p /\ beginning p (dump t u) /\
       d' (content_path u) = Some s).
  Proof.
    intros u s t k d d'. unfold d'. rewrite firstn_app, run_app. split.
    - rewrite write_file_other by apply content_not_metadata.
      destruct k as [|k]; [left; reflexivity|]. right. rewrite write_file_same. eauto using prefix_beginning.
    - remember (k - List.length (write_file (content_path u) s)) as n0 eqn:En. destruct n0 as [|n].
      + left. rewrite firstn_O. cbn [run_ops]. apply write_file_other. intros E. symmetry in E. now apply content_not_metadata in E.
      + right. exists (prefix_of n (dump t u)). rewrite write_file_same. split; [reflexivity|]. split; [apply prefix_beginning|].
        rewrite write_file_other by apply content_not_metadata. rewrite length_write in En.
        destruct k as [|k]; [discriminate|]. rewrite write_file_same. f_equal. apply prefix_full. lia.
  Qed.
  Lemma write_full : forall u s t d, write_version u s t Written d (content_path u) = Some s /\
    write_version u s t Written d (metadata_path u) = Some (dump t u).
  Proof.
    intros u s t d. unfold CacheModel.write_version. rewrite run_app. split.
    - rewrite <- (firstn_all (write_file (metadata_path u) (dump t u))), write_file_other by apply content_not_metadata.
      rewrite <- (firstn_all (write_file (content_path u) s)), length_write, write_file_same. f_equal. now apply prefix_full.
    - rewrite <- (firstn_all (write_file (metadata_path u) (dump t u))), length_write, write_file_same. f_equal. now apply prefix_full.
  Qed.

  (** ** Histories *)

  (** What is on the disk about [u], given the exchanges. *)
  Definition complete (w : world) (u : string) : Prop :=
    (never (contacts w) u -> files w (content_path u) = None /\ files w (metadata_path u) = None) /\
    (forall s q, last_success (contacts w) u s q -> writing q = Written ->
       files w (content_path u) = Some s /\ files w (metadata_path u) = Some (dump (stamp q) u)).
  Definition partial (w : world) (u : string) : Prop :=
    forall p, files w (content_path u) = Some p -> exists q s, In q (contacts w) /\ success u s q /\ beginning p s.

  Lemma last_other : forall cs u s q r, last_success (cs ++ [r]) u s q -> (forall s', ~ success u s' r) -> last_success cs u s q.
  Proof.
    intros cs u s q r [a [b [E [S N]]]] F. destruct (exists_last (l := q :: b)) as [b' [x X]]; [discriminate|].
    rewrite X in E. rewrite app_assoc in E. apply app_inj_tail in E as [E1 <-].
    destruct b' as [|y b'].
    - injection X as <- _. exfalso. eapply F; eauto.
    - injection X as <- ->. exists a, b'. split; auto. split; auto. intros q' s' I. apply (N q' s'). apply in_or_app. auto.
  Qed.
  Lemma last_this : forall cs u s q r s', last_success (cs ++ [r]) u s q -> success u s' r -> q = r /\ s = s'.
  Proof.
    intros cs u s q r s' [a [b [E [S N]]]] F. destruct (exists_last (l := q :: b)) as [b' [x X]]; [discriminate|].
    rewrite X in E. rewrite app_assoc in E. apply app_inj_tail in E as [E1 <-].
    destruct b' as [|y b'].
    - injection X as -> _. split; auto. destruct S as [_ S], F as [_ F]. congruence.
    - injection X as <- ->. exfalso. apply (N r s'); auto. apply in_or_app. cbn; auto.
  Qed.
  Lemma never_app : forall cs u r, never (cs ++ [r]) u -> never cs u /\ forall s, ~ success u s r.
  Proof.
    intros cs u r H. split; [intros q s I|intros s]; apply H; apply in_or_app; cbn; auto.
  Qed.

  Lemma http_get_cases : forall r w w' o, http_get r w = (w', o) ->
    (w' = w /\ exists c, o = Returned c) \/
    (contacts w' = contacts w ++ [r] /\
      ((exists s, answer r = Answer 200 s /\ files w' = write_version (url r) s (stamp r) (writing r) (files w)) \/
       (files w' = files w /\ forall s, answer r <> Answer 200 s))).
  Proof.
    intros r w w' o H. unfold CacheModel.http_get in H.
    destruct (nonempty (read_version (url r) max_cache_time (before r) (readable1 r) (files w))) as [c|].
    - inversion H; subst. left. eauto.
    - right. destruct (answer r) as [code body| |e].
      + destruct (Z.eqb_spec code 200) as [->|N]; inversion H; subst; cbn [contacts files]; split; auto.
        * left. eauto.
        * right. split; auto. intros s X. congruence.
      + inversion H; subst. cbn. split; auto. right. split; auto. discriminate.
      + inversion H; subst. cbn. split; auto. right. split; auto. discriminate.
  Qed.
  Lemma get_complete : forall r w u, In u used -> In (url r) used -> complete w u -> complete (fst (http_get r w)) u.
  Proof.
    intros r w u U R [C1 C2]. destruct (http_get r w) as [w' o] eqn:E. cbn [fst].
    destruct (http_get_cases _ _ _ _ E) as [[-> _]|[C [[s [A F]]|[F A]]]]; [split; auto| |].
    - destruct (string_dec (url r) u) as [Q|Q].
      + assert (S : success u s r) by (split; auto). split; rewrite C.
        * intros N. apply never_app in N as [_ N]. exfalso. eapply N; eauto.
        * intros s' q L W. destruct (last_this _ _ _ _ _ _ L S) as [-> ->]. rewrite F, W. subst u. apply write_full.
      + assert (S : forall s', ~ success u s' r) by (intros s' [X _]; contradiction).
        destruct (write_other (url r) u s (stamp r) (writing r) (files w) R U Q) as [W1 W2].
        split; rewrite C, F, W1, W2.
        * intros N. apply never_app in N as [N _]. auto.
        * intros s' q L W. apply last_other in L; auto.
    - assert (S : forall s', ~ success u s' r) by (intros s' [_ X]; eapply A; eauto).
      split; rewrite C, F.
      + intros N. apply never_app in N as [N _]. auto.
      + intros s' q L W. apply last_other in L; auto.
  Qed.
  Lemma get_partial : forall r w u, In u used -> In (url r) used -> partial w u -> partial (fst (http_get r w)) u.
  Proof.
    intros r w u U R P. destruct (http_get r w) as [w' o] eqn:E. cbn [fst].
    destruct (http_get_cases _ _ _ _ E) as [[-> _]|[C [[s [A F]]|[F A]]]]; auto.
    - intros p. rewrite C, F. destruct (string_dec (url r) u) as [Q|Q].
      + intros X.
        assert (Y : write_version (url r) s (stamp r) (writing r) (files w) (content_path u) = files w (content_path u) \/
          exists p, write_version (url r) s (stamp r) (writing r) (files w) (content_path u) = Some p /\ beginning p s).
        { subst u. destruct (writing r) as [|k|k].
          - right. exists s. split; [apply write_full|]. exists ""%string. now rewrite app_nil_s.
          - apply (write_prefix (url r) s (stamp r) k (files w)).
          - apply (write_prefix (url r) s (stamp r) k (files w)). }
        destruct Y as [Y|[p' [Y B]]]; rewrite Y in X.
        * destruct (P p X) as [q [s' [I [S B]]]]. exists q, s'. split; [apply in_or_app; auto|]. auto.
        * injection X as <-. exists r, s. split; [apply in_or_app; cbn; auto|]. split; auto. split; auto.
      + destruct (write_other (url r) u s (stamp r) (writing r) (files w) R U Q) as [W1 _]. rewrite W1.
        intros X. destruct (P p X) as [q [s' [I [S B]]]]. exists q, s'. split; [apply in_or_app; auto|]. auto.
    - intros p. rewrite C, F. intros X. destruct (P p X) as [q [s' [I [S B]]]]. exists q, s'. split; [apply in_or_app; auto|]. auto.
  Qed.
  Lemma history_invariant : forall rs w u, In u used -> (forall r, In r rs -> In (url r) used) -> complete w u -> partial w u ->
    complete (history rs w) u /\ partial (history rs w) u.
  Proof.
    induction rs as [|r rs IH]; intros w u U R C P; [auto|]. cbn [CacheModel.history].
    apply IH; auto; [intros; apply R; now right|apply get_complete; auto; apply R; now left|apply get_partial; auto; apply R; now left].
  Qed.
  Lemma start_invariant : forall u, complete start u /\ partial start u.
  Proof.
    intros u. split; [split|].
    - intros _. split; reflexivity.
    - intros s q [a [b [E _]]]. cbn in E. destruct a; discriminate.
    - intros p H. discriminate.
  Qed.
  Lemma reached : forall rs u, In u used -> (forall r, In r rs -> In (url r) used) ->
    complete (history rs start) u /\ partial (history rs start) u.
  Proof. intros rs u U R. destruct (start_invariant u). now apply history_invariant. Qed.

  Lemma read_some : forall u age now works d c, read_version u age now works d = Some c ->
    exists m t p, works = true /\ d (metadata_path u) = Some m /\ timestamp m = Some t /\ (now < t + age)%Z /\
      d (content_path u) = Some p /\ decodes p = true /\ c = newlines p.
  Proof.
    intros u age now works d c H. unfold CacheModel.read_version in H. destruct works; [|discriminate]. cbn [negb] in H.
    destruct (d (metadata_path u)) as [m|] eqn:M; [|discriminate]. destruct (timestamp m) as [t|] eqn:T; [|discriminate].
    destruct (Z.leb_spec (t + age) now) as [L|L]; [discriminate|].
    destruct (d (content_path u)) as [p|] eqn:P; [|discriminate]. destruct (decodes p) eqn:D; [|discriminate].
    inversion H. exists m, t, p. auto 8.
  Qed.
  Lemma read_complete : forall u age now d s t, d (content_path u) = Some s -> d (metadata_path u) = Some (dump t u) ->
    decodes s = true -> s <> ""%string -> (now < t + age)%Z -> nonempty (read_version u age now true d) = Some (newlines s).
  Proof.
    intros u age now d s t C M D N L. apply nonempty_some. unfold CacheModel.read_version. cbn [negb].
    rewrite M, (read_back _ _ _ _ lib), C, D. destruct (Z.leb_spec (t + age) now); [lia|]. split; auto.
    intros E. pose proof (newlines_same s) as X. rewrite E in X. apply same_empty in X. contradiction.
  Qed.

  (** The possible ways to obtain a text. *)
  Lemma returned : forall r w w' c, http_get r w = (w', Returned c) ->
    (w' = w /\ read_version (url r) max_cache_time (before r) (readable1 r) (files w) = Some c) \/
    (asks w w' r /\ answer r = Answer 200 c) \/
    (asks w w' r /\ (forall s, answer r <> Answer 200 s) /\
       read_version (url r) max_cache_time_when_offline (after r) (readable2 r) (files w) = Some c).
  Proof.
    intros r w w' c H. unfold CacheModel.http_get in H.
    destruct (nonempty (read_version (url r) max_cache_time (before r) (readable1 r) (files w))) as [x|] eqn:E.
    - inversion H; subst. left. split; auto. now apply nonempty_some in E.
    - right. destruct (answer r) as [code body| |e].
      + destruct (Z.eqb_spec code 200) as [->|N]; inversion H; subst.
        * left. split; [reflexivity|]. destruct (writing r); congruence.
        * right. split; [reflexivity|]. split; [intros s X; congruence|].
          destruct (nonempty (read_version _ _ (after r) _ _)) as [y|] eqn:Y; [|discriminate]. inversion H2; subst. now apply nonempty_some in Y.
      + inversion H; subst. right. split; [reflexivity|]. split; [discriminate|].
        destruct (nonempty (read_version _ _ (after r) _ _)) as [y|] eqn:Y; [|discriminate]. inversion H2; subst. now apply nonempty_some in Y.
      + discriminate.
  Qed.

  Lemma fresh : forall rs r w' c s q, (forall x, In x (r :: rs) -> In (url x) used) ->
    http_get r (history rs start) = (w', Returned c) ->
    last_success (contacts (history rs start)) (url r) s q -> writing q = Written ->
    (asks (history rs start) w' r /\ answer r = Answer 200 c) \/
    (w' = history rs start /\ same_lines s c /\ (before r < stamp q + minutes 5)%Z) \/
    (asks (history rs start) w' r /\ (forall b, answer r <> Answer 200 b) /\ same_lines s c /\
       (after r < stamp q + max_cache_time_when_offline)%Z).
  Proof.
    intros rs r w' c s q U H L W.
    destruct (reached rs (url r)) as [[_ C] _]; [apply U; now left|intros x I; apply U; now right|].
    destruct (C s q L W) as [C1 C2]. destruct (returned _ _ _ _ H) as [[-> R]|[[A R]|[A [N R]]]]; auto;
      apply read_some in R as [m [t [p [_ [M [T [B [P [_ ->]]]]]]]]]; rewrite M in C2; injection C2 as ->;
      rewrite (read_back _ _ _ _ lib) in T; injection T as <-; rewrite P in C1; injection C1 as ->.
    - right. left. split; auto. split; [apply newlines_same|exact B].
    - right. right. split; auto. split; auto. split; [apply newlines_same|exact B].
  Qed.
  Lemma unknown : forall rs r w' c, (forall x, In x (r :: rs) -> In (url x) used) ->
    http_get r (history rs start) = (w', Returned c) -> never (contacts (history rs start)) (url r) ->
    asks (history rs start) w' r /\ answer r = Answer 200 c.
  Proof.
    intros rs r w' c U H N.
    destruct (reached rs (url r)) as [[C _] _]; [apply U; now left|intros x I; apply U; now right|].
    destruct (C N) as [C1 C2]. destruct (returned _ _ _ _ H) as [[-> R]|[[A R]|[A [M R]]]]; auto;
      apply read_some in R as [m [t [p [_ [M' _]]]]]; congruence.
  Qed.
  Lemma only_beginnings : forall rs r w' c, (forall x, In x (r :: rs) -> In (url x) used) ->
    http_get r (history rs start) = (w', Returned c) ->
    (asks (history rs start) w' r /\ answer r = Answer 200 c) \/
    exists q s p, In q (contacts (history rs start)) /\ success (url r) s q /\ beginning p s /\ same_lines p c.
  Proof.
    intros rs r w' c U H.
    destruct (reached rs (url r)) as [_ P]; [apply U; now left|intros x I; apply U; now right|].
    destruct (returned _ _ _ _ H) as [[-> R]|[[A R]|[A [M R]]]]; auto; right;
      apply read_some in R as [m [t [p [_ [_ [_ [_ [X [_ ->]]]]]]]]]; destruct (P p X) as [q [s [I [S B]]]];
      exists q, s, p; auto using newlines_same.
  Qed.
  Lemma available : forall rs r s q, (forall x, In x (r :: rs) -> In (url x) used) ->
    last_success (contacts (history rs start)) (url r) s q -> writing q = Written -> s <> ""%string -> decodes s = true ->
    readable2 r = true -> (after r < stamp q + max_cache_time_when_offline)%Z -> (forall e, answer r <> Broken e) ->
    (forall k, writing r <> Crashed k) -> exists w' c, http_get r (history rs start) = (w', Returned c).
  Proof.
    intros rs r s q U L W N D R A B K.
    destruct (reached rs (url r)) as [[_ C] _]; [apply U; now left|intros x I; apply U; now right|].
    destruct (C s q L W) as [C1 C2]. unfold CacheModel.http_get.
    destruct (nonempty (read_version (url r) max_cache_time (before r) (readable1 r) _)) as [c|]; [eauto|].
    cbv zeta. rewrite R, (read_complete _ _ _ _ _ _ C1 C2 D N A).
    destruct (answer r) as [code body| |e].
    - destruct (Z.eqb code 200); [|eauto]. destruct (writing r) as [|k|k]; eauto. exfalso. eapply K; eauto.
    - eauto.
    - exfalso. eapply B; eauto.
  Qed.
  Lemma not_asked : forall rs r s q, (forall x, In x (r :: rs) -> In (url x) used) ->
    last_success (contacts (history rs start)) (url r) s q -> writing q = Written -> s <> ""%string -> decodes s = true ->
    readable1 r = true -> (before r < stamp q + minutes 5)%Z ->
    exists c, http_get r (history rs start) = (history rs start, Returned c) /\ same_lines s c.
  Proof.
    intros rs r s q U L W N D R A.
    destruct (reached rs (url r)) as [[_ C] _]; [apply U; now left|intros x I; apply U; now right|].
    destruct (C s q L W) as [C1 C2]. unfold CacheModel.http_get.
    rewrite R, (read_complete _ max_cache_time _ _ _ _ C1 C2 D N A). eauto using newlines_same.
  Qed.
  Lemma verbatim : forall rs r s q, (forall x, In x (r :: rs) -> In (url x) used) ->
    last_success (contacts (history rs start)) (url r) s q -> writing q = Written -> s <> ""%string -> decodes s = true ->
    readable1 r = true -> (before r < stamp q + minutes 5)%Z -> has_char "013" s = false ->
    http_get r (history rs start) = (history rs start, Returned s).
  Proof.
    intros rs r s q U L W N D R A C. destruct (not_asked rs r s q U L W N D R A) as [c [H S]].
    now rewrite (same_no_cr _ _ S C) in H.
  Qed.
  Lemma expired : forall rs r s q, (forall x, In x (r :: rs) -> In (url x) used) ->
    last_success (contacts (history rs start)) (url r) s q -> writing q = Written ->
    answer r = NoAnswer -> (stamp q + max_cache_time_when_offline <= after r)%Z ->
    (stamp q + minutes 5 <= before r)%Z -> exists w', http_get r (history rs start) = (w', Raised FileNotFound).
  Proof.
    intros rs r s q U L W A E B.
    destruct (reached rs (url r)) as [[_ C] _]; [apply U; now left|intros x I; apply U; now right|].
    destruct (C s q L W) as [C1 C2]. unfold CacheModel.http_get.
    assert (X : forall age now works, (stamp q + age <= now)%Z ->
      read_version (url r) age now works (files (history rs start)) = None).
    { intros age now works Y. unfold CacheModel.read_version. destruct works; auto. cbn [negb].
      rewrite C2, (read_back _ _ _ _ lib). destruct (Z.leb_spec (stamp q + age) now); auto. lia. }
    rewrite (X max_cache_time (before r) (readable1 r) B). cbn [nonempty]. cbv zeta. rewrite A, (X _ (after r) (readable2 r) E).
    cbn [nonempty]. eauto.
  Qed.
End Proofs.
