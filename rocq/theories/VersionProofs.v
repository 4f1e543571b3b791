(** Proofs about the version check and the explanations. *)
From Coq Require Import String Ascii List Bool Arith ZArith Lia Sorted Permutation.
From Verif Require Import Base TweakProofs TranslateModel TranslateProofs VersionModel VersionSpec.
Import ListNotations.
Local Open Scope string_scope.
Local Open Scope list_scope.

Lemma pairs_app : forall A (R : A -> A -> Prop) l x, ForallOrdPairs R l -> (forall y, In y l -> R y x) -> ForallOrdPairs R (l ++ [x]).
Proof.
  induction 1 as [|a l F P IH]; intros H; cbn [Datatypes.app]; [constructor; constructor|].
  constructor; [|apply IH; intros; apply H; now right].
  apply Forall_app. split; auto. constructor; auto. apply H. now left.
Qed.

(** ** Stable sorting *)

Section Sorting.
  Variable V : Type.
  Variable leb : V -> V -> bool.
  Hypothesis total : forall a b, leb a b = false -> leb b a = true.
  Hypothesis trans : forall a b c, leb a b = true -> leb b c = true -> leb a c = true.
  Lemma insert_perm : forall v l, Permutation (v :: l) (insert V leb v l).
  Proof.
    induction l as [|u l IH]; cbn [insert]; auto. destruct (leb v u); auto.
    rewrite perm_swap. now constructor.
  Qed.
  Lemma sorted_perm : forall l, Permutation l (sorted V leb l).
  Proof.
    induction l as [|v l IH]; auto. change (sorted V leb (v :: l)) with (insert V leb v (sorted V leb l)).
    rewrite <- insert_perm. now constructor.
  Qed.
  Definition ordered : list V -> Prop := StronglySorted (fun a b => leb a b = true).
  Lemma insert_ordered : forall v l, ordered l -> ordered (insert V leb v l).
  Proof.
    induction 1 as [|u l S IH F]; cbn [insert]; [repeat constructor|]. destruct (leb v u) eqn:E.
    - constructor; [constructor; auto|]. constructor; auto. eapply Forall_impl; [|exact F]. intros a A. eapply trans; eauto.
    - constructor; auto. apply Forall_forall. intros a A. apply (Permutation_in a (Permutation_sym (insert_perm v l))) in A.
      destruct A as [<-|A]; auto. rewrite Forall_forall in F. auto.
  Qed.
  Lemma sorted_ordered : forall l, ordered (sorted V leb l).
  Proof.
    induction l as [|v l IH]; [constructor|]. now apply insert_ordered.
  Qed.
  Lemma last_max : forall l v, ordered l -> last_of V l = Some v -> In v l /\ forall u, In u l -> u = v \/ leb u v = true.
  Proof.
    induction 1 as [|a l S IH F]; intros H; [discriminate|]. destruct l as [|b l].
    - inversion H; subst. split; [now left|]. intros u [<-|[]]. auto.
    - change (last_of V (a :: b :: l)) with (last_of V (b :: l)) in H. destruct (IH H) as [I M]. split; [now right|].
      intros u [<-|U]; auto. right. rewrite Forall_forall in F. auto.
  Qed.
  Lemma last_exists : forall l, l <> [] -> exists v, last_of V l = Some v.
  Proof.
    induction l as [|a [|b l] IH]; intros H; [congruence|eexists; reflexivity|].
    change (last_of V (a :: b :: l)) with (last_of V (b :: l)). apply IH. discriminate.
  Qed.
End Sorting.

Section Versions.
  Variable V : Type.
  Variable parse : string -> option V.
  Variable show : V -> string.
  Variables major minor micro : V -> nat.
  Notation released := (released V parse).
  Notation get_versions := (get_versions V parse major).
  Notation latest_of := (latest_of V parse show major minor micro).
  Notation get_latest := (get_latest V parse show major minor micro).
  Notation checks := (checks V parse show major minor micro).
  Notation triple_leb := (triple_leb V major minor micro).
  Notation older := (older V major minor micro).
  Notation offered := (offered V parse major).

  Lemma triple_iff : forall u v, triple_leb u v = false <-> older v u.
  Proof.
    intros u v. unfold VersionModel.triple_leb, VersionSpec.older.
    destruct (Nat.eqb_spec (major u) (major v)) as [E|E].
    - destruct (Nat.eqb_spec (minor u) (minor v)) as [E2|E2]; rewrite Nat.leb_gt; lia.
    - rewrite Nat.leb_gt; lia.
  Qed.
  Lemma triple_true : forall u v, triple_leb u v = true <-> ~ older v u.
  Proof. intros u v. rewrite <- triple_iff. destruct (triple_leb u v); split; congruence. Qed.
  Lemma triple_total : forall a b, triple_leb a b = false -> triple_leb b a = true.
  Proof. intros a b H. apply triple_iff in H. apply triple_true. unfold VersionSpec.older in *. lia. Qed.
  Lemma triple_trans : forall a b c, triple_leb a b = true -> triple_leb b c = true -> triple_leb a c = true.
  Proof. intros a b c. rewrite !triple_true. unfold VersionSpec.older. lia. Qed.

  Lemma released_iff : forall l v, In v (released l) <->
    exists id builds, In (id, builds) l /\ parse id = Some v /\ builds <> [] /\ ~ In true builds.
  Proof.
    induction l as [|[id builds] l IH]; intros v; cbn [VersionModel.released].
    - split; [intros []|intros [? [? [[] _]]]].
    - assert (Y : existsb (fun b : bool => b) builds = true <-> In true builds).
      { rewrite existsb_exists. split; [intros [x [I ->]]; auto|eauto]. }
      assert (L : Nat.eqb (List.length builds) 0 = true <-> builds = []).
      { rewrite Nat.eqb_eq. destruct builds; cbn; split; try discriminate; auto. }
      assert (R : (exists id' b', In (id', b') ((id, builds) :: l) /\ parse id' = Some v /\ b' <> [] /\ ~ In true b') <->
        (parse id = Some v /\ builds <> [] /\ ~ In true builds) \/ In v (released l)).
      { rewrite IH. split.
        - intros [i [b [[E|I] X]]]; [inversion E; subst; now left|right; exists i, b; auto].
        - intros [X|[i [b [I X]]]]; [exists id, builds|exists i, b]; cbn; auto. }
      rewrite R. clear R. destruct (parse id) as [u|].
      + destruct (Nat.eqb (List.length builds) 0) eqn:E1, (existsb (fun b : bool => b) builds) eqn:E2; cbn [negb andb];
          try (split; [now right|intros [[_ [A B]]|]; auto; exfalso; first [apply A, L; reflexivity|apply B, Y; reflexivity]]).
        cbn [In]. split.
        * intros [->|]; auto. left. split; auto. split; [intros X; apply L in X; discriminate|intros X; apply Y in X; discriminate].
        * intros [[X _]|]; auto. inversion X; auto.
      + split; [now right|intros [[X _]|]; auto; discriminate].
  Qed.
  Lemma get_versions_iff : forall p l vs v, get_versions p (Ok l) = Ok vs -> (In v vs <-> offered p l v).
  Proof.
    intros p l vs v H. unfold VersionModel.get_versions in H. cbn [bind] in H.
    apply (f_equal (fun r => match r with Ok x => x | Raise _ => [] end)) in H. cbv beta iota zeta in H. subst vs. unfold VersionSpec.offered.
    destruct (String.eqb_spec p "pylint") as [->|N].
    - rewrite filter_In. cbv beta. rewrite released_iff, Nat.leb_le. intuition.
    - rewrite released_iff. intuition.
  Qed.
  Lemma latest_newest : forall p l s, latest_of p (Ok l) = Ok s ->
    exists v, offered p l v /\ s = show v /\ forall u, offered p l u -> ~ older v u.
  Proof.
    intros p l s H. unfold VersionModel.latest_of in H. destruct (get_versions p (Ok l)) as [vs|e] eqn:G; [|discriminate].
    cbn [bind] in H. destruct (last_of V (sorted V triple_leb vs)) as [v|] eqn:E; [|discriminate]. inversion H.
    apply last_max with (leb := triple_leb) in E as [I M]; [|apply sorted_ordered; [apply triple_total|apply triple_trans]].
    exists v. split; [|split; auto].
    - apply (get_versions_iff p l vs v G). eapply Permutation_in; [apply Permutation_sym, sorted_perm|]. exact I.
    - intros u O. apply (get_versions_iff p l vs u G) in O. apply (Permutation_in u (sorted_perm V triple_leb vs)) in O.
      destruct (M u O) as [->|T]; [unfold VersionSpec.older; lia|now apply triple_true].
  Qed.
  Lemma latest_exists : forall p l v, offered p l v -> exists s, latest_of p (Ok l) = Ok s.
  Proof.
    intros p l v O. unfold VersionModel.latest_of. destruct (get_versions p (Ok l)) as [vs|e] eqn:G; [|discriminate].
    apply (get_versions_iff p l vs v G) in O. cbn [bind].
    destruct (last_exists V (sorted V triple_leb vs)) as [u ->]; [|eauto].
    intros E. apply (Permutation_in v (sorted_perm V triple_leb vs)) in O. rewrite E in O. contradiction.
  Qed.

  (** ** Rate of the version check *)

  Definition quiet (ttl now : Z) (w : vworld) : Prop :=
    (forall p, spaced ttl (times p (asked w))) /\
    match file w with
    | Garbage => True
    | Missing => asked w = []
    | Data d => forall p t, In t (times p (asked w)) -> (t <= started (info_of p d))%Z
    end /\
    match file w with Data d => forall p, (started (info_of p d) <= now)%Z | _ => True end.
  Lemma times_app : forall p l q t, times p (l ++ [(q, t)]) = times p l ++ (if String.eqb q p then [t] else []).
  Proof. intros p l q t. unfold times. rewrite filter_app, map_app. cbn [filter fst]. destruct (String.eqb q p); reflexivity. Qed.
  Lemma info_dset : forall p q i d, info_of p (dset q i d) = if String.eqb p q then i else info_of p d.
  Proof. intros. unfold info_of. rewrite dget_dset. destruct (String.eqb p q); reflexivity. Qed.

  Lemma get_latest_quiet : forall c ttl now w, (0 <= now)%Z -> (now <= check_time c)%Z -> (0 < check_time c)%Z -> (check_time c <= save_time c)%Z ->
    quiet ttl now w -> quiet ttl (save_time c) (fst (get_latest c ttl w)).
  Proof.
    intros c ttl now w H0 H1 H2 H3 [Q1 [Q2 Q3]]. unfold VersionModel.get_latest.
    destruct (read_file (file w)) as [e|x] eqn:F.
    2: { cbn [fst]. split; auto. destruct (file w); try discriminate. auto. }
    assert (E1 : forall p t, In t (times p (asked w)) -> (t <= started (info_of p e))%Z).
    { intros p t I. destruct (file w); cbn [read_file] in F; try discriminate; [rewrite Q2 in I; destruct I|]. injection F as <-. auto. }
    assert (E2 : forall p, (started (info_of p e) <= now)%Z).
    { intros p. destruct (file w); cbn [read_file] in F; try discriminate; injection F as <-; auto. }
    clear F Q2 Q3.
    destruct (Z.ltb_spec (check_time c) (started (info_of (package c) e) + ttl)) as [L|L];
      [cbn [fst]; split; [exact Q1|]; cbn [file asked]; split; [exact E1|intros p; specialize (E2 p); lia]|].
    unfold save_info; cbn [read_file truthy_text].
    assert (Z0 : (save_time c =? 0)%Z = false) by (apply Z.eqb_neq; lia); rewrite Z0.
    set (i := {| known := known (info_of (package c) e); started := save_time c |}).
    assert (G : forall p t, In t (times p (asked w ++ [(package c, save_time c)])) ->
          (t <= started (info_of p (dset (package c) i e)))%Z)
      by (intros p t I; rewrite times_app in I; rewrite info_dset, String.eqb_sym;
          destruct (String.eqb_spec (package c) p) as [<-|N];
          [cbn [started]; apply in_app_or in I as [I|[<-|[]]]; [specialize (E1 _ _ I); specialize (E2 (package c)); unfold i; cbn; lia|unfold i; cbn; lia]
          |apply E1; rewrite app_nil_r in I; exact I]).
    assert (G2 : forall p, (started (info_of p (dset (package c) i e)) <= save_time c)%Z)
      by (intros p; rewrite info_dset; destruct (String.eqb p (package c)); [unfold i; cbn; lia|specialize (E2 p); lia]).
    assert (G3 : forall p, spaced ttl (times p (asked w ++ [(package c, save_time c)])))
      by (intros p; rewrite times_app; destruct (String.eqb_spec (package c) p) as [<-|N];
          [apply pairs_app; [apply Q1|intros y Y; specialize (E1 _ _ Y); lia]|rewrite app_nil_r; apply Q1]).
    assert (E3 : forall p, (started (info_of p e) <= save_time c)%Z) by (intros p; specialize (E2 p); lia).
    destruct (first_save c) as [|[]|[]]; cbn [left_behind];
      try (cbn [fst]; split; [exact Q1|]; cbn [file asked]; split; auto; fail).
    destruct (latest_of (package c) (index c)) as [v|x]; [|cbn [fst]; split; [exact G3|]; cbn [file asked]; split; auto; fail].
    cbn [read_file].
    set (i2 := if truthy_text (Some v) then
        {| known := Some v; started := started (info_of (package c) (dset (package c) i e)) |} else info_of (package c) (dset (package c) i e)).
    assert (S2 : started i2 = save_time c)
      by (unfold i2; rewrite info_dset, String.eqb_refl; destruct (truthy_text (Some v)); reflexivity).
    assert (G4 : forall p, started (info_of p (dset (package c) i2 (dset (package c) i e))) = started (info_of p (dset (package c) i e)))
      by (intros p; rewrite info_dset; destruct (String.eqb_spec p (package c)) as [->|N]; auto;
          rewrite S2, info_dset, String.eqb_refl; reflexivity).
    destruct (second_save c) as [|[]|[]]; cbn [left_behind fst]; split; try exact G3; cbn [file asked]; split; auto.
    try (intros p t I; rewrite G4; auto).
    intros p; rewrite G4; auto.
  Qed.
  Lemma checks_quiet : forall cs ttl now w, (0 <= now)%Z -> in_order now cs -> quiet ttl now w ->
    exists now', quiet ttl now' (checks cs ttl w).
  Proof.
    induction cs as [|c cs IH]; intros ttl now w N O Q; [exists now; exact Q|]. destruct O as [O1 [O2 [O3 O4]]].
    cbn [VersionModel.checks]. apply (IH ttl (save_time c)); auto; [lia|]. eapply get_latest_quiet; eauto.
  Qed.
  Lemma rate : forall cs ttl p, in_order 0 cs -> spaced ttl (times p (asked (checks cs ttl fresh_start))).
  Proof.
    intros cs ttl p O. destruct (checks_quiet cs ttl 0 fresh_start) as [n [Q _]]; auto; [lia|].
    split; [intros q; constructor|]. cbn. auto.
  Qed.

  (** ** Where a reported version comes from *)

  Definition from_index (cs : list call) (p s : string) : Prop :=
    exists c l v, In c cs /\ package c = p /\ index c = Ok l /\ offered p l v /\ s = show v /\
      forall u, offered p l u -> ~ older v u.
  Definition sourced (cs : list call) (w : vworld) : Prop :=
    match file w with Data d => forall p s, known (info_of p d) = Some s -> from_index cs p s | _ => True end.
  Lemma from_more : forall cs c p s, from_index cs p s -> from_index (cs ++ [c]) p s.
  Proof. intros cs c p s [x [l [v [I H]]]]. exists x, l, v. split; auto. apply in_or_app. auto. Qed.
  Lemma get_latest_sourced : forall c ttl w cs, sourced cs w -> sourced (cs ++ [c]) (fst (get_latest c ttl w)) /\
    forall s, snd (get_latest c ttl w) = Some (Ok (Some s)) -> from_index (cs ++ [c]) (package c) s.
  Proof.
    intros c ttl w cs S. unfold VersionModel.get_latest.
    destruct (read_file (file w)) as [e|x] eqn:F.
    2: { cbn [fst snd]. split; [|discriminate]. unfold sourced in *. destruct (file w); try discriminate. auto. }
    assert (E : forall p s, known (info_of p e) = Some s -> from_index (cs ++ [c]) p s).
    { intros p s K. unfold sourced in S. destruct (file w); cbn [read_file] in F; try discriminate; injection F as <-; [discriminate|].
      apply from_more. auto. }
    destruct (Z.ltb _ _); [cbn [fst snd]; split; [exact E|]; intros s K; injection K as K; auto|].
    unfold save_info. cbn [read_file truthy_text].
    set (i := if (save_time c =? 0)%Z then info_of (package c) e else {| known := known (info_of (package c) e); started := save_time c |}).
    assert (G : forall p s, known (info_of p (dset (package c) i e)) = Some s -> from_index (cs ++ [c]) p s).
    { intros p s. rewrite info_dset. destruct (String.eqb_spec p (package c)) as [->|N]; auto.
      unfold i. destruct (save_time c =? 0)%Z; cbn [known]; auto. }
    destruct (first_save c) as [|[]|[]]; cbn [left_behind];
      try (cbn [fst snd]; split; [first [exact E|exact I]|discriminate]).
    destruct (latest_of (package c) (index c)) as [v|x] eqn:L; [|cbn [fst snd]; split; [exact G|discriminate]].
    assert (X : from_index (cs ++ [c]) (package c) v).
    { destruct (index c) as [l|x] eqn:J; [|discriminate]. destruct (latest_newest _ _ _ L) as [u [U1 [U2 U3]]].
      exists c, l, u. split; [apply in_or_app; cbn; auto|]. auto. }
    cbn [read_file].
    set (i2 := if truthy_text (Some v) then
        {| known := Some v; started := started (info_of (package c) (dset (package c) i e)) |} else info_of (package c) (dset (package c) i e)).
    assert (G4 : forall p s, known (info_of p (dset (package c) i2 (dset (package c) i e))) = Some s -> from_index (cs ++ [c]) p s).
    { intros p s. rewrite info_dset. destruct (String.eqb_spec p (package c)) as [->|N]; auto.
      unfold i2. destruct (truthy_text (Some v)); auto. cbn [known]. intros K. injection K as <-. exact X. }
    destruct (second_save c) as [|[]|[]]; cbn [left_behind fst snd]; split; try discriminate; try exact G; try exact I; try exact G4.
    intros s K. injection K as <-. exact X.
  Qed.
  Lemma checks_sourced : forall cs ttl w seen, sourced seen w -> sourced (seen ++ cs) (checks cs ttl w).
  Proof.
    induction cs as [|c cs IH]; intros ttl w seen S; [now rewrite app_nil_r|]. cbn [VersionModel.checks].
    replace (seen ++ c :: cs) with ((seen ++ [c]) ++ cs) by now rewrite <- app_assoc. apply IH. now apply get_latest_sourced.
  Qed.
  Lemma reported : forall cs c ttl s, snd (get_latest c ttl (checks cs ttl fresh_start)) = Some (Ok (Some s)) ->
    exists c' l v, In c' (cs ++ [c]) /\ package c' = package c /\ index c' = Ok l /\ offered (package c) l v /\ s = show v /\
      forall u, offered (package c) l u -> ~ older v u.
  Proof.
    intros cs c ttl s H. apply (get_latest_sourced c ttl (checks cs ttl fresh_start) cs) in H; auto.
    apply (checks_sourced cs ttl fresh_start []). exact I.
  Qed.

  (** ** A damaged file *)

  Lemma damaged : forall c ttl w, file w = Garbage -> get_latest c ttl w = (w, Some (Raise JSONDecodeError)).
  Proof. intros c ttl w H. unfold VersionModel.get_latest. now rewrite H. Qed.
  Lemma damaged_forever : forall cs ttl w, file w = Garbage -> checks cs ttl w = w.
  Proof. induction cs as [|c cs IH]; intros ttl w H; auto. cbn [VersionModel.checks]. rewrite damaged by auto. cbn. auto. Qed.

  (** ** Announcing updates *)

  Lemma asked_index : forall c ttl w d l s, file w = Data d -> (started (info_of (package c) d) + ttl <= check_time c)%Z ->
    first_save c = Saved -> second_save c = Saved -> index c = Ok l -> latest_of (package c) (Ok l) = Ok s ->
    snd (get_latest c ttl w) = Some (Ok (Some s)).
  Proof.
    intros c ttl w d l s F T S1 S2 I L. unfold VersionModel.get_latest. rewrite F. cbn [read_file].
    destruct (Z.ltb_spec (check_time c) (started (info_of (package c) d) + ttl)); [lia|].
    unfold save_info. cbn [read_file]. rewrite S1, I, L, S2. reflexivity.
  Qed.
  Lemma current : forall c ttl w d l v, file w = Data d -> (started (info_of (package c) d) + ttl <= check_time c)%Z ->
    first_save c = Saved -> second_save c = Saved -> index c = Ok l ->
    offered (package c) l v -> (forall u, offered (package c) l u -> u = v \/ older u v) ->
    snd (is_update_waiting V parse show major minor micro (Some (show v)) c ttl w) = Some (Ok false).
  Proof.
    intros c ttl w d l v F T S1 S2 I O M. destruct (latest_exists _ _ _ O) as [s L].
    destruct (latest_newest _ _ _ L) as [u [U [-> N]]]. assert (u = v) by (destruct (M u U) as [|X]; auto; destruct (N v O X)).
    subst u. pose proof (asked_index c ttl w d l (show v) F T S1 S2 I L) as A.
    unfold is_update_waiting. destruct (get_latest c ttl w) as [w' r]. cbn [snd] in *. rewrite A. now rewrite String.eqb_refl.
  Qed.
  Lemma newer : forall c ttl w d l v u, file w = Data d -> (started (info_of (package c) d) + ttl <= check_time c)%Z ->
    first_save c = Saved -> second_save c = Saved -> index c = Ok l ->
    (forall a b, show a = show b -> a = b) -> offered (package c) l u -> older v u ->
    snd (is_update_waiting V parse show major minor micro (Some (show v)) c ttl w) = Some (Ok true).
  Proof.
    intros c ttl w d l v u F T S1 S2 I J O N. destruct (latest_exists _ _ _ O) as [s L].
    destruct (latest_newest _ _ _ L) as [x [X [-> M]]].
    pose proof (asked_index c ttl w d l (show x) F T S1 S2 I L) as A.
    unfold is_update_waiting. destruct (get_latest c ttl w) as [w' r]. cbn [snd] in *. rewrite A.
    destruct (String.eqb_spec (show v) (show x)) as [E|E]; [|reflexivity]. apply J in E. subst x. destruct (M u O N).
  Qed.

  (** ** Versions to test with *)

  Notation group_key := (group_key V major minor).
  Notation group_versions := (group_versions V major minor).
  Notation same_minor := (same_minor V major minor).
  Lemma digits_no_dot : forall s, digits_only s -> has_char "." s = false.
  Proof.
    induction s as [|c s IH]; intros D; auto. destruct D as [D1 D2]. cbn [has_char]. rewrite IH by auto.
    destruct (Ascii.eqb_spec c ".") as [->|]; auto. exfalso. now apply D1.
  Qed.
  Lemma dec_injective : forall a b, dec a = dec b -> a = b.
  Proof. intros a b H. pose proof (number_dec a) as A. rewrite H, number_dec in A. congruence. Qed.
  Lemma key_iff : forall u v, group_key u = group_key v <-> same_minor u v.
  Proof.
    intros u v. unfold VersionModel.group_key, VersionSpec.same_minor. split.
    - intros H. apply (f_equal (split_first ".")) in H. cbn [append] in H.
      rewrite !split_first_app in H by apply digits_no_dot, dec_digits. inversion H. auto using dec_injective.
    - intros [-> ->]. reflexivity.
  Qed.
  Lemma groups_spec : forall vs, NoDup (map fst (group_versions vs)) /\
    forall k g, In (k, g) (group_versions vs) -> g <> [] /\ forall v, In v g <-> In v vs /\ group_key v = k.
  Proof.
    assert (G : forall vs d seen, NoDup (map fst d) -> (forall v, In v seen -> In (group_key v) (map fst d)) ->
      (forall k g, In (k, g) d -> g <> [] /\ forall v, In v g <-> In v seen /\ group_key v = k) ->
      let d' := fold_left (fun d v => dset (group_key v) (match dget (group_key v) d with Some g => g | None => [] end ++ [v]) d) vs d in
      NoDup (map fst d') /\ forall k g, In (k, g) d' -> g <> [] /\ forall v, In v g <-> In v (seen ++ vs) /\ group_key v = k).
    { induction vs as [|x vs IH]; intros d seen N C H d'.
      - unfold d'. cbn [fold_left]. split; auto. now rewrite app_nil_r.
      - unfold d'. cbn [fold_left]. replace (seen ++ x :: vs) with ((seen ++ [x]) ++ vs) by now rewrite <- app_assoc.
        apply IH.
        + now apply dset_nodup.
        + intros v I. rewrite dset_keys. apply in_app_or in I as [I|[<-|[]]]; auto.
        + intros k g I. apply in_dget in I; [|now apply dset_nodup]. rewrite dget_dset in I.
          destruct (String.eqb_spec k (group_key x)) as [->|Nk].
          * inversion I. clear I. split; [destruct (dget (group_key x) d) as [[|]|]; discriminate|].
            intros v. rewrite in_app_iff. cbn [In]. destruct (dget (group_key x) d) as [g0|] eqn:E.
            -- apply dget_in in E. destruct (H _ _ E) as [_ X]. rewrite X, in_app_iff. cbn [In].
               split; [intros [[A B]|[<-|[]]]; auto|intros [[A|[A|[]]] B]; auto].
            -- apply dget_none in E. rewrite in_app_iff. cbn [In]. split; [intros [[]|[<-|[]]]; auto|].
               intros [[A|[A|[]]] B]; auto. exfalso. apply E. rewrite <- B. auto.
          * apply dget_in in I. destruct (H _ _ I) as [X Y]. split; auto. intros v. rewrite Y, in_app_iff. cbn [In].
            split; [intros [A B]; auto|intros [[A|[<-|[]]] B]; auto; congruence]. }
    intros vs. apply (G vs [] []); [constructor|intros v []|intros k g []].
  Qed.
  Lemma groups_cover : forall vs v, In v vs -> exists g, In (group_key v, g) (group_versions vs).
  Proof.
    assert (K : forall vs d k, In k (map fst d) -> In k (map fst (fold_left (fun d v =>
      dset (group_key v) (match dget (group_key v) d with Some g => g | None => [] end ++ [v]) d) vs d))).
    { induction vs as [|x vs IH]; intros d k I; auto. cbn [fold_left]. apply IH. rewrite dset_keys. auto. }
    assert (G : forall vs d v, In v vs -> In (group_key v) (map fst (fold_left (fun d v =>
      dset (group_key v) (match dget (group_key v) d with Some g => g | None => [] end ++ [v]) d) vs d))).
    { induction vs as [|x vs IH]; intros d v I; [contradiction|]. cbn [fold_left]. destruct I as [<-|I]; auto.
      apply K. rewrite dset_keys. auto. }
    intros vs v I. apply (G vs [] v) in I. apply in_map_iff in I as [[k g] [E I]]. cbn in E. subst k. eauto.
  Qed.

  Variable lt : V -> V -> bool.
  Hypothesis order : version_order V lt.
  Lemma newest_spec : forall g v, newest V lt g = Some v -> In v g /\ forall u, In u g -> lt v u = false.
  Proof.
    intros g v H. unfold newest in H. destruct (sorted V _ g) as [|x l] eqn:E; [discriminate|]. inversion H; subst.
    set (leb := fun a b => negb (lt a b)) in *.
    assert (total : forall a b, leb a b = false -> leb b a = true).
    { unfold leb. intros a b L. apply negb_false_iff in L. apply negb_true_iff. destruct (lt b a) eqn:X; auto.
      pose proof (lt_transitive _ _ order _ _ _ L X) as Y. rewrite (lt_irreflexive _ _ order) in Y. discriminate. }
    assert (trans : forall a b c, leb a b = true -> leb b c = true -> leb a c = true).
    { unfold leb. intros a b c A B. apply negb_true_iff in A, B. apply negb_true_iff. eapply not_lt_transitive; eauto. }
    pose proof (sorted_ordered V leb total trans g) as S. rewrite E in S. inversion S; subst.
    assert (P : Permutation g (v :: l)) by (rewrite <- E; apply sorted_perm).
    split; [eapply Permutation_in; [apply Permutation_sym; exact P|now left]|].
    intros u U. apply (Permutation_in u P) in U. destruct U as [<-|U]; [apply (lt_irreflexive _ _ order)|].
    rewrite Forall_forall in H3. specialize (H3 u U). unfold leb in H3. now apply negb_true_iff in H3.
  Qed.
  Lemma newest_exists : forall g, g <> [] -> exists v, newest V lt g = Some v.
  Proof.
    intros g N. unfold newest. destruct (sorted V _ g) as [|x l] eqn:E; [|eauto].
    exfalso. apply N. apply Permutation_nil. rewrite <- E. apply Permutation_sym, sorted_perm.
  Qed.
  Lemma somes_in : forall A (l : list (option A)) a, In a (somes l) <-> In (Some a) l.
  Proof.
    induction l as [|[b|] l IH]; intros a; cbn [somes In]; [tauto| |].
    - rewrite IH. split; intros [|]; auto; left; congruence.
    - rewrite IH. split; auto. intros [|]; auto. discriminate.
  Qed.
  Notation minor_leb := (minor_leb V major minor).
  Notation before_minor := (before_minor V major minor).
  Lemma minor_iff : forall u v, minor_leb u v = false <-> before_minor v u.
  Proof.
    intros u v. unfold VersionModel.minor_leb, VersionSpec.before_minor.
    destruct (Nat.eqb_spec (major u) (major v)); rewrite Nat.leb_gt; lia.
  Qed.
  Lemma minor_true : forall u v, minor_leb u v = true <-> ~ before_minor v u.
  Proof. intros u v. rewrite <- minor_iff. destruct (minor_leb u v); split; congruence. Qed.

  Lemma patches : forall vs,
    (forall v, In v (last_patches V major minor lt vs) -> In v vs /\ forall u, In u vs -> same_minor u v -> lt v u = false) /\
    (forall u, In u vs -> exists v, In v (last_patches V major minor lt vs) /\ same_minor u v) /\
    StronglySorted before_minor (last_patches V major minor lt vs).
  Proof.
    intros vs. destruct (groups_spec vs) as [N G]. unfold last_patches.
    set (raw := somes (map (fun kg => newest V lt (snd kg)) (group_versions vs))).
    assert (I : forall v, In v (sorted V minor_leb raw) <-> In v raw).
    { intros v. split; apply Permutation_in; [apply Permutation_sym|]; apply sorted_perm. }
    assert (R : forall v, In v raw -> exists k g, In (k, g) (group_versions vs) /\ newest V lt g = Some v).
    { intros v H. unfold raw in H. apply somes_in in H. apply in_map_iff in H as [[k g] [E H]]. eauto. }
    split; [|split].
    - intros v H. apply I in H. destruct (R v H) as [k [g [A B]]]. destruct (G k g A) as [_ X]. apply newest_spec in B as [B1 B2].
      pose proof (proj1 (X v) B1) as [V1 V2]. split; auto. intros u U S. apply B2. apply X. split; auto. rewrite <- V2. now apply key_iff.
    - intros u U. destruct (groups_cover vs u U) as [g Gu]. destruct (G _ _ Gu) as [Ne X]. destruct (newest_exists g Ne) as [v B].
      exists v. split.
      + apply I. apply somes_in. apply in_map_iff. exists (group_key u, g). auto.
      + apply newest_spec in B as [B _]. apply X in B as [_ B]. symmetry in B. now apply key_iff.
    - assert (S : StronglySorted (fun a b => minor_leb a b = true) (sorted V minor_leb raw)).
      { apply sorted_ordered.
        - intros a b H. apply minor_iff in H. apply minor_true. unfold VersionSpec.before_minor in *. lia.
        - intros a b c. rewrite !minor_true. unfold VersionSpec.before_minor. lia. }
      assert (D : NoDup (map group_key raw)).
      { unfold raw. assert (Q : forall d, NoDup (map fst d) -> (forall k g, In (k, g) d -> g <> [] /\ forall v, In v g -> group_key v = k) ->
          NoDup (map group_key (somes (map (fun kg => newest V lt (snd kg)) d))) /\
          forall k, In k (map group_key (somes (map (fun kg => newest V lt (snd kg)) d))) -> In k (map fst d)).
        { induction d as [|[k g] d IH]; intros Nd H; cbn [map somes fst snd]; [split; [constructor|auto]|].
          inversion Nd; subst. destruct IH as [I1 I2]; auto; [intros; apply H; now right|].
          destruct (H k g) as [Ne Kg]; [now left|]. destruct (newest_exists g Ne) as [v B]. rewrite B. cbn [map].
          apply newest_spec in B as [B _]. rewrite (Kg v B). split; [constructor; auto|]. intros k' [<-|K]; cbn; auto. }
        apply Q; auto. intros k g K. destruct (G k g K) as [X1 X2]. split; auto. intros v Iv. now apply X2 in Iv. }
      assert (D2 : NoDup (map group_key (sorted V minor_leb raw))).
      { eapply Permutation_NoDup; [|exact D]. apply Permutation_map, sorted_perm. }
      clear - S D2. induction S as [|a l S IH F]; constructor.
      + inversion D2; auto.
      + rewrite Forall_forall in *. intros b B. specialize (F b B). apply minor_true in F.
        inversion D2 as [|x y Nx Ny]; subst. assert (E : ~ same_minor a b).
        { intros E. apply Nx. rewrite (proj2 (key_iff a b) E). now apply in_map. }
        unfold VersionSpec.before_minor, VersionSpec.same_minor in *. lia.
  Qed.
End Versions.

(** ** Explanations *)

Lemma attempts_quiet : forall l ttl now w, in_order_attempts now l -> (0 <= now)%Z ->
  spaced ttl (fetched w) -> (forall t, In t (fetched w) -> exists u, last_update w = Some u /\ (t <= u)%Z) ->
  match last_update w with Some u => (u <= now)%Z | None => True end ->
  spaced ttl (fetched (attempts l ttl w)).
Proof.
  induction l as [|a l IH]; intros ttl now w O N S B U; auto. destruct O as [O1 [O2 O3]]. cbn [attempts].
  assert (X : let w' := update_thread a ttl w in spaced ttl (fetched w') /\
    (forall t, In t (fetched w') -> exists u, last_update w' = Some u /\ (t <= u)%Z) /\
    match last_update w' with Some u => (u <= write_time a)%Z | None => True end).
  { unfold update_thread. assert (K : match last_update w with Some u => (u <= write_time a)%Z | None => True end) by (destruct (last_update w); auto; lia).
    destruct (db_works a); cbn [negb]; [|cbv zeta; auto].
    destruct (Z.ltb_spec (read_time a) (match last_update w with Some t => t | None => 0 end + ttl)) as [L|L]; [cbv zeta; auto|].
    assert (S' : spaced ttl (fetched w ++ [write_time a])).
    { apply pairs_app; auto. intros t T. destruct (B t T) as [u [E Le]]. rewrite E in L. lia. }
    assert (B' : forall t, In t (fetched w ++ [write_time a]) -> exists u, Some (write_time a) = Some u /\ (t <= u)%Z).
    { intros t T. exists (write_time a). split; auto. apply in_app_or in T as [T|[<-|[]]]; [|lia]. destruct (B t T) as [u [E Le]]. rewrite E in U. lia. }
    destruct (reply a) as [[code txt]|]; [destruct (Z.eqb code 200)|]; cbv zeta; cbn [fetched last_update]; repeat split; auto; lia. }
  destruct X as [X1 [X2 X3]]. apply (IH ttl (write_time a)); auto. lia.
Qed.
Lemma explanations_rate : forall l ttl, in_order_attempts 0 l ->
  spaced ttl (fetched (attempts l ttl {| online := None; last_update := None; fetched := [] |})).
Proof.
  intros l ttl O. apply (attempts_quiet l ttl 0); [exact O|lia|constructor|intros t []|exact I].
Qed.

Lemma online_ignored : forall load pip w w', get_explanations load pip w = get_explanations load pip w'.
Proof.
  assert (X : forall load pip w, get_explanations load pip w = load_pip load pip).
  { intros load pip w. unfold get_explanations, load_updated. destruct (online w); auto. destruct (load_pip load pip) as [[|]|]; auto. }
  intros. now rewrite !X.
Qed.

Lemma select_spec : forall expl ids acc d l, select expl ids acc = (d, l) -> NoDup (map fst acc) ->
  NoDup (map fst d) /\
  (forall i e, dget i d = Some e <-> (In i ids /\ dget i expl = Some e) \/ (~ (In i ids /\ dget i expl <> None) /\ dget i acc = Some e)) /\
  l = filter (fun i => match dget i expl with None => true | _ => false end) ids.
Proof.
  induction ids as [|x ids IH]; intros acc d l H N; cbn [select] in H.
  - inversion H; subst. split; auto. split; auto. intros i e. split; [intros E; right; split; auto; intros [[] _]|intros [[[] _]|[_ E]]; auto].
  - destruct (dget x expl) as [ex|] eqn:E.
    + destruct (IH _ _ _ H (dset_nodup _ _ _ _ N)) as [I1 [I2 I3]]. split; auto. split.
      * intros i e. rewrite I2, dget_dset. destruct (String.eqb_spec i x) as [->|Nx].
        -- rewrite E. cbn [In]. split.
           ++ intros [[A B]|[A B]]; left; split; auto.
           ++ intros [[A B]|[A B]].
              ** destruct (in_dec string_dec x ids) as [J|J]; [left; auto|right]. split; auto. intros [K _]. contradiction.
              ** exfalso. apply A. split; auto. discriminate.
        -- cbn [In]. split.
           ++ intros [[A B]|[A B]]; [left; auto|right]. split; auto. intros [[C|C] D]; [congruence|]. apply A. auto.
           ++ intros [[[A|A] B]|[A B]]; [congruence|left; auto|right]. split; auto. intros [C D]. apply A. auto.
      * cbn [filter]. now rewrite E.
    + destruct (select expl ids acc) as [d' l'] eqn:Q. inversion H; subst.
      destruct (IH _ _ _ Q N) as [I1 [I2 I3]]. split; auto. split.
      * intros i e. rewrite I2. cbn [In]. split.
        -- intros [[A B]|[A B]]; [left; auto|right]. split; auto. intros [[C|C] D]; [subst; congruence|]. apply A. auto.
        -- intros [[[A|A] B]|[A B]]; [congruence|left; auto|right]. split; auto. intros [C D]. apply A. auto.
      * cbn [filter]. rewrite E. now f_equal.
Qed.
Lemma explained : forall load pip w ids d l expl, get_explanations load pip w = Ok expl ->
  get_message_explanations load pip (Some ids) w = Ok (d, l) ->
  NoDup (map fst d) /\ (forall i e, dget i d = Some e <-> In i ids /\ dget i expl = Some e) /\
  l = filter (fun i => match dget i expl with None => true | _ => false end) ids.
Proof.
  intros load pip w ids d l expl G H. unfold get_message_explanations in H. rewrite G in H. cbn [bind] in H. inversion H.
  destruct (select_spec expl ids [] d l H1 (NoDup_nil _)) as [A [B C]]. split; auto. split; auto.
  intros i e. rewrite B. cbn [dget]. split; auto. intros [|[_ X]]; auto. discriminate.
Qed.
Lemma explained_all : forall load pip w d l expl, get_explanations load pip w = Ok expl ->
  get_message_explanations load pip None w = Ok (d, l) ->
  (forall i, dget i d = dget i expl) /\ l = [].
Proof.
  intros load pip w d l expl G H. unfold get_message_explanations in H. rewrite G in H. cbn [bind] in H. inversion H.
  destruct (select_spec expl (map fst expl) [] d l H1 (NoDup_nil _)) as [A [B C]]. split.
  - intros i. destruct (dget i expl) as [e|] eqn:E.
    + apply B. left. split; auto. apply dget_in in E. now apply in_map with (f := fst) in E.
    + destruct (dget i d) as [e|] eqn:D; auto. apply B in D as [[_ X]|[_ X]]; [congruence|discriminate].
  - rewrite C. clear - expl. assert (X : forall ks, (forall k, In k ks -> In k (map fst expl)) ->
      filter (fun i => match dget i expl with Some _ => false | None => true end) ks = []).
    { induction ks as [|k ks IH]; intros H; auto. cbn [filter]. destruct (dget k expl) eqn:E; [apply IH; intros; apply H; now right|].
      apply dget_none in E. exfalso. apply E, H. now left. }
    now apply X.
Qed.

Lemma lower_a : forall c, lower_ascii c = "a"%char <-> (c = "a" \/ c = "A")%char.
Proof.
  intros c. split; [|intros [->| ->]; reflexivity].
  destruct c as [[|] [|] [|] [|] [|] [|] [|] [|]]; vm_compute; intros H; try discriminate H; auto.
Qed.
Lemma lower_l : forall c, lower_ascii c = "l"%char <-> (c = "l" \/ c = "L")%char.
Proof.
  intros c. split; [|intros [->| ->]; reflexivity].
  destruct c as [[|] [|] [|] [|] [|] [|] [|] [|]]; vm_compute; intros H; try discriminate H; auto.
Qed.
Lemma spelling : forall i, String.eqb (lower i) "all" = true <-> spells_all i.
Proof.
  intros i. rewrite String.eqb_eq. split.
  - destruct i as [|a [|b [|c [|d r]]]]; cbn [lower]; intros H; try discriminate H.
    injection H as A B C. exists a, b, c. rewrite <- lower_a, <- !lower_l. auto.
  - intros [a [b [c [-> [A [B C]]]]]]. cbn [lower]. apply lower_a in A. apply lower_l in B, C. now rewrite A, B, C.
Qed.
Lemma explain_all : forall load pip w ids expl, get_explanations load pip w = Ok expl -> (exists i, In i ids /\ spells_all i) ->
  exists d, explain load pip ids w = Ok (d, []) /\ NoDup (map fst d) /\ forall i, dget i d = dget i expl.
Proof.
  intros load pip w ids expl G [i [I S]].
  assert (E : existsb (fun i => String.eqb (lower i) "all") ids = true).
  { apply existsb_exists. exists i. split; auto. now apply spelling. }
  unfold explain. rewrite E. unfold get_message_explanations at 1. rewrite G. cbn [bind].
  destruct (select expl (map fst expl) []) as [d l] eqn:Q. exists d.
  assert (M : get_message_explanations load pip None w = Ok (d, l)).
  { unfold get_message_explanations. rewrite G. cbn [bind]. now rewrite Q. }
  destruct (explained_all _ _ _ _ _ _ G M) as [A ->]. split; auto. split; auto.
  now destruct (select_spec _ _ _ _ _ Q (NoDup_nil _)).
Qed.
Lemma explain_some : forall load pip w ids expl, get_explanations load pip w = Ok expl -> (forall i, In i ids -> ~ spells_all i) ->
  exists d, explain load pip ids w = Ok (d, filter (fun i => match dget i expl with None => true | _ => false end) ids) /\
    NoDup (map fst d) /\ forall i e, dget i d = Some e <-> In i ids /\ dget i expl = Some e.
Proof.
  intros load pip w ids expl G N.
  assert (E : existsb (fun i => String.eqb (lower i) "all") ids = false).
  { destruct (existsb _ ids) eqn:X; auto. apply existsb_exists in X as [i [I S]]. exfalso. apply (N i I). now apply spelling. }
  unfold explain. rewrite E.
  assert (M : exists d l, get_message_explanations load pip (Some ids) w = Ok (d, l)).
  { unfold get_message_explanations. rewrite G. cbn [bind]. destruct (select expl ids []) as [d l]. eauto. }
  destruct M as [d [l M]]. destruct (explained _ _ _ _ _ _ _ G M) as [A [B ->]]. exists d. auto.
Qed.
