(** Which names get an event. *)
From Coq Require Import String Ascii List Bool Arith Lia.
From Verif Require Import Base ScopeModel ScopeSpec ScopeProofs.
Import ListNotations.
Local Open Scope string_scope.
Local Open Scope list_scope.

Section Cover.
Variable D : list string.
Variable x : string.
Definition seen (st : list frame) : Prop := get_scope x st <> None.
Definition hit (n : nat) (evs : list event) : Prop := exists ev, List.In ev evs /\ node ev = n /\ name ev = x.
Definition bind_hit (n : nat) (evs : list event) : Prop :=
  exists ev, List.In ev evs /\ node ev = n /\ name ev = x /\ (type ev = Assign \/ type ev = Reassign).
Definition cover (w r : list (nat * string)) (s : list string) (st st' : state) : Prop :=
  keeps D (fst st) (fst st') /\ incl (snd st) (snd st')
  /\ (forall n, List.In (n, x) w -> bind_hit n (snd st'))
  /\ (List.In x D -> seen (fst st) -> forall n, List.In (n, x) r -> hit n (snd st'))
  /\ (List.In x D -> List.In x s -> seen (fst st')).

Lemma keeps_seen a b : List.In x D -> keeps D a b -> seen a -> seen b.
Proof.
  intros I K. unfold seen. induction K as [|[t d] [t' d'] a b [_ K] _ IH]; [exact (fun h => h)|]. cbn [get_scope].
  specialize (K x I). cbn [snd] in K. destruct (get x d).
  - intros _. destruct (get x d'); [discriminate|]. exfalso. apply K; [discriminate | reflexivity].
  - intros H. destruct (get x d'); [discriminate|]. apply IH. exact H.
Qed.
Lemma keeps_nonempty a b : keeps D a b -> a <> [] -> b <> [].
Proof. intros K N. destruct K; [exact N | discriminate]. Qed.
Lemma cover_ne w r s st st' : cover w r s st st' -> fst st <> [] -> fst st' <> [].
Proof. intros (K & _). apply keeps_nonempty. exact K. Qed.
Lemma cover_refl st : cover [] [] [] st st.
Proof.
  split; [apply keeps_refl|]. split; [apply incl_refl|]. split; [intros n []|]. split; [intros _ _ n []|]. intros _ [].
Qed.
Lemma cover_trans w r s w' r' s' a b c : cover w r s a b -> cover w' r' s' b c -> cover (w ++ w') (r ++ r') (s ++ s') a c.
Proof.
  intros (K & I & W & R & S) (K' & I' & W' & R' & S'). split; [eapply keeps_trans; eassumption|]. split; [eapply incl_tran; eassumption|].
  split; [|split].
  - intros n X. apply in_app_or in X. destruct X as [X|X]; [|auto]. destruct (W n X) as (ev & J & Q). exists ev. split; [apply I'; exact J | exact Q].
  - intros d Z n X. apply in_app_or in X. destruct X as [X|X].
    + destruct (R d Z n X) as (ev & J & Q). exists ev. split; [apply I'; exact J | exact Q].
    + apply R'; [exact d | eapply keeps_seen; eassumption | exact X].
  - intros d X. apply in_app_or in X. destruct X as [X|X]; [|auto]. eapply keeps_seen; [exact d | exact K' | auto].
Qed.
Lemma cover_incl w r s w' r' s' a b : incl w' w -> incl r' r -> incl s' s -> cover w r s a b -> cover w' r' s' a b.
Proof. intros A B C (K & I & W & R & S). split; [exact K|]. split; [exact I|]. split; [auto|]. split; auto. Qed.

Lemma cover_event y n t st : cover [] [(n, y)] [] st (add_event y n t st).
Proof.
  unfold add_event. destruct (get_scope y (fst st)) as [u|] eqn:E.
  - split; [apply keeps_refl|]. split; [apply incl_appl, incl_refl|]. split; [intros ? []|]. split; [|intros _ []].
    intros _ _ k [Q|[]]. injection Q as -> ->. eexists. split; [apply in_or_app; right; now left|]. split; reflexivity.
  - split; [apply keeps_refl|]. split; [apply incl_refl|]. split; [intros ? []|]. split; [|intros _ []].
    intros _ Z k [Q|[]]. injection Q as -> ->. contradiction.
Qed.
Lemma cover_init y n st : fst st <> [] -> cover [(n, y)] [(n, y)] [y] st (init_var y n st).
Proof.
  intros N. destruct st as [[|[t d] st] evs]; [contradiction|]. unfold init_var. cbn [fst].
  assert (forall u k, (k = Assign \/ k = Reassign) -> cover [(n, y)] [(n, y)] [y] ((t, d) :: st, evs) (add_event y n k (put_top y u ((t, d) :: st, evs)))) as A.
  { intros u k Hk. cbn [put_top]. unfold add_event. cbn [fst get_scope get]. rewrite String.eqb_refl. cbn [snd].
    split; [apply keeps_put|]. split; [apply incl_appl, incl_refl|].
    assert (forall j, List.In (j, x) [(n, y)] -> bind_hit j (evs ++ [{| node := n; name := y; type := k; scope := u |}])) as W.
    { intros j [Q|[]]. injection Q as -> ->. eexists. split; [apply in_or_app; right; now left|]. split; [reflexivity|]. split; [reflexivity | exact Hk]. }
    split; [exact W|]. split.
    - intros _ _ j J. destruct (W j J) as (ev & E1 & E2 & E3 & _). exists ev. auto.
    - intros _ [Q|[]]. subst y. unfold seen. cbn [fst get_scope get]. rewrite String.eqb_refl. discriminate. }
  destruct (get y d); apply A; auto.
Qed.
Lemma cover_params ps : forall st, fst st <> [] -> cover ps ps (map snd ps) st (init_params ps st).
Proof.
  unfold init_params. induction ps as [|[n y] r IH]; intros st N; [apply cover_refl|]. cbn [fold_left fst snd map].
  pose proof (cover_init y n st N) as C. exact (cover_trans _ _ _ _ _ _ _ _ _ C (IH _ (cover_ne _ _ _ _ _ C N))).
Qed.
Lemma cover_each {A} (f : A -> state -> res state) w r s l :
  Forall (fun a => forall st st', fst st <> [] -> f a st = Ok st' -> cover (w a) (r a) (s a) st st') l ->
  forall st st', fst st <> [] -> each f l st = Ok st' -> cover (flat_map w l) (flat_map r l) (flat_map s l) st st'.
Proof.
  induction 1 as [|a l Ha _ IH]; intros st st' N E; cbn in E; [injection E as <-; apply cover_refl|].
  apply bind_ok in E. destruct E as (s1 & E1 & E2). pose proof (Ha st s1 N E1) as C. cbn [flat_map].
  eapply cover_trans; [exact C|]. apply IH; [eapply cover_ne; eassumption | exact E2].
Qed.
Lemma cover_scope w r s0 s k st st' : fst st <> [] ->
  (forall a b, fst a <> [] -> k a = Ok b -> cover w r s0 a b) -> in_scope s k st = Ok st' -> cover w r [] st st'.
Proof.
  intros N H E. unfold in_scope in E. apply bind_ok in E. destruct E as (b & E & Z). injection Z as <-.
  destruct (H ((s, []) :: fst st, snd st) b ltac:(discriminate) E) as (K & I & W & R & _). cbn [fst snd] in *.
  inversion K as [|f g ? t _ Kt Ea Eb]; subst. cbn [tl]. split; [exact Kt|]. split; [exact I|]. split; [exact W|]. split; [|intros _ []].
  intros d Z. apply R; [exact d | exact Z].
Qed.

Definition P_cover e := forall st st', fst st <> [] -> visit_expr e st = Ok st' -> cover (written_expr e) (used_expr e) [] st st'.
Definition G_cover g := forall st st', fst st <> [] -> visit_gen g st = Ok st' -> cover (written_gen g) (used_gen g) (bound_gen g) st st'.
Definition T_cover t := forall st st', fst st <> [] -> visit_target t st = Ok st' -> cover (written_target t) (used_target t) (bound_target t) st st'.
Lemma flat_nil {A B} (l : list A) : flat_map (fun _ => @nil B) l = [].
Proof. induction l; [reflexivity | assumption]. Qed.
Lemma cover_exprs es : Forall P_cover es -> forall st st', fst st <> [] -> each visit_expr es st = Ok st' ->
  cover (flat_map written_expr es) (flat_map used_expr es) [] st st'.
Proof.
  intros H st st' N E. rewrite <- (@flat_nil expr string es). eapply (cover_each visit_expr _ _ (fun _ => [])); [exact H | exact N | exact E].
Qed.
Lemma all_cover : (forall e, P_cover e) /\ (forall g, G_cover g) /\ (forall t, T_cover t).
Proof.
  apply trees.
  - intros n y st st' N E. cbn in E. injection E as <-. apply cover_event.
  - intros es H st st' N E. apply cover_exprs; assumption.
  - intros f args Hf Ha st st' N E. cbn [visit_expr] in E. destruct (unknowable f); [discriminate|].
    apply bind_ok in E. destruct E as (s1 & E1 & E2). pose proof (Hf st s1 N E1) as C.
    refine (cover_trans _ _ [] _ _ [] _ _ _ C _). apply cover_exprs; [exact Ha | eapply cover_ne; eassumption | exact E2].
  - intros s ps ds b _ Hb st st' N E. cbn [visit_expr] in E. eapply cover_scope; [exact N | | exact E]. intros a a' Na Ea.
    pose proof (cover_params ps a Na) as C. eapply cover_trans; [exact C|]. apply Hb; [eapply cover_ne; eassumption | exact Ea].
  - intros s gs es Hg He st st' N E. cbn [visit_expr] in E. eapply cover_scope; [exact N | | exact E]. intros a a' Na Ea.
    apply bind_ok in Ea. destruct Ea as (s1 & E1 & E2).
    pose proof (cover_each visit_gen written_gen used_gen bound_gen gs Hg a s1 Na E1) as C.
    eapply cover_trans; [exact C|]. apply cover_exprs; [exact He | eapply cover_ne; eassumption | exact E2].
  - intros t i ifs Ht Hi Hf st st' N E. cbn [visit_gen] in E. apply bind_ok in E. destruct E as (s1 & E1 & E).
    apply bind_ok in E. destruct E as (s2 & E2 & E3). pose proof (Ht st s1 N E1) as C1. pose proof (cover_ne _ _ _ _ _ C1 N) as N1.
    pose proof (Hi s1 s2 N1 E2) as C2. pose proof (cover_ne _ _ _ _ _ C2 N1) as N2.
    pose proof (cover_exprs ifs Hf s2 st' N2 E3) as C3. cbn [written_gen used_gen bound_gen].
    rewrite <- (app_nil_r (bound_target t)). exact (cover_trans _ _ _ _ _ _ _ _ _ C1 (cover_trans _ _ [] _ _ [] _ _ _ C2 C3)).
  - intros n y st st' N E. cbn in E. injection E as <-. apply cover_init. exact N.
  - intros ts H st st' N E. cbn [visit_target] in E. exact (cover_each visit_target written_target used_target bound_target ts H st st' N E).
  - intros e H st st' N E. exact (H st st' N E).
Qed.
Lemma es_cover es st st' : fst st <> [] -> each visit_expr es st = Ok st' -> cover (flat_map written_expr es) (flat_map used_expr es) [] st st'.
Proof. apply cover_exprs. apply Forall_forall. intros e _. apply all_cover. Qed.
Lemma ts_cover ts st st' : fst st <> [] -> each visit_target ts st = Ok st' ->
  cover (flat_map written_target ts) (flat_map used_target ts) (flat_map bound_target ts) st st'.
Proof. apply cover_each. apply Forall_forall. intros e _. apply all_cover. Qed.

Definition undeleted (b : stmt) : Prop := forall y, List.In y (deleted_stmt b) -> ~ List.In y D.
Definition Q_cover b := undeleted b -> forall st st', fst st <> [] -> visit_stmt b st = Ok st' -> cover (written_stmt b) (used_stmt b) (sets_stmt b) st st'.
Lemma ss_cover l : Forall Q_cover l -> (forall y, List.In y (flat_map deleted_stmt l) -> ~ List.In y D) ->
  forall st st', fst st <> [] -> each visit_stmt l st = Ok st' -> cover (flat_map written_stmt l) (flat_map used_stmt l) (flat_map sets_stmt l) st st'.
Proof.
  intros H U. apply cover_each. rewrite Forall_forall in *. intros b I. apply (H b I). intros y Y. apply U.
  apply in_flat_map. exists b. split; assumption.
Qed.
Lemma cover_puts (sel : state -> string -> option nat) xs : forall st,
  cover [] [] [] st (fold_left (fun st y => match sel st y with Some u => put_top y u st | None => st end) xs st).
Proof.
  induction xs as [|y xs IH]; intros st; [apply cover_refl|]. cbn [fold_left].
  refine (cover_trans [] [] [] [] [] [] _ _ _ _ (IH _)). destruct (sel st y) as [u|]; [|apply cover_refl].
  destruct st as [[|[t d] st] evs]; [apply cover_refl|]. cbn [put_top].
  split; [apply keeps_put|]. split; [apply incl_refl|]. split; [intros ? []|]. split; [intros _ _ ? []|intros _ []].
Qed.
Lemma cover_remove y st : ~ List.In y D -> cover [] [] [] st (remove_from y (fst st), snd st).
Proof.
  intros N. split; [|split; [apply incl_refl|split; [intros ? []|split; [intros _ _ ? []|intros _ []]]]]. cbn [fst].
  induction (fst st) as [|[t d] r IH]; [constructor|]. cbn [remove_from]. destruct (get y d) eqn:E.
  - constructor; [|apply keeps_refl]. split; [reflexivity|]. intros z Z G. cbn. rewrite get_remove_other; [exact G|]. congruence.
  - constructor; [split; auto | exact IH].
Qed.

Lemma body_cover b : Forall Q_cover b -> (forall y, List.In y (flat_map deleted_stmt b) -> ~ List.In y D) ->
  forall st st', fst st <> [] -> visit_body b st = Ok st' ->
  cover (defined b ++ flat_map written_stmt b) (flat_map used_stmt b) (sets_of b) st st'
  /\ exists mid, (List.In x D -> List.In x (sets_of b) -> seen (fst mid)) /\ fst mid <> [] /\ each (later visit_stmt) b mid = Ok st'.
Proof.
  intros H U st st' N E. unfold visit_body in E. apply bind_ok in E. destruct E as (mid & E1 & E2).
  set (w1 := fun c => match c with SDef _ n y _ _ _ _ _ | SClass _ n y _ _ => [(n, y)] | _ => written_stmt c end).
  set (r1 := fun c => if definition c then [] else used_stmt c).
  set (s1 := fun c => match c with SDef _ _ y _ _ _ _ _ | SClass _ _ y _ _ => [y] | _ => sets_stmt c end).
  set (w2 := fun c => if definition c then written_stmt c else []).
  set (r2 := fun c => if definition c then used_stmt c else []).
  assert (forall c, List.In c b -> undeleted c) as Uc.
  { intros c I y Y. apply U. apply in_flat_map. exists c. split; assumption. }
  rewrite Forall_forall in H.
  assert (cover (flat_map w1 b) (flat_map r1 b) (flat_map s1 b) st mid) as C1.
  { eapply cover_each; [|exact N|exact E1]. apply Forall_forall. intros c I a a' Na Ea.
    destruct c; cbn [at_first] in Ea; try (exact (H _ I (Uc _ I) a a' Na Ea)); injection Ea as <-;
      (eapply cover_incl; [| | |apply cover_init; exact Na]; [apply incl_refl | intros ? [] | apply incl_refl]). }
  assert (fst mid <> []) as N1 by (eapply cover_ne; eassumption).
  assert (cover (flat_map w2 b) (flat_map r2 b) (flat_map (fun _ => []) b) mid st') as C2.
  { eapply (cover_each (later visit_stmt) w2 r2 (fun _ => [])); [|exact N1|exact E2]. apply Forall_forall. intros c I a a' Na Ea.
    destruct c; cbn [later] in Ea; try (injection Ea as <-; apply cover_refl);
      (eapply cover_incl; [| | |exact (H _ I (Uc _ I) a a' Na Ea)]; [apply incl_refl | apply incl_refl | intros ? []]). }
  assert (forall z, List.In z (sets_of b) -> List.In z (flat_map s1 b)) as S1.
  { intros z Z. unfold sets_of, defined in Z. apply in_app_or in Z. destruct Z as [Z|Z].
    - apply in_map_iff in Z. destruct Z as ([n z'] & <- & Z). apply in_flat_map in Z. destruct Z as (c & I & Z).
      apply in_flat_map. exists c. split; [exact I|]. destruct c; cbn in Z; try contradiction; (destruct Z as [Z|[]]; injection Z as _ Z; left; exact Z).
    - apply in_flat_map in Z. destruct Z as (c & I & Z). apply in_flat_map. exists c. split; [exact I|]. destruct c; try exact Z; destruct Z. }
  split.
  - eapply cover_incl; [| | |exact (cover_trans _ _ _ _ _ _ _ _ _ C1 C2)].
    + intros z Z. apply in_or_app. apply in_app_or in Z. destruct Z as [Z|Z].
      * left. unfold defined in Z. apply in_flat_map in Z. destruct Z as (c & I & Z). apply in_flat_map. exists c. split; [exact I|].
        destruct c; cbn in Z; try contradiction; exact Z.
      * apply in_flat_map in Z. destruct Z as (c & I & Z). destruct (definition c) eqn:Df.
        -- right. apply in_flat_map. exists c. split; [exact I|]. unfold w2. rewrite Df. exact Z.
        -- left. apply in_flat_map. exists c. split; [exact I|]. destruct c; try discriminate Df; exact Z.
    + intros z Z. apply in_or_app. apply in_flat_map in Z. destruct Z as (c & I & Z). destruct (definition c) eqn:Df.
      * right. apply in_flat_map. exists c. split; [exact I|]. unfold r2. rewrite Df. exact Z.
      * left. apply in_flat_map. exists c. split; [exact I|]. unfold r1. rewrite Df. exact Z.
    + intros z Z. apply in_or_app. left. apply S1. exact Z.
  - exists mid. split; [|split; assumption]. intros d Z. apply C1; [exact d | apply S1; exact Z].
Qed.

Lemma stmts_cover b : Q_cover b.
Proof.
  pose proof all_cover as (HP & _ & HT). revert b. refine (all_stmts Q_cover _ _ _ _ _ _ _ _ _ _ _).
  - intros e U st st' N E. exact (HP e st st' N E).
  - intros ts e U st st' N E. cbn [visit_stmt] in E. apply bind_ok in E. destruct E as (s1 & E1 & E2).
    pose proof (HP e st s1 N E1) as C. refine (cover_trans _ _ [] _ _ _ _ _ _ C _).
    apply ts_cover; [eapply cover_ne; eassumption | exact E2].
  - intros t e U st st' N E. cbn [visit_stmt] in E. apply bind_ok in E. destruct E as (s1 & E1 & E2).
    assert (exists r, cover [] r [] st (read_target t st)) as [r C0].
    { destruct t; cbn [read_target]; [eexists; apply cover_event | exists []; apply cover_refl | exists []; apply cover_refl]. }
    pose proof (cover_ne _ _ _ _ _ C0 N) as N0. pose proof (HP e _ s1 N0 E1) as C. pose proof (HT t s1 st' (cover_ne _ _ _ _ _ C N0) E2) as C2.
    eapply cover_incl; [| | |exact (cover_trans _ _ _ _ _ _ _ _ _ C0 (cover_trans _ _ _ _ _ _ _ _ _ C C2))]; cbn [written_stmt used_stmt sets_stmt app].
    + apply incl_refl.
    + apply incl_appr, incl_refl.
    + apply incl_refl.
  - intros t i b o Hb Ho U st st' N E. cbn [visit_stmt] in E.
    apply bind_ok in E. destruct E as (s1 & E1 & E). apply bind_ok in E. destruct E as (s2 & E2 & E).
    apply bind_ok in E. destruct E as (s3 & E3 & E4).
    pose proof (HT t st s1 N E1) as C1. pose proof (cover_ne _ _ _ _ _ C1 N) as N1.
    pose proof (HP i s1 s2 N1 E2) as C2. pose proof (cover_ne _ _ _ _ _ C2 N1) as N2.
    assert (cover (flat_map written_stmt b) (flat_map used_stmt b) (flat_map sets_stmt b) s2 s3) as C3.
    { apply ss_cover; [exact Hb | | exact N2 | exact E3]. intros y Y. apply U. cbn. apply in_or_app. now left. }
    pose proof (cover_ne _ _ _ _ _ C3 N2) as N3.
    assert (cover (flat_map written_stmt o) (flat_map used_stmt o) (flat_map sets_stmt o) s3 st') as C4.
    { apply ss_cover; [exact Ho | | exact N3 | exact E4]. intros y Y. apply U. cbn. apply in_or_app. now right. }
    exact (cover_trans _ _ _ _ _ _ _ _ _ C1 (cover_trans _ _ [] _ _ _ _ _ _ C2 (cover_trans _ _ _ _ _ _ _ _ _ C3 C4))).
  - intros es ts bs Hb U st st' N E. cbn [visit_stmt] in E.
    apply bind_ok in E. destruct E as (s1 & E1 & E). apply bind_ok in E. destruct E as (s2 & E2 & E3).
    pose proof (es_cover es st s1 N E1) as C1. pose proof (cover_ne _ _ _ _ _ C1 N) as N1.
    pose proof (ts_cover ts s1 s2 N1 E2) as C2. pose proof (cover_ne _ _ _ _ _ C2 N1) as N2.
    refine (cover_trans _ _ [] _ _ _ _ _ _ C1 (cover_trans _ _ _ _ _ _ _ _ _ C2 _)).
    eapply (cover_each (each visit_stmt)); [|exact N2|exact E3]. rewrite Forall_forall in *. intros l I. apply ss_cover; [apply Hb; exact I|].
    intros y Y. apply U. cbn. apply in_flat_map. exists l. split; assumption.
  - intros xs U st st' N E. cbn in E. injection E as <-.
    exact (cover_puts (fun st _ => Some (match last (fst st) (0, []) with (t, _) => t end)) xs st).
  - intros xs U st st' N E. cbn [visit_stmt] in E. injection E as <-. unfold declare_nonlocal.
    pose proof (cover_puts (fun st _ => match fst st with _ :: (p, _) :: _ => Some p | _ => None end) xs st) as C.
    match type of C with cover _ _ _ _ ?a => match goal with |- cover _ _ _ _ ?b => replace b with a; [exact C|] end end.
    clear. revert st. induction xs as [|y xs IH]; intros st; [reflexivity|]. cbn [fold_left]. rewrite IH. f_equal.
    destruct (fst st) as [|f [|[t d] r]]; reflexivity.
  - intros n ns U st st' N E. cbn [visit_stmt] in E. injection E as <-. cbn [written_stmt used_stmt sets_stmt]. clear U. revert st N.
    induction ns as [|na ns IH]; intros st N; [apply cover_refl|]. cbn [fold_left].
    pose proof (cover_init (imported na) n st N) as C0.
    assert (incl (undotted_import na) [imported na]) as I.
    { destruct na as [y [z|]]; cbn; [apply incl_refl|]. destruct (String.eqb (before_dot y) y); [apply incl_refl | intros ? []]. }
    assert (incl (map (pair n) (undotted_import na)) [(n, imported na)]) as J.
    { intros p H. apply in_map_iff in H. destruct H as (y & <- & H). apply I in H. destruct H as [<-|[]]. now left. }
    pose proof (cover_incl _ _ _ _ _ _ _ _ J J I C0) as C. cbn [flat_map].
    exact (cover_trans _ _ _ _ _ _ _ _ _ C (IH _ (cover_ne _ _ _ _ _ C N))).
  - intros n y U st st' N E. cbn [visit_stmt] in E. injection E as <-. unfold del_var.
    assert (~ List.In y D) as Ny by (apply U; now left).
    refine (cover_trans [] [(n, y)] [] [] [] [] _ _ _ (cover_event y n Delete st) _). apply cover_remove. exact Ny.
  - intros s n y o a ps ds b Hb U st st' N E. cbn [visit_stmt] in E. eapply cover_scope; [exact N | | exact E].
    intros q q' Nq Ek. apply bind_ok in Ek. destruct Ek as (s1 & E1 & Ek). apply bind_ok in Ek. destruct Ek as (s2 & E2 & Ek).
    rewrite <- visit_body_eq in Ek. cbn [written_stmt used_stmt].
    pose proof (es_cover a q s1 Nq E1) as C1. pose proof (cover_ne _ _ _ _ _ C1 Nq) as N1.
    pose proof (cover_params ps s1 N1) as C2. pose proof (cover_ne _ _ _ _ _ C2 N1) as N2.
    pose proof (es_cover ds _ s2 N2 E2) as C3. pose proof (cover_ne _ _ _ _ _ C3 N2) as N3.
    destruct (body_cover b Hb U s2 q' N3 Ek) as [C4 _].
    exact (cover_trans _ _ _ _ _ _ _ _ _ C1 (cover_trans _ _ _ _ _ _ _ _ _ C2 (cover_trans _ _ _ _ _ _ _ _ _ C3 C4))).
  - intros s n y o b Hb U st st' N E. cbn [visit_stmt] in E. eapply cover_scope; [exact N | | exact E].
    intros q q' Nq Ek. apply (body_cover b Hb U q q' Nq (eq_trans (visit_body_eq b q) Ek)).
Qed.
End Cover.

Lemma collect_start m body evs : collect m body = Ok evs -> exists st', visit_body body ([(m, [])], []) = Ok st' /\ snd st' = evs.
Proof.
  unfold collect, in_scope. intros E. apply bind_ok in E. destruct E as (st & E & Z). apply bind_ok in E. destruct E as (st' & E & Y).
  injection Z as <-. injection Y as <-. exists st'. split; [exact E | reflexivity].
Qed.
Lemma bindings_seen m body evs n x : collect m body = Ok evs -> List.In (n, x) (written_of body) ->
  exists ev, List.In ev evs /\ node ev = n /\ name ev = x /\ (type ev = Assign \/ type ev = Reassign).
Proof.
  intros E I. apply collect_start in E. destruct E as (st' & E & <-).
  destruct (body_cover [] x body) with (st := ([(m, @nil (string * nat))], @nil event)) (st' := st') as [(_ & _ & W & _) _].
  - apply Forall_forall. intros b _. apply stmts_cover.
  - intros y _ [].
  - discriminate.
  - exact E.
  - apply W. exact I.
Qed.
Lemma uses_seen m body evs n x d : collect m body = Ok evs -> ~ List.In x (flat_map deleted_stmt body) ->
  List.In x (sets_of body) -> List.In d body -> definition d = true -> List.In (n, x) (used_stmt d) ->
  exists ev, List.In ev evs /\ node ev = n /\ name ev = x.
Proof.
  intros E Nd S I Df U. apply collect_start in E. destruct E as (st' & E & <-).
  assert (forall y, List.In y (flat_map deleted_stmt body) -> ~ List.In y [x]) as Ud.
  { intros y Y [<-|[]]. contradiction. }
  destruct (body_cover [x] x body) with (st := ([(m, @nil (string * nat))], @nil event)) (st' := st') as [_ (mid & Sm & Nm & El)].
  - apply Forall_forall. intros b _. apply stmts_cover.
  - exact Ud.
  - discriminate.
  - exact E.
  - assert (cover [x] x (flat_map (fun c => if definition c then written_stmt c else []) body)
      (flat_map (fun c => if definition c then used_stmt c else []) body) (flat_map (fun _ => []) body) mid st') as (_ & _ & _ & R & _).
    { eapply (cover_each [x] x (later visit_stmt)); [|exact Nm|exact El]. apply Forall_forall. intros c J a a' Na Ea.
      destruct c; cbn [later] in Ea; try (injection Ea as <-; apply cover_refl);
        (eapply cover_incl; [| | |refine (stmts_cover [x] x _ _ a a' Na Ea)];
          [apply incl_refl | apply incl_refl | intros ? [] | intros y Y; apply Ud; apply in_flat_map; eexists; split; [exact J | exact Y]]). }
    apply R; [now left | apply Sm; [now left | exact S] |]. apply in_flat_map. exists d. split; [exact I|]. rewrite Df. exact U.
Qed.
