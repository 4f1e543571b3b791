(** Lemmas about running the linters and the exit status. *)
From Coq Require Import String Ascii List Bool Arith ZArith Lia.
From Verif Require Import Base ConfigModel PathModel PathSpec PathProofs ConfigFileModel RegexModel LintModel LintSpec LintProofs LintPathProofs.
Import ListNotations.
Local Open Scope string_scope.
Local Open Scope list_scope.

Section Runs.
  Variable cwd : string.
  Variable flake8 pylint : list string -> run.
  Variable flake8_json : string -> res (list flake8_raw).
  Variable pylint_json : string -> res (list pylint_raw).
  Variable lint_edulint : list string -> iconfig -> res (list problem).
  Variable translate_text : translation -> string -> string -> res string.

  Notation do_flake8 := (lint_flake8 cwd flake8 flake8_json).
  Notation do_pylint := (lint_pylint cwd pylint pylint_json).
  Notation do_lint := (lint cwd flake8 pylint flake8_json pylint_json lint_edulint).
  Notation do_many := (lint_many cwd flake8 pylint flake8_json pylint_json lint_edulint translate_text).

  Lemma flake8_failure : forall fds c args s, iget c FLAKE8 = Ok (VList args) ->
    flake8_failed (flake8 (flake8_call fds args)) ->
    exists s' e, do_flake8 fds c s = (s', Raise e) /\ (~ crashes (flake8 (flake8_call fds args)) -> e = linter_failed).
  Proof.
    intros fds c args s A F. unfold lint_flake8. rewrite A. cbn [bind strings].
    change (["--format=json"] ++ args ++ fds) with (flake8_call fds args).
    destruct (flake8 (flake8_call fds args)) as [o e|k o e|e] eqn:R; [contradiction| |].
    - exists s, linter_failed. split; auto. unfold process_results.
      assert (X : failure_code FLAKE8_L k = true).
      { destruct k as [|n|]; auto. cbn [flake8_failed] in F. cbn [failure_code]. destruct F as [F1 F2].
        apply Z.eqb_neq in F1, F2. now rewrite F1, F2. }
      now rewrite X.
    - eexists _, e. split; [reflexivity|]. intros N. exfalso. apply N. now exists e.
  Qed.
  Lemma pylint_failure : forall fds c args s, iget c PYLINT = Ok (VList args) ->
    pylint_failed (pylint (pylint_call fds args)) ->
    exists s' e, do_pylint fds c s = (s', Raise e) /\ (~ crashes (pylint (pylint_call fds args)) -> e = linter_failed).
  Proof.
    intros fds c args s A F. unfold lint_pylint. rewrite A. cbn [bind strings].
    change (["--recursive=y"] ++ args ++ fds) with (pylint_call fds args).
    destruct (pylint (pylint_call fds args)) as [o e|k o e|e] eqn:R; [contradiction| |].
    - exists s, linter_failed. split; auto. cbn [pylint_failed] in F. subst k. reflexivity.
    - eexists _, e. split; [reflexivity|]. intros N. exfalso. apply N. now exists e.
  Qed.

  Lemma mapM_pure : forall A B (f : A -> B) l, mapM (fun a => Ok (f a)) l = Ok (map f l).
  Proof. induction l as [|a l IH]; auto. cbn [mapM bind map]. now rewrite IH. Qed.

  Lemma flake8_regular : forall fds c args s, iget c FLAKE8 = Ok (VList args) ->
    ~ flake8_failed (flake8 (flake8_call fds args)) ->
    do_flake8 fds c s = (s, if String.eqb (output_of (flake8 (flake8_call fds args))) "" then Ok []
                            else do raws <- flake8_json (output_of (flake8 (flake8_call fds args)));
                                 Ok (map (flake8_to_problem cwd (ienablers c)) raws)).
  Proof.
    intros fds c args s A F. unfold lint_flake8. rewrite A. cbn [bind strings].
    change (["--format=json"] ++ args ++ fds) with (flake8_call fds args).
    destruct (flake8 (flake8_call fds args)) as [o e|k o e|e] eqn:R; cbn [output_of].
    - f_equal. unfold process_results. cbn [failure_code Z.eqb orb negb].
      destruct (String.eqb o ""); auto. destruct (flake8_json o); cbn [bind]; auto. apply mapM_pure.
    - f_equal. unfold process_results.
      assert (X : failure_code FLAKE8_L k = false).
      { destruct k as [|n|]; [exfalso; now apply F| |exfalso; now apply F]. cbn [failure_code]. cbn [flake8_failed] in F.
        destruct (Z.eqb_spec n 0), (Z.eqb_spec n 1); auto. exfalso. auto. }
      rewrite X. destruct (String.eqb o ""); auto. destruct (flake8_json o); cbn [bind]; auto. apply mapM_pure.
    - exfalso. now apply F.
  Qed.
  Lemma pylint_regular : forall fds c args s, iget c PYLINT = Ok (VList args) ->
    ~ pylint_failed (pylint (pylint_call fds args)) ->
    do_pylint fds c s = (s, if String.eqb (output_of (pylint (pylint_call fds args))) "" then Ok []
                            else do raws <- pylint_json (output_of (pylint (pylint_call fds args)));
                                 mapM (pylint_to_problem cwd fds (ienablers c)) raws).
  Proof.
    intros fds c args s A F. unfold lint_pylint. rewrite A. cbn [bind strings].
    change (["--recursive=y"] ++ args ++ fds) with (pylint_call fds args).
    destruct (pylint (pylint_call fds args)) as [o e|k o e|e] eqn:R; cbn [output_of]; auto.
    - f_equal. unfold process_results.
      assert (X : failure_code PYLINT_L k = false).
      { destruct k as [|n|]; auto. cbn [failure_code]. cbn [pylint_failed] in F. apply Z.eqb_neq. congruence. }
      now rewrite X.
    - exfalso. now apply F.
  Qed.

  (** Whole groups. *)
  Lemma lint_fails : forall fds c s, group_fails flake8 pylint fds c -> exists s' e, do_lint fds c s = (s', Raise e).
  Proof.
    intros fds c s G. unfold lint, then_, ret.
    destruct (lint_edulint fds c) as [ed|]; [|eauto].
    destruct (iget c NO_FLAKE8) as [no|] eqn:N; [|eauto].
    destruct G as [[args [A [B F]]]|[args [A F]]].
    - rewrite N in B. inversion B; subst. cbn [truth]. destruct (flake8_failure fds c args s A F) as [s' [e [E _]]].
      rewrite E. eauto.
    - destruct (truth no).
      + destruct (pylint_failure fds c args s A F) as [s' [e [E _]]]. rewrite E. eauto.
      + destruct (do_flake8 fds c s) as [s1 [f|e]]; [|eauto].
        destruct (pylint_failure fds c args s1 A F) as [s' [e [E _]]]. rewrite E. eauto.
  Qed.
  Lemma many_fails : forall partition s, (exists fds c langs, In (fds, c, langs) partition /\ group_fails flake8 pylint fds c) ->
    exists s' e, do_many partition s = (s', Raise e).
  Proof.
    induction partition as [|[[fds c] langs] r IH]; intros s [f [k [l [I G]]]]; [contradiction|].
    cbn [lint_many]. unfold then_ at 1. destruct I as [E|I].
    - inversion E; subst. destruct (lint_fails _ _ s G) as [s' [e H]]. rewrite H. eauto.
    - destruct (do_lint fds c s) as [s1 [ps|e]]; [|eauto]. unfold then_ at 1, ret at 1.
      destruct (mapM _ ps) as [h|e]; [|eauto]. unfold then_.
      destruct (IH s1) as [s' [e H]]; [eauto|]. rewrite H. eauto.
  Qed.

  (** Streams. *)
  Lemma flake8_streams : forall fds c s, (forall args, ~ crashes (flake8 args)) -> (exists l, iget c FLAKE8 = Ok (VList l)) ->
    fst (do_flake8 fds c s) = s.
  Proof.
    intros fds c s N [l A]. unfold lint_flake8. rewrite A. cbn [bind strings].
    destruct (flake8 _) as [| |e] eqn:R; auto. exfalso. eapply N. exists e. exact R.
  Qed.
  Lemma pylint_streams : forall fds c s, (forall args, ~ crashes (pylint args)) ->
    fst (do_pylint fds c s) = s.
  Proof.
    intros fds c s N. unfold lint_pylint. destruct (do v <- _; _) as [args|]; auto.
    destruct (pylint _) as [| |e] eqn:R; auto. exfalso. eapply N. exists e. exact R.
  Qed.
  Lemma lint_streams : forall fds c s, (forall args, ~ crashes (flake8 args)) -> (forall args, ~ crashes (pylint args)) ->
    (exists l, iget c FLAKE8 = Ok (VList l)) -> fst (do_lint fds c s) = s.
  Proof.
    intros fds c s NF NP A. unfold lint, then_, ret.
    destruct (lint_edulint fds c); auto. destruct (iget c NO_FLAKE8) as [no|]; auto.
    destruct (truth no).
    - pose proof (pylint_streams fds c s NP) as Y. destruct (do_pylint fds c s) as [s2 [p|e]]; cbn [fst] in Y; subst; auto.
    - pose proof (flake8_streams fds c s NF A) as X. destruct (do_flake8 fds c s) as [s1 [f|e]]; cbn [fst] in X; subst s1; auto.
      pose proof (pylint_streams fds c s NP) as Y. destruct (do_pylint fds c s) as [s2 [p|e]]; cbn [fst] in Y; subst; auto.
  Qed.
  Lemma many_streams : forall partition s, (forall args, ~ crashes (flake8 args)) -> (forall args, ~ crashes (pylint args)) ->
    (forall fds c langs, In (fds, c, langs) partition -> exists l, iget c FLAKE8 = Ok (VList l)) ->
    fst (do_many partition s) = s.
  Proof.
    induction partition as [|[[fds c] langs] r IH]; intros s NF NP A; auto. cbn [lint_many]. unfold then_ at 1.
    pose proof (lint_streams fds c s NF NP (A _ _ _ (or_introl eq_refl))) as X.
    destruct (do_lint fds c s) as [s1 [ps|e]]; cbn [fst] in X; subst; auto. unfold then_ at 1, ret at 1.
    destruct (mapM _ ps) as [h|e]; auto. unfold then_.
    assert (Y : fst (do_many r s) = s) by (apply IH; auto; intros; eapply A; right; eauto).
    destruct (do_many r s) as [s2 [q|e]]; cbn [fst] in *; subst; auto.
  Qed.

  (** The command. *)
  Variable exists_ is_dir : string -> bool.
  Variable configs : list string -> res (list (list string * iconfig * lang_translations)).
  Notation do_check := (check_code cwd flake8 pylint flake8_json pylint_json lint_edulint translate_text exists_ configs).
  Notation do_print := (check_and_print cwd flake8 pylint flake8_json pylint_json lint_edulint translate_text exists_ is_dir configs).
  Notation status := (exit_status cwd flake8 pylint flake8_json pylint_json lint_edulint translate_text exists_ is_dir configs).

  Lemma forallb_false : forall A (f : A -> bool) l, (exists x, In x l /\ f x = false) -> forallb f l = false.
  Proof.
    intros A f l [x [I F]]. destruct (forallb f l) eqn:E; auto. rewrite forallb_forall in E. rewrite (E x I) in F. discriminate.
  Qed.
  Lemma status_missing : forall fds s, (exists fd, In fd fds /\ exists_ fd = false) -> status fds s = 2%Z.
  Proof.
    intros fds s M. unfold exit_status, check_and_print, check_code, then_. rewrite (forallb_false _ _ _ M). reflexivity.
  Qed.
  Lemma status_failed : forall fds cs s s' e, (forall fd, In fd fds -> exists_ fd = true) -> configs fds = Ok cs ->
    do_many cs s = (s', Raise e) -> e = linter_failed \/ e = json_error -> status fds s = 2%Z.
  Proof.
    intros fds cs s s' e M C H E. apply forallb_forall in M.
    unfold exit_status, check_and_print, check_code, then_. rewrite M. cbn [negb]. unfold ret at 1. rewrite C, H.
    assert (X : handled e = true) by (destruct E as [->| ->]; reflexivity). rewrite X. reflexivity.
  Qed.
  Lemma status_done : forall fds cs s s' ps, (forall fd, In fd fds -> exists_ fd = true) -> configs fds = Ok cs ->
    do_many cs s = (s', Ok ps) -> (exists out, sort fds ps = Ok out) ->
    (ps = [] -> status fds s = 0%Z) /\ (ps <> [] -> status fds s = 1%Z).
  Proof.
    intros fds cs s s' ps M C H [out S]. apply forallb_forall in M.
    assert (X : status fds s = match out with [] => 0%Z | _ => 1%Z end).
    { unfold exit_status, check_and_print, check_code, then_. rewrite M. cbn [negb]. unfold ret at 1. rewrite C, H, S. reflexivity. }
    rewrite X. destruct (sort_ordered _ _ _ S) as [_ [_ [P _]]]. split.
    - intros ->. apply Permutation.Permutation_nil in P. subst. reflexivity.
    - intros N. destruct out; [|reflexivity]. apply Permutation.Permutation_sym, Permutation.Permutation_nil in P. contradiction.
  Qed.
  Lemma check_fails : forall fds cs s, (forall fd, In fd fds -> exists_ fd = true) -> configs fds = Ok cs ->
    (exists g c langs, In (g, c, langs) cs /\ group_fails flake8 pylint g c) ->
    (exists s', do_print fds s = (s', Ok ([], 2%Z))) \/ (exists s' e, do_print fds s = (s', Raise e)).
  Proof.
    intros fds cs s M C G. apply forallb_forall in M.
    unfold check_and_print, check_code, then_. rewrite M. cbn [negb]. unfold ret at 1. rewrite C.
    destruct (many_fails cs s G) as [s' [e H]]. unfold ret in *. rewrite H. destruct (handled e); eauto.
  Qed.
  Lemma first_failure : forall before fds c langs after s s1 ps1,
    do_many before s = (s1, Ok ps1) -> (exists q, lint_edulint fds c = Ok q) ->
    (exists args, iget c FLAKE8 = Ok (VList args) /\ iget c NO_FLAKE8 = Ok (VBool false) /\
       flake8_failed (flake8 (flake8_call fds args)) /\ ~ crashes (flake8 (flake8_call fds args))) ->
    exists s', do_many (before ++ (fds, c, langs) :: after) s = (s', Raise linter_failed).
  Proof.
    induction before as [|[[fd c0] l0] r IH]; intros fds c langs after s s1 ps1 H E F.
    - cbn [app lint_many]. unfold then_ at 1. unfold lint, then_, ret.
      destruct E as [q ->].
      destruct F as [args [A [B [F N]]]]. rewrite B. cbn [truth].
      destruct (flake8_failure fds c args s A F) as [s' [e [-> X]]]. rewrite (X N). eauto.
    - cbn [app lint_many] in *. unfold then_ at 1. unfold then_ at 1 in H.
      destruct (do_lint fd c0 s) as [s2 [ps|e]]; [|discriminate]. unfold then_ at 1, ret at 1. unfold then_ at 1, ret at 1 in H.
      destruct (mapM _ ps) as [h|e]; [|discriminate]. unfold then_ in *.
      destruct (do_many r s2) as [s3 [q|e]] eqn:D; [|discriminate].
      destruct (IH fds c langs after s2 s3 q D) as [s' ->]; eauto.
  Qed.
End Runs.
