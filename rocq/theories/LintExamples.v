(** Concrete problems, runs and counterexamples for LintProps. *)
From Coq Require Import String Ascii List Bool Arith ZArith Permutation.
From Verif Require Import Base ConfigModel ConfigSpec PathModel PathSpec PathProofs ConfigFileModel RegexModel LintModel LintSpec LintProofs
  LintPathProofs LintRunProofs TweakSpec TweakProofs.
Import ListNotations.
Local Open Scope string_scope.
Local Open Scope list_scope.

Definition pylint_problem (pa : string) (li : Z) (c t : string) : problem :=
  {| source := PYLINT_L; enabled_by := None; path := pa; line := li; column := 0; code := c; text := t;
     end_line := None; end_column := None; symbol := None |}.
Definition flake8_problem (pa : string) (li : Z) (c t : string) : problem :=
  {| source := FLAKE8_L; enabled_by := None; path := pa; line := li; column := 0; code := c; text := t;
     end_line := None; end_column := None; symbol := None |}.
Definition flake8_message (f c : string) : flake8_raw :=
  {| f_filename := f; f_line := 1; f_column := 2; f_code := c; f_text := "t" |}.
Definition pylint_message (f c t : string) : pylint_raw :=
  {| r_path := f; r_line := 1; r_column := 2; r_id := c; r_message := t; r_end_line := None; r_end_column := None; r_symbol := "s" |}.

Definition tweak_config : iconfig :=
  {| ivals := map (fun o => (o, match o with
                                | ALLOWED_ONECHAR_NAMES => VOptStr (Some "ijk")
                                | DISALLOWED_BUILTIN_NAMES => VList ["id"]
                                | _ => default (parse_of o)
                                end)) all_options;
     ienablers := [] |}.
Definition tweak_findings : list finding :=
  [DisallowedName "i"; DisallowedName "o"; UnusedImport "ib111"; UnusedImport "os";
   RepeatedOperation "exponentiation" "muliplication" "x * x";
   RepeatedOperation "exponentiation" "muliplication" "x * x * x"; SuperfluousParens "not";
   RedefinedBuiltin "input"; RedefinedBuiltin "id"; BoolComparison false true; Plain].
Definition of_finding (f : finding) : problem :=
  match template f with
  | Some (PYLINT_L, c, t) => pylint_problem "a.py" 1 c t
  | Some (_, c, t) => flake8_problem "a.py" 1 c t
  | None => pylint_problem "a.py" 1 "C0116" "other"
  end.
Definition tweak_problems : list problem := map of_finding tweak_findings.

Lemma free_of : forall c s, has_char c s = false -> lacks c s.
Proof.
  intros c s H. destruct (has_char c s) eqn:E; [discriminate|]. intros X.
  assert (~ lacks c s) by (intros L; auto). apply has_char_iff in H0. congruence.
Qed.
Lemma tweak_example : complete tweak_config /\ typed tweak_config /\ Forall2 reports tweak_problems tweak_findings /\
  (exists r, apply_tweaks tweak_problems tweaker_of tweak_config = Ok r /\
     map text r = ["Disallowed single-character variable name " ++ quote ++ "o" ++ quote ++ ", choose a more descriptive name";
                   "'os' imported but unused"; "Use exponentiation instead of repeated muliplication in x * x * x.";
                   "Redefining built-in 'id'"; "comparison to False should be 'if not cond:'"; "other"]%string).
Proof.
  split; [reflexivity|]. split; [repeat split; eexists; reflexivity|]. split.
  - unfold tweak_problems, tweak_findings. cbn [map].
    repeat (constructor; [unfold reports; cbn; unfold quotable; repeat split; auto using free_of|]); [|constructor].
    unfold adjusted. cbn [In]. intros H. repeat (destruct H as [H|H]; [discriminate|]). exact H.
  - eexists. split; [vm_compute; reflexivity|reflexivity].
Qed.
Lemma dotted_example : dropped tweak_config (RepeatedOperation "exponentiation" "muliplication" "p.x * p.x * p.x").
Proof.
  split; [reflexivity|]. exists "p"%string, "x * p.x * p.x."%string. split; [reflexivity|]. split; [now apply free_of|].
  rewrite <- two_stars. cbn. intros H. inversion H.
Qed.

Lemma named_file_witness : exists fds p q, In (path p) fds /\ In (path q) fds /\
  sort fds [p; q] = Ok [q; p] /\ fds = [path p; path q].
Proof.
  exists ["a.py"; "command line/b.py"], (pylint_problem "a.py" 1 "X" "1"), (pylint_problem "command line/b.py" 1 "X" "2").
  cbn. auto.
Qed.
Lemma sort_fails_flake8 : exists cwd fds raw, isabs cwd = true /\ fds = [f_filename raw] /\
  sort fds [flake8_to_problem cwd [] raw] = Raise AssertionError.
Proof. exists "/w", ["a/../b.py"], (flake8_message "a/../b.py" "E225"). auto. Qed.
Lemma sort_fails_pylint : exists cwd fds raw p, isabs cwd = true /\ (forall fd, In fd fds -> no_dots fd) /\
  pylint_to_problem cwd fds [] raw = Ok p /\ place cwd (r_path raw) = place cwd (hd "" fds) /\
  sort fds [p] = Raise AssertionError.
Proof.
  exists "/", ["a.py"], (pylint_message "/a.py" "C0104" "t"). eexists. split; [reflexivity|]. split.
  - intros fd [<-|[]]. unfold no_dots. cbn. intros [X|[]]. discriminate.
  - split; [vm_compute; reflexivity|]. split; reflexivity.
Qed.
Lemma found_example : place "/w" "." <> [] /\ no_dots "./sub//x" /\ start_of "./sub//x" <> DoubleRoot /\
  found_in "/w" ["./sub//x"] (flake8_to_problem "/w" [] (flake8_message "./sub//x/a.py" "F401")) /\
  path (flake8_to_problem "/w" [] (flake8_message "./sub//x/a.py" "F401")) = "sub/x/a.py".
Proof.
  split; [discriminate|]. split; [|split; [discriminate|split; [|reflexivity]]].
  - unfold no_dots. cbn. intros H. repeat (destruct H as [H|H]; [discriminate|]). exact H.
  - apply (found_flake8 _ _ _ _ "./sub//x"); [now left| |].
    + split; [reflexivity|]. exists ["a.py"]. reflexivity.
    + unfold no_dots. cbn. intros H. repeat (destruct H as [H|H]; [discriminate|]). exact H.
Qed.
Lemma pylint_path_example : ~ outside_files "/h/x/m.py" /\
  (do p <- pylint_to_problem "/h/me/w" ["../../x"] [] (pylint_message "/h/x/m.py" "C0104" "t"); Ok (path p)) = Ok "../../x/m.py".
Proof. split; [|reflexivity]. rewrite <- outside_iff. vm_compute. discriminate. Qed.
Lemma fails_example :
  group_fails (fun _ => Exited (Code 2) "[]" "") (fun _ => Done "[]" "") ["a.py"] tweak_config /\
  ~ flake8_failed (Exited (Code 1) "[]" "") /\ ~ pylint_failed (Exited (Code 20) "[]" "").
Proof.
  split; [|split].
  - left. exists []. cbn. repeat split; discriminate.
  - cbn. intros [_ H]. congruence.
  - cbn. discriminate.
Qed.
Lemma streams_witness : exists cwd flake8 pylint fparse pparse lint_edulint translate cs s,
  fst (lint_many cwd flake8 pylint fparse pparse lint_edulint translate cs s) <> s.
Proof.
  exists "/w", (fun _ => Crashed ValueError), (fun _ => Done "" ""), (fun _ => Ok []), (fun _ => Ok []), (fun _ _ => Ok []),
    (fun _ _ t => Ok t), [(["a.py"], tweak_config, [])], {| out_stream := Given 1; err_stream := Given 2 |}.
  vm_compute. discriminate.
Qed.

Definition one_flake8 (s : string) : res (list flake8_raw) := Ok [flake8_message "a/../b.py" "E225"].
Definition one_flake8' (s : string) : res (list flake8_raw) := Ok [flake8_message "b.py" "E225"].
Lemma status_witness : exists cwd flake8 fds cs s,
  (exists g c, cs = [(g, c, [])] /\
     snd (lint_flake8 cwd flake8 one_flake8 g c s) = Ok [flake8_to_problem cwd [] (flake8_message "a/../b.py" "E225")]) /\
  exit_status cwd flake8 (fun _ => Done "" "") one_flake8 (fun _ => Ok []) (fun _ _ => Ok []) (fun _ _ t => Ok t)
    (fun _ => true) (fun _ => false) (fun _ => Ok cs) fds s = 0%Z.
Proof.
  exists "/w", (fun _ => Done "x" ""), ["a/../b.py"], [(["a/../b.py"], tweak_config, [])], {| out_stream := Given 1; err_stream := Given 2 |}.
  split; [|reflexivity]. exists ["a/../b.py"], tweak_config. split; reflexivity.
Qed.
Lemma completed_example : forall s,
  lint_many "/w" (fun _ => Done "x" "") (fun _ => Done "" "") one_flake8' (fun _ => Ok []) (fun _ _ => Ok []) (fun _ _ t => Ok t)
    [(["b.py"], tweak_config, [])] s = (s, Ok [flake8_to_problem "/w" [] (flake8_message "b.py" "E225")]) /\
  sort ["b.py"] [flake8_to_problem "/w" [] (flake8_message "b.py" "E225")] = Ok [flake8_to_problem "/w" [] (flake8_message "b.py" "E225")].
Proof. intros s. split; reflexivity. Qed.

(** Combinations stated in LintProps. *)
Lemma report_all : forall problems,
  (forall single, entries (report single None problems) = problems) /\
  report true None problems = map Entry problems /\
  (forall a p b, report false None problems = a ++ Entry p :: b ->
     exists n a1 ents, a = a1 ++ Header n :: map Entry ents /\ file_name (path p) n /\
       (forall q, In q ents -> path q = path p)) /\
  (forall a n b, report false None problems = a ++ Header n :: b ->
     exists p b', b = Entry p :: b' /\ file_name (path p) n /\
       (a = [] \/ exists a' q, a = a' ++ [Entry q] /\ path q <> path p)).
Proof.
  intros ps. split; [intros; apply report_entries|]. split; [apply report_single|]. exact (report_shape ps).
Qed.
Lemma status_linter_failed : forall cwd flake8 pylint fparse pparse lint_edulint translate exists_ is_dir configs
    fds before g c langs after s s1 ps,
  (forall fd, In fd fds -> exists_ fd = true) -> configs fds = Ok (before ++ (g, c, langs) :: after) ->
  lint_many cwd flake8 pylint fparse pparse lint_edulint translate before s = (s1, Ok ps) ->
  (exists q, lint_edulint g c = Ok q) ->
  (exists args, iget c FLAKE8 = Ok (VList args) /\ iget c NO_FLAKE8 = Ok (VBool false) /\
     flake8_failed (flake8 (flake8_call g args)) /\ ~ crashes (flake8 (flake8_call g args))) ->
  exit_status cwd flake8 pylint fparse pparse lint_edulint translate exists_ is_dir configs fds s = 2%Z.
Proof.
  intros. edestruct first_failure as [s' F]; eauto. eapply status_failed; eauto.
Qed.
Lemma pylint_regular_ok : forall cwd pylint parse fds c args s, isabs cwd = true -> iget c PYLINT = Ok (VList args) ->
  ~ pylint_failed (pylint (pylint_call fds args)) ->
  (output_of (pylint (pylint_call fds args)) = "" -> lint_pylint cwd pylint parse fds c s = (s, Ok [])) /\
  (forall raws, output_of (pylint (pylint_call fds args)) <> "" -> parse (output_of (pylint (pylint_call fds args))) = Ok raws ->
     (forall raw, In raw raws -> outside_files (r_path raw) \/
        exists fd more, In fd fds /\ rev (place cwd (r_path raw)) = rev (place cwd fd) ++ more) ->
     exists ps, lint_pylint cwd pylint parse fds c s = (s, Ok ps) /\
       Forall2 (fun raw p => code p = r_id raw /\ line p = r_line raw /\ column p = r_column raw /\ text p = r_message raw) raws ps).
Proof.
  intros cwd pylint parse fds c args s A G F. rewrite (pylint_regular _ _ _ _ _ _ _ G F). split.
  - intros ->. reflexivity.
  - intros raws N P U. apply String.eqb_neq in N. rewrite N, P. cbn [bind].
    assert (X : exists ps, mapM (pylint_to_problem cwd fds (ienablers c)) raws = Ok ps /\
      Forall2 (fun raw p => code p = r_id raw /\ line p = r_line raw /\ column p = r_column raw /\ text p = r_message raw) raws ps).
    { clear P. induction raws as [|raw raws IH]; [exists []; split; auto; constructor|].
      destruct IH as [ps [E Q]]; [intros; apply U; now right|].
      assert (Y : exists p, pylint_to_problem cwd fds (ienablers c) raw = Ok p /\
        code p = r_id raw /\ line p = r_line raw /\ column p = r_column raw /\ text p = r_message raw).
      { unfold pylint_to_problem, get_used_filename.
        destruct (is_pylint_out_of_file_problem (r_path raw)) eqn:O; cbn [bind].
        - eexists. split; [reflexivity|]. cbn. auto.
        - destruct (U raw (or_introl eq_refl)) as [X|X]; [apply outside_iff in X; congruence|].
          destruct (used_filename_total cwd fds (r_path raw) A X) as [u ->]. cbn [bind]. eexists. split; [reflexivity|]. cbn. auto. }
      destruct Y as [p [Y Z]]. exists (p :: ps). cbn [mapM]. rewrite Y. cbn [bind]. rewrite E. cbn [bind]. split; auto. }
    destruct X as [ps [-> Q]]. eauto.
Qed.
