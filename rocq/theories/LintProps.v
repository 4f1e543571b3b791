(** The properties of the linting pipeline (C16-C23, C25, C26, C67, C68), with examples. *)
From Coq Require Import String Ascii List Bool Arith ZArith Permutation Sorted.
From Verif Require Import Base ConfigModel ConfigSpec PathModel PathSpec ConfigFileModel RegexModel LintModel LintSpec LintProofs
  LintPathProofs LintRunProofs TweakSpec TweakProofs LintExamples.
Import ListNotations.
Local Open Scope string_scope.
Local Open Scope list_scope.

(** C16: exactly the overridden problems are dropped, in place, and a second round changes nothing. *)
Theorem C16_overriding_exact : forall problems table,
  picks (fun p => ~ overridden table problems p) problems (apply_overrides problems table) /\
  apply_overrides (apply_overrides problems table) table = apply_overrides problems table.
Proof. exact (fun ps t => conj (overrides_exact ps t) (overrides_idempotent ps t)). Qed.
Print Assumptions C16_overriding_exact.

Example C16_nonvacuous :
  apply_overrides [pylint_problem "a.py" 1 "C0104" "x"; pylint_problem "a.py" 1 "R6609" "y"; pylint_problem "a.py" 2 "C0104" "z"] OVERRIDERS =
  [pylint_problem "a.py" 1 "R6609" "y"; pylint_problem "a.py" 2 "C0104" "z"].
Proof. reflexivity. Qed.

(** C17: with the table in use, a line with a problem keeps one; also after tweaking, if the problem
    was overridden. *)
Theorem C17_line_never_silenced : forall problems p, In p problems ->
  exists q, In q (apply_overrides problems OVERRIDERS) /\ same_line q p.
Proof. exact (overrides_keep_lines OVERRIDERS OVERRIDERS_well_founded). Qed.
Print Assumptions C17_line_never_silenced.

Theorem C17_any_ranked_table : forall table, well_founded_table table -> forall problems p, In p problems ->
  exists q, In q (apply_overrides problems table) /\ same_line q p.
Proof. exact overrides_keep_lines. Qed.
Print Assumptions C17_any_ranked_table.

Theorem C17_overridden_line_reported : forall problems c r p,
  apply_tweaks (apply_overrides problems OVERRIDERS) tweaker_of c = Ok r ->
  In p problems -> ~ In p (apply_overrides problems OVERRIDERS) -> exists q, In q r /\ In q problems /\ same_line q p.
Proof. exact overridden_line_survives. Qed.
Print Assumptions C17_overridden_line_reported.

(** Without the ranking a line can be silenced. *)
Example C17_cyclic_table : apply_overrides [pylint_problem "a.py" 1 "A" "x"; pylint_problem "a.py" 1 "B" "y"] [("A", ["B"]); ("B", ["A"])] = [].
Proof. reflexivity. Qed.
Example C17_nonvacuous : well_founded_table OVERRIDERS /\ ~ In (pylint_problem "a.py" 1 "C0104" "x")
  (apply_overrides [pylint_problem "a.py" 1 "C0104" "x"; pylint_problem "a.py" 1 "R6609" "y"] OVERRIDERS).
Proof. split; [exact OVERRIDERS_well_founded|]. cbn. intros [E|[]]. discriminate. Qed.

(** C18: tweaking drops or rewords in place, touching only codes with a tweaker. *)
Theorem C18_only_thinned : forall tweakers c problems r, apply_tweaks problems tweakers c = Ok r ->
  thinned problems r /\
  filter (fun p => match tweakers (source p) (code p) with None => true | _ => false end) r =
  filter (fun p => match tweakers (source p) (code p) with None => true | _ => false end) problems.
Proof. exact (fun t c ps r H => conj (tweaks_thinned t c ps r H) (tweaks_untouched t c ps r H)). Qed.
Print Assumptions C18_only_thinned.

(** C68: on the linters' own messages tweaking succeeds and decides as documented. *)
Theorem C68_tweaks_exact : forall c problems findings, complete c -> typed c -> Forall2 reports problems findings ->
  exists r, apply_tweaks problems tweaker_of c = Ok r /\ tweaked c problems findings r.
Proof. exact tweak_all. Qed.
Print Assumptions C68_tweaks_exact.

Theorem C68_configs_complete : forall c sets ic, to_immutable c sets = Ok ic -> complete ic.
Proof. exact immutable_complete. Qed.
Print Assumptions C68_configs_complete.

Example C68_nonvacuous : complete tweak_config /\ typed tweak_config /\ Forall2 reports tweak_problems tweak_findings /\
  (exists r, apply_tweaks tweak_problems tweaker_of tweak_config = Ok r /\
     map text r = ["Disallowed single-character variable name " ++ quote ++ "o" ++ quote ++ ", choose a more descriptive name";
                   "'os' imported but unused"; "Use exponentiation instead of repeated muliplication in x * x * x.";
                   "Redefining built-in 'id'"; "comparison to False should be 'if not cond:'"; "other"]%string).
Proof. exact tweak_example. Qed.
(** Attribute access hides the stars after the first full stop. *)
Example C68_dotted : dropped tweak_config (RepeatedOperation "exponentiation" "muliplication" "p.x * p.x * p.x").
Proof. exact dotted_example. Qed.

(** C19: a permutation ordered by position of the argument, path, line and column; ties keep order. *)
Theorem C19_ordered : forall fds problems out, sort fds problems = Ok out ->
  exists pos : string -> Z,
    (forall p, In p problems -> Position fds (path p) (pos (path p))) /\
    Permutation problems out /\ StronglySorted (not_after pos) out /\
    (forall f, (forall p q, f p = true -> f q = true -> tied p q) -> filter f out = filter f problems).
Proof. exact sort_ordered. Qed.
Print Assumptions C19_ordered.

Example C19_nonvacuous :
  sort ["b.py"; "a"] [pylint_problem "a/z.py" 1 "X" "1"; pylint_problem "b.py" 5 "X" "2"; pylint_problem "a/c.py" 9 "X" "3";
                      pylint_problem "b.py" 2 "X" "4"; pylint_problem "Command line" 1 "X" "5"; pylint_problem "b.py" 2 "Y" "6"] =
  Ok [pylint_problem "Command line" 1 "X" "5"; pylint_problem "b.py" 2 "X" "4"; pylint_problem "b.py" 2 "Y" "6";
      pylint_problem "b.py" 5 "X" "2"; pylint_problem "a/c.py" 9 "X" "3"; pylint_problem "a/z.py" 1 "X" "1"].
Proof. reflexivity. Qed.

(** C67: false. A checked file whose path mentions the command line is not ordered as a file. *)
Theorem C67_named_file_refuted : exists fds p q, In (path p) fds /\ In (path q) fds /\
  sort fds [p; q] = Ok [q; p] /\ fds = [path p; path q].
Proof. exact named_file_witness. Qed.
Print Assumptions C67_named_file_refuted.

(** C20: sorting succeeds iff every path is spelled below an argument (or is outside files). *)
Theorem C20_sort_fails_refuted : exists cwd fds raw, isabs cwd = true /\ fds = [f_filename raw] /\
  sort fds [flake8_to_problem cwd [] raw] = Raise AssertionError.
Proof. exact sort_fails_flake8. Qed.
Print Assumptions C20_sort_fails_refuted.

Theorem C20_sort_fails_pylint_refuted : exists cwd fds raw p, isabs cwd = true /\ (forall fd, In fd fds -> no_dots fd) /\
  pylint_to_problem cwd fds [] raw = Ok p /\ place cwd (r_path raw) = place cwd (hd "" fds) /\
  sort fds [p] = Raise AssertionError.
Proof. exact sort_fails_pylint. Qed.
Print Assumptions C20_sort_fails_pylint_refuted.

Theorem C20_exact_partial : forall fds problems, (exists out, sort fds problems = Ok out) <->
  (forall p, In p problems -> outside_files (path p) \/ exists fd, In fd fds /\ covers fd (path p)).
Proof. exact sort_succeeds. Qed.
Print Assumptions C20_exact_partial.

Theorem C20_sort_succeeds_partial : forall cwd fds problems, isabs cwd = true -> place cwd "." <> [] ->
  (forall fd, In fd fds -> no_dots fd /\ start_of fd <> DoubleRoot) ->
  Forall (found_in cwd fds) problems -> exists out, sort fds problems = Ok out.
Proof. exact sort_found. Qed.
Print Assumptions C20_sort_succeeds_partial.

Example C20_nonvacuous : place "/w" "." <> [] /\ no_dots "./sub//x" /\ start_of "./sub//x" <> DoubleRoot /\
  found_in "/w" ["./sub//x"] (flake8_to_problem "/w" [] (flake8_message "./sub//x/a.py" "F401")) /\
  path (flake8_to_problem "/w" [] (flake8_message "./sub//x/a.py" "F401")) = "sub/x/a.py".
Proof. exact found_example. Qed.

(** C21: the reported path leads to the file the linter named. *)
Theorem C21_pylint_path : forall cwd fds enablers raw p, isabs cwd = true ->
  pylint_to_problem cwd fds enablers raw = Ok p -> ~ outside_files (r_path raw) ->
  place cwd (path p) = place cwd (r_path raw).
Proof. exact pylint_path. Qed.
Print Assumptions C21_pylint_path.

Theorem C21_flake8_path : forall cwd enablers raw, isabs cwd = true ->
  place cwd (path (flake8_to_problem cwd enablers raw)) = place cwd (f_filename raw).
Proof. exact flake8_path. Qed.
Print Assumptions C21_flake8_path.

(** A path can be computed for every message about a file below an argument. *)
Theorem C21_pylint_total : forall cwd fds p, isabs cwd = true ->
  (exists fd more, In fd fds /\ rev (place cwd p) = rev (place cwd fd) ++ more) ->
  exists u, used_filename cwd fds p = Ok u.
Proof. exact used_filename_total. Qed.
Print Assumptions C21_pylint_total.

Example C21_nonvacuous : ~ outside_files "/h/x/m.py" /\
  (do p <- pylint_to_problem "/h/me/w" ["../../x"] [] (pylint_message "/h/x/m.py" "C0104" "t"); Ok (path p)) = Ok "../../x/m.py".
Proof. exact pylint_path_example. Qed.

(** C22: a failure of a linter is an error, whatever it printed. *)
Theorem C22_flake8_failure : forall cwd flake8 parse fds c args s, iget c FLAKE8 = Ok (VList args) ->
  flake8_failed (flake8 (flake8_call fds args)) ->
  exists s' e, lint_flake8 cwd flake8 parse fds c s = (s', Raise e) /\
    (~ crashes (flake8 (flake8_call fds args)) -> e = linter_failed).
Proof. exact flake8_failure. Qed.
Print Assumptions C22_flake8_failure.

Theorem C22_pylint_failure : forall cwd pylint parse fds c args s, iget c PYLINT = Ok (VList args) ->
  pylint_failed (pylint (pylint_call fds args)) ->
  exists s' e, lint_pylint cwd pylint parse fds c s = (s', Raise e) /\
    (~ crashes (pylint (pylint_call fds args)) -> e = linter_failed).
Proof. exact pylint_failure. Qed.
Print Assumptions C22_pylint_failure.

(** Otherwise the result is what the output says. *)
Theorem C22_flake8_regular : forall cwd flake8 parse fds c args s, iget c FLAKE8 = Ok (VList args) ->
  ~ flake8_failed (flake8 (flake8_call fds args)) ->
  lint_flake8 cwd flake8 parse fds c s =
    (s, if String.eqb (output_of (flake8 (flake8_call fds args))) "" then Ok []
        else do raws <- parse (output_of (flake8 (flake8_call fds args)));
             Ok (map (flake8_to_problem cwd (ienablers c)) raws)).
Proof. exact flake8_regular. Qed.
Print Assumptions C22_flake8_regular.

Theorem C22_pylint_regular : forall cwd pylint parse fds c args s, isabs cwd = true -> iget c PYLINT = Ok (VList args) ->
  ~ pylint_failed (pylint (pylint_call fds args)) ->
  (output_of (pylint (pylint_call fds args)) = "" -> lint_pylint cwd pylint parse fds c s = (s, Ok [])) /\
  (forall raws, output_of (pylint (pylint_call fds args)) <> "" -> parse (output_of (pylint (pylint_call fds args))) = Ok raws ->
     (forall raw, In raw raws -> outside_files (r_path raw) \/
        exists fd more, In fd fds /\ rev (place cwd (r_path raw)) = rev (place cwd fd) ++ more) ->
     exists ps, lint_pylint cwd pylint parse fds c s = (s, Ok ps) /\
       Forall2 (fun raw p => code p = r_id raw /\ line p = r_line raw /\ column p = r_column raw /\ text p = r_message raw) raws ps).
Proof. exact pylint_regular_ok. Qed.
Print Assumptions C22_pylint_regular.

(** No list of problems comes out of a run in which a linter failed on some group of files. *)
Theorem C22_run_fails : forall cwd flake8 pylint fparse pparse lint_edulint translate exists_ is_dir configs fds cs s,
  (forall fd, In fd fds -> exists_ fd = true) -> configs fds = Ok cs ->
  (exists g c langs, In (g, c, langs) cs /\ group_fails flake8 pylint g c) ->
  (exists s', check_and_print cwd flake8 pylint fparse pparse lint_edulint translate exists_ is_dir configs fds s = (s', Ok ([], 2%Z))) \/
  (exists s' e, check_and_print cwd flake8 pylint fparse pparse lint_edulint translate exists_ is_dir configs fds s = (s', Raise e)).
Proof. exact check_fails. Qed.
Print Assumptions C22_run_fails.

Example C22_nonvacuous :
  group_fails (fun _ => Exited (Code 2) "[]" "") (fun _ => Done "[]" "") ["a.py"] tweak_config /\
  ~ flake8_failed (Exited (Code 1) "[]" "") /\ ~ pylint_failed (Exited (Code 20) "[]" "").
Proof. exact fails_example. Qed.

(** C23: false. The streams stay replaced if a linter raises anything but SystemExit. *)
Theorem C23_streams_refuted : exists cwd flake8 pylint fparse pparse lint_edulint translate cs s,
  fst (lint_many cwd flake8 pylint fparse pparse lint_edulint translate cs s) <> s.
Proof. exact streams_witness. Qed.
Print Assumptions C23_streams_refuted.

Theorem C23_streams_partial : forall cwd flake8 pylint fparse pparse lint_edulint translate cs s,
  (forall args, ~ crashes (flake8 args)) -> (forall args, ~ crashes (pylint args)) ->
  (forall fds c langs, In (fds, c, langs) cs -> exists l, iget c FLAKE8 = Ok (VList l)) ->
  fst (lint_many cwd flake8 pylint fparse pparse lint_edulint translate cs s) = s.
Proof. exact many_streams. Qed.
Print Assumptions C23_streams_partial.

Example C23_nonvacuous : (forall args : list string, ~ crashes ((fun _ => Exited (Code 3) "x" "y") args)) /\
  exists l, iget tweak_config FLAKE8 = Ok (VList l).
Proof. split; [intros _ [e E]; discriminate|eexists; reflexivity]. Qed.

(** C25: false. The check of a file with a problem exits with 0. *)
Theorem C25_status_refuted : exists cwd flake8 fds cs s,
  (exists g c, cs = [(g, c, [])] /\
     snd (lint_flake8 cwd flake8 one_flake8 g c s) = Ok [flake8_to_problem cwd [] (flake8_message "a/../b.py" "E225")]) /\
  exit_status cwd flake8 (fun _ => Done "" "") one_flake8 (fun _ => Ok []) (fun _ _ => Ok []) (fun _ _ t => Ok t)
    (fun _ => true) (fun _ => false) (fun _ => Ok cs) fds s = 0%Z.
Proof. exact status_witness. Qed.
Print Assumptions C25_status_refuted.

Theorem C25_missing_file : forall cwd flake8 pylint fparse pparse lint_edulint translate exists_ is_dir configs fds s,
  (exists fd, In fd fds /\ exists_ fd = false) ->
  exit_status cwd flake8 pylint fparse pparse lint_edulint translate exists_ is_dir configs fds s = 2%Z.
Proof. exact status_missing. Qed.
Print Assumptions C25_missing_file.

Theorem C25_linter_failed_partial : forall cwd flake8 pylint fparse pparse lint_edulint translate exists_ is_dir configs
    fds before g c langs after s s1 ps,
  (forall fd, In fd fds -> exists_ fd = true) -> configs fds = Ok (before ++ (g, c, langs) :: after) ->
  lint_many cwd flake8 pylint fparse pparse lint_edulint translate before s = (s1, Ok ps) ->
  (exists q, lint_edulint g c = Ok q) ->
  (exists args, iget c FLAKE8 = Ok (VList args) /\ iget c NO_FLAKE8 = Ok (VBool false) /\
     flake8_failed (flake8 (flake8_call g args)) /\ ~ crashes (flake8 (flake8_call g args))) ->
  exit_status cwd flake8 pylint fparse pparse lint_edulint translate exists_ is_dir configs fds s = 2%Z.
Proof. exact status_linter_failed. Qed.
Print Assumptions C25_linter_failed_partial.

Theorem C25_completed_partial : forall cwd flake8 pylint fparse pparse lint_edulint translate exists_ is_dir configs fds cs s s' ps,
  (forall fd, In fd fds -> exists_ fd = true) -> configs fds = Ok cs ->
  lint_many cwd flake8 pylint fparse pparse lint_edulint translate cs s = (s', Ok ps) -> (exists out, sort fds ps = Ok out) ->
  (ps = [] -> exit_status cwd flake8 pylint fparse pparse lint_edulint translate exists_ is_dir configs fds s = 0%Z) /\
  (ps <> [] -> exit_status cwd flake8 pylint fparse pparse lint_edulint translate exists_ is_dir configs fds s = 1%Z).
Proof. exact status_done. Qed.
Print Assumptions C25_completed_partial.

Example C25_nonvacuous : forall s,
  lint_many "/w" (fun _ => Done "x" "") (fun _ => Done "" "") one_flake8' (fun _ => Ok []) (fun _ _ => Ok []) (fun _ _ t => Ok t)
    [(["b.py"], tweak_config, [])] s = (s, Ok [flake8_to_problem "/w" [] (flake8_message "b.py" "E225")]) /\
  sort ["b.py"] [flake8_to_problem "/w" [] (flake8_message "b.py" "E225")] = Ok [flake8_to_problem "/w" [] (flake8_message "b.py" "E225")].
Proof. exact completed_example. Qed.

(** C26: the report. *)
Theorem C26_report : forall problems,
  (forall single, entries (report single None problems) = problems) /\
  report true None problems = map Entry problems /\
  (forall a p b, report false None problems = a ++ Entry p :: b ->
     exists n a1 ents, a = a1 ++ Header n :: map Entry ents /\ file_name (path p) n /\
       (forall q, In q ents -> path q = path p)) /\
  (forall a n b, report false None problems = a ++ Header n :: b ->
     exists p b', b = Entry p :: b' /\ file_name (path p) n /\
       (a = [] \/ exists a' q, a = a' ++ [Entry q] /\ path q <> path p)).
Proof. exact report_all. Qed.
Print Assumptions C26_report.

Example C26_nonvacuous :
  report false None [pylint_problem "d/a.py" 1 "X" "1"; pylint_problem "d/a.py" 2 "X" "2"; pylint_problem "e/a.py" 1 "X" "3"] =
  [Header "a.py"; Entry (pylint_problem "d/a.py" 1 "X" "1"); Entry (pylint_problem "d/a.py" 2 "X" "2");
   Header "a.py"; Entry (pylint_problem "e/a.py" 1 "X" "3")].
Proof. reflexivity. Qed.
