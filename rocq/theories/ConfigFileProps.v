(** Properties C05-C13, C15, C65, C66, and C01/C02 for the result of [get_config_many]. *)
From Coq Require Import String Ascii List Bool Arith Permutation.
From Verif Require Import Base ConfigModel ConfigSpec PathModel ConfigFileModel ConfigFileSpec
  ConfigFileProofs GroupProofs ManyProofs CompanionProofs ConfigMiscProofs ConfigFileExamples PathSpec PathProofs.
Import ListNotations.
Local Open Scope string_scope.
Local Open Scope list_scope.

(** C01 and C02 for whole runs: every configuration handed to the linters takes each
    replace-option from the strongest layer mentioning it, and its linter arguments from all
    layers in order. The layers are the command line, the comments of one of the covered files, and
    the selected config file with everything it extends. *)
Theorem C01_C02_whole_run : forall cwd isdir load_toml dirs comments fuel fds cmd_args outs,
  get_config_many cwd isdir load_toml
    (fun f => parse_infile_config cwd isdir f (dirs f) (comments f)) fuel fds cmd_args = Ok outs ->
  let cmd := parse_args cmd_args in
  forall paths ic langs, In (paths, ic, langs) outs ->
  exists infile lineage files ss sets,
    (if excludes_infile cmd then infile = [] /\ paths = map fst fds
     else exists f l, InfileLayer cwd isdir f (parse_args (comments f)) infile /\
          paths = map fst l /\ In f (flat_map (fun '(p, n) => py_files p n) l) /\
          In f (flat_map (fun '(p, n) => py_files p n) fds)) /\
    Lineage cwd isdir load_toml (selected cmd infile) lineage /\
    Forall2 (fun pd l => FileOptions cwd isdir (fst pd) (snd pd) l) lineage files /\
    Forall2 (fun pd s => OwnSets (snd pd) s) lineage ss /\
    (forall name, dget name sets = last_def name ss) /\
    let layers := layers_in_force cmd infile files in
    (forall o, accumulates o = false -> exists v, iget ic o = Ok v /\
       match strongest o layers with Some t => Means o t v | None => v = documented_default o end) /\
    let l := in_effect (concat (rev layers)) in
    iget ic FLAKE8 = Ok (VList (flat_map (supplies FLAKE8 sets) l)) /\
    iget ic PYLINT = Ok (VList (resolve_enable_disable_all (flat_map (supplies PYLINT sets) l))).
Proof. exact end_to_end. Qed.
Print Assumptions C01_C02_whole_run.

Example C01_C02_whole_run_nonvacuous :
  exists outs, ex_many ["pylint=--enable=z"] = Ok outs /\
  map (fun o => fst (fst o)) outs = [["/w/a.py"; "/w/d"]; ["/w/b.py"]] /\
  map (fun o => iget (snd (fst o)) PYLINT) outs =
    [Ok (VList ["--disable=all"; "--enable=x"; "--enable=y"; "--enable=z"]);
     Ok (VList ["--disable=all"; "--enable=x"; "--enable=z"])].
Proof. eexists. repeat split. Qed.

(** C05: false in general. Files whose in-file comments differ only in the order of a group and a
    linter option share one configuration; so do a file that resets an option and a file that does
    not mention it. *)
Theorem C05_companions_refuted :
  exists cwd isdir load_toml infile fuel cmd a b,
    (exists outs ic0 ic langs0 langs,
       get_config_many cwd isdir load_toml infile fuel [(a, File); (b, File)] cmd = Ok outs /\
       In ([a; b], ic0, langs0) outs /\
       get_config_many cwd isdir load_toml infile fuel [(b, File)] cmd = Ok [([b], ic, langs)] /\
       iget ic0 PYLINT <> iget ic PYLINT).
Proof. exact C05_order_witness. Qed.
Print Assumptions C05_companions_refuted.

Theorem C05_reset_refuted :
  exists cwd isdir load_toml infile fuel cmd a b,
    (exists outs ic0 ic langs0 langs,
       get_config_many cwd isdir load_toml infile fuel [(a, File); (b, File)] cmd = Ok outs /\
       In ([a; b], ic0, langs0) outs /\
       get_config_many cwd isdir load_toml infile fuel [(b, File)] cmd = Ok [([b], ic, langs)] /\
       iget ic0 DISALLOWED_BUILTIN_NAMES <> iget ic DISALLOWED_BUILTIN_NAMES).
Proof. exact C05_reset_witness. Qed.
Print Assumptions C05_reset_refuted.

(** C05 for in-file comments that set no group and no option to its default value (and message
    switches pylint knows): the configuration of each file has the effect of the one it gets alone.
    [nodes] are the covered files and directories of each group. *)
Theorem C05_companions_partial : forall cwd isdir load_toml dirs comments fuel fds cmd_args outs,
  plain_files cwd isdir load_toml -> plain_opts (parse_args cmd_args) ->
  (forall f li, In f (flat_map (fun '(p, n) => py_files p n) fds) ->
     InfileLayer cwd isdir f (parse_args (comments f)) li -> ordinary li /\ plain_opts li) ->
  let many := get_config_many cwd isdir load_toml
                (fun f => parse_infile_config cwd isdir f (dirs f) (comments f)) fuel in
  many fds cmd_args = Ok outs ->
  exists nodes, Forall2 (fun '(paths, ic, _) l => paths = map fst l /\
      forall f solo paths1 ic1 langs1, In f (flat_map (fun '(p, n) => py_files p n) l) ->
        many [(f, File)] cmd_args = Ok solo -> In (paths1, ic1, langs1) solo -> agree ic ic1) outs nodes /\
    ((forall p, parse_config_file cwd isdir load_toml fuel p <> Ok None) ->
     Permutation (flat_map (flat_map (fun '(p, n) => py_files p n)) nodes)
                 (flat_map (fun '(p, n) => py_files p n) fds)).
Proof. exact C05_lemma. Qed.
Print Assumptions C05_companions_partial.

Example C05_nonvacuous : plain_files "/w" no_dirs ex_load /\ plain_opts (parse_args ["pylint=--enable=z"]) /\
  (forall f li, In f (flat_map (fun '(p, n) => py_files p n) ex_fds) ->
     InfileLayer "/w" no_dirs f (parse_args (ex_comments f)) li -> ordinary li /\ plain_opts li) /\
  exists solo, get_config_many "/w" no_dirs ex_load (ex_infile ex_comments) 9 [("/w/a.py", File)] ["pylint=--enable=z"] = Ok [solo].
Proof. exact C05_example. Qed.

(** C06: every Python file below the arguments is covered exactly once, by a group in which all
    files have the same in-file configuration; only a config file that cannot be loaded (C66) makes
    a group disappear. *)
Theorem C06_covered_once : forall cwd isdir load_toml dirs comments fuel fds cmd_args outs,
  get_config_many cwd isdir load_toml
    (fun f => parse_infile_config cwd isdir f (dirs f) (comments f)) fuel fds cmd_args = Ok outs ->
  exists nodes, Forall2 (fun '(paths, _, _) l => paths = map fst l /\
      (forall p n, In (p, n) l -> exists a b, In (a, b) fds /\ below a b p n) /\
      (excludes_infile (parse_args cmd_args) = false ->
       exists k, forall f, In f (flat_map (fun '(p, n) => py_files p n) l) ->
         exists c k', parse_infile_config cwd isdir f (dirs f) (comments f) = Ok c /\
           to_immutable c [] = Ok k' /\ same_iconfig k' k)) outs nodes /\
    ((forall p, parse_config_file cwd isdir load_toml fuel p <> Ok None) ->
     Permutation (flat_map (flat_map (fun '(p, n) => py_files p n)) nodes)
                 (flat_map (fun '(p, n) => py_files p n) fds)).
Proof. exact C06_many_lemma. Qed.
Print Assumptions C06_covered_once.

(** C06: the grouping itself, for any in-file configurations: the key of a group is the key of
    every file in it and its configuration is the one of one of them. *)
Theorem C06_grouping : forall infile args g, aggregate_args infile args [] = Ok g ->
  exists t : list (iconfig * (config * list (string * node))),
    g = map (fun '(k, (c, l)) => (k, (c, map fst l))) t /\
    Permutation (flat_map (fun '(_, (_, l)) => flat_map (fun '(p, n) => py_files p n) l) t)
                (flat_map (fun '(p, n) => py_files p n) args) /\
    forall k c l, In (k, (c, l)) t ->
      (forall p n, In (p, n) l -> exists a b, In (a, b) args /\ below a b p n) /\
      (forall f, In f (flat_map (fun '(p, n) => py_files p n) l) ->
         exists c' k', infile f = Ok c' /\ to_immutable c' [] = Ok k' /\ same_iconfig k' k) /\
      (exists f k', In f (flat_map (fun '(p, n) => py_files p n) l) /\ infile f = Ok c /\
         to_immutable c [] = Ok k' /\ same_iconfig k' k).
Proof. exact C06_lemma. Qed.
Print Assumptions C06_grouping.

Example C06_nonvacuous :
  exists g, aggregate_args (ex_infile ex_comments) ex_fds [] = Ok g /\
  map (fun x => snd (snd x)) g = [["/w/a.py"; "/w/d"]; ["/w/b.py"]] /\
  flat_map (fun '(p, n) => py_files p n) ex_fds = ["/w/a.py"; "/w/b.py"; "/w/d/c.PY"; "/w/d/e/f.py"].
Proof. eexists. repeat split. Qed.

(** C07: false. A language file used by a group with another config file carries that group's
    translations over. *)
Theorem C07_leak_refuted :
  exists cwd isdir load_toml infile fuel cmd a b,
    exists oa ob ob', get_config_many cwd isdir load_toml infile fuel [(a, File); (b, File)] cmd = Ok [oa; ob] /\
      get_config_many cwd isdir load_toml infile fuel [(b, File)] cmd = Ok [ob'] /\
      fst (fst ob) = [b] /\ fst ob = fst ob' /\ exists id, dget id (snd ob) <> dget id (snd ob').
Proof. exact C07_witness. Qed.
Print Assumptions C07_leak_refuted.

(** C07 when the command line names the config file: each group's outcome is the one of a run of the
    main loop with that group only. *)
Theorem C07_command_line_config_partial : forall cwd isdir load_toml fuel cmd p cf sets fl g outs,
  parse_config_file cwd isdir load_toml fuel p = Ok (Some (cf, sets, fl)) ->
  main_loop cwd isdir load_toml fuel cmd (Some p) [] g = Ok outs ->
  Forall2 (fun cps o => exists langs0 m0,
      one_group cwd isdir load_toml fuel cmd (Some p) [] (fst cps) (snd cps)
        = Ok (Some (fst (fst o), snd (fst o), langs0), m0) /\
      forall id, dget id (snd o) = dget id langs0) g outs.
Proof. exact C07_cmd_lemma. Qed.
Print Assumptions C07_command_line_config_partial.

(** C07: the options never depend on the other groups. *)
Theorem C07_options_partial : forall cwd isdir load_toml fuel cmd cp memo c ps paths ic langs memo',
  one_group cwd isdir load_toml fuel cmd cp memo c ps = Ok (Some (paths, ic, langs), memo') ->
  exists langs0 m0, one_group cwd isdir load_toml fuel cmd cp [] c ps = Ok (Some (paths, ic, langs0), m0).
Proof. exact one_group_memo. Qed.
Print Assumptions C07_options_partial.

Example C07_nonvacuous : exists outs,
  get_config_many "/w" no_dirs leak_load (ex_infile leak_comments) 9 [("/w/a.py", File); ("/w/b.py", File)]
    ["config-file=/w/1.toml"] = Ok outs /\ List.length outs = 2 /\
  exists r, parse_config_file "/w" no_dirs leak_load 9 "/w/1.toml" = Ok (Some r).
Proof. eexists. repeat split. eexists. reflexivity. Qed.

(** C08: a loaded config file carries the options of all files it extends, weakest first, followed
    by its own; option sets and translations of a name come from the last file defining it. *)
Theorem C08_inheritance_prepends : forall cwd isdir load fuel path c sets langs,
  parse_config_file cwd isdir load fuel path = Ok (Some (c, sets, langs)) ->
  exists lineage files ss ts, Lineage cwd isdir load path lineage /\
    Forall2 (fun pd l => FileOptions cwd isdir (fst pd) (snd pd) l) lineage files /\
    Forall2 (fun pd s => OwnSets (snd pd) s) lineage ss /\
    Forall2 (fun pd t => OwnLangs (snd pd) t) lineage ts /\
    somes (args_of c) = convert_args (in_effect (concat files)) /\
    (forall name, dget name sets = last_def name ss) /\
    (forall id, dget id langs = last_def id ts).
Proof. exact C08_lemma. Qed.
Print Assumptions C08_inheritance_prepends.

Example C08_nonvacuous : exists c sets langs,
  parse_config_file "/w" no_dirs ex_load 9 "/w/conf/mine.toml" = Ok (Some (c, sets, langs)) /\
  somes (args_of c) = convert_args [(PYLINT, Some "--disable=all"); (SET_GROUPS, Some "g"); (PYLINT, Some "--max=3")] /\
  dget "g" sets = Some [(PYLINT_L, ["--enable=q"])].
Proof. eexists. eexists. eexists. repeat split. Qed.

(** C09: false. A config file naming itself exhausts any recursion limit. *)
Theorem C09_termination_refuted :
  exists cwd isdir load_toml path, forall limit,
    parse_config_file cwd isdir load_toml limit path = Raise RecursionError.
Proof. exact C09_witness. Qed.
Print Assumptions C09_termination_refuted.

(** C09 when the references come to an end within the recursion limit. *)
Theorem C09_acyclic_partial : forall cwd isdir load_toml path n, depth cwd isdir load_toml path n ->
  forall limit, n < limit -> parse_config_file cwd isdir load_toml limit path <> Raise RecursionError.
Proof. exact C09_lemma. Qed.
Print Assumptions C09_acyclic_partial.

Example C09_nonvacuous : depth "/w" no_dirs ex_load "/w/conf/mine.toml" 2.
Proof. exact C09_example. Qed.

(** C10: in a config file, a list of strings and the comma separated string are the same option. *)
Theorem C10_entry : forall cwd isdir path name l o,
  documented_name o name -> o <> CONFIG_FILE -> o <> LANGUAGE_FILE ->
  entry_args cwd isdir path (name, TList (map TStr l)) = entry_args cwd isdir path (name, TStr (join "," l)).
Proof. exact C10_entry_lemma. Qed.
Print Assumptions C10_entry.

(** C10: also inside a table of linter options or an option set. *)
Theorem C10_table : forall key l,
  config_file_pair_to_str (key, TList (map TStr l)) = config_file_pair_to_str (key, TStr (join "," l)).
Proof. exact C10_table_lemma. Qed.
Print Assumptions C10_table.

(** C10: the parsed list option consists of exactly the listed elements. *)
Theorem C10_parsed : forall o l v,
  In o [DISALLOWED_BUILTIN_NAMES; IGNORE_INFILE_CONFIG_FOR; EXPORT_GROUPS; SET_GROUPS] ->
  Forall (fun s => s <> ""%string /\ has_char "," s = false) l ->
  (Means o (Some (join "," l)) v <-> v = VList l).
Proof. exact C10_parsed_lemma. Qed.
Print Assumptions C10_parsed.

Example C10_nonvacuous :
  entry_args "/w" no_dirs "/w/x.toml" ("Set-Groups", TList [TStr "a"; TStr "b"]) = Ok [(SET_GROUPS, Some "a,b")].
Proof. reflexivity. Qed.

(** C11: false for no-flake8, whatever the value; true for every other option. *)
Theorem C11_no_flake8_refuted : exists o, (exists arg, parse_args [arg] = [(o, None)]) /\
  forall cwd isdir path d l, FileOptions cwd isdir path d l -> last_in o l = None.
Proof. exact C11_witness. Qed.
Print Assumptions C11_no_flake8_refuted.
Theorem C11_settable_partial : forall cwd isdir path o t,
  o <> NO_FLAKE8 -> o <> CONFIG_FILE -> o <> LANGUAGE_FILE ->
  entry_args cwd isdir path (to_name o, TStr t) = Ok [(o, Some t)].
Proof. exact C11_settable_lemma. Qed.
Print Assumptions C11_settable_partial.

(** C12: false; no layout of directories makes the implicit file be found. *)
Theorem C12_implicit_refuted : exists dirs, In "edulint.toml" (snd (hd ("", []) dirs)) /\
  forall extracted cwd isdir path, parse_infile_config cwd isdir path dirs extracted =
    parse_infile_config cwd isdir path [] extracted.
Proof. exact C12_witness. Qed.
Print Assumptions C12_implicit_refuted.
Theorem C12_never_found : forall dirs, search_for_config_in_parents dirs = None.
Proof. exact search_none. Qed.
Print Assumptions C12_never_found.

(** C13: with the exclusion on the command line, in-file configuration has no influence. *)
Theorem C13_exclusion_total : forall cwd isdir load_toml infile infile' fuel fds cmd_args,
  excludes_infile (parse_args cmd_args) = true ->
  get_config_many cwd isdir load_toml infile fuel fds cmd_args =
  get_config_many cwd isdir load_toml infile' fuel fds cmd_args.
Proof. exact C13_lemma. Qed.
Print Assumptions C13_exclusion_total.

Example C13_nonvacuous : excludes_infile (parse_args ["ignore-infile-config-for=pylint,edulint"]) = true /\
  exists outs, ex_many ["ignore-infile-config-for=pylint,edulint"] = Ok outs /\
    map (fun o => fst (fst o)) outs = [["/w/a.py"; "/w/b.py"; "/w/d"]].
Proof. split; [reflexivity|]. eexists. repeat split. Qed.

(** C15: resolved config paths are packaged names, URLs or absolute, and stay what they are. *)
Theorem C15_resolution_stable : forall cwd isdir p parent q, isabs cwd = true ->
  get_path_relative_to cwd isdir p parent = Ok q ->
  (get_config_type q = PACKAGED \/ get_config_type q = REMOTE \/ isabs q = true) /\
  forall cwd' isdir' parent', get_path_relative_to cwd' isdir' q parent' = Ok q.
Proof. exact C15_lemma. Qed.
Print Assumptions C15_resolution_stable.

Example C15_nonvacuous : isabs "/w" = true /\
  get_path_relative_to "/w" no_dirs "../conf/./x.toml" "sub/a.py" = Ok "/w/conf/x.toml".
Proof. split; reflexivity. Qed.

(** C15: names of packaged configurations, URLs and absolute paths are left alone; any other path
    denotes the place reached from the directory of the file mentioning it. *)
Theorem C15_meaning : forall cwd isdir p parent d q, isabs cwd = true -> directory_part parent d ->
  get_path_relative_to cwd isdir p parent = Ok q ->
  ((url p \/ packaged_name p \/ isabs p = true) -> q = p) /\
  (~ url p -> ~ packaged_name p -> isabs p = false -> isabs q = true /\ place cwd q = walk (place cwd d) p).
Proof. exact C15_meaning_lemma. Qed.
Print Assumptions C15_meaning.

Example C15_meaning_nonvacuous : directory_part "sub/a.py" "sub/" /\
  get_path_relative_to "/w" no_dirs "https://x.org/c.toml" "sub/a.py" = Ok "https://x.org/c.toml" /\
  walk (place "/w" "sub/") "../conf/./x.toml" = ["x.toml"; "conf"; "w"].
Proof.
  split; [|split; reflexivity]. exists "a.py". split; [reflexivity|]. split; [reflexivity|].
  right. now exists "sub".
Qed.

(** C65: false. A config file that excludes in-file configuration loses its own settings unless the
    command line selected it. *)
Theorem C65_excluding_file_refuted :
  exists cwd isdir load_toml infile fuel f ic langs,
    get_config_many cwd isdir load_toml infile fuel [(f, File)] [] = Ok [([f], ic, langs)] /\
    (exists c sets langs', parse_config_file cwd isdir load_toml fuel "default" = Ok (Some (c, sets, langs')) /\
       In (Some (PYLINT, VList ["--enable=x"])) (args_of c)) /\
    iget ic PYLINT = Ok (VList []).
Proof. exact C65_witness. Qed.
Print Assumptions C65_excluding_file_refuted.

(** C66: false. Files whose config file cannot be loaded are silently not checked. *)
Theorem C66_unloadable_refuted :
  exists cwd isdir load_toml infile fuel f,
    python_name (basename f) = true /\
    get_config_many cwd isdir load_toml infile fuel [(f, File)] ["config-file=missing"] = Ok [].
Proof. exact C66_witness. Qed.
Print Assumptions C66_unloadable_refuted.
