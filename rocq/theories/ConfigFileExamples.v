(** Concrete worlds used as witnesses and non-vacuity examples. *)
From Coq Require Import String Ascii List Bool Arith Permutation.
From Verif Require Import Base ConfigModel ConfigSpec ConfigProofs PathModel ConfigFileModel ConfigFileSpec
  ConfigFileProofs GroupProofs ManyProofs CompanionProofs ConfigMiscProofs.
Import ListNotations.
Local Open Scope string_scope.
Local Open Scope list_scope.

Definition no_dirs (p : string) : bool := false.
Definition table (t : list (string * list (string * toml))) (p : string) : option (list (string * toml)) := dget p t.
Definition ex_infile (comments : string -> list string) (f : string) : res config :=
  parse_infile_config "/w" no_dirs f [] (comments f).

Definition ex_load := table
  [("empty", []);
   ("default", [("pylint", TTable [("disable", TStr "all"); ("enable", TList [TStr "x"])])]);
   ("/w/conf/base.toml", [("pylint", TStr "--disable=all"); ("set-groups", TStr "old");
      ("translations", TTable [("g", TTable [("pylint", TStr "--enable=p")]); ("h", TTable [("flake8", TStr "--z")])])]);
   ("/w/conf/mine.toml", [("config-file", TStr "base.toml"); ("set-groups", TList [TStr "g"]);
      ("pylint", TTable [("max", TInt "3")]);
      ("translations", TTable [("g", TTable [("pylint", TStr "--enable=q")])])])].
Definition ex_comments := fun f =>
  if String.eqb f "/w/b.py" then [] else ["pylint=--enable=y"].
Definition ex_fds : list (string * node) :=
  [("/w/a.py", File); ("/w/b.py", File); ("/w/d", Dir [("c.PY", File); ("x.txt", File); ("e", Dir [("f.py", File); (".py", File)])])].
Definition ex_many := get_config_many "/w" no_dirs ex_load (ex_infile ex_comments) 9 ex_fds.

Definition order_load := table
  [("empty", []);
   ("default", [("translations", TTable [("x", TTable [("pylint", TStr "--enable=foo")])])])].
Definition order_comments := fun f =>
  if String.eqb f "/w/a.py" then ["set-groups=x"; "pylint=--disable=foo"] else ["pylint=--disable=foo"; "set-groups=x"].
Lemma C05_order_witness :
  exists cwd isdir load_toml infile fuel cmd a b,
    (exists outs ic0 ic langs0 langs,
       get_config_many cwd isdir load_toml infile fuel [(a, File); (b, File)] cmd = Ok outs /\
       In ([a; b], ic0, langs0) outs /\
       get_config_many cwd isdir load_toml infile fuel [(b, File)] cmd = Ok [([b], ic, langs)] /\
       iget ic0 PYLINT <> iget ic PYLINT).
Proof.
  exists "/w", no_dirs, order_load, (ex_infile order_comments), 9, [], "/w/a.py", "/w/b.py".
  eexists. eexists. eexists. eexists. eexists. split; [vm_compute; reflexivity|]. split; [left; reflexivity|].
  split; [vm_compute; reflexivity|]. vm_compute. discriminate.
Qed.

Definition reset_load := table [("empty", []); ("default", [("disallowed-builtin-names", TStr "list")])].
Definition reset_comments := fun f => if String.eqb f "/w/a.py" then ["disallowed-builtin-names="] else [].
Lemma C05_reset_witness :
  exists cwd isdir load_toml infile fuel cmd a b,
    (exists outs ic0 ic langs0 langs,
       get_config_many cwd isdir load_toml infile fuel [(a, File); (b, File)] cmd = Ok outs /\
       In ([a; b], ic0, langs0) outs /\
       get_config_many cwd isdir load_toml infile fuel [(b, File)] cmd = Ok [([b], ic, langs)] /\
       iget ic0 DISALLOWED_BUILTIN_NAMES <> iget ic DISALLOWED_BUILTIN_NAMES).
Proof.
  exists "/w", no_dirs, reset_load, (ex_infile reset_comments), 9, [], "/w/a.py", "/w/b.py".
  eexists. eexists. eexists. eexists. eexists. split; [vm_compute; reflexivity|]. split; [left; reflexivity|].
  split; [vm_compute; reflexivity|]. vm_compute. discriminate.
Qed.

(** Decision procedure for [plain_files] over a finite table. *)
Definition plain_switchb (a : string) : bool :=
  (negb (String.prefix "--enable" a) || String.prefix "--enable=" a)
  && (negb (String.prefix "--disable" a) || String.prefix "--disable=" a).
Lemma plain_switchb_ok : forall a, plain_switchb a = true -> plain_switch a.
Proof.
  unfold plain_switchb, plain_switch. intros a H. apply andb_true_iff in H. destruct H as [H1 H2].
  split; intros E; [rewrite E in H1; exact H1 | rewrite E in H2; exact H2].
Qed.
Definition texts (v : toml) : list string :=
  match config_file_val_to_str v with Ok (Some t) => [t] | _ => [] end.
Definition entry_texts (kv : string * toml) : list string :=
  texts (snd kv) ++
  match snd kv with
  | TTable d => flat_map (fun x => map (fun t => ("--" ++ fst x ++ "=" ++ t)%string) (texts (snd x))) d
  | _ => []
  end.
Lemma strings_of_map : forall l, strings_of (map TStr l) = Ok l.
Proof. induction l as [|x l IH]; [reflexivity|]. cbn [map strings_of]. rewrite IH. reflexivity. Qed.
Lemma texts_ok : forall v t, TextOf v t -> In t (texts v).
Proof.
  intros v t H. destruct H; unfold texts; cbn [config_file_val_to_str]; try (left; reflexivity).
  rewrite strings_of_map. left. reflexivity.
Qed.
Lemma file_texts : forall cwd isdir path d l, FileOptions cwd isdir path d l ->
  forall t, In (PYLINT, Some t) l -> In t (flat_map entry_texts d).
Proof.
  induction 1 as [|name v d l S F IH|name v d l l' S E F IH]; intros t I; [contradiction| |];
    cbn [flat_map]; apply in_or_app.
  - right. auto.
  - apply in_app_or in I. destruct I as [I|I]; [left|right; auto].
    unfold entry_texts. cbn [snd]. inversion E; subst; try contradiction.
    + destruct I as [I|[]]. inversion I; subst. apply in_or_app. left. now apply texts_ok.
    + destruct I as [I|[]]. inversion I.
    + apply in_or_app. right. clear E. induction kts as [|[[k v] x] kts IHk]; [contradiction|].
      cbn [map flat_map fst snd]. apply in_or_app.
      assert (HT := H1 k v x (or_introl eq_refl)).
      destruct x as [x|]; cbn [map somes] in I.
      * destruct I as [I|I].
        -- inversion I; subst. left. apply (in_map (fun t => ("--" ++ k ++ "=" ++ t)%string)). now apply texts_ok.
        -- right. apply IHk; auto. intros. apply (H1 k0 v0 t0). now right.
      * right. apply IHk; auto. intros. apply (H1 k0 v0 t0). now right.
Qed.
Definition all_opts : list Opt := [CONFIG_FILE; PYLINT; FLAKE8; NO_FLAKE8; IGNORE_INFILE_CONFIG_FOR;
  DISALLOWED_BUILTIN_NAMES; ALLOWED_ONECHAR_NAMES; EXPORT_GROUPS; SET_GROUPS; LANGUAGE_FILE].
Definition plain_setsb (d : list (string * toml)) : bool :=
  match match dlast "translations" d with
        | Some v => match parse_option_sets v with Ok (Some s) => s | _ => [] end
        | None => []
        end with
  | s => forallb (fun o => match dget (to_name o) s with None => true | _ => false end) all_opts
         && forallb (fun ns => forallb (fun x => plain_switchb (lower x)) (set_supplies PYLINT (snd ns))) s
  end.
Lemma dget_in : forall V k (v : V) d, dget k d = Some v -> In (k, v) d.
Proof.
  induction d as [|[k' v'] d IH]; cbn [dget]; [discriminate|].
  destruct (String.eqb k k') eqn:E; [|right; auto].
  apply String.eqb_eq in E. subst. intros H. inversion H. left. reflexivity.
Qed.
Lemma plain_table : forall cwd isdir t,
  forallb (fun e => forallb (fun x => plain_switchb (lower x)) (flat_map entry_texts (snd e)) && plain_setsb (snd e)) t = true ->
  plain_files cwd isdir (table t).
Proof.
  intros cwd isdir t H path d L. apply dget_in in L. rewrite forallb_forall in H. specialize (H _ L).
  cbn [snd] in H. apply andb_true_iff in H. destruct H as [H1 H2]. rewrite forallb_forall in H1. split.
  - intros l F x I. apply plain_switchb_ok, H1. eapply file_texts; eauto.
  - intros s O. unfold plain_setsb in H2. unfold OwnSets in O.
    assert (E : match dlast "translations" d with
        | Some v => match parse_option_sets v with Ok (Some s) => s | _ => [] end
        | None => [] end = s).
    { destruct (dlast "translations" d); [rewrite O|]; auto. }
    rewrite E in H2. apply andb_true_iff in H2. destruct H2 as [H2 H3]. rewrite forallb_forall in H2, H3. split.
    + intros o. assert (I : In o all_opts) by (unfold all_opts; destruct o; cbn [In]; tauto).
      specialize (H2 o I). destruct (dget (to_name o) s); [discriminate|reflexivity].
    + intros name x I. unfold named_set_supplies in I. destruct (dget name s) as [v|] eqn:D; [|contradiction].
      apply dget_in in D. specialize (H3 _ D). cbn [snd] in H3. rewrite forallb_forall in H3.
      apply plain_switchb_ok. auto.
Qed.

Lemma C05_example : plain_files "/w" no_dirs ex_load /\ plain_opts (parse_args ["pylint=--enable=z"]) /\
  (forall f li, In f (flat_map (fun '(p, n) => py_files p n) ex_fds) ->
     InfileLayer "/w" no_dirs f (parse_args (ex_comments f)) li -> ordinary li /\ plain_opts li) /\
  exists solo, get_config_many "/w" no_dirs ex_load (ex_infile ex_comments) 9 [("/w/a.py", File)] ["pylint=--enable=z"] = Ok [solo].
Proof.
  split; [apply plain_table; vm_compute; reflexivity|].
  split. { intros t I. vm_compute in I. destruct I as [I|[]]. inversion I. now apply plain_switchb_ok. }
  split; [|eexists; vm_compute; reflexivity].
  intros f li _ L.
  assert (E : parse_args (ex_comments f) = [] \/ parse_args (ex_comments f) = [(PYLINT, Some "--enable=y")])
    by (unfold ex_comments; destruct (String.eqb f "/w/b.py"); [left|right]; reflexivity).
  assert (A : li = parse_args (ex_comments f)).
  { destruct E as [E|E]; rewrite E in L |- *; inversion L as [s H|cf lf X R1 R2]; subst;
      try discriminate; inversion R1; inversion R2; subst; try discriminate; reflexivity. }
  subst li. destruct E as [E|E]; rewrite E; split.
  - intros o t [].
  - intros t [].
  - intros o t [I|[]]. inversion I; subst. split; [discriminate|]. discriminate.
  - intros t [I|[]]. inversion I; subst. now apply plain_switchb_ok.
Qed.

Definition leak_load := table
  [("empty", []); ("default", []);
   ("/w/1.toml", [("language-translations", TTable [("C0001", TStr "one")])]);
   ("/w/2.toml", []); ("/w/cs.toml", [("C0002", TStr "two")])].
Definition leak_comments := fun f =>
  if String.eqb f "/w/a.py" then ["config-file=1.toml"; "language-file=cs.toml"] else ["config-file=2.toml"; "language-file=cs.toml"].
Lemma C07_witness :
  exists cwd isdir load_toml infile fuel cmd a b,
    exists oa ob ob', get_config_many cwd isdir load_toml infile fuel [(a, File); (b, File)] cmd = Ok [oa; ob] /\
      get_config_many cwd isdir load_toml infile fuel [(b, File)] cmd = Ok [ob'] /\
      fst (fst ob) = [b] /\ fst ob = fst ob' /\ exists id, dget id (snd ob) <> dget id (snd ob').
Proof.
  exists "/w", no_dirs, leak_load, (ex_infile leak_comments), 9, [], "/w/a.py", "/w/b.py".
  eexists. eexists. eexists. split; [vm_compute; reflexivity|]. split; [vm_compute; reflexivity|].
  split; [reflexivity|]. split; [reflexivity|]. exists "C0001". vm_compute. discriminate.
Qed.

Lemma C07_cmd_lemma : forall cwd isdir load_toml fuel cmd p cf sets fl g outs,
  parse_config_file cwd isdir load_toml fuel p = Ok (Some (cf, sets, fl)) ->
  main_loop cwd isdir load_toml fuel cmd (Some p) [] g = Ok outs ->
  Forall2 (fun cps o => exists langs0 m0,
      one_group cwd isdir load_toml fuel cmd (Some p) [] (fst cps) (snd cps)
        = Ok (Some (fst (fst o), snd (fst o), langs0), m0) /\
      forall id, dget id (snd o) = dget id langs0) g outs.
Proof. intros. eapply main_loop_cmd; eauto. intros f t H1. discriminate. Qed.

Lemma C09_witness : exists cwd isdir load_toml path, forall limit,
    parse_config_file cwd isdir load_toml limit path = Raise RecursionError.
Proof.
  exists "/", no_dirs, (table [("/a.toml", [("config-file", TStr "/a.toml")])]), "/a.toml".
  induction limit as [|n IH]; [reflexivity|]. cbn [parse_config_file]. 
  change (table _ "/a.toml") with (Some [("config-file", TStr "/a.toml")]). cbv iota.
  change (base_path "/" no_dirs "/a.toml" [("config-file", TStr "/a.toml")]) with (@Ok string "/a.toml").
  change (String.eqb "/a.toml" BASE_CONFIG) with false. cbv iota. cbn [bind]. rewrite IH. reflexivity.
Qed.
Lemma C09_example : depth "/w" no_dirs ex_load "/w/conf/mine.toml" 2.
Proof.
  apply depth_step with "/w/conf/base.toml".
  { split; [discriminate|]. eexists. split; reflexivity. }
  apply depth_step with "empty".
  { split; [discriminate|]. eexists. split; reflexivity. }
  apply depth_end. intros p [N _]. now apply N.
Qed.

Lemma C11_witness : exists o, (exists arg, parse_args [arg] = [(o, None)]) /\
  forall cwd isdir path d l, FileOptions cwd isdir path d l -> last_in o l = None.
Proof. exists NO_FLAKE8. split; [exists "no-flake8"; reflexivity|]. exact C11_never_lemma. Qed.

Lemma C12_witness : exists dirs, In "edulint.toml" (snd (hd ("", []) dirs)) /\
  forall extracted cwd isdir path, parse_infile_config cwd isdir path dirs extracted =
    parse_infile_config cwd isdir path [] extracted.
Proof.
  exists [("/w", ["a.py"; "edulint.toml"]); ("/", [])]. split; [right; left; reflexivity|].
  intros. unfold parse_infile_config. now rewrite !search_none.
Qed.

Lemma C65_witness :
  exists cwd isdir load_toml infile fuel f ic langs,
    get_config_many cwd isdir load_toml infile fuel [(f, File)] [] = Ok [([f], ic, langs)] /\
    (exists c sets langs', parse_config_file cwd isdir load_toml fuel "default" = Ok (Some (c, sets, langs')) /\
       In (Some (PYLINT, VList ["--enable=x"])) (args_of c)) /\
    iget ic PYLINT = Ok (VList []).
Proof.
  exists "/w", no_dirs, (table [("empty", []); ("default", [("ignore-infile-config-for", TStr "edulint"); ("pylint", TStr "--enable=x")])]),
    (ex_infile (fun _ => [])), 9, "/w/a.py".
  eexists. eexists. split; [vm_compute; reflexivity|]. split.
  - eexists. eexists. eexists. split; [vm_compute; reflexivity|]. vm_compute. auto.
  - reflexivity.
Qed.
Lemma C66_witness :
  exists cwd isdir load_toml infile fuel f,
    python_name (basename f) = true /\
    get_config_many cwd isdir load_toml infile fuel [(f, File)] ["config-file=missing"] = Ok [].
Proof.
  exists "/w", no_dirs, (table [("empty", []); ("default", [])]), (ex_infile (fun _ => [])), 9, "/w/a.py".
  split; reflexivity.
Qed.
