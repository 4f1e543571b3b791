(** Properties C01-C04, C14 and C64. *)
From Coq Require Import String Ascii List Bool Arith.
From Verif Require Import Base ConfigModel ConfigSpec ConfigProofs.
Import ListNotations.
Local Open Scope string_scope.
Local Open Scope list_scope.

(** C01: a replace-option has the value given by the strongest layer that mentions it, the last
    occurrence winning inside a layer; otherwise its documented default. *)
Theorem C01_strongest_layer_wins : forall sets files infile cmd o,
  sets_wellformed sets -> accumulates o = false ->
  exists ic v, final_config sets files infile cmd = Ok ic /\ iget ic o = Ok v /\
  match strongest o (cmd :: infile :: rev (map snd files)) with
  | Some text => Means o text v
  | None => v = documented_default o
  end.
Proof. exact C01_lemma. Qed.
Print Assumptions C01_strongest_layer_wins.

Definition ex_sets : option_sets := [("g", [(PYLINT_L, ["--enable=x"]); (FLAKE8_L, ["--max=1"])])].
Definition ex_files : list (string * list uarg) :=
  [("base", [(SET_GROUPS, Some "old"); (LANGUAGE_FILE, Some "a.toml"); (PYLINT, Some "--disable=all")]);
   ("mine", [(SET_GROUPS, Some "g,h"); (PYLINT, Some "--enable=y")])].
Lemma ex_sets_wellformed : sets_wellformed ex_sets.
Proof.
  intros name s [H|[]]. inversion H; subst. intros l vals [H1|[H1|[]]]; inversion H1; subst; discriminate.
Qed.
Example C01_nonvacuous : exists ic,
  final_config ex_sets ex_files [(LANGUAGE_FILE, Some "b.toml")] [(SET_GROUPS, Some "g")] = Ok ic /\
  iget ic LANGUAGE_FILE = Ok (VOptStr (Some "b.toml")) /\ iget ic SET_GROUPS = Ok (VList ["g"]) /\
  iget ic CONFIG_FILE = Ok (VOptStr (Some "default")).
Proof. eexists. repeat split. Qed.

(** C02: the flake8 and pylint lists consist of what the arguments in effect supply, in order;
    for pylint before the enable/disable-all resolution. *)
Theorem C02_accumulation : forall sets files infile cmd, sets_wellformed sets ->
  exists ic, final_config sets files infile cmd = Ok ic /\
  let l := in_effect (concat (map snd files) ++ infile ++ cmd) in
  iget ic FLAKE8 = Ok (VList (flat_map (supplies FLAKE8 sets) l)) /\
  iget ic PYLINT = Ok (VList (resolve_enable_disable_all (flat_map (supplies PYLINT sets) l))).
Proof. exact C02_lemma. Qed.
Print Assumptions C02_accumulation.

(** C02: no linter argument written in any layer is discarded as superseded. *)
Theorem C02_nothing_superseded : forall o l, accumulates o = true ->
  filter (fun a => if same_opt (fst a) o then true else false) (in_effect l) =
  filter (fun a => if same_opt (fst a) o then true else false) l.
Proof. exact in_effect_acc. Qed.
Print Assumptions C02_nothing_superseded.

Example C02_nonvacuous : exists ic,
  final_config ex_sets ex_files [(FLAKE8, Some "--a=b,c")] [(FLAKE8, Some "--z")] = Ok ic /\
  iget ic FLAKE8 = Ok (VList ["--max=1"; "--a=b,c"; "--z"]) /\
  iget ic PYLINT = Ok (VList ["--disable=all"; "--enable=x"; "--enable=y"]).
Proof. eexists. repeat split. Qed.

(** C03: after the resolution pylint ends in the very state it reaches by processing the complete
    (lower-cased, see C04) list from left to right. *)
Theorem C03_resolution_keeps_meaning :
  forall msg X matches other_settings other_switches l (s : state msg X),
  Forall (fun a => plain_switch (lower a)) l ->
  run_args msg X matches other_settings other_switches (resolve_enable_disable_all l) s =
  run_args msg X matches other_settings other_switches (map lower l) s.
Proof. exact C03_lemma. Qed.
Print Assumptions C03_resolution_keeps_meaning.

(** C03: an argument that is not a message switch is never dropped. *)
Theorem C03_other_arguments_survive : forall l x, In x l ->
  String.prefix "--enable" (lower x) = false -> String.prefix "--disable" (lower x) = false ->
  In (lower x) (resolve_enable_disable_all l).
Proof. exact C03_keeps_lemma. Qed.
Print Assumptions C03_other_arguments_survive.

Example C03_nonvacuous :
  resolve_enable_disable_all
    ["--enable=a"; "--load-plugins=p"; "--disable=b"; "--disable=all"; "--enable=c"; "--disable=d"]
  = ["--load-plugins=p"; "--disable=b"; "--disable=all"; "--enable=c"; "--disable=d"]
  /\ Forall (fun a => plain_switch (lower a))
       ["--enable=a"; "--load-plugins=p"; "--disable=b"; "--disable=all"; "--enable=c"; "--disable=d"].
Proof. split; [reflexivity|]. repeat constructor; vm_compute; auto. Qed.

(** C04 is false: arguments are lower-cased. *)
Theorem C04_verbatim_refuted : exists l a, In a (resolve_enable_disable_all l) /\ ~ In a l.
Proof.
  exists ["--const-rgx=[A-Z]+"], "--const-rgx=[a-z]+". split; [now left|].
  intros [H|[]]. discriminate.
Qed.
Print Assumptions C04_verbatim_refuted.

(** C04, the true part: what survives is a subsequence of the lower-cased list, so lists without
    upper-case letters are passed verbatim. *)
Theorem C04_lowercase_verbatim_partial : forall l, map lower l = l -> subseq (resolve_enable_disable_all l) l.
Proof. exact C04_lower_lemma. Qed.
Print Assumptions C04_lowercase_verbatim_partial.

Theorem C04_lowercased_partial : forall l, subseq (resolve_enable_disable_all l) (map lower l).
Proof. exact C04_subseq. Qed.
Print Assumptions C04_lowercased_partial.

Example C04_nonvacuous : map lower ["--disable=all"; "--x=y"] = ["--disable=all"; "--x=y"].
Proof. reflexivity. Qed.

(** C64 is false: an option that merely begins like a message switch is dropped, which changes
    pylint's other settings (here: the loaded extensions). *)
Theorem C64_only_switches_dropped_refuted :
  exists l, (forall a, In a l -> lower a = a) /\
  exists x, In x l /\ String.prefix "--enable=" x = false /\ String.prefix "--disable=" x = false /\
            ~ In x (resolve_enable_disable_all l) /\
  snd (run_args unit (list string) (fun _ _ => false) (fun a x => a :: x) (fun _ _ f => f)
         (resolve_enable_disable_all l) (fun _ => true, [])) <>
  snd (run_args unit (list string) (fun _ _ => false) (fun a x => a :: x) (fun _ _ f => f)
         l (fun _ => true, [])).
Proof.
  exists ["--enable-all-extensions"; "--disable=all"]. split.
  - intros a [<-|[<-|[]]]; reflexivity.
  - exists "--enable-all-extensions". vm_compute. repeat split; try tauto; try discriminate.
    intros [H|[]]. discriminate.
Qed.
Print Assumptions C64_only_switches_dropped_refuted.

(** C14: 'name=value' sets the option to everything after the first '=', whatever the letter case
    of the name. *)
Theorem C14_value_after_first_equals : forall o name v, documented_name o name -> o <> NO_FLAKE8 ->
  parse_args [(name ++ "=" ++ v)%string] = [(o, Some v)].
Proof. exact C14_value_lemma. Qed.
Print Assumptions C14_value_after_first_equals.

(** C14: the flag takes no value. *)
Theorem C14_flag : forall name, documented_name NO_FLAKE8 name ->
  parse_args [name] = [(NO_FLAKE8, None)] /\ forall v, parse_args [(name ++ "=" ++ v)%string] = [].
Proof. exact C14_flag_lemma. Qed.
Print Assumptions C14_flag.

(** C14: nothing else sets an option. *)
Theorem C14_nothing_else : forall a o v, parse_args [a] = [(o, v)] ->
  exists name, documented_name o name /\
    match v with Some x => a = (name ++ "=" ++ x)%string | None => a = name /\ o = NO_FLAKE8 end.
Proof. exact C14_only_lemma. Qed.
Print Assumptions C14_nothing_else.

(** C14: arguments are parsed independently of one another. *)
Theorem C14_independent : forall a b, parse_args (a ++ b) = parse_args a ++ parse_args b.
Proof. exact parse_args_app. Qed.
Print Assumptions C14_independent.

Example C14_nonvacuous : parse_args ["PyLint=--disable=a=b"; "bogus=1"; "No-Flake8"; "config=x"; "flake8"]
  = [(PYLINT, Some "--disable=a=b"); (NO_FLAKE8, None); (CONFIG_FILE, Some "x")].
Proof. reflexivity. Qed.
