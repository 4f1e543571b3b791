From Coq Require Import String Ascii List Bool Arith Lia Permutation.
From Verif Require Import Base ConfigModel ConfigSpec ConfigProofs PathModel ConfigFileModel ConfigFileSpec.
Import ListNotations.
Local Open Scope string_scope.
Local Open Scope list_scope.
Local Open Scope nat_scope.

(** ** Configurations that carry a list of option texts *)

Definition carries (c : config) (l : list uarg) : Prop := somes (args_of c) = convert_args l.

Lemma convert_app : forall a b, convert_args (a ++ b) = convert_args a ++ convert_args b.
Proof. intros. unfold convert_args. apply map_app. Qed.

Lemma make_config_carries : forall e l, exists c, make_config e l = Ok c /\ carries c (in_effect l)
  /\ (e = None -> enablers_of c = []).
Proof.
  intros. destruct (make_config_ok e l) as [c [E [H N]]]. exists c. split; auto. split; auto.
  apply holds_effect, H.
Qed.

Lemma combine_carries : forall a b la lb, carries a la -> carries b lb ->
  exists c, config_combine a b = Ok c /\ carries c (in_effect (la ++ lb))
  /\ enablers_of c = dmerge (enablers_of a) (enablers_of b).
Proof.
  intros a b la lb A B. unfold config_combine.
  destruct (combine_args_ok [REPLACE] (args_of a ++ args_of b)) as [r [E R]].
  - rewrite somes_app, A, B, <- convert_app. apply convert_typed.
  - rewrite E. cbn [bind]. eexists. split; [reflexivity|]. split; [|reflexivity].
    unfold carries. simpl. rewrite R, fold_replace. simpl.
    rewrite somes_app, A, B, <- convert_app. apply eff_convert.
Qed.

Lemma vals_last : forall o l, 
  match rev (vals_of o (convert_args l)) with v :: _ => Some v | [] => None end =
  match last_in o l with Some v => Some (convert (conv_of (parse_of o)) v) | None => None end.
Proof.
  intros o l. induction l as [|[o' v] l IH]; simpl; auto.
  change ((o', convert (conv_of (parse_of o')) v) :: convert_args l)
    with ([(o', convert (conv_of (parse_of o')) v)] ++ convert_args l).
  rewrite vals_of_app, rev_app_distr.
  destruct (rev (vals_of o (convert_args l))) as [|w ws] eqn:D; simpl.
  - destruct (last_in o l); [discriminate|]. unfold vals_of; simpl. unfold is_opt; simpl.
    rewrite opt_eqb_same. destruct (same_opt o o'); simpl; auto. now subst.
  - destruct (last_in o l); [congruence|discriminate].
Qed.

Lemma to_immutable_carries : forall c l sets, sets_wellformed sets -> carries c l ->
  exists ic, to_immutable c sets = Ok ic /\
  (exists es, sets_enablers sets [] = Ok es /\ ienablers ic = dmerge es (enablers_of c)) /\
  forall o, iget ic o =
    Ok (if accumulates o
        then finish o (VList (flat_map (supplies o sets) l))
        else match last_in o l with
             | Some v => convert (conv_of (parse_of o)) v
             | None => default (parse_of o)
             end).
Proof.
  intros c l sets W C. destruct (to_immutable_ok c l sets W C) as [ic [E [H1 H2]]].
  exists ic. split; auto. split; auto. intros o. rewrite H2. f_equal.
  destruct (accumulates o); auto. pose proof (vals_last o l) as V.
  destruct (rev (vals_of o (convert_args l))), (last_in o l); try discriminate; auto; congruence.
Qed.

Lemma find_rev_last : forall o l (L : list (option parg)), somes L = convert_args l ->
  find (fun a => match a with Some (o', _) => opt_eqb o' o | None => false end) (rev L) =
  match last_in o l with Some v => Some (Some (o, convert (conv_of (parse_of o)) v)) | None => None end.
Proof.
  intros o l L. revert l. induction L as [|x L IH] using rev_ind; intros l H.
  - simpl in H. destruct l as [|[o2 v2] l]; [reflexivity | discriminate].
  - rewrite rev_app_distr. simpl. rewrite somes_app in H. destruct x as [[o' v]|]; simpl in H.
    + destruct (exists_last (l := l)) as [l' [[o2 v2] ->]].
      { intros ->. destruct (somes L); discriminate. }
      rewrite convert_app in H. simpl in H. apply app_inj_tail in H as [H1 H2].
      inversion H2; subst. rewrite last_in_app. simpl. rewrite opt_eqb_same.
      destruct (same_opt o2 o) as [->|N].
      * destruct (same_opt o o); [auto|contradiction].
      * destruct (same_opt o o2); [congruence|]. apply IH. auto.
    + rewrite app_nil_r in H. now apply IH.
Qed.

Lemma get_last_value_carries : forall c l o d, carries c l -> accumulates o = false ->
  get_last_value c o d = Ok (match last_in o l with
                             | Some v => convert (conv_of (parse_of o)) v
                             | None => if d then default (parse_of o) else VOptStr None
                             end).
Proof.
  intros c l o d C A. unfold get_last_value.
  rewrite (find_rev_last o l (args_of c) C).
  destruct (last_in o l); destruct o; try discriminate; reflexivity.
Qed.

Lemma last_in_in_effect_eq : forall o l, accumulates o = false -> last_in o (in_effect l) = last_in o l.
Proof.
  intros o l A. induction l as [|[o' v] l IH]; simpl; auto.
  destruct (accumulates o') eqn:A'; simpl.
  - rewrite IH. destruct (last_in o l); auto.
  - destruct (last_in o' l) eqn:L; simpl; rewrite IH; [|auto].
    destruct (last_in o l) eqn:L2; auto. destruct (same_opt o o'); auto. congruence.
Qed.

Lemma in_effect_in_effect_app : forall a b, in_effect (in_effect a ++ b) = in_effect (a ++ b).
Proof.
  assert (X : forall o a b, accumulates o = false -> last_in o (in_effect a ++ b) = last_in o (a ++ b)).
  { intros. rewrite !last_in_app. destruct (last_in o b); auto. now apply last_in_in_effect_eq. }
  induction a as [|[o v] a IH]; intros b; simpl; auto.
  destruct (accumulates o) eqn:A; simpl.
  - now rewrite A, IH.
  - destruct (last_in o a) eqn:L; simpl.
    + rewrite last_in_app, L. destruct (last_in o b); apply IH.
    + rewrite A, IH, (X o a b A). reflexivity.
Qed.

Lemma in_effect_app_in_effect : forall a b, in_effect (a ++ in_effect b) = in_effect (a ++ b).
Proof.
  assert (Y : forall b, in_effect (in_effect b) = in_effect b).
  { intros b. pose proof (in_effect_in_effect_app b []) as H. now rewrite !app_nil_r in H. }
  assert (X : forall o a b, accumulates o = false -> last_in o (a ++ in_effect b) = last_in o (a ++ b)).
  { intros. rewrite !last_in_app. rewrite last_in_in_effect_eq; auto. }
  induction a as [|[o v] a IH]; intros b; simpl; auto.
  destruct (accumulates o) eqn:A; [now rewrite IH|].
  rewrite X by auto. now rewrite IH.
Qed.

(** ** The configuration of one group *)

Lemma ignore_infile_carries : forall c l, carries c l -> ignore_infile c = Ok (excludes_infile l).
Proof.
  intros c l C. unfold ignore_infile. rewrite (get_last_value_carries c l) by auto. cbn [bind].
  unfold excludes_infile. destruct (last_in IGNORE_INFILE_CONFIG_FOR l) as [[s|]|]; simpl; auto.
Qed.

(** ** Own options of a config file *)

Lemma strings_of_ok : forall l ss, strings_of l = Ok ss -> l = map TStr ss.
Proof.
  induction l as [|v l IH]; simpl; intros ss H.
  - inversion H; auto.
  - destruct v; try discriminate. destruct (strings_of l) as [r|]; [|discriminate].
    cbn [bind] in H. inversion H; subst. simpl. now rewrite (IH r).
Qed.
Lemma strings_of_strs : forall ss, strings_of (map TStr ss) = Ok ss.
Proof. induction ss; simpl; auto. now rewrite IHss. Qed.

Lemma val_to_str_ok : forall v r, config_file_val_to_str v = Ok r ->
  match r with Some t => TextOf v t | None => textless v end.
Proof.
  unfold config_file_val_to_str, textless. intros v r H. destruct v; try (inversion H; subst; constructor; eauto; fail).
  - inversion H; subst. destruct b; constructor.
  - destruct (strings_of l) as [ss|] eqn:E; [|discriminate]. cbn [bind] in H. inversion H; subst.
    apply strings_of_ok in E as ->. constructor.
Qed.

Lemma pairs_ok : forall (o : Opt) d vs, mapM config_file_pair_to_str d = Ok vs ->
  exists kts : list (string * toml * option string), map fst kts = d /\
  (forall k v t, In (k, v, t) kts -> match t with Some t => TextOf v t | None => textless v end) /\
  map (fun s => (o, Some s)) (somes vs) =
  somes (map (fun '(k, _, t) => match t with
                                | Some t => Some (o, Some ("--" ++ k ++ "=" ++ t)%string)
                                | None => None
                                end) kts).
Proof.
  induction d as [|[k v] d IH]; simpl; intros vs H.
  - inversion H; subst. exists []. repeat split; simpl; tauto.
  - unfold config_file_pair_to_str at 1 in H. simpl in H.
    destruct (config_file_val_to_str v) as [t|] eqn:E; [|discriminate]. cbn [bind] in H.
    destruct (mapM config_file_pair_to_str d) as [vs'|]; [|discriminate]. cbn [bind] in H.
    inversion H; subst. destruct (IH vs' eq_refl) as [kts [A [B C]]].
    exists ((k, v, t) :: kts). split; [simpl; now rewrite A|]. split.
    + intros k' v' t' [X|X]; [inversion X; subst; now apply val_to_str_ok | exact (B _ _ _ X)].
    + destruct t as [s|]; simpl; [now rewrite C | exact C].
Qed.

Lemma parse_option_true : forall name o, parse_option name true = Some o <->
  documented_name o name /\ o <> NO_FLAKE8.
Proof.
  intros. unfold parse_option. rewrite documented_name_from.
  destruct (opt_safe_from_name name) as [o'|].
  - destruct o'; simpl; split; try discriminate;
      try (intros H; inversion H; subst; split; [auto|discriminate]);
      intros [H1 H2]; inversion H1; subst; auto; congruence.
  - split; [discriminate|]. intros [H _]. discriminate.
Qed.

Lemma parse_option_none : forall name, parse_option name true = None ->
  forall o, documented_name o name -> o = NO_FLAKE8.
Proof.
  intros name H o D. destruct (same_opt o NO_FLAKE8) as [|N]; auto.
  assert (parse_option name true = Some o) by (apply parse_option_true; auto). congruence.
Qed.

Lemma documented_unique : forall name o o', documented_name o name -> documented_name o' name -> o = o'.
Proof. intros name o o' H H'. apply documented_name_from in H, H'. congruence. Qed.

Lemma linter_from_acc : forall o, (exists l, linter_safe_from_name (to_name o) = Some l) <-> accumulates o = true.
Proof. intros []; vm_compute; split; intros H; try discriminate; eauto; destruct H; discriminate. Qed.

Lemma entry_args_ok : forall cwd isdir path name v l,
  entry_args cwd isdir path (name, v) = Ok l -> EntryOptions cwd isdir path name v l.
Proof.
  intros cwd isdir path name v l H. unfold entry_args in H.
  destruct (parse_option name true) as [o|] eqn:P.
  2:{ inversion H; subst. apply entry_nothing. intros o D. right. eapply parse_option_none; eauto. }
  apply parse_option_true in P as [D N].
  assert (G : o <> CONFIG_FILE -> o <> LANGUAGE_FILE ->
    (do vals <- match v with
                | TTable d => match linter_safe_from_name (to_name o) with
                              | None => Ok [] | Some _ => mapM config_file_pair_to_str d end
                | _ => do s <- config_file_val_to_str v; Ok [s]
                end;
     Ok (map (fun s => (o, Some s)) (somes vals))) = Ok l -> EntryOptions cwd isdir path name v l).
  { intros NC NL G.
    assert (S : forall w, (do vals <- (do s <- config_file_val_to_str w; Ok [s]);
                 Ok (map (fun s => (o, Some s)) (somes vals))) = Ok l ->
                (forall d, w <> TTable d) -> EntryOptions cwd isdir path name w l).
    { intros w Hw Nt. destruct (config_file_val_to_str w) as [t|] eqn:E; [|discriminate].
      cbn [bind] in Hw. apply val_to_str_ok in E. inversion Hw; subst. destruct t as [t|]; simpl.
      - apply entry_value; auto.
      - eapply entry_ignored; eauto. intros _. destruct E as [|[d ->]]; auto. exfalso. eapply Nt; eauto. }
    destruct v; try (apply S; [exact G | discriminate]).
    destruct (linter_safe_from_name (to_name o)) as [li|] eqn:L.
    - destruct (mapM config_file_pair_to_str d) as [vs|] eqn:M; [|discriminate]. cbn [bind] in G.
      inversion G; subst. destruct (pairs_ok o d vs M) as [kts [A [B C]]].
      rewrite C. subst d. apply entry_table; auto. apply linter_from_acc. eauto.
    - cbn [bind] in G. inversion G; subst. simpl. eapply entry_ignored; eauto.
      + right. eauto.
      + intros A. apply linter_from_acc in A as [li A]. congruence. }
  destruct o; try (apply G; [discriminate | discriminate | exact H]).
  - inversion H; subst. apply entry_nothing. intros o D'. left. eapply documented_unique; eauto.
  - destruct v; try discriminate. destruct (get_path_relative_to cwd isdir s path) as [p|] eqn:E; [|discriminate].
    cbn in H. inversion H; subst. now apply entry_language.
Qed.

Lemma entries_loop_ok : forall cwd isdir path d acc this,
  entries_loop cwd isdir path d acc = Ok this ->
  exists l, own_args this = own_args acc ++ l /\ FileOptions cwd isdir path d l.
Proof.
  induction d as [|[name v] d IH]; intros acc this H; simpl in H.
  - inversion H; subst. exists []. rewrite app_nil_r. split; auto. constructor.
  - destruct (entry_step cwd isdir path acc (name, v)) as [acc'|] eqn:E; [|discriminate].
    cbn [bind] in H. apply IH in H as [l [H1 H2]]. unfold entry_step in E. cbn [fst snd] in E.
    destruct (String.eqb name "translations") eqn:E1.
    { destruct (parse_option_sets v); [|discriminate]. cbn [bind] in E. inversion E; subst. simpl in H1.
      exists l. split; auto. apply file_special; auto. apply String.eqb_eq in E1; subst. reflexivity. }
    destruct (String.eqb name "language-translations") eqn:E2.
    { inversion E; subst. simpl in H1. exists l. split; auto. apply file_special; auto.
      apply String.eqb_eq in E2; subst. reflexivity. }
    destruct (String.eqb name "default-enabler-name") eqn:E3.
    { inversion E; subst. exists l. split; auto. apply file_special; auto.
      apply String.eqb_eq in E3; subst. reflexivity. }
    destruct (entry_args cwd isdir path (name, v)) as [a|] eqn:EA; [|discriminate].
    cbn [bind] in E. inversion E; subst. simpl in H1. exists (a ++ l). split.
    + now rewrite H1, app_assoc.
    + apply file_entry; auto.
      * unfold special, str_in. simpl. now rewrite E1, E2, E3.
      * now apply entry_args_ok.
Qed.

(** ** Inheritance *)

Section Inheritance.
  Variable cwd : string.
  Variable isdir : string -> bool.
  Variable load_toml : string -> option (list (string * toml)).
  Notation parse := (parse_config_file cwd isdir load_toml).

  Lemma C08_chain_lemma : forall fuel path c sets langs,
    parse fuel path = Ok (Some (c, sets, langs)) ->
    exists lineage files,
      Lineage cwd isdir load_toml path lineage /\
      Forall2 (fun pd nl => FileOptions cwd isdir (fst pd) (snd pd) (snd nl)) lineage files /\
      (do b <- make_config None []; chain b files) = Ok c.
  Proof.
    induction fuel as [|fuel IH]; intros path c sets langs H; cbn [parse_config_file] in H; [discriminate|].
    destruct (load_toml path) as [d|] eqn:L; [|discriminate].
    set (K := fun base : option (config * option_sets * lang_translations) => 
       match base with
       | None => Ok None
       | Some (base_config, base_sets, base_langs) =>
           do this <- entries_loop cwd isdir path d {| own_args := []; own_sets := Some []; own_langs := Some [] |};
           do c <- make_config (Some (enabler_of path d)) (own_args this);
           do combined <- config_combine base_config c;
           do sets <- unpack (own_sets this);
           do langs <- unpack (own_langs this);
           Ok (Some (combined, dmerge base_sets sets, dmerge base_langs langs))
       end) in H.
    assert (S : forall bc bs bl files, K (Some (bc, bs, bl)) = Ok (Some (c, sets, langs)) ->
      (do b <- make_config None []; chain b files) = Ok bc ->
      exists n l, FileOptions cwd isdir path d l /\
        (do b <- make_config None []; chain b (files ++ [(n, l)])) = Ok c).
    { intros bc bs bl files HK HF. unfold K in HK.
      destruct (entries_loop cwd isdir path d _) as [this|] eqn:E; [|discriminate]. cbn [bind] in HK.
      apply entries_loop_ok in E as [l [E1 E2]]. simpl in E1.
      destruct (make_config (Some (enabler_of path d)) (own_args this)) as [cc|] eqn:M; [|discriminate].
      cbn [bind] in HK. destruct (config_combine bc cc) as [cm|] eqn:CC; [|discriminate]. cbn [bind] in HK.
      destruct (unpack (own_sets this)); [|discriminate]. cbn [bind] in HK.
      destruct (unpack (own_langs this)); [|discriminate]. cbn [bind] in HK. inversion HK; subst.
      exists (enabler_of path d), (own_args this). split; auto.
      clear IH H K HK. destruct (make_config None []) as [b|]; [|discriminate]. cbn [bind] in *.
      revert b HF. induction files as [|[n' l'] files IHf]; intros b HF; cbn [chain app] in *.
      - inversion HF; subst. rewrite M. cbn [bind]. rewrite CC. reflexivity.
      - destruct (make_config (Some n') l') as [x|]; [|discriminate]. cbn [bind] in *.
        destruct (config_combine b x); [|discriminate]. cbn [bind] in *. now apply IHf. }
    destruct (String.eqb path BASE_CONFIG) eqn:EB.
    - apply String.eqb_eq in EB; subst path.
      destruct (make_config None []) as [b|] eqn:MB; [|discriminate]. cbn [bind] in H.
      destruct (S b [] [] [] H) as [n [l [F1 F2]]]; [reflexivity|].
      exists [(BASE_CONFIG, d)], [(n, l)]. split; [now apply lineage_root|]. split; [|exact F2].
      repeat constructor. exact F1.
    - apply String.eqb_neq in EB.
      destruct (base_path cwd isdir path d) as [p|] eqn:BP; [|discriminate]. cbn [bind] in H.
      destruct (parse fuel p) as [[[[bc bs] bl]|]|] eqn:P; try discriminate.
      cbn [bind] in H. destruct (IH _ _ _ _ P) as [lin [files [A [B C]]]].
      destruct (S bc bs bl files H C) as [n [l [F1 F2]]].
      exists (lin ++ [(path, d)]), (files ++ [(n, l)]). split.
      + eapply lineage_step; eauto.
      + split; [|exact F2]. apply Forall2_app; auto.
  Qed.

  (** One step of inheritance for option sets and translations. *)
  Lemma parse_step : forall fuel path c sets langs,
    parse (S fuel) path = Ok (Some (c, sets, langs)) ->
    exists d this bc bs bl, load_toml path = Some d /\
      entries_loop cwd isdir path d {| own_args := []; own_sets := Some []; own_langs := Some [] |} = Ok this /\
      (if String.eqb path BASE_CONFIG then bs = [] /\ bl = []
       else exists p, base_path cwd isdir path d = Ok p /\ parse fuel p = Ok (Some (bc, bs, bl))) /\
      exists s t, own_sets this = Some s /\ own_langs this = Some t /\
      sets = dmerge bs s /\ langs = dmerge bl t.
  Proof.
    intros fuel path c sets langs H. cbn [parse_config_file] in H.
    destruct (load_toml path) as [d|] eqn:L; [|discriminate].
    assert (S : forall base : option (config * option_sets * lang_translations), 
       match base with
       | None => Ok None
       | Some (base_config, base_sets, base_langs) =>
           do this <- entries_loop cwd isdir path d {| own_args := []; own_sets := Some []; own_langs := Some [] |};
           do c <- make_config (Some (enabler_of path d)) (own_args this);
           do combined <- config_combine base_config c;
           do sets <- unpack (own_sets this);
           do langs <- unpack (own_langs this);
           Ok (Some (combined, dmerge base_sets sets, dmerge base_langs langs))
       end = Ok (Some (c, sets, langs)) ->
      exists this bc bs bl, base = Some (bc, bs, bl) /\
        entries_loop cwd isdir path d {| own_args := []; own_sets := Some []; own_langs := Some [] |} = Ok this /\
        exists s t, own_sets this = Some s /\ own_langs this = Some t /\
        sets = dmerge bs s /\ langs = dmerge bl t).
    { intros [[[bc bs] bl]|] HK; [|discriminate].
      destruct (entries_loop cwd isdir path d _) as [this|] eqn:E; [|discriminate]. cbn [bind] in HK.
      destruct (make_config _ (own_args this)) as [cc|] eqn:M; [|discriminate].
      cbn [bind] in HK. destruct (config_combine bc cc) as [cm|] eqn:CC; [|discriminate]. cbn [bind] in HK.
      destruct (own_sets this) as [s|] eqn:Es; [|discriminate]. cbn [bind unpack] in HK.
      destruct (own_langs this) as [t|] eqn:Et; [|discriminate]. cbn [bind unpack] in HK.
      inversion HK; subst. exists this, bc, bs, bl. repeat split; auto. exists s, t. auto. }
    destruct (String.eqb path BASE_CONFIG) eqn:EB.
    - destruct (make_config None []) as [b|] eqn:MB; [|discriminate]. cbn [bind] in H.
      destruct (S (Some (b, [], [])) H) as [this [bc [bs [bl [E1 [E2 E3]]]]]]. inversion E1; subst.
      exists d, this, bc, [], []. repeat split; auto.
    - destruct (base_path cwd isdir path d) as [p|] eqn:BP; [|discriminate]. cbn [bind] in H.
      destruct (parse fuel p) as [base|] eqn:P; try discriminate. cbn [bind] in H.
      destruct (S base H) as [this [bc [bs [bl [E1 [E2 E3]]]]]]. subst.
      exists d, this, bc, bs, bl. repeat split; eauto.
  Qed.

  (** ** Termination *)
  Lemma entries_no_rec : forall path d acc e, entries_loop cwd isdir path d acc = Raise e -> e <> RecursionError.
  Proof.
    assert (SO : forall l e, strings_of l = Raise e -> e = TypeError).
    { induction l as [|v l IH]; simpl; intros e H; [discriminate|]. destruct v; try (inversion H; auto; fail).
      destruct (strings_of l) as [r|e']; [discriminate|]. cbn [bind] in H. inversion H; subst. auto. }
    assert (VS : forall v e, config_file_val_to_str v = Raise e -> e = TypeError).
    { intros v e H. destruct v; try discriminate. simpl in H. destruct (strings_of l) eqn:E; [discriminate|].
      cbn [bind] in H. inversion H; subst. eauto. }
    assert (PS : forall d e, mapM config_file_pair_to_str d = Raise e -> e = TypeError).
    { induction d as [|[k v] d IH]; simpl; intros e H; [discriminate|].
      unfold config_file_pair_to_str at 1 in H. simpl in H.
      destruct (config_file_val_to_str v) as [t|] eqn:E; [|inversion H; subst; eauto]. cbn [bind] in H.
      destruct (mapM config_file_pair_to_str d) as [vs'|]; [discriminate|]. inversion H; subst. auto. }
    assert (GP : forall a b e, get_path_relative_to cwd isdir a b = Raise e -> e = AssertionError).
    { intros a b e H. unfold get_path_relative_to in H.
      destruct (get_config_type a), (isabs a); try discriminate. destruct (isdir b); inversion H; auto. }
    assert (SS : forall v e, set_strings v = Raise e -> e = TypeError).
    { intros v e H. unfold set_strings in H.
      assert (Q : forall w, (do vs <- (do s <- config_file_val_to_str w; Ok [s]);
        Ok (filter (fun s => negb (String.eqb s "")) (somes vs))) = Raise e -> e = TypeError).
      { intros w Hw. destruct (config_file_val_to_str w) eqn:E; [discriminate|]. inversion Hw; subst. eauto. }
      destruct v; try (apply (Q _ H)). destruct (mapM config_file_pair_to_str d) eqn:E; [discriminate|].
      inversion H; subst. eauto. }
    assert (PO : forall to acc e, parse_option_set to acc = Raise e -> e = TypeError).
    { induction to as [|[k v] to IH]; simpl; intros acc e H; [discriminate|].
      destruct (linter_safe_from_name k); [|eauto]. destruct (set_strings v) eqn:E; [eauto|].
      inversion H; subst. eauto. }
    assert (PSs : forall d acc e, parse_sets d acc = Raise e -> e = TypeError).
    { induction d as [|[k v] d IH]; simpl; intros acc e H; [discriminate|].
      destruct v; eauto. destruct (parse_option_set d0 []) eqn:E; [eauto|]. inversion H; subst. eauto. }
    assert (PP : forall v e, parse_option_sets v = Raise e -> e = TypeError).
    { intros v e H. destruct v; try discriminate. simpl in H. destruct (parse_sets d []) eqn:E; [discriminate|].
      inversion H; subst. eauto. }
    assert (EA : forall path kv e, entry_args cwd isdir path kv = Raise e -> e <> RecursionError).
    { intros path [name v] e H. unfold entry_args in H. destruct (parse_option name true) as [o|]; [|discriminate].
      assert (G : forall w, (do vals <- match w with
                | TTable d => match linter_safe_from_name (to_name o) with
                              | None => Ok [] | Some _ => mapM config_file_pair_to_str d end
                | _ => do s <- config_file_val_to_str w; Ok [s]
                end;
        Ok (map (fun s => (o, Some s)) (somes vals))) = Raise e -> e <> RecursionError).
      { intros w G. destruct w; try (cbn [bind config_file_val_to_str] in G; discriminate).
        - destruct (config_file_val_to_str (TList l)) eqn:E; [discriminate|]. inversion G; subst.
          rewrite (VS _ _ E). discriminate.
        - destruct (linter_safe_from_name (to_name o)); [|discriminate].
          destruct (mapM config_file_pair_to_str d) eqn:E; [discriminate|]. inversion G; subst.
          rewrite (PS _ _ E). discriminate. }
      destruct o; try discriminate; try (exact (G v H)).
      destruct v; try (inversion H; subst; discriminate).
      destruct (get_path_relative_to cwd isdir s path) eqn:E.
      - cbn in H. discriminate.
      - inversion H; subst. rewrite (GP _ _ _ E). discriminate. }
    induction d as [|kv d IH]; simpl; intros acc e H; [discriminate|].
    destruct (entry_step cwd isdir path acc kv) as [acc'|e'] eqn:E; [eauto|].
    inversion H; subst. unfold entry_step in E.
    destruct (String.eqb (fst kv) "translations").
    { destruct (parse_option_sets (snd kv)) eqn:E2; [discriminate|]. inversion E; subst.
      rewrite (PP _ _ E2). discriminate. }
    destruct (String.eqb (fst kv) "language-translations"); [discriminate|].
    destruct (String.eqb (fst kv) "default-enabler-name"); [discriminate|].
    destruct (entry_args cwd isdir path kv) eqn:E2; [discriminate|]. inversion E; subst. eauto.
  Qed.

  Lemma parse_carries : forall fuel path c sets langs,
    parse fuel path = Ok (Some (c, sets, langs)) -> exists l, carries c l.
  Proof.
    intros. apply C08_chain_lemma in H as [lin [files [_ [_ H]]]].
    destruct (make_config_ok None []) as [b [E1 [H1 _]]]. rewrite E1 in H. cbn [bind] in H.
    destruct (chain_ok files b _ H1) as [c' [E2 H2]]. rewrite E2 in H. inversion H; subst.
    exists (in_effect (concat (map snd files))). apply holds_effect, H2.
  Qed.

  Lemma C09_lemma : forall path n, depth cwd isdir load_toml path n -> forall fuel, n < fuel ->
    parse fuel path <> Raise RecursionError.
  Proof.
    assert (GP : forall a b e, get_path_relative_to cwd isdir a b = Raise e -> e = AssertionError).
    { intros a b e H. unfold get_path_relative_to in H.
      destruct (get_config_type a), (isabs a); try discriminate. destruct (isdir b); inversion H; auto. }
    assert (R : forall path d base e,
      match base with
      | None => Ok None
      | Some (base_config, base_sets, base_langs) =>
           do this <- entries_loop cwd isdir path d {| own_args := []; own_sets := Some []; own_langs := Some [] |};
           do c <- make_config (Some (enabler_of path d)) (own_args this);
           do combined <- config_combine base_config c;
           do sets <- unpack (own_sets this);
           do langs <- unpack (own_langs this);
           Ok (Some (combined, dmerge base_sets sets, dmerge base_langs langs))
      end = Raise e -> (forall bc bs bl, base = Some (bc, bs, bl) -> exists l, carries bc l) -> e <> RecursionError).
    { intros path d [[[bc bs] bl]|] e H C; [|discriminate].
      destruct (C _ _ _ eq_refl) as [l Cl].
      destruct (entries_loop cwd isdir path d _) as [this|] eqn:E; cbn [bind] in H.
      2:{ inversion H; subst. eapply entries_no_rec; eauto. }
      destruct (make_config_carries (Some (enabler_of path d)) (own_args this)) as [cc [M [Mc _]]].
      rewrite M in H. cbn [bind] in H. destruct (combine_carries bc cc _ _ Cl Mc) as [cm [CC _]].
      rewrite CC in H. cbn [bind] in H. unfold unpack in H.
      destruct (own_sets this); cbn [bind] in H; [|inversion H; discriminate].
      destruct (own_langs this); cbn [bind] in H; [|inversion H; discriminate]. discriminate. }
    intros path n D. induction D as [path N | path p n Rf D IH]; intros [|fuel] Hf; try lia; cbn [parse_config_file];
      destruct (load_toml path) as [d|] eqn:L; try discriminate.
    - destruct (String.eqb path BASE_CONFIG) eqn:EB.
      + intros H. destruct (make_config_carries None []) as [b [MB [Cb _]]]. rewrite MB in H. cbn [bind] in H.
        apply (R path d (Some (b, [], []))) in H; [congruence|]. intros ? ? ? X. inversion X; subst. eauto.
      + destruct (base_path cwd isdir path d) as [p|e] eqn:BP; cbn [bind].
        * exfalso. apply (N p). split; [now apply String.eqb_neq|]. exists d. split; auto.
        * intros X. inversion X; subst. apply GP in BP. discriminate.
    - destruct Rf as [NE [d' [L' X]]]. rewrite L in L'. inversion L'; subst d'.
      apply String.eqb_neq in NE. change BASE_CONFIG with "empty"%string. rewrite NE.
      unfold extends in X. unfold base_path. change BASE_CONFIG with "empty"%string. rewrite X. cbn [bind].
      intros H. assert (Hn : n < fuel) by lia. specialize (IH fuel Hn).
      destruct (parse fuel p) as [base|e] eqn:P; cbn [bind] in H.
      + eapply R in H; [congruence|]. intros bc bs bl Eb. subst. eapply parse_carries; eauto.
      + inversion H; subst. congruence.
  Qed.
End Inheritance.
