From Coq Require Import String Ascii List Bool Arith Lia Permutation.
From Verif Require Import Base ConfigModel ConfigSpec ConfigProofs PathModel ConfigFileModel ConfigFileSpec
  ConfigFileProofs GroupProofs ManyProofs CompanionProofs.
Import ListNotations.
Local Open Scope string_scope.
Local Open Scope list_scope.
Local Open Scope nat_scope.

(** ** C06 for the complete result *)

Lemma C06_many_lemma : forall cwd isdir load_toml dirs comments fuel fds cmd_args outs,
  get_config_many cwd isdir load_toml (infile_of cwd isdir dirs comments) fuel fds cmd_args = Ok outs ->
  exists nodes, Forall2 (fun '(paths, _, _) l => paths = map fst l /\
      (forall p n, In (p, n) l -> exists a b, In (a, b) fds /\ below a b p n) /\
      (excludes_infile (parse_args cmd_args) = false ->
       exists k, forall f, In f (flat_map (fun '(p, n) => py_files p n) l) ->
         exists c k', parse_infile_config cwd isdir f (dirs f) (comments f) = Ok c /\
           to_immutable c [] = Ok k' /\ same_iconfig k' k)) outs nodes /\
    ((forall p, parse_config_file cwd isdir load_toml fuel p <> Ok None) ->
     Permutation (flat_map (flat_map (fun '(p, n) => py_files p n)) nodes)
                 (flat_map (fun '(p, n) => py_files p n) fds)).
Proof.
  intros cwd isdir load_toml dirs comments fuel fds cmd_args outs H.
  destruct (outcome_group _ _ _ _ _ _ _ _ _ H) as [nodes [F P]]. exists nodes. split; [|exact P].
  clear H P. induction F as [|[[paths ic] la] l outs nodes A F IH]; constructor; auto.
  destruct A as (A1 & A2 & ci & li & _ & I & _). split; auto. split; auto.
  intros E. rewrite E in I. destruct I as (f & k & _ & _ & _ & _ & _ & HK). exists k. exact HK.
Qed.

(** ** C07: translations *)

Section Translations.
  Variable cwd : string.
  Variable isdir : string -> bool.
  Variable load_toml : string -> option (list (string * toml)).
  Notation one := (one_group cwd isdir load_toml).

  (** Only the translations depend on the memo. *)
  Lemma one_group_memo : forall fuel cmd cp memo c ps paths ic langs memo',
    one fuel cmd cp memo c ps = Ok (Some (paths, ic, langs), memo') ->
    exists langs0 m0, one fuel cmd cp [] c ps = Ok (Some (paths, ic, langs0), m0).
  Proof.
    intros fuel cmd cp memo c ps paths ic langs memo' H. unfold one_group in *.
    destruct (config_combine c cmd) as [cb|]; [|discriminate]. cbn [bind] in *.
    match type of H with bind ?k _ = _ => destruct k as [key|]; [|discriminate] end. cbn [bind] in *.
    destruct (parse_config_file cwd isdir load_toml fuel key) as [[[[cf sets] fl]|]|]; try discriminate.
    cbn [bind] in *. destruct (ignore_infile cf) as [ign|]; [|discriminate]. cbn [bind] in *.
    match type of H with bind ?k _ = _ => destruct k as [cc|]; [|discriminate] end. cbn [bind] in *.
    destruct (to_immutable cc sets) as [ic'|]; [|discriminate]. cbn [bind] in *.
    destruct (iget ic' LANGUAGE_FILE) as [lv|]; [|discriminate]. cbn [bind] in *.
    destruct (opt_str lv) as [[f|]|]; try discriminate; cbn [bind] in *.
    - cbn [dget]. destruct (match dget f memo with Some t => Some t | None => parse_lang_file load_toml f end);
        destruct (parse_lang_file load_toml f); inversion H; subst; eauto.
    - inversion H; subst. eauto.
  Qed.

  (** What a group looks like on its own. *)
  Definition own_outcome fuel cmd cp (cp_ps : config * list string) (o : outcome) : Prop :=
    exists m, one fuel cmd cp [] (fst cp_ps) (snd cp_ps) = Ok (Some o, m).

  Lemma lang_file_nodup : forall f t, parse_lang_file load_toml f = Some t -> NoDup (map fst t).
  Proof.
    unfold parse_lang_file. intros f t H. destruct (load_toml f) as [d|].
    - exact (parse_lang_nodup _ _ H).
    - inversion H; subst. constructor.
  Qed.

  Definition memo_ok (fl : lang_translations) (memo : dict lang_translations) : Prop :=
    forall f t, dget f memo = Some t -> exists t0, parse_lang_file load_toml f = Some t0 /\
      NoDup (map fst t) /\ forall id, dget id t = match dget id t0 with Some v => Some v | None => dget id fl end.

  (** One step with the config file given on the command line. *)
  Lemma one_step_cmd : forall fuel cmd p cf sets fl memo c ps r memo',
    parse_config_file cwd isdir load_toml fuel p = Ok (Some (cf, sets, fl)) -> NoDup (map fst fl) ->
    memo_ok fl memo ->
    one fuel cmd (Some p) memo c ps = Ok (r, memo') ->
    memo_ok fl memo' /\
    exists r0 m0, one fuel cmd (Some p) [] c ps = Ok (r0, m0) /\
      match r, r0 with
      | Some (paths, ic, langs), Some (paths0, ic0, langs0) =>
          paths = paths0 /\ ic = ic0 /\ forall id, dget id langs = dget id langs0
      | None, None => True
      | _, _ => False
      end.
  Proof.
    intros fuel cmd p cf sets fl memo c ps r memo' P N M H. unfold one_group in *.
    destruct (config_combine c cmd) as [cb|]; [|discriminate]. cbn [bind] in *.
    rewrite P in *. cbn [bind] in *.
    destruct (ignore_infile cf) as [ign|]; [|discriminate]. cbn [bind] in *.
    match type of H with bind ?k _ = _ => destruct k as [cc|]; [|discriminate] end. cbn [bind] in *.
    destruct (to_immutable cc sets) as [ic|]; [|discriminate]. cbn [bind] in *.
    destruct (iget ic LANGUAGE_FILE) as [lv|]; [|discriminate]. cbn [bind] in *.
    destruct (opt_str lv) as [[f|]|]; try discriminate; cbn [bind] in *.
    - cbn [dget]. destruct (dget f memo) as [t|] eqn:D.
      + destruct (M f t D) as [t0 [E [Nt Q]]]. rewrite E. cbv zeta in *. inversion H; subst. split.
        * intros g u Hg. rewrite dget_dset in Hg. destruct (String.eqb g f) eqn:Eg; [|eauto].
          apply String.eqb_eq in Eg. subst g. inversion Hg; subst. exists t0. split; auto.
          split; [now apply dmerge_nodup|]. intros id. rewrite dget_dmerge by auto. rewrite Q.
          destruct (dget id t0); auto. destruct (dget id fl); auto.
        * eexists. eexists. split; [reflexivity|]. cbv iota beta. repeat split; auto.
          intros id. rewrite !dget_dmerge by (auto; eapply lang_file_nodup; eauto). rewrite Q.
          destruct (dget id t0); auto. destruct (dget id fl); auto.
      + destruct (parse_lang_file load_toml f) as [t0|] eqn:E.
        * cbv zeta in *. inversion H; subst. split.
          -- intros g u Hg. rewrite dget_dset in Hg. destruct (String.eqb g f) eqn:Eg; [|eauto].
             apply String.eqb_eq in Eg. subst g. inversion Hg; subst. exists t0. split; auto.
             split; [now apply dmerge_nodup|]. intros id.
             rewrite dget_dmerge by (eapply lang_file_nodup; eauto). reflexivity.
          -- eexists. eexists. split; [reflexivity|]. cbv iota beta. auto.
        * inversion H; subst. split; auto. eexists. eexists. split; [reflexivity|]. cbv iota beta. auto.
    - inversion H; subst. split; auto. eexists. eexists. split; [reflexivity|]. cbv iota beta. auto.
  Qed.

  Lemma langs_nodup : forall fuel path c sets fl,
    parse_config_file cwd isdir load_toml fuel path = Ok (Some (c, sets, fl)) -> NoDup (map fst fl).
  Proof.
    induction fuel as [|fuel IH]; intros path c sets langs H; [discriminate|].
    apply parse_step in H as [d [this [bc [bs [bl [L [E [B [s [t [Es [Et [-> ->]]]]]]]]]]]]].
    apply dmerge_nodup. destruct (String.eqb path BASE_CONFIG).
    - destruct B as [_ ->]. constructor.
    - destruct B as [p [_ B]]. eauto.
  Qed.

  Lemma main_loop_cmd : forall fuel cmd p cf sets fl g memo outs,
    parse_config_file cwd isdir load_toml fuel p = Ok (Some (cf, sets, fl)) -> memo_ok fl memo ->
    main_loop cwd isdir load_toml fuel cmd (Some p) memo g = Ok outs ->
    Forall2 (fun cps o => exists langs0 m0,
        one fuel cmd (Some p) [] (fst cps) (snd cps) = Ok (Some (fst (fst o), snd (fst o), langs0), m0) /\
        forall id, dget id (snd o) = dget id langs0) g outs.
  Proof.
    intros fuel cmd p cf sets fl g. induction g as [|[c ps] g IH]; intros memo outs P M H.
    - inversion H; subst. constructor.
    - cbn [main_loop] in H. destruct (one fuel cmd (Some p) memo c ps) as [[r m]|] eqn:E; [|discriminate].
      cbn [bind snd fst] in H.
      destruct (main_loop cwd isdir load_toml fuel cmd (Some p) m g) as [rest|] eqn:R; [|discriminate].
      cbn [bind] in H.
      destruct (one_step_cmd _ _ _ _ _ _ _ _ _ _ _ P (langs_nodup _ _ _ _ _ P) M E) as [M' [r0 [m0 [E0 Q]]]].
      specialize (IH _ _ P M' R).
      destruct r as [[[paths ic] langs]|].
      + inversion H; subst. constructor; auto. destruct r0 as [[[p0 i0] l0]|]; [|destruct Q].
        destruct Q as [-> [-> Q]]. cbn [fst snd]. eauto.
      + exfalso. destruct r0; [destruct Q|]. clear - P E0. unfold one_group in E0.
        destruct (config_combine c cmd) as [cb|]; [|discriminate]. cbn [bind] in E0. rewrite P in E0. cbn [bind] in E0.
        destruct (ignore_infile cf) as [ign|]; [|discriminate]. cbn [bind] in *.
        match type of E0 with bind ?k _ = _ => destruct k as [cc|]; [|discriminate] end. cbn [bind] in *.
        destruct (to_immutable cc sets) as [ic|]; [|discriminate]. cbn [bind] in *.
        destruct (iget ic LANGUAGE_FILE) as [lv|]; [|discriminate]. cbn [bind] in *.
        destruct (opt_str lv) as [[f|]|]; try discriminate; cbn [bind dget] in *.
        destruct (parse_lang_file load_toml f); discriminate.
  Qed.
End Translations.

(** ** C10 *)

Lemma C10_entry_lemma : forall cwd isdir path name l o,
  documented_name o name -> o <> CONFIG_FILE -> o <> LANGUAGE_FILE ->
  entry_args cwd isdir path (name, TList (map TStr l)) = entry_args cwd isdir path (name, TStr (join "," l)).
Proof.
  intros cwd isdir path name l o D NC NL. unfold entry_args.
  destruct (parse_option name true) as [o'|] eqn:P; auto.
  apply parse_option_true in P as [D' _]. rewrite (documented_unique _ _ _ D' D).
  destruct o; try contradiction; cbn [bind config_file_val_to_str]; rewrite strings_of_strs; reflexivity.
Qed.

Lemma C10_table_lemma : forall key l,
  config_file_pair_to_str (key, TList (map TStr l)) = config_file_pair_to_str (key, TStr (join "," l)).
Proof. intros. unfold config_file_pair_to_str. cbn [snd fst config_file_val_to_str]. now rewrite strings_of_strs. Qed.

Lemma join_nonempty : forall c l, l <> [] -> Forall (fun s => s <> ""%string) l -> join c l <> ""%string.
Proof.
  intros c [|x [|y l]] N F; [contradiction| |]; inversion F; subst; simpl; auto.
  destruct x; simpl; [contradiction|discriminate].
Qed.

Lemma C10_parsed_lemma : forall o l v, In o [DISALLOWED_BUILTIN_NAMES; IGNORE_INFILE_CONFIG_FOR; EXPORT_GROUPS; SET_GROUPS] ->
  Forall (fun s => s <> ""%string /\ has_char "," s = false) l ->
  (Means o (Some (join "," l)) v <-> v = VList l).
Proof.
  intros o l v O F.
  assert (U : forall l1 l2, CommaParts (join "," l1) l2 -> Forall (fun s => s <> ""%string /\ has_char "," s = false) l1 -> l2 = l1).
  { clear. intros l1 l2 [[E ->]|[E1 [E2 [E3 E4]]]] F.
    - destruct l1; auto. exfalso. revert E. apply join_nonempty; [discriminate|].
      eapply Forall_impl; [|exact F]. intros ? [? ?]; auto.
    - assert (N : l1 <> []) by (intros ->; apply E1; reflexivity).
      rewrite <- (split_on_join "," l1), <- (split_on_join "," l2); auto; [now rewrite E3|].
      eapply Forall_impl; [|exact F]. intros ? [? ?]; auto. }
  assert (X : CommaParts (join "," l) l).
  { destruct l as [|x l]; [left; auto|]. right. split; [|split; [discriminate|split; auto]].
    - apply join_nonempty; [discriminate|]. eapply Forall_impl; [|exact F]. intros ? [? ?]; auto.
    - eapply Forall_impl; [|exact F]. intros ? [? ?]; auto. }
  assert (G : (exists l0, v = VList l0 /\ CommaParts (join "," l) l0) <-> v = VList l).
  { split.
    - intros [l0 [-> C]]. now rewrite (U l l0 C F).
    - intros ->. exists l. auto. }
  destruct O as [<-|[<-|[<-|[<-|[]]]]]; exact G.
Qed.

(** ** C11 *)

Lemma C11_never_lemma : forall cwd isdir path d l, FileOptions cwd isdir path d l -> last_in NO_FLAKE8 l = None.
Proof.
  intros cwd isdir path d l H.
  assert (E : forall name v l, EntryOptions cwd isdir path name v l -> last_in NO_FLAKE8 l = None).
  { clear. intros name v l H. destruct H; try reflexivity.
    - cbn [last_in]. destruct (same_opt NO_FLAKE8 o); congruence.
    - induction kts as [|[[k v] t] kts IH]; auto. cbn [map].
      assert (I : last_in NO_FLAKE8 (somes (map (fun '(k, _, t) => match t with
          | Some t0 => Some (o, Some ("--" ++ k ++ "=" ++ t0)%string) | None => None end) kts)) = None).
      { apply IH. intros. apply (H1 k0 v0 t0). now right. }
      destruct t; auto. cbn [somes last_in]. rewrite I.
      destruct (same_opt NO_FLAKE8 o); [subst; discriminate|auto]. }
  induction H; auto. rewrite last_in_app, IHFileOptions. eauto.
Qed.

Lemma C11_settable_lemma : forall cwd isdir path o t,
  o <> NO_FLAKE8 -> o <> CONFIG_FILE -> o <> LANGUAGE_FILE ->
  entry_args cwd isdir path (to_name o, TStr t) = Ok [(o, Some t)].
Proof. intros cwd isdir path [] t A B C; try contradiction; reflexivity. Qed.

(** ** C13 *)

Lemma C13_lemma : forall cwd isdir load_toml infile infile' fuel fds cmd_args,
  excludes_infile (parse_args cmd_args) = true ->
  get_config_many cwd isdir load_toml infile fuel fds cmd_args =
  get_config_many cwd isdir load_toml infile' fuel fds cmd_args.
Proof.
  intros cwd isdir load_toml infile infile' fuel fds cmd_args X. unfold get_config_many, parse_cmd_config.
  destruct (make_config_carries (Some "cmd") (parse_args cmd_args)) as [cmd [Ec [Cc _]]]. rewrite Ec. cbn [bind].
  assert (I : ignore_infile cmd = Ok true).
  { rewrite (ignore_infile_carries _ _ Cc). f_equal. rewrite <- X. apply excludes_ext. now apply last_in_in_effect_eq. }
  unfold parse_infile_configs. rewrite I. reflexivity.
Qed.

(** ** C15 *)

Lemma isabs_iff : forall p, isabs p = true <-> exists r, p = String sl r.
Proof.
  intros [|c r]; unfold isabs; cbn [String.prefix].
  - split; [discriminate|intros [r H]; discriminate].
  - destruct (ascii_dec "/" c) as [<-|N].
    + split; [eauto|]. intros _. destruct r; reflexivity.
    + split; [discriminate|]. intros [r' H]. injection H as H1 _. exfalso. apply N. symmetry. exact H1.
Qed.
Lemma isabs_pjoin : forall a b, isabs a = true -> isabs (pjoin a b) = true.
Proof.
  intros a b H. unfold pjoin. destruct (isabs b) eqn:B; auto.
  apply isabs_iff in H as [r ->]. destruct (String.eqb (String sl r) "" || ends_slash (String sl r));
    apply isabs_iff; simpl; eauto.
Qed.
Lemma isabs_normpath : forall p, isabs p = true -> isabs (normpath p) = true.
Proof.
  intros p H. apply isabs_iff in H as [r ->]. unfold normpath. cbn [String.eqb].
  set (n := initial_slashes (String sl r)).
  assert (N : exists m, n = S m).
  { unfold n, initial_slashes. destruct (String.prefix "//" (String sl r) && negb (String.prefix "///" (String sl r))); eauto.
    assert (E : String.prefix "/" (String sl r) = true) by (simpl; destruct r; reflexivity).
    rewrite E. eauto. }
  destruct N as [m ->]. cbn [slashes]. simpl (_ ++ _)%string. cbn [String.eqb]. apply isabs_iff. eauto.
Qed.
Lemma isabs_local : forall p, isabs p = true -> get_config_type p = LOCAL.
Proof. intros p H. apply isabs_iff in H as [r ->]. reflexivity. Qed.

Lemma C15_lemma : forall cwd isdir p parent q, isabs cwd = true ->
  get_path_relative_to cwd isdir p parent = Ok q ->
  (get_config_type q = PACKAGED \/ get_config_type q = REMOTE \/ isabs q = true) /\
  forall cwd' isdir' parent', get_path_relative_to cwd' isdir' q parent' = Ok q.
Proof.
  intros cwd isdir p parent q A H.
  assert (Q : get_config_type q = PACKAGED \/ get_config_type q = REMOTE \/ isabs q = true).
  { unfold get_path_relative_to in H.
    destruct (get_config_type p) eqn:T; destruct (isabs p) eqn:I; try (inversion H; subst; auto; fail).
    destruct (isdir parent); [discriminate|]. inversion H; subst. right. right.
    unfold abspath. apply isabs_normpath. destruct (isabs (pjoin (dirname parent) p)) eqn:J; auto.
    now apply isabs_pjoin. }
  split; auto. intros. unfold get_path_relative_to.
  destruct Q as [->|[->|Q]]; auto. rewrite (isabs_local q Q), Q. reflexivity.
Qed.
