From Coq Require Import String Ascii List Bool Arith Lia Permutation.
From Verif Require Import Base ConfigModel ConfigSpec ConfigProofs PathModel ConfigFileModel ConfigFileSpec
  ConfigFileProofs GroupProofs.
Import ListNotations.
Local Open Scope string_scope.
Local Open Scope list_scope.
Local Open Scope nat_scope.

(** ** In-file configuration *)

Lemma search_none : forall dirs, search_for_config_in_parents dirs = None.
Proof.
  induction dirs as [|[p names] dirs IH]; auto. simpl. destruct dirs; auto.
  assert (F : find (fun n => name_is_tuple n IMPLICIT_CONFIG_FILENAMES) names = None)
    by (induction names; auto).
  now rewrite F.
Qed.

Lemma join_comma_parts : forall s, join "," (comma_parts s) = s.
Proof.
  intros. unfold comma_parts. destruct (String.eqb s "") eqn:E; [apply String.eqb_eq in E; now subst|].
  apply join_split_on.
Qed.

Lemma last_in_self_app : forall o l v, last_in o (l ++ [(o, v)]) = Some v.
Proof. intros. rewrite last_in_app. simpl. destruct (same_opt o o); congruence. Qed.
Lemma last_in_other_app : forall o o' l v, o <> o' -> last_in o (l ++ [(o', v)]) = last_in o l.
Proof. intros. rewrite last_in_app. simpl. destruct (same_opt o o'); congruence. Qed.

Lemma resolve_carries : forall cwd isdir path c l o c', carries c l ->
  (o = CONFIG_FILE \/ o = LANGUAGE_FILE) ->
  resolve_relative_option_path cwd isdir path c o = Ok c' ->
  exists r, carries c' (l ++ r) /\ enablers_of c' = enablers_of c /\ Resolved cwd isdir path l o r.
Proof.
  intros cwd isdir path c l o c' C O H. unfold resolve_relative_option_path in H.
  rewrite (get_last_value_carries c l) in H by (auto; destruct O; subst; auto). cbn [bind] in H.
  destruct (last_in o l) as [v|] eqn:L.
  - replace (convert (conv_of (parse_of o)) v) with (VOptStr v) in H by (destruct O; subst; reflexivity).
    destruct v as [s|].
    + destruct (get_path_relative_to cwd isdir s path) as [p|] eqn:P; [|discriminate]. cbn [bind] in H.
      inversion H; subst. exists [(o, Some p)]. split; [|split; [reflexivity|eapply resolved_some; eauto]].
      unfold carries in *. simpl. rewrite somes_app, C, convert_app. simpl.
      destruct O; subst; reflexivity.
    + inversion H; subst. exists []. rewrite app_nil_r. split; auto. split; auto. constructor. auto.
  - cbn in H. inversion H; subst. exists []. rewrite app_nil_r. split; auto. split; auto. constructor. auto.
Qed.

Lemma Resolved_ext : forall cwd isdir path l l' o r, last_in o l = last_in o l' ->
  Resolved cwd isdir path l o r -> Resolved cwd isdir path l' o r.
Proof.
  intros cwd isdir path l l' o r E H. destruct H as [o H|o s p H P].
  - apply resolved_none. now rewrite <- E.
  - eapply resolved_some; eauto. now rewrite <- E.
Qed.

Lemma excludes_ext : forall l l', last_in IGNORE_INFILE_CONFIG_FOR l = last_in IGNORE_INFILE_CONFIG_FOR l' ->
  excludes_infile l = excludes_infile l'.
Proof. intros l l' H. unfold excludes_infile. now rewrite H. Qed.

Lemma excludes_some : forall l, excludes_infile l = true ->
  exists s, last_in IGNORE_INFILE_CONFIG_FOR l = Some (Some s) /\
  str_in "edulint" (comma_parts s) || str_in "all" (comma_parts s) = true.
Proof.
  unfold excludes_infile. intros l H. destruct (last_in IGNORE_INFILE_CONFIG_FOR l) as [[s|]|]; try discriminate. eauto.
Qed.

Lemma infile_carries : forall cwd isdir path dirs extracted c,
  parse_infile_config cwd isdir path dirs extracted = Ok c ->
  exists l l', InfileLayer cwd isdir path (parse_args extracted) l /\ carries c l' /\ in_effect l' = in_effect l.
Proof.
  intros cwd isdir path dirs extracted c H. unfold parse_infile_config in H. rewrite search_none in H.
  set (opts := parse_args extracted) in *. clearbody opts.
  destruct (make_config_carries (Some "in-file") opts) as [c0 [E0 [C0 _]]]. rewrite E0 in H. cbn [bind] in H.
  destruct (resolve_relative_option_path cwd isdir path c0 CONFIG_FILE) as [c1|] eqn:R1; [|discriminate]. cbn [bind] in H.
  destruct (resolve_relative_option_path cwd isdir path c1 LANGUAGE_FILE) as [c2|] eqn:R2; [|discriminate]. cbn [bind] in H.
  destruct (resolve_carries _ _ _ _ _ _ _ C0 (or_introl eq_refl) R1) as [r1 [C1 [_ V1]]].
  destruct (resolve_carries _ _ _ _ _ _ _ C1 (or_intror eq_refl) R2) as [r2 [C2 [_ V2]]].
  assert (V1' : Resolved cwd isdir path opts CONFIG_FILE r1).
  { eapply Resolved_ext; [|exact V1]. now apply last_in_in_effect_eq. }
  assert (V2' : Resolved cwd isdir path opts LANGUAGE_FILE r2).
  { eapply Resolved_ext; [|exact V2]. rewrite last_in_app.
    assert (N1 : last_in LANGUAGE_FILE r1 = None) by (inversion V1'; subst; auto).
    rewrite N1. now apply last_in_in_effect_eq. }
  assert (LI : last_in IGNORE_INFILE_CONFIG_FOR ((in_effect opts ++ r1) ++ r2) = last_in IGNORE_INFILE_CONFIG_FOR opts).
  { rewrite !last_in_app.
    assert (N1 : last_in IGNORE_INFILE_CONFIG_FOR r1 = None).
    { inversion V1'; subst; auto. }
    assert (N2 : last_in IGNORE_INFILE_CONFIG_FOR r2 = None) by (inversion V2'; subst; auto).
    rewrite N1, N2. now apply last_in_in_effect_eq. }
  unfold resolve_ignore_infile_config in H.
  rewrite (ignore_infile_carries _ _ C2) in H. cbn [bind] in H.
  rewrite (excludes_ext _ _ LI) in H.
  destruct (excludes_infile opts) eqn:X; cbn [negb] in H.
  - rewrite (get_last_value_carries _ _ _ _ C2) in H by auto. cbn [bind] in H. rewrite LI in H.
    destruct (excludes_some _ X) as [s [Ls B]]. rewrite Ls in H.
    change (convert (conv_of (parse_of IGNORE_INFILE_CONFIG_FOR)) (Some s)) with (VList (comma_parts s)) in H. cbn iota in H.
    rewrite B, join_comma_parts in H.
    destruct (make_config_carries (Some "in-file") [(IGNORE_INFILE_CONFIG_FOR, Some s)]) as [c' [E' [C' _]]].
    rewrite E' in H. inversion H; subst. exists [(IGNORE_INFILE_CONFIG_FOR, Some s)], [(IGNORE_INFILE_CONFIG_FOR, Some s)].
    split; [apply infile_excluded; auto|]. split; auto.
  - inversion H; subst. exists (opts ++ r1 ++ r2), ((in_effect opts ++ r1) ++ r2).
    split; [apply infile_resolved; auto|]. split; [auto|].
    rewrite <- app_assoc. apply in_effect_in_effect_app.
Qed.

(** ** Option sets read from files have no empty entries *)

Definition sets_filled (sets : option_sets) : Prop :=
  forall name s, In (name, s) sets -> forall l vals, In (l, vals) s -> vals <> [].

Lemma in_dset : forall V k (v : V) d x y, In (x, y) (dset k v d) -> (x = k /\ y = v) \/ In (x, y) d.
Proof.
  induction d as [|[k' v'] d IH]; simpl; intros x y H.
  - destruct H as [H|[]]. inversion H; auto.
  - destruct (String.eqb k k') eqn:E.
    + apply String.eqb_eq in E. subst. destruct H as [H|H]; [inversion H; auto | auto].
    + destruct H as [H|H]; [auto|]. apply IH in H as [H|H]; auto.
Qed.
Lemma in_dmerge : forall V (b a : dict V) x y, In (x, y) (dmerge a b) -> In (x, y) a \/ In (x, y) b.
Proof.
  unfold dmerge. induction b as [|[k v] b IH]; simpl; intros a x y H; auto.
  apply IH in H as [H|H]; auto. apply in_dset in H as [[-> ->]|H]; auto.
Qed.
Lemma set_linter_in : forall l vals s l' v', In (l', v') (set_linter l vals s) ->
  v' = vals \/ In (l', v') s.
Proof.
  induction s as [|[l2 v2] s IH]; simpl; intros l' v' H.
  - destruct H as [H|[]]. inversion H; auto.
  - destruct (linter_eqb l l2); destruct H as [H|H]; try (inversion H; auto; fail); auto.
    apply IH in H as [H|H]; auto.
Qed.
Lemma parse_option_set_filled : forall to acc s, parse_option_set to acc = Ok s ->
  (forall l vals, In (l, vals) acc -> vals <> []) -> forall l vals, In (l, vals) s -> vals <> [].
Proof.
  induction to as [|[k v] to IH]; simpl; intros acc s H A; [inversion H; subst; auto|].
  destruct (linter_safe_from_name k) as [li|]; [|eauto].
  destruct (set_strings v) as [r|]; [|discriminate]. cbn [bind] in H. eapply IH; [exact H|].
  destruct r; auto. intros l vals Hin. apply set_linter_in in Hin as [->|Hin]; [discriminate|eauto].
Qed.
Lemma parse_sets_filled : forall d acc s, parse_sets d acc = Ok s -> sets_filled acc -> sets_filled s.
Proof.
  induction d as [|[k v] d IH]; simpl; intros acc s H A; [inversion H; subst; auto|].
  destruct v; eauto. destruct (parse_option_set d0 []) as [os|] eqn:E; [|discriminate]. cbn [bind] in H.
  eapply IH; [exact H|]. destruct os; auto. intros name s0 Hin.
  apply in_dset in Hin as [[-> ->]|Hin]; [|eauto].
  eapply parse_option_set_filled; [exact E|]. intros ? ? [].
Qed.
Lemma entries_loop_filled : forall cwd isdir path d acc this,
  entries_loop cwd isdir path d acc = Ok this ->
  (forall s, own_sets acc = Some s -> sets_filled s) -> forall s, own_sets this = Some s -> sets_filled s.
Proof.
  induction d as [|kv d IH]; simpl; intros acc this H A; [inversion H; subst; auto|].
  destruct (entry_step cwd isdir path acc kv) as [acc'|] eqn:E; [|discriminate]. cbn [bind] in H.
  eapply IH; [exact H|]. clear IH H. unfold entry_step in E.
  destruct (String.eqb (fst kv) "translations").
  { unfold parse_option_sets in E.
    destruct (snd kv); cbn [bind] in E; try (inversion E; subst; simpl; discriminate).
    destruct (parse_sets d0 []) as [s0|] eqn:P; [|discriminate]. cbn [bind] in E. inversion E; subst. simpl.
    intros s Hs. inversion Hs; subst. eapply parse_sets_filled; [exact P|]. intros ? ? []. }
  destruct (String.eqb (fst kv) "language-translations"); [inversion E; subst; exact A|].
  destruct (String.eqb (fst kv) "default-enabler-name"); [inversion E; subst; exact A|].
  destruct (entry_args cwd isdir path kv); [|discriminate]. cbn [bind] in E. inversion E; subst. exact A.
Qed.
Lemma parse_filled : forall cwd isdir load fuel path c sets langs,
  parse_config_file cwd isdir load fuel path = Ok (Some (c, sets, langs)) -> sets_filled sets.
Proof.
  induction fuel as [|fuel IH]; intros path c sets langs H; [discriminate|].
  apply parse_step in H as [d [this [bc [bs [bl [L [E [B [s [t [Es [_ [-> _]]]]]]]]]]]]].
  assert (F : sets_filled s).
  { eapply entries_loop_filled; [exact E| |exact Es]. simpl. intros s0 H. inversion H; subst. intros ? ? []. }
  assert (FB : sets_filled bs).
  { destruct (String.eqb path BASE_CONFIG).
    - destruct B as [-> _]. intros ? ? [].
    - destruct B as [p [_ B]]. eauto. }
  intros name s0 Hin. apply in_dmerge in Hin as [Hin|Hin]; eauto.
Qed.

Lemma set_enablers_wf : forall n s d d', set_enablers n s d = Ok d' -> 
  (forall l vals, In (l, vals) s -> vals <> []) -> forall l vals, In (l, vals) s -> l <> EDULINT_L.
Proof.
  induction s as [|[l vals] s IH]; simpl; intros d d' H F l' v' Hin; [destruct Hin|].
  destruct vals as [|v vals]; [exfalso; apply (F l [] (or_introl eq_refl) eq_refl)|].
  destruct (linter_to_option l) as [o|] eqn:E; [|discriminate]. cbn [bind] in H.
  destruct Hin as [Hin|Hin].
  - inversion Hin; subst. intros ->. discriminate.
  - eapply IH; [exact H | | exact Hin]. intros l0 v0 H0. apply (F l0 v0). auto.
Qed.
Lemma sets_enablers_wf : forall s d d', sets_enablers s d = Ok d' -> sets_filled s -> sets_wellformed s.
Proof.
  induction s as [|[n x] s IH]; intros d d' H F name s0 Hin; [destruct Hin|].
  simpl in H. destruct (set_enablers n x d) as [d1|] eqn:E; [|discriminate]. cbn [bind] in H.
  destruct Hin as [Hin|Hin].
  - inversion Hin; subst. eapply set_enablers_wf; [exact E|]. apply (F name s0). now left.
  - eapply IH; [exact H | | exact Hin]. intros n0 s1 H1. apply (F n0). now right.
Qed.
Lemma to_immutable_wf : forall c sets ic, to_immutable c sets = Ok ic -> sets_filled sets -> sets_wellformed sets.
Proof.
  unfold to_immutable. intros c sets ic H F.
  destruct (translate sets (args_of c)) as [a|]; [|discriminate]. cbn [bind] in H.
  destruct (combine_args _ a) as [b|]; [|discriminate]. cbn [bind] in H.
  destruct (order_loop b default_args); [|discriminate]. cbn [bind] in H.
  destruct (sets_enablers sets []) as [d|] eqn:E; [|discriminate]. eapply sets_enablers_wf; eauto.
Qed.

(** ** One group *)

(** What an immutable configuration made from the options [l] and the option sets gives. *)
Definition gives (ic : iconfig) (sets : option_sets) (l : list uarg) : Prop :=
  forall o, iget ic o =
    Ok (if accumulates o
        then finish o (VList (flat_map (supplies o sets) (in_effect l)))
        else match last_in o l with
             | Some v => convert (conv_of (parse_of o)) v
             | None => default (parse_of o)
             end).

Lemma gives_of : forall c l l' sets ic, sets_wellformed sets -> carries c l -> in_effect l' = l ->
  to_immutable c sets = Ok ic -> gives ic sets l'.
Proof.
  intros c l l' sets ic W C E H o.
  destruct (to_immutable_carries c l sets W C) as [ic' [H1 [_ H2]]]. rewrite H in H1. inversion H1; subst ic'.
  rewrite H2, <- E. destruct (accumulates o) eqn:A; auto. now rewrite last_in_in_effect_eq.
Qed.

Lemma gives_strongest : forall ic sets l o, gives ic sets l -> accumulates o = false ->
  exists v, iget ic o = Ok v /\
  match last_in o l with Some t => Means o t v | None => v = documented_default o end.
Proof.
  intros ic sets l o G A. rewrite G, A. eexists. split; [reflexivity|].
  destruct (last_in o l); [apply convert_means | apply default_documented].
Qed.
Lemma gives_lists : forall ic sets l, gives ic sets l ->
  iget ic FLAKE8 = Ok (VList (flat_map (supplies FLAKE8 sets) (in_effect l))) /\
  iget ic PYLINT = Ok (VList (resolve_enable_disable_all (flat_map (supplies PYLINT sets) (in_effect l)))).
Proof. intros ic sets l G. split; rewrite G; reflexivity. Qed.

Section Groups.
  Variable cwd : string.
  Variable isdir : string -> bool.
  Variable load_toml : string -> option (list (string * toml)).
  Notation parse := (parse_config_file cwd isdir load_toml).
  Notation one := (one_group cwd isdir load_toml).

  Definition force (excl : bool) (cp : option string) (lf li lc : list uarg) : list uarg :=
    if excl then match cp with Some _ => lf ++ lc | None => lc end else lf ++ li ++ lc.

  Lemma one_group_ok : forall fuel cmd lc cp memo ci li paths paths' ic langs memo',
    carries cmd (in_effect lc) -> 
    (exists li', carries ci li' /\ in_effect li' = in_effect li) ->
    cp = match last_in CONFIG_FILE lc with Some p => p | None => None end ->
    one fuel cmd cp memo ci paths = Ok (Some (paths', ic, langs), memo') ->
    paths' = paths /\
    exists cf lf sets flangs, parse fuel (selected lc li) = Ok (Some (cf, sets, flangs)) /\
      carries cf (in_effect lf) /\ sets_wellformed sets /\
      (forall lf', carries cf (in_effect lf') ->
         gives ic sets (force (excludes_infile lf') cp lf' li lc)).
  Proof.
    intros fuel cmd lc cp memo ci li paths paths' ic langs memo' Cc [li' [Ci Ei]] Ep H. unfold one_group in H.
    destruct (combine_carries ci cmd _ _ Ci Cc) as [cb [Ecb [Ccb _]]]. rewrite Ecb in H. cbn [bind] in H.
    assert (Ccb' : in_effect (li' ++ in_effect lc) = in_effect (li ++ lc)).
    { rewrite in_effect_app_in_effect, <- in_effect_in_effect_app, Ei. apply in_effect_in_effect_app. }
    rewrite Ccb' in Ccb.
    assert (Lcf : last_in CONFIG_FILE li' = last_in CONFIG_FILE li).
    { rewrite <- (last_in_in_effect_eq CONFIG_FILE li') by auto. rewrite Ei. now apply last_in_in_effect_eq. }
    assert (K : exists k, k = selected lc li /\ 
      (do r <- parse fuel k;
       match r with
       | None => Ok (None, memo)
       | Some (file_config, sets, langs) =>
        do ign <- ignore_infile file_config;
        do c <- (if ign
                 then match cp with
                      | Some _ => config_combine file_config cmd
                      | None => Ok cmd
                      end
                 else config_combine file_config cb);
        do ic <- to_immutable c sets;
        do lv <- iget ic LANGUAGE_FILE;
        do lf <- opt_str lv;
        match lf with
        | None => Ok (Some (paths, ic, langs), memo)
        | Some f =>
            match (match dget f memo with Some t => Some t | None => parse_lang_file load_toml f end) with
            | Some t =>
                let langs' := dmerge langs t in
                Ok (Some (paths, ic, langs'), dset f langs' memo)
            | None => Ok (Some (paths, ic, langs), memo)
            end
        end
       end) = Ok (Some (paths', ic, langs), memo')).
    { unfold selected. destruct (last_in CONFIG_FILE lc) as [[p|]|] eqn:Lc; subst cp; cbn [bind] in H.
      - exists p. split; auto.
      - rewrite (get_last_value_carries _ _ _ _ Ci) in H by auto. rewrite Lcf in H.
        destruct (last_in CONFIG_FILE li) as [[q|]|]; cbn in H; try discriminate; eexists; (split; [reflexivity|exact H]).
      - rewrite (get_last_value_carries _ _ _ _ Ci) in H by auto. rewrite Lcf in H.
        destruct (last_in CONFIG_FILE li) as [[q|]|]; cbn in H; try discriminate; eexists; (split; [reflexivity|exact H]). }
    clear H. destruct K as [k [-> H]].
    destruct (parse fuel (selected lc li)) as [r|] eqn:P; [|discriminate]. cbn [bind] in H.
    destruct r as [[[cf sets] flangs]|]; [|discriminate].
    pose proof (parse_filled _ _ _ _ _ _ _ _ P) as F.
    destruct (parse_carries _ _ _ _ _ _ _ _ P) as [lf0 Cf].
    assert (Cf' : exists lf, carries cf (in_effect lf)).
    { clear - P. apply C08_chain_lemma in P as [lin [files [_ [_ H]]]].
      destruct (make_config_ok None []) as [b [E1 [H1 _]]]. rewrite E1 in H. cbn [bind] in H.
      destruct (chain_ok files b _ H1) as [c' [E2 H2]]. rewrite E2 in H. inversion H; subst.
      exists (concat (map snd files)). apply holds_effect, H2. }
    clear lf0 Cf. destruct Cf' as [lf Cf].
    assert (IG : ignore_infile cf = Ok (excludes_infile lf)).
    { rewrite (ignore_infile_carries _ _ Cf). f_equal. apply excludes_ext. now apply last_in_in_effect_eq. }
    rewrite IG in H. cbn [bind] in H.
    set (sel := if excludes_infile lf then match cp with Some _ => config_combine cf cmd | None => Ok cmd end
                else config_combine cf cb) in H.
    assert (S : exists c, sel = Ok c /\ forall lf', carries cf (in_effect lf') ->
       carries c (in_effect (force (excludes_infile lf') cp lf' li lc))).
    { assert (X : forall lf', carries cf (in_effect lf') -> excludes_infile lf' = excludes_infile lf).
      { intros lf' C'. pose proof (ignore_infile_carries _ _ C') as Y. rewrite IG in Y. injection Y as Y. rewrite Y.
        apply excludes_ext. symmetry. now apply last_in_in_effect_eq. }
      unfold sel, force. destruct (excludes_infile lf) eqn:XL; [destruct cp as [p|]|].
      - destruct (combine_carries cf cmd _ _ Cf Cc) as [c [E [C _]]]. exists c. split; auto.
        intros lf' C'. rewrite (X _ C').
        destruct (combine_carries cf cmd _ _ C' Cc) as [c2 [E2 [C2 _]]]. rewrite E in E2. inversion E2; subst c2.
        now rewrite in_effect_app_in_effect, in_effect_in_effect_app in C2.
      - exists cmd. split; auto. intros lf' C'. now rewrite (X _ C').
      - destruct (combine_carries cf cb _ _ Cf Ccb) as [c [E [C _]]]. exists c. split; auto.
        intros lf' C'. rewrite (X _ C').
        destruct (combine_carries cf cb _ _ C' Ccb) as [c2 [E2 [C2 _]]]. rewrite E in E2. inversion E2; subst c2.
        now rewrite in_effect_app_in_effect, in_effect_in_effect_app in C2. }
    destruct S as [c [Ec Sc]]. rewrite Ec in H. cbn [bind] in H.
    destruct (to_immutable c sets) as [ic'|] eqn:T; [|discriminate]. cbn [bind] in H.
    pose proof (to_immutable_wf _ _ _ T F) as W.
    assert (R : paths' = paths /\ ic' = ic).
    { destruct (iget ic' LANGUAGE_FILE) as [lv|]; [|discriminate]. cbn [bind] in H.
      destruct (opt_str lv) as [[f|]|]; [| |discriminate]; cbn [bind] in H.
      - destruct (match dget f memo with Some t => Some t | None => parse_lang_file load_toml f end);
          inversion H; subst; auto.
      - inversion H; subst; auto. }
    destruct R as [-> ->]. split; auto. exists cf, lf, sets, flangs. split; auto. split; auto. split; auto.
    intros lf' C'. exact (gives_of c _ _ sets ic W (Sc lf' C') eq_refl T).
  Qed.
End Groups.

(** ** Inherited option sets and translations *)

Lemma Lineage_det : forall cwd isdir load path l1, Lineage cwd isdir load path l1 ->
  forall l2, Lineage cwd isdir load path l2 -> l1 = l2.
Proof.
  intros cwd isdir load path l1 H. induction H as [d L | path d p l N L X H IH]; intros l2 H2.
  - inversion H2 as [d' L' | ? ? ? ? N' ? ? ?]; subst; [congruence | contradiction].
  - inversion H2 as [d' L' | ? d' p' l' N' L' X' H']; subst; [contradiction|].
    rewrite L in L'. inversion L'; subst d'. unfold extends in *. rewrite X in X'. inversion X'; subst p'.
    now rewrite (IH l').
Qed.

Lemma last_def_app : forall V n (a b : list (dict V)), last_def n (a ++ b) =
  match last_def n b with Some v => Some v | None => last_def n a end.
Proof.
  induction a as [|d a IH]; intros b; simpl.
  - destruct (last_def n b); auto.
  - rewrite IH. destruct (last_def n b); auto.
Qed.

Lemma parse_sets_nodup : forall d acc s, parse_sets d acc = Ok s -> NoDup (map fst acc) -> NoDup (map fst s).
Proof.
  induction d as [|[k v] d IH]; simpl; intros acc s H N; [inversion H; subst; auto|].
  destruct v; eauto. destruct (parse_option_set d0 []) as [os|]; [|discriminate]. cbn [bind] in H.
  eapply IH; [exact H|]. destruct os; auto. now apply dset_nodup.
Qed.
Lemma parse_translations_nodup : forall ex d acc, NoDup (map fst acc) ->
  NoDup (map fst (parse_translations ex d acc)).
Proof.
  induction d as [|[k v] d IH]; simpl; intros acc N; auto.
  destruct v; auto. destruct (String.eqb k "translated_extracts"); auto. apply IH. now apply dset_nodup.
Qed.
Lemma own_sets_nodup : forall d s, OwnSets d s -> NoDup (map fst s).
Proof.
  unfold OwnSets. intros d s H. destruct (dlast "translations" d) as [v|]; [|subst; constructor].
  destruct v; try discriminate. simpl in H. destruct (parse_sets d0 []) as [s'|] eqn:E; [|discriminate].
  cbn [bind] in H. inversion H; subst. eapply parse_sets_nodup; eauto. constructor.
Qed.
Lemma parse_lang_nodup : forall v t, parse_lang_translations v = Some t -> NoDup (map fst t).
Proof. intros v t H. destruct v; try discriminate. inversion H; subst. apply parse_translations_nodup. constructor. Qed.
Lemma own_langs_nodup : forall d s, OwnLangs d s -> NoDup (map fst s).
Proof.
  unfold OwnLangs. intros d s H. destruct (dlast "language-translations" d) as [v|]; [|subst; constructor].
  eapply parse_lang_nodup; eauto.
Qed.

Lemma entries_loop_own : forall cwd isdir path d acc this,
  entries_loop cwd isdir path d acc = Ok this ->
  match dlast "translations" d with
  | Some v => parse_option_sets v = Ok (own_sets this)
  | None => own_sets this = own_sets acc
  end /\
  match dlast "language-translations" d with
  | Some v => parse_lang_translations v = own_langs this
  | None => own_langs this = own_langs acc
  end.
Proof.
  induction d as [|[n v] d IH]; intros acc this H.
  - simpl in H. inversion H; subst. split; reflexivity.
  - cbn [entries_loop] in H.
    destruct (entry_step cwd isdir path acc (n, v)) as [acc'|] eqn:E; [|discriminate]. cbn [bind] in H.
    apply IH in H as [A B]. clear IH. unfold entry_step in E. cbn [fst snd] in E. cbn [dlast].
    rewrite (String.eqb_sym "translations" n), (String.eqb_sym "language-translations" n).
    destruct (String.eqb n "translations") eqn:E1.
    { apply String.eqb_eq in E1. subst n. change (String.eqb "translations" "language-translations") with false.
      destruct (parse_option_sets v) as [s|] eqn:P; [|discriminate]. cbn [bind] in E. inversion E; subst.
      simpl in A, B. split.
      - destruct (dlast "translations" d); auto. now rewrite P, A.
      - destruct (dlast "language-translations" d); auto. }
    destruct (String.eqb n "language-translations") eqn:E2.
    { inversion E; subst. simpl in A, B. split.
      - destruct (dlast "translations" d); auto.
      - destruct (dlast "language-translations" d); auto. }
    assert (O : own_sets acc' = own_sets acc /\ own_langs acc' = own_langs acc).
    { destruct (String.eqb n "default-enabler-name"); [inversion E; subst; auto|].
      destruct (entry_args cwd isdir path (n, v)); [|discriminate]. cbn [bind] in E. inversion E; subst. auto. }
    destruct O as [O1 O2]. rewrite O1 in A. rewrite O2 in B.
    split; [destruct (dlast "translations" d) | destruct (dlast "language-translations" d)]; auto.
Qed.

Lemma parse_sets_lineage : forall cwd isdir load fuel path c sets langs,
  parse_config_file cwd isdir load fuel path = Ok (Some (c, sets, langs)) ->
  exists lineage ss ts, Lineage cwd isdir load path lineage /\
    Forall2 (fun pd s => OwnSets (snd pd) s) lineage ss /\
    Forall2 (fun pd t => OwnLangs (snd pd) t) lineage ts /\
    (forall name, dget name sets = last_def name ss) /\
    (forall id, dget id langs = last_def id ts).
Proof.
  induction fuel as [|fuel IH]; intros path c sets langs H; [discriminate|].
  apply parse_step in H as [d [this [bc [bs [bl [L [E [B [s [t [Es [Et [-> ->]]]]]]]]]]]]].
  apply entries_loop_own in E as [E1 E2]. simpl in E1, E2. rewrite Es in E1. rewrite Et in E2.
  assert (OS : OwnSets d s).
  { unfold OwnSets. destruct (dlast "translations" d); auto. congruence. }
  assert (OL : OwnLangs d t).
  { unfold OwnLangs. destruct (dlast "language-translations" d); auto. congruence. }
  destruct (String.eqb path BASE_CONFIG) eqn:EB.
  - destruct B as [-> ->]. apply String.eqb_eq in EB. subst path.
    exists [(BASE_CONFIG, d)], [s], [t]. split; [now apply lineage_root|].
    split; [constructor; auto|]. split; [constructor; auto|]. split.
    + intros n. rewrite dget_dmerge by (eapply own_sets_nodup; eauto). simpl. destruct (dget n s); auto.
    + intros n. rewrite dget_dmerge by (eapply own_langs_nodup; eauto). simpl. destruct (dget n t); auto.
  - destruct B as [p [BP P]]. destruct (IH _ _ _ _ P) as [lin [ss [ts [A1 [A2 [A3 [A4 A5]]]]]]].
    exists (lin ++ [(path, d)]), (ss ++ [s]), (ts ++ [t]).
    split; [eapply lineage_step; eauto; now apply String.eqb_neq|].
    split; [apply Forall2_app; auto|]. split; [apply Forall2_app; auto|]. split.
    + intros n. rewrite dget_dmerge by (eapply own_sets_nodup; eauto). rewrite last_def_app. simpl.
      rewrite A4. destruct (dget n s); auto.
    + intros n. rewrite dget_dmerge by (eapply own_langs_nodup; eauto). rewrite last_def_app. simpl.
      rewrite A5. destruct (dget n t); auto.
Qed.

Lemma C08_lemma : forall cwd isdir load fuel path c sets langs,
  parse_config_file cwd isdir load fuel path = Ok (Some (c, sets, langs)) ->
  exists lineage files ss ts, Lineage cwd isdir load path lineage /\
    Forall2 (fun pd l => FileOptions cwd isdir (fst pd) (snd pd) l) lineage files /\
    Forall2 (fun pd s => OwnSets (snd pd) s) lineage ss /\
    Forall2 (fun pd t => OwnLangs (snd pd) t) lineage ts /\
    carries c (in_effect (concat files)) /\
    (forall name, dget name sets = last_def name ss) /\
    (forall id, dget id langs = last_def id ts).
Proof.
  intros cwd isdir load fuel path c sets langs H.
  destruct (parse_sets_lineage _ _ _ _ _ _ _ _ H) as [lin [ss [ts [A1 [A2 [A3 [A4 A5]]]]]]].
  apply C08_chain_lemma in H as [lin' [files [B1 [B2 B3]]]].
  assert (lin' = lin) by (eapply Lineage_det; eauto). subst lin'.
  exists lin, (map snd files), ss, ts. split; [auto|]. split.
  { clear - B2. induction B2; simpl; constructor; auto. }
  repeat split; auto.
  destruct (make_config_ok None []) as [b [E1 [H1 _]]]. rewrite E1 in B3. cbn [bind] in B3.
  destruct (chain_ok files b _ H1) as [c' [E2 H2]]. rewrite E2 in B3. inversion B3; subst.
  apply holds_effect, H2.
Qed.

(** ** All groups *)

Lemma strongest_app : forall o a b, strongest o (a ++ b) =
  match strongest o a with Some v => Some v | None => strongest o b end.
Proof. induction a as [|l a IH]; simpl; intros; auto. destruct (last_in o l); auto. Qed.
Lemma strongest_concat : forall o ls, strongest o ls = last_in o (concat (rev ls)).
Proof.
  induction ls as [|l ls IH]; simpl; auto. rewrite concat_app, last_in_app. simpl. rewrite app_nil_r, IH.
  destruct (last_in o l); auto.
Qed.

Section Main.
  Variable cwd : string.
  Variable isdir : string -> bool.
  Variable load_toml : string -> option (list (string * toml)).
  Notation parse := (parse_config_file cwd isdir load_toml).
  Notation one := (one_group cwd isdir load_toml).

  (** The outcomes come from the groups, in order; a group is only left out when its config file
      cannot be loaded. *)
  Lemma main_loop_groups : forall fuel cmd cp g memo outs,
    main_loop cwd isdir load_toml fuel cmd cp memo (map snd g) = Ok outs ->
    exists g', subseq g' g /\ ((forall p, parse fuel p <> Ok None) -> g' = g) /\
      Forall2 (fun o kg => exists memo0 memo1, one fuel cmd cp memo0 (fst (snd kg)) (snd (snd kg)) = Ok (Some o, memo1))
        outs (g' : groups).
  Proof.
    induction g as [|[k [c ps]] g IH]; intros memo outs H.
    - inversion H; subst. exists []. split; [constructor|]. split; [auto|constructor].
    - cbn [main_loop map snd] in H. destruct (one fuel cmd cp memo c ps) as [[r m]|] eqn:E; [|discriminate]. cbn [bind] in H.
      destruct (main_loop cwd isdir load_toml fuel cmd cp (snd (r, m)) (map snd g)) as [rest|] eqn:R; [|discriminate].
      cbn [bind fst snd] in H. destruct (IH _ _ R) as [g' [A [B C]]]. inversion H; subst.
      destruct r as [o|].
      + exists ((k, (c, ps)) :: g'). split; [now constructor|]. split; [intros N; now rewrite B|].
        constructor; auto. simpl. eauto.
      + exists g'. split; [now constructor|]. split; [|auto].
        intros N. exfalso. clear - E N. unfold one_group in E.
        destruct (config_combine c cmd) as [cb|]; [|discriminate]. cbn [bind] in E.
        match type of E with bind ?k _ = _ => destruct k as [key|]; [|discriminate] end. cbn [bind] in E.
        specialize (N key). destruct (parse fuel key) as [[[[cf sets] fl]|]|]; try discriminate; [|contradiction].
        cbn [bind] in E. destruct (ignore_infile cf) as [ign|]; [|discriminate]. cbn [bind] in E.
        match type of E with bind ?k _ = _ => destruct k as [cc|]; [|discriminate] end. cbn [bind] in E.
        destruct (to_immutable cc sets) as [ic|]; [|discriminate]. cbn [bind] in E.
        destruct (iget ic LANGUAGE_FILE) as [lv|]; [|discriminate]. cbn [bind] in E.
        destruct (opt_str lv) as [[f|]|]; try discriminate; cbn [bind] in E.
        destruct (match dget f memo with Some t => Some t | None => parse_lang_file load_toml f end); discriminate.
  Qed.

  Variable dirs : string -> list dir.
  Variable comments : string -> list string.
  Definition infile_of (f : string) : res config := parse_infile_config cwd isdir f (dirs f) (comments f).

  Definition expand (l : list (string * node)) : list string := flat_map (fun '(p, n) => py_files p n) l.

  (** The configuration of one outcome covering the nodes [l]. *)
  Definition explained fuel (fds : list (string * node)) (cmd_args : list string) (paths : list string)
      (ic : iconfig) (l : list (string * node)) : Prop :=
    paths = map fst l /\ (forall p n, In (p, n) l -> exists a b, In (a, b) fds /\ below a b p n) /\
    exists ci li, (exists li', carries ci li' /\ in_effect li' = in_effect li) /\
      (if excludes_infile (parse_args cmd_args) then li = [] /\ l = fds
       else exists f k, InfileLayer cwd isdir f (parse_args (comments f)) li /\ infile_of f = Ok ci /\
            In f (expand l) /\ In f (expand fds) /\ to_immutable ci [] = Ok k /\
            forall f', In f' (expand l) -> exists c' k', infile_of f' = Ok c' /\ to_immutable c' [] = Ok k' /\ same_iconfig k' k) /\
      exists cf files sets flangs lineage ss ts,
        parse fuel (selected (parse_args cmd_args) li) = Ok (Some (cf, sets, flangs)) /\
        Lineage cwd isdir load_toml (selected (parse_args cmd_args) li) lineage /\
        Forall2 (fun pd l => FileOptions cwd isdir (fst pd) (snd pd) l) lineage files /\
        Forall2 (fun pd s => OwnSets (snd pd) s) lineage ss /\
        Forall2 (fun pd t => OwnLangs (snd pd) t) lineage ts /\
        (forall name, dget name sets = last_def name ss) /\
        (forall id, dget id flangs = last_def id ts) /\
        sets_wellformed sets /\
        carries cf (in_effect (concat files)) /\
        (forall files', carries cf (in_effect (concat files')) ->
           gives ic sets (concat (rev (layers_in_force (parse_args cmd_args) li files')))).

  Lemma outcome_group : forall fuel fds cmd_args outs,
    get_config_many cwd isdir load_toml infile_of fuel fds cmd_args = Ok outs ->
    exists nodes, Forall2 (fun '(paths, ic, _) l => explained fuel fds cmd_args paths ic l) outs nodes /\
      ((forall p, parse fuel p <> Ok None) -> Permutation (flat_map expand nodes) (expand fds)).
  Proof.
    intros fuel fds cmd_args outs H. unfold get_config_many in H.
    unfold explained. unfold parse_cmd_config in H. set (lc := parse_args cmd_args) in *. clearbody lc.
    destruct (make_config_carries (Some "cmd") lc) as [cmd [Ec [Cc _]]]. rewrite Ec in H. cbn [bind] in H.
    destruct (parse_infile_configs infile_of fds cmd) as [g|] eqn:G; [|discriminate]. cbn [bind] in H.
    rewrite (get_last_value_carries _ _ _ _ Cc) in H by auto.
    rewrite last_in_in_effect_eq in H by auto. cbn [bind] in H.
    set (cp := match last_in CONFIG_FILE lc with Some p => p | None => None end).
    assert (HM : main_loop cwd isdir load_toml fuel cmd cp [] (map snd g) = Ok outs).
    { unfold cp. destruct (last_in CONFIG_FILE lc) as [[p|]|]; exact H. }
    clear H. destruct (main_loop_groups _ _ _ _ _ _ HM) as [g' [SG [FG HG]]]. clear HM.
    (* the nodes of every group *)
    assert (T : exists t : list (iconfig * (config * list (string * node))),
      g = map (fun '(k, (c, l)) => (k, (c, map fst l))) t /\
      Permutation (flat_map (fun '(_, (_, l)) => expand l) t) (expand fds) /\
      forall k c l, In (k, (c, l)) t -> 
        (forall p n, In (p, n) l -> exists a b, In (a, b) fds /\ below a b p n) /\
        exists li, (exists li', carries c li' /\ in_effect li' = in_effect li) /\
        (if excludes_infile lc then li = [] /\ l = fds
         else exists f k, InfileLayer cwd isdir f (parse_args (comments f)) li /\ infile_of f = Ok c /\
            In f (expand l) /\ In f (expand fds) /\ to_immutable c [] = Ok k /\
            forall f', In f' (expand l) -> exists c' k', infile_of f' = Ok c' /\ to_immutable c' [] = Ok k' /\ same_iconfig k' k)).
    { unfold parse_infile_configs in G. rewrite (ignore_infile_carries _ _ Cc) in G. cbn [bind] in G.
      rewrite (excludes_ext _ lc) in G by (now apply last_in_in_effect_eq).
      destruct (excludes_infile lc).
      - destruct (make_config_carries None []) as [c0 [E0 [C0 _]]]. rewrite E0 in G. cbn [bind] in G.
        destruct (to_immutable c0 []) as [k0|]; [|discriminate]. cbn [bind] in G. inversion G; subst.
        exists [(k0, (c0, fds))]. split; [reflexivity|]. split; [simpl; now rewrite app_nil_r|].
        intros k c l [Hg|[]]. inversion Hg; subst. split.
        + intros p n Hin. exists p, n. split; auto. constructor.
        + exists []. split; eauto.
      - destruct (C06_lemma _ _ _ G) as [t [Eg [Pt Ht]]]. exists t. split; auto. split; [exact Pt|].
        intros k c l Hin. destruct (Ht _ _ _ Hin) as [A [B [f [k' [F1 [F2 [F3 F4]]]]]]]. split; auto.
        destruct (infile_carries _ _ _ _ _ _ F2) as [li [l2 [X [Y Z]]]].
        exists li. split; [exists l2; auto|]. exists f, k'. split; auto. split; [exact F2|]. split; [exact F1|].
        split; [|split; [exact F3|]].
        + apply (Permutation_in f Pt). apply in_flat_map. exists (k, (c, l)). auto.
        + intros f' Hf. destruct (B f' Hf) as [c' [k2 [B1 [B2 B3]]]]. exists c', k2. repeat split; auto.
          * apply (same_trans _ _ _ B3 (same_sym _ _ F4)).
          * intros. now apply (same_trans _ _ _ B3 (same_sym _ _ F4)). }
    destruct T as [t [Et [Pt Ht]]].
    assert (ST : exists t', g' = map (fun '(k, (c, l)) => (k, (c, map fst l))) t' /\ subseq t' t).
    { clear - SG Et. subst g. revert g' SG. induction t as [|[k [c l]] t IH]; simpl; intros g' S.
      - inversion S; subst. exists []. split; auto. constructor.
      - inversion S; subst.
        + destruct (IH _ H1) as [t' [-> St]]. exists ((k, (c, l)) :: t'). split; auto. now constructor.
        + destruct (IH _ H1) as [t' [-> St]]. exists t'. split; auto. now constructor. }
    destruct ST as [t' [Eg' St]].
    exists (map (fun '(_, (_, l)) => l) t'). split.
    - assert (IT : forall x, In x t' -> In x t).
      { clear - St. induction St; simpl; intuition. }
      clear St SG FG Pt Et. subst g'.
      revert outs HG. induction t' as [|[k [c l]] t' IH]; intros outs HG; inversion HG as [|o kg outs' g2 Ho HG']; subst; [constructor|].
      simpl. constructor.
      2:{ apply IH; auto. intros x Hx. apply IT. now right. }
      clear IH HG HG'. destruct Ho as [m0 [m1 Ho]]. cbn [fst snd] in Ho.
      destruct (Ht _ _ _ (IT _ (or_introl eq_refl))) as [U [li [I1 I2]]].
      destruct o as [[paths ic] langs].
      destruct (one_group_ok _ _ _ _ _ _ _ _ _ li _ _ _ _ _ Cc I1 eq_refl Ho)
        as [-> [cf [lf [sets [flangs [P [Cf [W Gv]]]]]]]].
      destruct (C08_lemma _ _ _ _ _ _ _ _ P) as [lin [files [ss [ts [A1 [A2 [A3 [A4 [A5 [A6 A7]]]]]]]]]].
      split; [reflexivity|]. split; [exact U|].
      exists c, li. split; auto. split; auto. exists cf, files, sets, flangs, lin, ss, ts.
      repeat (split; [assumption|]).
      clear A2 A5. intros files' A5. 
      assert (EQ : concat (rev (layers_in_force lc li files')) = force (excludes_infile (concat files')) cp (concat files') li lc).
      { unfold layers_in_force, force, cp. destruct (excludes_infile (concat files')).
        - destruct (last_in CONFIG_FILE lc) as [[p|]|]; simpl; rewrite ?rev_involutive, ?concat_app; simpl; now rewrite ?app_nil_r.
        - simpl. rewrite rev_involutive, !concat_app. simpl. now rewrite !app_nil_r, app_assoc. }
      rewrite EQ. apply Gv. exact A5.
    - intros N. specialize (FG N). rewrite <- Pt.
      assert (t' = t).
      { assert (List.length t' = List.length t).
        { assert (X : List.length g' = List.length g) by congruence. rewrite Eg', Et, !map_length in X. exact X. }
        assert (LS : forall l' l : list (iconfig * (config * list (string * node))), subseq l' l -> List.length l' <= List.length l).
        { clear. induction 1; simpl; lia. }
        clear - St H LS. induction St; auto; simpl in H.
        - f_equal. apply IHSt. lia.
        - apply LS in St. lia. }
      subst t'. clear. induction t as [|[k [c l]] t IH]; simpl; auto. now rewrite IH.
  Qed.

  Lemma end_to_end : forall fuel fds cmd_args outs,
    get_config_many cwd isdir load_toml infile_of fuel fds cmd_args = Ok outs ->
    let cmd := parse_args cmd_args in
    forall paths ic langs, In (paths, ic, langs) outs ->
    exists infile lineage files ss sets,
      (if excludes_infile cmd then infile = [] /\ paths = map fst fds
       else exists f l, InfileLayer cwd isdir f (parse_args (comments f)) infile /\
            paths = map fst l /\ In f (flat_map (fun '(p, n) => py_files p n) l) /\
            In f (flat_map (fun '(p, n) => py_files p n) fds)) /\
      Lineage cwd isdir load_toml (selected cmd infile) lineage /\
      Forall2 (fun pd l => FileOptions cwd isdir (fst pd) (snd pd) l) lineage files /\
      Forall2 (fun pd s => OwnSets (snd pd) s) lineage ss /\
      (forall name, dget name sets = last_def name ss) /\
      let layers := layers_in_force cmd infile files in
      (forall o, accumulates o = false -> exists v, iget ic o = Ok v /\
         match strongest o layers with Some t => Means o t v | None => v = documented_default o end) /\
      let l := in_effect (concat (rev layers)) in
      iget ic FLAKE8 = Ok (VList (flat_map (supplies FLAKE8 sets) l)) /\
      iget ic PYLINT = Ok (VList (resolve_enable_disable_all (flat_map (supplies PYLINT sets) l))).
  Proof.
    intros fuel fds cmd_args outs H cmd paths ic langs Hin.
    destruct (outcome_group _ _ _ _ H) as [nodes [F _]].
    assert (E : exists l, explained fuel fds cmd_args paths ic l).
    { clear H. induction F as [|[[p i] la] l outs nodes A F IH]; [destruct Hin|].
      destruct Hin as [X|X]; [inversion X; subst; eauto | auto]. }
    destruct E as (l & -> & U & ci & li & _ & I & cf & files & sets & fl & lin & ss & ts & _ & A1 & A2 & A3 & _ & A4 & _ & _ & CF & G). specialize (G _ CF).
    exists li, lin, files, ss, sets. split.
    { fold cmd in I. destruct (excludes_infile cmd).
      - destruct I as [-> ->]. auto.
      - destruct I as [f [k [I1 [_ [I2 [I3 _]]]]]]. eauto 8. }
    repeat (split; [assumption|]). cbv zeta. split.
    - intros o A. rewrite strongest_concat. exact (gives_strongest _ _ _ o G A).
    - exact (gives_lists _ _ _ G).
  Qed.
End Main.
