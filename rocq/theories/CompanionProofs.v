From Coq Require Import String Ascii List Bool Arith Lia Permutation.
From Verif Require Import Base ConfigModel ConfigSpec ConfigProofs PathModel ConfigFileModel ConfigFileSpec
  ConfigFileProofs GroupProofs ManyProofs.
Import ListNotations.
Local Open Scope string_scope.
Local Open Scope list_scope.
Local Open Scope nat_scope.

(** ** C05: companions *)

(** Options that name no option set supply only their own value. *)
Definition no_named (sets : option_sets) : Prop := forall o, dget (to_name o) sets = None.

Lemma supplies_plain : forall o sets a, no_named sets -> fst a <> SET_GROUPS ->
  supplies o sets a = supplies o [] a.
Proof.
  intros o sets [o' v] N H. unfold supplies. cbn [fst snd] in *. unfold named_set_supplies at 2 4.
  rewrite N. simpl dget. destruct o'; try reflexivity. congruence.
Qed.

Lemma flat_map_ext_in' : forall A B (f g : A -> list B) l, (forall a, In a l -> f a = g a) -> flat_map f l = flat_map g l.
Proof. induction l; simpl; intros; auto. rewrite H, IHl; auto. Qed.

Lemma in_effect_in : forall l x, In x (in_effect l) -> In x l.
Proof.
  induction l as [|[o v] l IH]; simpl; intros x H; auto.
  destruct (accumulates o); [destruct H; auto|]. destruct (last_in o l); [auto|destruct H; auto].
Qed.

(** Arguments for a linter are supplied by the linter's own option only. *)
Lemma supplies_own : forall o l, accumulates o = true ->
  flat_map (supplies o []) l =
  flat_map (fun a => if same_opt (fst a) o then match snd a with Some v => [v] | None => [] end else []) l.
Proof.
  intros o l A. apply flat_map_ext_in'. intros [o' v] _. unfold supplies. cbn [fst snd].
  unfold named_set_supplies. simpl dget.
  assert (X : (match o' with SET_GROUPS => match v with Some v0 => flat_map (fun _ : string => @nil string) (comma_parts v0) | None => [] end
               | _ => [] end) = []).
  { destruct o'; auto. destruct v; auto. induction (comma_parts s); auto. }
  destruct o'; rewrite ?app_nil_r; auto; simpl in X; rewrite X, ?app_nil_r; auto.
Qed.

Lemma in_effect_app_acc : forall o a b, accumulates o = true ->
  flat_map (fun a => if same_opt (fst a) o then match snd a with Some v => [v] | None => [] end else []) (in_effect (a ++ b)) =
  flat_map (fun a => if same_opt (fst a) o then match snd a with Some v => [v] | None => [] end else []) (in_effect a) ++
  flat_map (fun a => if same_opt (fst a) o then match snd a with Some v => [v] | None => [] end else []) (in_effect b).
Proof.
  intros o a b A. set (f := fun a : uarg => _).
  assert (E : forall l, flat_map f (in_effect l) = flat_map f l).
  { induction l as [|[o' v] l IH]; simpl; auto. destruct (accumulates o') eqn:A'; simpl.
    - now rewrite IH.
    - assert (Z : f (o', v) = []).
      { unfold f. simpl. destruct (same_opt o' o); [subst; congruence|auto]. }
      rewrite Z. destruct (last_in o' l); simpl; rewrite ?Z; auto. }
  now rewrite !E, flat_map_app.
Qed.

(** What the layers around an in-file layer contribute does not depend on which replace-options the
    in-file layer overrides, as long as the overridden options are the same. *)
Definition mentions_same (l l' : list uarg) : Prop :=
  forall o, accumulates o = false -> (last_in o l = None <-> last_in o l' = None).

Lemma in_effect_split : forall a b, in_effect (a ++ b) =
  filter (fun x => accumulates (fst x) || match last_in (fst x) b with None => true | Some _ => false end) (in_effect a)
  ++ in_effect b.
Proof.
  induction a as [|[o v] a IH]; intros b; simpl; auto. rewrite IH.
  destruct (accumulates o) eqn:A; simpl.
  - now rewrite A.
  - rewrite last_in_app. destruct (last_in o b) eqn:Lb.
    + destruct (last_in o a); simpl; rewrite ?A, ?Lb; simpl; auto.
    + destruct (last_in o a); simpl; rewrite ?A, ?Lb; simpl; auto.
Qed.

Lemma mentions_last_app : forall l l' c, mentions_same l l' -> mentions_same (l ++ c) (l' ++ c).
Proof.
  intros l l' c M o A. rewrite !last_in_app. destruct (last_in o c); [split; discriminate|]. apply M, A.
Qed.

Lemma in_effect_surround : forall f l l' c o sets, accumulates o = true -> mentions_same l l' ->
  flat_map (supplies o sets) (in_effect (f ++ l ++ c)) =
    flat_map (supplies o sets) (filter (fun x => accumulates (fst x) || match last_in (fst x) (l ++ c) with None => true | Some _ => false end) (in_effect f))
    ++ flat_map (supplies o sets) (filter (fun x => accumulates (fst x) || match last_in (fst x) c with None => true | Some _ => false end) (in_effect l))
    ++ flat_map (supplies o sets) (in_effect c) /\
  filter (fun x => accumulates (fst x) || match last_in (fst x) (l ++ c) with None => true | Some _ => false end) (in_effect f) =
  filter (fun x => accumulates (fst x) || match last_in (fst x) (l' ++ c) with None => true | Some _ => false end) (in_effect f).
Proof.
  intros f l l' c o sets A M. split.
  - now rewrite in_effect_split, (in_effect_split l c), !flat_map_app.
  - apply filter_ext_in. intros x _. destruct (accumulates (fst x)) eqn:Ax; auto. simpl.
    pose proof (mentions_last_app l l' c M (fst x) Ax) as [P Q].
    destruct (last_in (fst x) (l ++ c)), (last_in (fst x) (l' ++ c)); auto.
    + specialize (Q eq_refl). discriminate.
    + specialize (P eq_refl). discriminate.
Qed.

(** The in-file layer's own contribution when it names no option set. *)
Lemma ordinary_contribution : forall sets o l p, accumulates o = true -> no_named sets ->
  (forall x, In x l -> fst x <> SET_GROUPS) ->
  (forall x, accumulates (fst x) = true -> p x = true) ->
  flat_map (supplies o sets) (filter p (in_effect l)) = flat_map (supplies o []) (in_effect l).
Proof.
  intros sets o l p A N S P.
  rewrite (flat_map_ext_in' _ _ _ (supplies o [])).
  2:{ intros a H. apply filter_In in H as [H _]. apply supplies_plain; auto. apply S. now apply in_effect_in. }
  rewrite !supplies_own by auto. induction (in_effect l) as [|x r IH]; simpl; auto.
  destruct (p x) eqn:E; simpl; rewrite IH; auto.
  destruct (same_opt (fst x) o) as [Ex|]; auto. rewrite P in E by congruence. discriminate.
Qed.

(** Two in-file layers with indistinguishable keys. *)
Definition twin (l l' : list uarg) : Prop :=
  mentions_same l l' /\
  (forall o, accumulates o = false ->
     match last_in o l with Some v => Some (convert (conv_of (parse_of o)) v) | None => None end =
     match last_in o l' with Some v => Some (convert (conv_of (parse_of o)) v) | None => None end) /\
  flat_map (supplies FLAKE8 []) (in_effect l) = flat_map (supplies FLAKE8 []) (in_effect l') /\
  resolve_enable_disable_all (flat_map (supplies PYLINT []) (in_effect l)) =
  resolve_enable_disable_all (flat_map (supplies PYLINT []) (in_effect l')).

Lemma iget_same : forall a b o, ivals a = ivals b -> iget a o = iget b o.
Proof. intros a b o H. unfold iget. now rewrite H. Qed.

Lemma twin_of_keys : forall c c' l l' k k', 
  (exists l1, carries c l1 /\ in_effect l1 = in_effect l) ->
  (exists l1, carries c' l1 /\ in_effect l1 = in_effect l') ->
  to_immutable c [] = Ok k -> to_immutable c' [] = Ok k' -> same_iconfig k k' ->
  ordinary l -> ordinary l' -> twin l l'.
Proof.
  intros c c' l l' k k' [l1 [C E]] [l1' [C' E']] K K' [S _] O O'.
  assert (W : sets_wellformed []) by (intros ? ? []).
  destruct (to_immutable_carries c l1 [] W C) as [ic [I1 [_ I2]]]. rewrite K in I1. inversion I1; subst ic.
  destruct (to_immutable_carries c' l1' [] W C') as [ic [I1' [_ I2']]]. rewrite K' in I1'. inversion I1'; subst ic.
  assert (LE : forall o, accumulates o = false -> last_in o l1 = last_in o l).
  { intros o A. rewrite <- (last_in_in_effect_eq o l1), E by auto. now apply last_in_in_effect_eq. }
  assert (LE' : forall o, accumulates o = false -> last_in o l1' = last_in o l').
  { intros o A. rewrite <- (last_in_in_effect_eq o l1'), E' by auto. now apply last_in_in_effect_eq. }
  assert (V : forall o, accumulates o = false ->
     match last_in o l with Some v => convert (conv_of (parse_of o)) v | None => default (parse_of o) end =
     match last_in o l' with Some v => convert (conv_of (parse_of o)) v | None => default (parse_of o) end).
  { intros o A. pose proof (I2 o) as X. pose proof (I2' o) as Y. rewrite (iget_same _ _ o S) in X.
    rewrite X in Y. rewrite A, LE, LE' in Y by auto. congruence. }
  assert (IN : forall o (l : list uarg) v, last_in o l = Some v -> In (o, v) l).
  { clear. induction l as [|[o' w] l IH]; simpl; intros v H; [discriminate|].
    destruct (last_in o l) eqn:L; [inversion H; subst; auto|]. destruct (same_opt o o'); [|discriminate].
    inversion H; subst. auto. }
  assert (ND : forall o (l : list uarg) v, ordinary l -> accumulates o = false -> last_in o l = Some v ->
                 convert (conv_of (parse_of o)) v <> default (parse_of o)).
  { intros o l0 v Ol A L X. destruct (Ol o v (IN _ _ _ L)) as [_ D]. apply D; auto.
    rewrite <- default_documented, <- X. apply convert_means. }
  assert (VV : forall o, accumulates o = false ->
     match last_in o l with Some v => Some (convert (conv_of (parse_of o)) v) | None => None end =
     match last_in o l' with Some v => Some (convert (conv_of (parse_of o)) v) | None => None end).
  { intros o A. specialize (V o A). destruct (last_in o l) eqn:L, (last_in o l') eqn:L'; auto.
    - congruence.
    - exfalso. eapply (ND o l); eauto.
    - exfalso. eapply (ND o l'); eauto. }
  split; [|split; [exact VV|]].
  - intros o A. specialize (VV o A). destruct (last_in o l), (last_in o l'); split; intros; congruence.
  - assert (Q : forall o (l1 l : list uarg), in_effect l1 = in_effect l -> accumulates o = true ->
        flat_map (supplies o []) l1 = flat_map (supplies o []) (in_effect l)).
    { intros o a b Eab A. rewrite <- Eab. rewrite !supplies_own by auto.
      set (f := fun a : uarg => _). clear Eab.
      induction a as [|[o' v] a IH]; simpl; auto. destruct (accumulates o') eqn:A'; simpl; [now rewrite IH|].
      assert (Z : f (o', v) = []) by (unfold f; simpl; destruct (same_opt o' o); [subst; congruence|auto]).
      rewrite Z. destruct (last_in o' a); simpl; rewrite ?Z; auto. }
    pose proof (I2 FLAKE8) as X. pose proof (I2' FLAKE8) as Y. rewrite (iget_same _ _ _ S), Y in X.
    pose proof (I2 PYLINT) as X2. pose proof (I2' PYLINT) as Y2. rewrite (iget_same _ _ _ S), Y2 in X2.
    simpl accumulates in X, X2. cbv iota in X, X2.
    rewrite (Q FLAKE8 l1 l E eq_refl), (Q FLAKE8 l1' l' E' eq_refl) in X.
    rewrite (Q PYLINT l1 l E eq_refl), (Q PYLINT l1' l' E' eq_refl) in X2.
    change (finish FLAKE8) with (fun v : val => v) in X.
    split; [injection X; congruence|]. cbn [finish] in X2. injection X2; congruence.
Qed.

Lemma run_args_app : forall msg X m os ow a b (s : state msg X),
  run_args msg X m os ow (a ++ b) s = run_args msg X m os ow b (run_args msg X m os ow a s).
Proof. intros. unfold run_args. apply fold_left_app. Qed.

(** The final configurations of twins. *)
Lemma twin_final : forall ic ic' sets f l l' c, no_named sets -> twin l l' ->
  (forall x, In x l -> fst x <> SET_GROUPS) -> (forall x, In x l' -> fst x <> SET_GROUPS) ->
  gives ic sets (f ++ l ++ c) -> gives ic' sets (f ++ l' ++ c) ->
  (forall o, o <> PYLINT -> iget ic o = iget ic' o) /\
  let p := flat_map (supplies PYLINT sets) (in_effect (f ++ l ++ c)) in
  let p' := flat_map (supplies PYLINT sets) (in_effect (f ++ l' ++ c)) in
    iget ic PYLINT = Ok (VList (resolve_enable_disable_all p)) /\
    iget ic' PYLINT = Ok (VList (resolve_enable_disable_all p')) /\
    forall msg X m os ow (s : state msg X),
      Forall (fun a => plain_switch (lower a)) p -> Forall (fun a => plain_switch (lower a)) p' ->
      run_args msg X m os ow (resolve_enable_disable_all p) s =
      run_args msg X m os ow (resolve_enable_disable_all p') s.
Proof.
  intros ic ic' sets f l l' c N (M & V & F & P) S S' G G'.
  assert (CF : forall p : uarg -> bool, (forall x, accumulates (fst x) = true -> p x = true) ->
    flat_map (supplies FLAKE8 sets) (filter p (in_effect l)) = flat_map (supplies FLAKE8 []) (in_effect l)).
  { intros p Hp. apply ordinary_contribution; auto. }
  assert (PA : forall (c : list uarg) (x : uarg), accumulates (fst x) = true ->
    accumulates (fst x) || match last_in (fst x) c with None => true | Some _ => false end = true).
  { intros c0 x ->. reflexivity. }
  split.
  - intros o NP. rewrite G, G'. f_equal. destruct (accumulates o) eqn:A.
    + assert (o = FLAKE8) by (destruct o; try discriminate; congruence). subst o. f_equal. f_equal.
      destruct (in_effect_surround f l l' c FLAKE8 sets eq_refl M) as [E1 E2].
      destruct (in_effect_surround f l' l c FLAKE8 sets eq_refl) as [E3 _].
      { intros o A'. symmetry. now apply M. }
      rewrite E1, E3, E2. f_equal. f_equal.
      rewrite !ordinary_contribution; auto.
    + rewrite !last_in_app. destruct (last_in o c); auto.
      specialize (V o A). destruct (last_in o l), (last_in o l'); try discriminate; auto. congruence.
  - cbv zeta. split; [rewrite G; reflexivity|]. split; [rewrite G'; reflexivity|].
    intros msg X m os ow s W W'. rewrite (C03_lemma _ _ _ _ _ _ s W), (C03_lemma _ _ _ _ _ _ s W').
    destruct (in_effect_surround f l l' c PYLINT sets eq_refl M) as [E1 E2].
    destruct (in_effect_surround f l' l c PYLINT sets eq_refl) as [E3 _].
    { intros o A'. symmetry. now apply M. }
    rewrite E1, E3, <- E2 in *. clear E1 E2 E3.
    rewrite (ordinary_contribution sets PYLINT l) in * by auto.
    rewrite (ordinary_contribution sets PYLINT l') in * by auto.
    rewrite !map_app, !run_args_app. f_equal.
    apply Forall_app in W as [_ W]. apply Forall_app in W as [W _].
    apply Forall_app in W' as [_ W']. apply Forall_app in W' as [W' _].
    rewrite <- (C03_lemma _ _ _ _ _ _ _ W), <- (C03_lemma _ _ _ _ _ _ _ W'). now rewrite P.
Qed.

Section Companions.
  Variable cwd : string.
  Variable isdir : string -> bool.
  Variable load_toml : string -> option (list (string * toml)).
  Variable dirs : string -> list dir.
  Variable comments : string -> list string.
  Notation many := (get_config_many cwd isdir load_toml (infile_of cwd isdir dirs comments)).
  Notation layer f := (InfileLayer cwd isdir f (parse_args (comments f))).

  Lemma lineage_loaded : forall path lin, Lineage cwd isdir load_toml path lin ->
    forall p d, In (p, d) lin -> load_toml p = Some d.
  Proof.
    intros path lin H. induction H as [d L | path d p l N L X H IH]; intros p' d' Hin.
    - destruct Hin as [E|[]]. inversion E; subst; auto.
    - apply in_app_or in Hin as [Hin|[E|[]]]; [auto|]. inversion E; subst; auto.
  Qed.

  Lemma last_def_some : forall V name (ss : list (dict V)) v, last_def name ss = Some v ->
    exists s, In s ss /\ dget name s = Some v.
  Proof.
    induction ss as [|s ss IH]; simpl; intros v H; [discriminate|].
    destruct (last_def name ss) eqn:L.
    - inversion H; subst. destruct (IH v eq_refl) as [s' [A B]]. exists s'. auto.
    - exists s. auto.
  Qed.

  Lemma F2_in_r : forall A B (R : A -> B -> Prop) l l' y, Forall2 R l l' -> In y l' -> exists x, In x l /\ R x y.
  Proof.
    intros A B R l l' y F. induction F; intros Hin; [destruct Hin|]. destruct Hin as [->|Hin].
    - eexists. split; [now left|eauto].
    - destruct (IHF Hin) as [x0 [P Q]]. exists x0. split; [now right|auto].
  Qed.

  Lemma sets_plain : forall path lin ss sets, plain_files cwd isdir load_toml ->
    Lineage cwd isdir load_toml path lin -> Forall2 (fun pd s => OwnSets (snd pd) s) lin ss ->
    (forall name, dget name sets = last_def name ss) ->
    no_named sets /\ forall name x, In x (named_set_supplies PYLINT sets name) -> plain_switch (lower x).
  Proof.
    intros path lin ss sets PF L F D.
    assert (O : forall s, In s ss -> (forall o, dget (to_name o) s = None) /\
       forall name x, In x (named_set_supplies PYLINT s name) -> plain_switch (lower x)).
    { intros s Hs. destruct (F2_in_r _ _ _ _ _ _ F Hs) as [[p d] [H1 H2]].
      destruct (PF p d (lineage_loaded _ _ L _ _ H1)) as [_ X]. exact (X s H2). }
    split.
    - intros o. rewrite D. destruct (last_def (to_name o) ss) eqn:E; auto.
      apply last_def_some in E as [s [H1 H2]]. destruct (O s H1) as [X _]. rewrite X in H2. discriminate.
    - intros name x Hx. unfold named_set_supplies in Hx. rewrite D in Hx.
      destruct (last_def name ss) as [s0|] eqn:E; [|destruct Hx].
      apply last_def_some in E as [s [H1 H2]]. destruct (O s H1) as [_ X]. apply (X name).
      unfold named_set_supplies. rewrite H2. exact Hx.
  Qed.

  Lemma supplies_all_plain : forall sets l, plain_opts l ->
    (forall name x, In x (named_set_supplies PYLINT sets name) -> plain_switch (lower x)) ->
    Forall (fun a => plain_switch (lower a)) (flat_map (supplies PYLINT sets) (in_effect l)).
  Proof.
    intros sets l P S. apply Forall_forall. intros x Hx. apply in_flat_map in Hx as [[o t] [H1 H2]].
    apply in_effect_in in H1. unfold supplies in H2. cbn [fst snd] in H2.
    apply in_app_or in H2 as [H2|H2].
    - destruct (same_opt o PYLINT); [|destruct H2]. subst. destruct t as [t|]; [|destruct H2].
      destruct H2 as [->|[]]. now apply P.
    - apply in_app_or in H2 as [H2|H2]; [|eauto].
      destruct o; try destruct H2. destruct t; [|destruct H2]. apply in_flat_map in H2 as [n [_ H2]]. eauto.
  Qed.

  Lemma plain_opts_app : forall a b, plain_opts a -> plain_opts b -> plain_opts (a ++ b).
  Proof. intros a b A B t H. apply in_app_or in H as [H|H]; auto. Qed.

  Lemma files_plain : forall path lin files, plain_files cwd isdir load_toml ->
    Lineage cwd isdir load_toml path lin ->
    Forall2 (fun pd l => FileOptions cwd isdir (fst pd) (snd pd) l) lin files -> plain_opts (concat files).
  Proof.
    intros path lin files PF L F t Hin. apply in_concat in Hin as [l [H1 H2]].
    destruct (F2_in_r _ _ _ _ _ _ F H1) as [[p d] [H3 H4]].
    destruct (PF p d (lineage_loaded _ _ L _ _ H3)) as [X _]. exact (X l H4 t H2).
  Qed.

  Lemma infile_unique : forall f ci, infile_of cwd isdir dirs comments f = Ok ci ->
    exists li li', layer f li /\ carries ci li' /\ in_effect li' = in_effect li.
  Proof. intros f ci H. apply infile_carries in H as (l & l' & A & B & C). eauto. Qed.

  Lemma Resolved_det : forall f opts o r r', Resolved cwd isdir f opts o r -> Resolved cwd isdir f opts o r' -> r = r'.
  Proof.
    intros f opts o r r' A B. inversion A; subst; inversion B; subst; auto; try congruence.
    all: try (destruct H; congruence). all: destruct H1; congruence.
  Qed.
  Lemma layer_det : forall f opts l l', InfileLayer cwd isdir f opts l -> InfileLayer cwd isdir f opts l' -> l = l'.
  Proof.
    intros f opts l l' A B. inversion A; subst; inversion B; subst; try congruence.
    rewrite (Resolved_det _ _ _ _ _ H0 H3), (Resolved_det _ _ _ _ _ H1 H4). reflexivity.
  Qed.

  Lemma gives_agree : forall ic ic' sets l, gives ic sets l -> gives ic' sets l -> agree ic ic'.
  Proof.
    intros ic ic' sets l G G'. split.
    - intros o _. now rewrite G, G'.
    - exists (resolve_enable_disable_all (flat_map (supplies PYLINT sets) (in_effect l))),
        (resolve_enable_disable_all (flat_map (supplies PYLINT sets) (in_effect l))).
      split; [rewrite G; reflexivity|]. split; [rewrite G'; reflexivity|]. auto.
  Qed.

  Lemma explained_agree : forall fuel fds cmd_args paths ic l f p1 ic1 l1,
    plain_files cwd isdir load_toml -> plain_opts (parse_args cmd_args) ->
    (forall g li, In g (expand fds) -> layer g li -> ordinary li /\ plain_opts li) ->
    explained cwd isdir load_toml dirs comments fuel fds cmd_args paths ic l ->
    In f (expand l) ->
    explained cwd isdir load_toml dirs comments fuel [(f, File)] cmd_args p1 ic1 l1 ->
    agree ic ic1.
  Proof.
    intros fuel fds cmd_args paths ic l f p1 ic1 l1 PF PC HO X Hf Y.
    destruct X as (_ & U & ci & li & C & I & cf & files & sets & fl & lin & ss & ts & P & A1 & A2 & A3 & _ & A4 & _ & W & CF & G).
    destruct Y as (_ & _ & ci1 & li1 & C1 & I1 & cf1 & files1 & sets1 & fl1 & lin1 & ss1 & ts1 & P1 & B1 & B2 & B3 & _ & B4 & _ & W1 & CF1 & G1).
    set (cmd := parse_args cmd_args) in *.
    (* the selected config file is the same *)
    assert (T : (li = li1) \/ (twin li li1 /\ ordinary li /\ ordinary li1 /\ plain_opts li /\ plain_opts li1)).
    { destruct (excludes_infile cmd).
      - left. destruct I as [-> _], I1 as [-> _]. reflexivity.
      - right. destruct I as (f0 & k & L0 & I0 & F0 & F0' & K0 & HK).
        destruct I1 as (f1 & k1 & L1 & I1 & F1 & F1' & K1 & _).
        assert (Ff : f1 = f).
        { simpl in F1'. destruct (python_name (basename f)); simpl in F1'; [destruct F1' as [<-|[]]; auto | destruct F1']. }
        subst f1.
        assert (Hfds : In f (expand fds)).
        { apply in_flat_map in Hf as [[p n] [Hf1 Hf2]]. destruct (U p n Hf1) as [a [b [H1 H2]]].
          apply in_flat_map. exists (a, b). split; auto. clear - H2 Hf2.
          induction H2; auto. simpl. apply in_flat_map. exists (name, n). split; auto. }
        destruct (HK f Hf) as [c' [k' [HK1 [HK2 HK3]]]]. rewrite I1 in HK1. inversion HK1; subst c'.
        destruct (HO f0 li F0' L0) as [O0 Q0]. destruct (HO f li1 Hfds L1) as [O1 Q1].
        split; [|auto]. eapply twin_of_keys; [exact C | exact C1 | exact K0 | exact HK2 | | exact O0 | exact O1].
        now apply same_sym. }
    assert (SE : selected cmd li = selected cmd li1).
    { destruct T as [->|[[_ [V _]] _]]; auto. unfold selected.
      destruct (last_in CONFIG_FILE cmd) as [[q|]|]; auto;
        specialize (V CONFIG_FILE eq_refl); destruct (last_in CONFIG_FILE li) as [[u|]|], (last_in CONFIG_FILE li1) as [[v|]|];
        inversion V; auto. }
    rewrite <- SE in P1, B1. rewrite P in P1. inversion P1; subst cf1 sets1 fl1. clear P1.
    assert (lin1 = lin) by (eapply Lineage_det; eauto). subst lin1.
    specialize (G _ CF). specialize (G1 _ CF).
    destruct T as [->|[T [O0 [O1 [Q0 Q1]]]]]; [exact (gives_agree _ _ _ _ G G1)|].
    unfold layers_in_force in G, G1. destruct (excludes_infile (concat files)).
    - destruct (last_in CONFIG_FILE cmd) as [[q|]|]; exact (gives_agree _ _ _ _ G G1).
    - simpl in G, G1. rewrite rev_involutive, !concat_app in G, G1. simpl in G, G1.
      rewrite !app_nil_r, <- !app_assoc in G, G1.
      destruct (sets_plain _ _ _ _ PF A1 A3 A4) as [N S].
      destruct (twin_final ic ic1 sets (concat files) li li1 cmd N T) as [R1 (R2 & R3 & R4)]; auto.
      { intros x Hx. destruct x as [o t]. apply (O0 o t Hx). }
      { intros x Hx. destruct x as [o t]. apply (O1 o t Hx). }
      split; auto. eexists. eexists. split; [exact R2|]. split; [exact R3|].
      pose proof (files_plain _ _ _ PF A1 A2) as PFi.
      intros. apply R4; apply supplies_all_plain; auto; apply plain_opts_app; auto; apply plain_opts_app; auto.
  Qed.

  Lemma C05_lemma : forall fuel fds cmd_args outs,
    plain_files cwd isdir load_toml -> plain_opts (parse_args cmd_args) ->
    (forall f li, In f (flat_map (fun '(p, n) => py_files p n) fds) -> layer f li -> ordinary li /\ plain_opts li) ->
    many fuel fds cmd_args = Ok outs ->
    exists nodes, Forall2 (fun '(paths, ic, _) l => paths = map fst l /\
        forall f solo paths1 ic1 langs1, In f (flat_map (fun '(p, n) => py_files p n) l) ->
          many fuel [(f, File)] cmd_args = Ok solo -> In (paths1, ic1, langs1) solo -> agree ic ic1) outs nodes /\
      ((forall p, parse_config_file cwd isdir load_toml fuel p <> Ok None) ->
       Permutation (flat_map (flat_map (fun '(p, n) => py_files p n)) nodes)
                   (flat_map (fun '(p, n) => py_files p n) fds)).
  Proof.
    intros fuel fds cmd_args outs PF PC HO H.
    destruct (outcome_group _ _ _ _ _ _ _ _ _ H) as [nodes [F P]].
    exists nodes. split; [|exact P]. clear H P.
    induction F as [|[[paths ic] la] l outs nodes A F IH]; constructor; auto.
    split; [destruct A; auto|]. intros f solo p1 ic1 t1 Hf Hs Hin.
    destruct (outcome_group _ _ _ _ _ _ _ _ _ Hs) as [nodes1 [F1 _]].
    assert (E : exists l1, explained cwd isdir load_toml dirs comments fuel [(f, File)] cmd_args p1 ic1 l1).
    { clear - F1 Hin. induction F1 as [|[[p i] la] l outs nodes A F IH]; [destruct Hin|].
      destruct Hin as [X|X]; [inversion X; subst; eauto | auto]. }
    destruct E as [l1 E]. exact (explained_agree _ _ _ _ _ _ _ _ _ _ PF PC HO A Hf E).
  Qed.
End Companions.
