(** Proofs about the scopes of names. *)
From Coq Require Import String Ascii List Bool Arith Lia.
From Verif Require Import Base ScopeModel ScopeSpec.
Import ListNotations.
Local Open Scope string_scope.
Local Open Scope list_scope.

(** Induction over nested trees. *)
Section Trees.
Variables (P : expr -> Prop) (G : gen -> Prop) (T : target -> Prop).
Hypothesis HName : forall n x, P (Name n x).
Hypothesis HNode : forall es, Forall P es -> P (Node es).
Hypothesis HCall : forall f args, P f -> Forall P args -> P (Call f args).
Hypothesis HLambda : forall s ps ds b, Forall P ds -> P b -> P (Lambda s ps ds b).
Hypothesis HComp : forall s gs es, Forall G gs -> Forall P es -> P (Comp s gs es).
Hypothesis HGen : forall t i ifs, T t -> P i -> Forall P ifs -> G (Gen t i ifs).
Hypothesis HTName : forall n x, T (TName n x).
Hypothesis HTMany : forall ts, Forall T ts -> T (TMany ts).
Hypothesis HTOther : forall e, P e -> T (TOther e).
Fixpoint tree_expr (e : expr) : P e :=
  let pes := fix go l : Forall P l := match l with [] => Forall_nil _ | a :: r => Forall_cons _ (tree_expr a) (go r) end in
  let ges := fix go l : Forall G l := match l with [] => Forall_nil _ | a :: r => Forall_cons _ (tree_gen a) (go r) end in
  match e with
  | Name n x => HName n x
  | Node es => HNode es (pes es)
  | Call f args => HCall f args (tree_expr f) (pes args)
  | Lambda s ps ds b => HLambda s ps ds b (pes ds) (tree_expr b)
  | Comp s gs es => HComp s gs es (ges gs) (pes es)
  end
with tree_gen (g : gen) : G g :=
  let pes := fix go l : Forall P l := match l with [] => Forall_nil _ | a :: r => Forall_cons _ (tree_expr a) (go r) end in
  match g with Gen t i ifs => HGen t i ifs (tree_target t) (tree_expr i) (pes ifs) end
with tree_target (t : target) : T t :=
  let tes := fix go l : Forall T l := match l with [] => Forall_nil _ | a :: r => Forall_cons _ (tree_target a) (go r) end in
  match t with TName n x => HTName n x | TMany ts => HTMany ts (tes ts) | TOther e => HTOther e (tree_expr e) end.
Lemma trees : (forall e, P e) /\ (forall g, G g) /\ (forall t, T t).
Proof. exact (conj tree_expr (conj tree_gen tree_target)). Qed.
End Trees.

Section Stmts.
Variable Q : stmt -> Prop.
Hypothesis HExpr : forall e, Q (SExpr e).
Hypothesis HAssign : forall ts e, Q (SAssign ts e).
Hypothesis HAug : forall t e, Q (SAug t e).
Hypothesis HFor : forall t i b o, Forall Q b -> Forall Q o -> Q (SFor t i b o).
Hypothesis HBlocks : forall es ts bs, Forall (Forall Q) bs -> Q (SBlocks es ts bs).
Hypothesis HGlobal : forall xs, Q (SGlobal xs).
Hypothesis HNonlocal : forall xs, Q (SNonlocal xs).
Hypothesis HImport : forall n ns, Q (SImport n ns).
Hypothesis HDel : forall n x, Q (SDel n x).
Hypothesis HDef : forall s n x o a ps ds b, Forall Q b -> Q (SDef s n x o a ps ds b).
Hypothesis HClass : forall s n x o b, Forall Q b -> Q (SClass s n x o b).
Fixpoint all_stmts (c : stmt) : Q c :=
  let go := fix go l : Forall Q l := match l with [] => Forall_nil _ | a :: r => Forall_cons _ (all_stmts a) (go r) end in
  match c with
  | SExpr e => HExpr e | SAssign ts e => HAssign ts e | SAug t e => HAug t e
  | SFor t i b o => HFor t i b o (go b) (go o)
  | SBlocks es ts bs => HBlocks es ts bs ((fix gos ls : Forall (Forall Q) ls := match ls with [] => Forall_nil _ | l :: r => Forall_cons _ (go l) (gos r) end) bs)
  | SGlobal xs => HGlobal xs | SNonlocal xs => HNonlocal xs | SImport n ns => HImport n ns | SDel n x => HDel n x
  | SDef s n x o a ps ds b => HDef s n x o a ps ds b (go b)
  | SClass s n x o b => HClass s n x o b (go b)
  end.
End Stmts.

Lemma has_in x l : has x l = true <-> List.In x l.
Proof.
  unfold has. rewrite existsb_exists. split.
  - intros (y & I & E). apply String.eqb_eq in E. subst. exact I.
  - intros I. exists x. split; [exact I | apply String.eqb_refl].
Qed.

Lemma get_remove_other x y d : x <> y -> get y (remove x d) = get y d.
Proof.
  intros N. induction d as [|[z s] r IH]; [reflexivity|]. cbn [remove filter fst].
  destruct (String.eqb z x) eqn:E; cbn [negb get].
  - apply String.eqb_eq in E. subst z. replace (String.eqb x y) with false; [exact IH|].
    symmetry. apply String.eqb_neq. exact N.
  - fold (remove x r). rewrite IH. reflexivity.
Qed.
Lemma get_remove_some x y d s : get y (remove x d) = Some s -> get y d = Some s.
Proof.
  destruct (String.eqb x y) eqn:E.
  - apply String.eqb_eq in E. subst y. intros H. exfalso. revert H.
    induction d as [|[z t] r IH]; [discriminate|]. cbn [remove filter fst].
    destruct (String.eqb z x) eqn:F; cbn [negb get]; [exact IH|]. rewrite F. exact IH.
  - apply String.eqb_neq in E. rewrite get_remove_other by exact E. exact (fun h => h).
Qed.

Section Sound.
Variable m : nat.
Variable D : list string.

Definition frame_ok (f : frame) (ch : chain) : Prop :=
  match ch with
  | [] => False
  | sc :: _ => fst f = id sc /\ forall x s, get x (snd f) = Some s -> mentions sc x /\ s = resolve m ch x
  end.
Definition ok (v : list chain) (st : list frame) : Prop := Forall2 frame_ok st v /\ last (map fst st) 0 = m.
Definition keeps (a b : list frame) : Prop :=
  Forall2 (fun f g : frame => fst f = fst g /\ forall x, List.In x D -> get x (snd f) <> None -> get x (snd g) <> None) a b.
Definition complete (v : list chain) (st : list frame) : Prop :=
  match st, v with
  | (_, d) :: _, (sc :: _) :: _ =>
      incl (globals sc) D /\ incl (nonlocals sc) D
      /\ forall x, List.In x (globals sc) \/ List.In x (nonlocals sc) -> get x d <> None
  | _, _ => False
  end.
Definition justified (os : list occurrence) (ev : event) : Prop :=
  exists c v, List.In (node ev, name ev, c, v) os /\ from_enclosing m (name ev) (scope ev) v.
Definition good (os : list occurrence) (v : list chain) (st st' : state) : Prop :=
  ok v (fst st') /\ keeps (fst st) (fst st') /\ exists new, snd st' = snd st ++ new /\ Forall (justified os) new.

Lemma keeps_refl a : keeps a a.
Proof. induction a; constructor; [split; auto | assumption]. Qed.
Lemma keeps_trans a b c : keeps a b -> keeps b c -> keeps a c.
Proof.
  intros H. revert c. induction H as [|f g a b [E K] _ IH]; intros c H2; inversion H2 as [|? h ? c' [E' K'] R]; subst; constructor.
  - split; [congruence|]. intros x I N. apply K'; [exact I|]. apply K; assumption.
  - apply IH. exact R.
Qed.
Lemma keeps_complete v a b : keeps a b -> complete v a -> complete v b.
Proof.
  intros H C. destruct H as [|[t d] [t' d'] a b [E K] H]; [exact C|]. destruct v as [|[|sc r] v]; try exact C.
  cbn in *. destruct C as (G & N & C). split; [exact G|]. split; [exact N|]. intros x I. apply K; [|apply C; exact I].
  destruct I as [I|I]; [apply G | apply N]; exact I.
Qed.

Lemma justified_incl os os' ev : incl os os' -> justified os ev -> justified os' ev.
Proof. intros I (c & v & H & F). exists c, v. split; [apply I; exact H | exact F]. Qed.
Lemma good_incl os os' v st st' : incl os os' -> good os v st st' -> good os' v st st'.
Proof.
  intros I (O & K & new & E & F). split; [exact O|]. split; [exact K|]. exists new. split; [exact E|].
  eapply Forall_impl; [|exact F]. intros ev. apply justified_incl. exact I.
Qed.
Lemma good_refl os v st : ok v (fst st) -> good os v st st.
Proof. intros O. split; [exact O|]. split; [apply keeps_refl|]. exists []. rewrite app_nil_r. split; [reflexivity | constructor]. Qed.
Lemma good_trans os v a b c : good os v a b -> good os v b c -> good os v a c.
Proof.
  intros (_ & K & n1 & E1 & F1) (O & K2 & n2 & E2 & F2). split; [exact O|]. split; [eapply keeps_trans; eassumption|].
  exists (n1 ++ n2). rewrite E2, E1, app_assoc. split; [reflexivity|]. apply Forall_app. split; assumption.
Qed.

Lemma found v st x s : Forall2 frame_ok st v -> get_scope x st = Some s -> from_enclosing m x s v.
Proof.
  induction 1 as [|[t d] ch st v F _ IH]; [discriminate|]. cbn [get_scope]. destruct (get x d) as [u|] eqn:E.
  - intros H. injection H as <-. destruct ch as [|sc r]; [destruct F|]. destruct F as [_ F].
    destruct (F x u E) as [M R]. exists sc, r. split; [now left|]. split; assumption.
  - intros H. destruct (IH H) as (sc & r & I & M & R). exists sc, r. split; [now right|]. split; assumption.
Qed.
Lemma good_event os c v x n t st : ok v (fst st) -> List.In (n, x, c, v) os -> good os v st (add_event x n t st).
Proof.
  intros O I. unfold add_event. destruct (get_scope x (fst st)) as [s|] eqn:E; [|apply good_refl; exact O].
  split; [exact O|]. split; [apply keeps_refl|]. eexists. split; [reflexivity|]. constructor; [|constructor].
  exists c, v. split; [exact I|]. cbn. eapply found; [apply O | exact E].
Qed.
Lemma ok_put v t d st x s :
  ok v ((t, d) :: st) ->
  match v with (sc :: r) :: _ => mentions sc x /\ s = resolve m (sc :: r) x | _ => False end ->
  ok v ((t, (x, s) :: d) :: st).
Proof.
  intros [O L] H. split; [|exact L]. inversion O as [|? ch ? v' F R]; subst. constructor; [|exact R].
  destruct ch as [|sc r]; [destruct F|]. destruct F as [E F]. split; [exact E|]. intros y u. cbn [snd get].
  destruct (String.eqb x y) eqn:Q.
  - apply String.eqb_eq in Q. subst y. intros Z. injection Z as <-. exact H.
  - apply F.
Qed.
Lemma keeps_put t d st x s : keeps ((t, d) :: st) ((t, (x, s) :: d) :: st).
Proof.
  constructor; [|apply keeps_refl]. split; [reflexivity|]. intros y _ N. cbn. destruct (String.eqb x y); [discriminate | exact N].
Qed.
Definition fits (v : list chain) (st : list frame) (x : string) : Prop :=
  match st, v with
  | (_, d) :: _, (sc :: _) :: _ => List.In x (globals sc) \/ List.In x (nonlocals sc) -> get x d <> None
  | _, _ => True
  end.
Lemma complete_fits v st x : complete v st -> fits v st x.
Proof. destruct st as [|[t d] st], v as [|[|sc r] v]; cbn; try exact (fun _ => Logic.I). intros (_ & _ & C). apply C. Qed.
Lemma good_init_fits os c v x n st :
  ok v (fst st) -> fits v (fst st) x -> match v with (sc :: _) :: _ => List.In x (bound sc) | _ => False end ->
  List.In (n, x, c, v) os -> good os v st (init_var x n st).
Proof.
  intros O C B I. destruct st as [[|[t d] st] evs]; [apply good_refl; exact O|]. cbn [fst] in O, C.
  unfold init_var. cbn [fst].
  assert (forall s, match v with (sc :: r) :: _ => mentions sc x /\ s = resolve m (sc :: r) x | _ => False end ->
    forall k, good os v ((t, d) :: st, evs) (add_event x n k (put_top x s ((t, d) :: st, evs)))) as A.
  { intros s H k. cbn [put_top]. eapply good_trans; [|eapply good_event; [|exact I]].
    - split; [apply ok_put; assumption|]. split; [apply keeps_put|]. exists []. cbn. rewrite app_nil_r. split; [reflexivity | constructor].
    - apply ok_put; assumption. }
  destruct O as [O L]. inversion O as [|? ch ? v' F R]; subst. destruct ch as [|sc r]; [destruct F|]. destruct F as [E F]. cbn [fst snd] in E, F.
  destruct (get x d) as [s|] eqn:G; apply A.
  - apply F. exact G.
  - split; [now left|]. rewrite E. cbn [fits] in C. cbn [resolve].
    destruct (has x (globals sc)) eqn:H1. { exfalso. apply C; [left; apply has_in; exact H1 | exact G]. }
    destruct (has x (nonlocals sc)) eqn:H2. { exfalso. apply C; [right; apply has_in; exact H2 | exact G]. }
    replace (has x (bound sc)) with true; [reflexivity|]. symmetry. apply has_in. exact B.
Qed.

Lemma good_init os c v x n st :
  ok v (fst st) -> complete v (fst st) -> match v with (sc :: _) :: _ => List.In x (bound sc) | _ => False end ->
  List.In (n, x, c, v) os -> good os v st (init_var x n st).
Proof. intros O C. apply good_init_fits; [exact O | apply complete_fits; exact C]. Qed.

Definition full (v : list chain) (st : list frame) := ok v st /\ complete v st.
Lemma good_full os v st st' : good os v st st' -> complete v (fst st) -> complete v (fst st').
Proof. intros (_ & K & _) C. eapply keeps_complete; eassumption. Qed.

(** Sequences. *)
Lemma good_each {A} (f : A -> state -> res state) (os : A -> list occurrence) v (Z : state -> Prop) l :
  (forall os' st st', Z st -> good os' v st st' -> Z st') ->
  Forall (fun a => forall st st', Z st -> f a st = Ok st' -> good (os a) v st st') l ->
  forall st st', Z st -> ok v (fst st) -> each f l st = Ok st' -> good (flat_map os l) v st st'.
Proof.
  intros ZK H. induction H as [|a l Ha _ IH]; intros st st' z O E.
  - cbn in E. injection E as <-. apply good_refl. exact O.
  - cbn in E. destruct (f a st) as [s1|] eqn:E1; [|discriminate]. cbn in E.
    pose proof (Ha st s1 z E1) as G1. cbn [flat_map].
    eapply good_trans; [eapply good_incl; [|exact G1]; apply incl_appl, incl_refl|].
    eapply good_incl; [apply incl_appr, incl_refl|]. apply IH; [eapply ZK; eassumption | apply G1 | exact E].
Qed.

Lemma good_scope os sc c v s k st st' :
  id sc = s -> ok v (fst st) ->
  (forall a b, ok ((sc :: c) :: v) (fst a) -> fst a = (s, []) :: fst st -> k a = Ok b -> good os ((sc :: c) :: v) a b) ->
  fst st <> [] -> in_scope s k st = Ok st' -> good os v st st'.
Proof.
  intros Es [O L] H NE. unfold in_scope. destruct (k ((s, []) :: fst st, snd st)) as [b|] eqn:E; [|discriminate].
  cbn [bind]. intros Z. injection Z as <-.
  assert (ok ((sc :: c) :: v) ((s, []) :: fst st)) as O'.
  { split.
    - constructor; [|exact O]. split; [symmetry; exact Es|]. discriminate.
    - destruct (fst st); [contradiction|]. exact L. }
  destruct (H ((s, []) :: fst st, snd st) b O' eq_refl E) as ([O2 L2] & K & new & En & F). cbn [fst snd] in *.
  inversion K as [|f g a t [Ef _] Kt Ea Eb]; subst. rewrite <- Eb in *. cbn [tl].
  inversion O2; subst. split.
  - split; [assumption|]. destruct t; [|exact L2]. inversion Kt as [Q|]. congruence.
  - split; [exact Kt|]. exists new. cbn. split; assumption.
Qed.

Lemma nonempty v st : ok v st -> v <> [] -> st <> [].
Proof. intros [O _] N E. subst st. inversion O. congruence. Qed.
Lemma bind_ok {A B} (a : res A) (k : A -> res B) b : bind a k = Ok b -> exists x, a = Ok x /\ k x = Ok b.
Proof. destruct a as [x|]; cbn; [|discriminate]. intros H. exists x. split; [reflexivity | exact H]. Qed.
Definition heads (v : list chain) (xs : list string) : Prop := match v with (sc :: _) :: _ => incl xs (bound sc) | _ => False end.
Lemma heads_incl v xs ys : incl ys xs -> heads v xs -> heads v ys.
Proof. destruct v as [|[|sc r] v]; cbn; intros I H; try exact H. eapply incl_tran; eassumption. Qed.
Lemma heads_in v xs x : heads v xs -> List.In x xs -> match v with (sc :: _) :: _ => List.In x (bound sc) | _ => False end.
Proof. destruct v as [|[|sc r] v]; cbn; intros H I; try exact H. apply H. exact I. Qed.

Lemma good_params ps v os : heads v (map snd ps) -> forall st,
  full v (fst st) -> incl (map (fun p => (fst p, snd p, hd [] v, v)) ps) os -> good os v st (init_params ps st).
Proof.
  unfold init_params. induction ps as [|[n x] r IH]; intros H st [O C] I; cbn [fold_left map fst snd] in *; [apply good_refl; exact O|].
  assert (good os v st (init_var x n st)) as G.
  { eapply good_init; [exact O | exact C | eapply heads_in; [exact H | now left] | apply I; now left]. }
  eapply good_trans; [exact G|]. apply IH.
  - eapply heads_incl; [|exact H]. apply incl_tl, incl_refl.
  - split; [apply G | eapply good_full; eassumption].
  - intros z Z. apply I. now right.
Qed.

Definition P_ok (e : expr) := forall c v st st', ok v (fst st) -> v <> [] -> visit_expr e st = Ok st' -> good (names_expr c v e) v st st'.
Definition G_ok (g : gen) := forall c ci v st st', full v (fst st) -> heads v (bound_gen g) -> visit_gen g st = Ok st' -> good (names_gen c ci v g) v st st'.
Definition T_ok (t : target) := forall c v st st', full v (fst st) -> heads v (bound_target t) -> visit_target t st = Ok st' -> good (names_target c v t) v st st'.

Lemma heads_ne v xs : heads v xs -> v <> [].
Proof. destruct v; [intros [] | discriminate]. Qed.
Lemma exprs_each es c v st st' : Forall P_ok es -> ok v (fst st) -> v <> [] -> each visit_expr es st = Ok st' -> good (flat_map (names_expr c v) es) v st st'.
Proof.
  intros H O N E. eapply (good_each visit_expr (names_expr c v) v (fun s => ok v (fst s))); [| |exact O|exact O|exact E].
  - intros os' a b _ G. apply G.
  - eapply Forall_impl; [|exact H]. intros e He a b Oa. apply He; assumption.
Qed.
Lemma targets_each ts c v st st' : Forall T_ok ts -> full v (fst st) -> heads v (flat_map bound_target ts) ->
  each visit_target ts st = Ok st' -> good (flat_map (names_target c v) ts) v st st'.
Proof.
  intros H F B E. eapply (good_each visit_target (names_target c v) v (fun s => full v (fst s))); [| |exact F|apply F|exact E].
  - intros os' a b [Oa Ca] G. split; [apply G | eapply good_full; eassumption].
  - rewrite Forall_forall in *. intros t I a b Fa. apply (H t I); [exact Fa|]. eapply heads_incl; [|exact B].
    intros x X. apply in_flat_map. exists t. split; assumption.
Qed.
Lemma gens_each gs c ci v st st' : Forall G_ok gs -> full v (fst st) -> heads v (flat_map bound_gen gs) ->
  each visit_gen gs st = Ok st' -> good (flat_map (names_gen c ci v) gs) v st st'.
Proof.
  intros H F B E. eapply (good_each visit_gen (names_gen c ci v) v (fun s => full v (fst s))); [| |exact F|apply F|exact E].
  - intros os' a b [Oa Ca] G. split; [apply G | eapply good_full; eassumption].
  - rewrite Forall_forall in *. intros t I a b Fa. apply (H t I); [exact Fa|]. eapply heads_incl; [|exact B].
    intros x X. apply in_flat_map. exists t. split; assumption.
Qed.
Lemma complete_small s xs c v st : ok ((small_scope s xs :: c) :: v) st -> complete ((small_scope s xs :: c) :: v) st.
Proof.
  intros [O _]. inversion O as [|[t d] ? ? ? _ _]; subst. cbn. split; [intros ? []|]. split; [intros ? []|]. intros x [[]|[]].
Qed.

Ltac weaken := eapply good_incl; [|eassumption]; auto using incl_appl, incl_appr, incl_refl.

Lemma all_ok : (forall e, P_ok e) /\ (forall g, G_ok g) /\ (forall t, T_ok t).
Proof.
  apply trees.
  - intros n x c v st st' O N E. cbn in E. injection E as <-. eapply good_event; [exact O | now left].
  - intros es H c v st st' O N E. cbn [visit_expr] in E. cbn [names_expr]. apply exprs_each; assumption.
  - intros f args Hf Ha c v st st' O N E. cbn [visit_expr] in E. destruct (unknowable f); [discriminate|].
    apply bind_ok in E. destruct E as (s1 & E1 & E2). pose proof (Hf c v st s1 O N E1) as G1.
    cbn [names_expr]. eapply good_trans; [weaken|]. eapply good_incl; [apply incl_appr, incl_refl|].
    apply exprs_each; [exact Ha | apply G1 | exact N | exact E2].
  - intros s ps ds b _ Hb c v st st' O N E. cbn [visit_expr] in E. cbn [names_expr].
    eapply (good_scope _ (small_scope s (map snd ps)) c v s _ st st' eq_refl O); [|eapply nonempty; eassumption|exact E].
    intros a a' Oa _ Ea.
    assert (good (map (fun p => (fst p, snd p, small_scope s (map snd ps) :: c, (small_scope s (map snd ps) :: c) :: v)) ps)
      ((small_scope s (map snd ps) :: c) :: v) a (init_params ps a)) as G1.
    { apply good_params; [cbn; apply incl_refl | split; [exact Oa | apply complete_small; exact Oa] | apply incl_refl]. }
    eapply good_trans.
    + eapply good_incl; [|exact G1]. apply incl_appr, incl_appl, incl_refl.
    + eapply good_incl; [|apply Hb; [apply G1 | discriminate | exact Ea]]. apply incl_appr, incl_appr, incl_refl.
  - intros s gs es Hg He c v st st' O N E. cbn [visit_expr] in E. cbn [names_expr].
    set (sc := small_scope s (flat_map bound_gen gs)) in *.
    eapply (good_scope _ sc c v s _ st st' eq_refl O); [|eapply nonempty; eassumption|exact E].
    intros a a' Oa _ Ea. apply bind_ok in Ea. destruct Ea as (s1 & E1 & E2).
    pose proof (complete_small s _ c v _ Oa) as Ca. fold sc in Ca.
    assert (good (match gs with [] => [] | g :: r => names_gen (sc :: c) c ((sc :: c) :: v) g
        ++ flat_map (names_gen (sc :: c) (sc :: c) ((sc :: c) :: v)) r end) ((sc :: c) :: v) a s1) as G1.
    { assert (heads ((sc :: c) :: v) (flat_map bound_gen gs)) as B by apply incl_refl. clearbody sc.
      destruct gs as [|g r]; [cbn in E1; injection E1 as <-; apply good_refl; exact Oa|].
      cbn [each] in E1. apply bind_ok in E1. destruct E1 as (s0 & E0 & E1). inversion Hg as [|? ? Hg1 Hr]; subst.
      assert (good (names_gen (sc :: c) c ((sc :: c) :: v) g) ((sc :: c) :: v) a s0) as G0.
      { apply Hg1; [split; assumption | eapply heads_incl; [|exact B]; apply incl_appl, incl_refl | exact E0]. }
      eapply good_trans; [weaken|]. eapply good_incl; [apply incl_appr, incl_refl|]. apply gens_each; [exact Hr| | |exact E1].
      - split; [apply G0 | eapply good_full; eassumption].
      - eapply heads_incl; [|exact B]. apply incl_appr, incl_refl. }
    eapply good_trans; [weaken|]. eapply good_incl; [apply incl_appr, incl_refl|].
    apply exprs_each; [exact He | apply G1 | discriminate | exact E2].
  - intros t i ifs Ht Hi Hf c ci v st st' [O C] B E. cbn [visit_gen] in E. apply bind_ok in E. destruct E as (s1 & E1 & E).
    apply bind_ok in E. destruct E as (s2 & E2 & E3). pose proof (heads_ne _ _ B) as N.
    pose proof (Ht c v st s1 (conj O C) B E1) as G1. assert (ok v (fst s1)) as O1 by apply G1.
    pose proof (Hi ci v s1 s2 O1 N E2) as G2. assert (ok v (fst s2)) as O2 by apply G2.
    pose proof (exprs_each ifs c v s2 st' Hf O2 N E3) as G3. cbn [names_gen].
    eapply good_trans; [weaken|]. eapply good_trans; weaken.
  - intros n x c v st st' [O C] B E. cbn in E. injection E as <-. eapply good_init; [exact O | exact C | | now left].
    eapply heads_in; [exact B | now left].
  - intros ts H c v st st' F B E. cbn [visit_target] in E. cbn [names_target]. apply targets_each; assumption.
  - intros e H c v st st' [O C] B E. cbn [visit_target] in E. cbn [names_target]. apply H; [exact O | eapply heads_ne; exact B | exact E].
Qed.

Lemma exprs_ok es c v st st' : ok v (fst st) -> v <> [] -> each visit_expr es st = Ok st' -> good (flat_map (names_expr c v) es) v st st'.
Proof. apply exprs_each. apply Forall_forall. intros e _. apply all_ok. Qed.
Lemma targets_ok ts c v st st' : full v (fst st) -> heads v (flat_map bound_target ts) ->
  each visit_target ts st = Ok st' -> good (flat_map (names_target c v) ts) v st st'.
Proof. apply targets_each. apply Forall_forall. intros e _. apply all_ok. Qed.

(** Statements. *)
Lemma plain_list c l : (fix go l := match l with [] => True | a :: r => plain_stmt m D c a /\ go r end) l <-> Forall (plain_stmt m D c) l.
Proof.
  induction l as [|a r IH]; [split; constructor|]. rewrite IH. split.
  - intros [H K]. constructor; assumption.
  - intros H. inversion H. split; assumption.
Qed.
Lemma plain_lists c ls :
  (fix gos ls := match ls with [] => True
    | l :: rs => (fix go l := match l with [] => True | a :: r => plain_stmt m D c a /\ go r end) l /\ gos rs end) ls
  <-> Forall (Forall (plain_stmt m D c)) ls.
Proof.
  induction ls as [|a r IH]; [split; constructor|]. rewrite IH, plain_list. split.
  - intros [H K]. constructor; assumption.
  - intros H. inversion H. split; assumption.
Qed.

Lemma good_remove x v st : ok v (fst st) -> ~ List.In x D -> good [] v st (remove_from x (fst st), snd st).
Proof.
  intros [O L] N. assert (Forall2 (frame_ok) (remove_from x (fst st)) v /\ keeps (fst st) (remove_from x (fst st))
    /\ map fst (remove_from x (fst st)) = map fst (fst st)) as (A & B & C).
  { clear L. induction O as [|[t d] ch r v F R IH]; [split; [constructor|]; split; [constructor | reflexivity]|].
    cbn [remove_from]. destruct IH as (A & B & C). destruct (get x d) eqn:E.
    - split; [|split; [|reflexivity]].
      + constructor; [|exact R]. destruct ch as [|sc c]; [exact F|]. destruct F as [F1 F2]. split; [exact F1|].
        intros y s Y. apply F2. cbn in Y. eapply get_remove_some. exact Y.
      + constructor; [|apply keeps_refl]. split; [reflexivity|]. intros y Y G. cbn. rewrite get_remove_other; [exact G|]. congruence.
    - split; [constructor; assumption|]. split; [|cbn; congruence]. constructor; [split; auto | exact B]. }
  split; [split; [exact A | cbn; rewrite C; exact L]|]. split; [exact B|]. exists []. cbn. rewrite app_nil_r. split; [reflexivity | constructor].
Qed.

Lemma good_params_undeclared ps sc r v0 os (v := (sc :: r) :: v0) : heads v (map snd ps) ->
  Forall (fun p => ~ List.In (snd p) (globals sc) /\ ~ List.In (snd p) (nonlocals sc)) ps -> forall st : state,
  ok v (fst st) -> incl (map (fun p => (fst p, snd p, hd [] v, v)) ps) os -> good os v st (init_params ps st).
Proof.
  unfold init_params. induction ps as [|[n x] l IH]; intros H U st O I; cbn [fold_left map fst snd] in *; [apply good_refl; exact O|].
  inversion U as [|? ? [U1 U2] Ur]; subst.
  assert (good os v st (init_var x n st)) as G.
  { eapply good_init_fits; [exact O | | eapply heads_in; [exact H | now left] | apply I; now left].
    unfold fits, v. destruct (fst st) as [|[t d] ?]; [exact Logic.I|]. intros [K|K]; contradiction. }
  eapply good_trans; [exact G|]. apply IH; [|exact Ur|apply G|].
  - eapply heads_incl; [|exact H]. apply incl_tl, incl_refl.
  - intros z Z. apply I. now right.
Qed.

Lemma each_ext {A} (f g : A -> state -> res state) l : (forall a s, f a s = g a s) -> forall st, each f l st = each g l st.
Proof. intros H. induction l as [|a r IH]; intros st; [reflexivity|]. cbn. rewrite H. destruct (g a st); [apply IH | reflexivity]. Qed.
Lemma visit_body_eq b st : visit_body b st =
  (do s3 <- each (fun b => match b with SDef _ n x _ _ _ _ _ | SClass _ n x _ _ => fun st => Ok (init_var x n st) | _ => visit_stmt b end) b st;
   each (fun b => match b with SDef _ _ _ _ _ _ _ _ | SClass _ _ _ _ _ => visit_stmt b | _ => fun st => Ok st end) b s3).
Proof.
  unfold visit_body. rewrite (each_ext (at_first visit_stmt)
    (fun b => match b with SDef _ n x _ _ _ _ _ | SClass _ n x _ _ => fun st => Ok (init_var x n st) | _ => visit_stmt b end))
    by (intros y z; destruct y; reflexivity).
  match goal with |- bind ?l _ = _ => destruct l; [|reflexivity] end.
  cbn [bind]. apply each_ext. intros y z. destruct y; reflexivity.
Qed.
Lemma each_app {A} (f : A -> state -> res state) l1 l2 st st' : each f (l1 ++ l2) st = Ok st' ->
  exists s, each f l1 st = Ok s /\ each f l2 s = Ok st'.
Proof.
  revert st. induction l1 as [|a r IH]; intros st E; [exists st; split; [reflexivity | exact E]|].
  cbn in E. apply bind_ok in E. destruct E as (s1 & E1 & E2). destruct (IH s1 E2) as (s & A1 & A2).
  exists s. split; [|exact A2]. cbn. rewrite E1. exact A1.
Qed.

Definition nested (v : list chain) : Prop :=
  match v with (_ :: r) :: v0 => r = hd [] v0 | _ => False end.

(** One declared name. *)
Lemma put_declared x s v st : ok v (fst st) ->
  match v with (sc :: r) :: _ => mentions sc x /\ s = resolve m (sc :: r) x | _ => False end ->
  good [] v st (put_top x s st) /\ (match fst (put_top x s st) with (_, d) :: _ => get x d <> None | [] => True end).
Proof.
  intros O H. destruct st as [[|[t d] st] evs]; [split; [apply good_refl; exact O | exact Logic.I]|]. cbn [put_top fst].
  split; [|cbn; rewrite String.eqb_refl; discriminate].
  split; [apply ok_put; assumption|]. split; [apply keeps_put|]. exists []. cbn. rewrite app_nil_r. split; [reflexivity | constructor].
Qed.
Definition present (x : string) (st : list frame) : Prop := match st with (_, d) :: _ => get x d <> None | [] => True end.
Lemma keeps_present x a b : keeps a b -> List.In x D -> present x a -> present x b.
Proof. intros K I. destruct K as [|[t d] [t' d'] ? ? [_ K] _]; [exact (fun h => h)|]. cbn. apply K. exact I. Qed.

(** Declared names, one after another, whatever their scope is computed from. *)
Lemma put_all (sel : state -> nat) (sc : scope_info) r v0 xs (v := (sc :: r) :: v0) :
  incl xs D -> Forall (fun x => mentions sc x /\ forall s : state, ok v (fst s) -> sel s = resolve m (sc :: r) x) xs ->
  forall st : state, ok v (fst st) ->
  let st' := fold_left (fun st x => put_top x (sel st) st) xs st in
  good [] v st st' /\ forall x, List.In x xs -> present x (fst st').
Proof.
  intros I H. induction H as [|x xs [M S] _ IH]; intros st O; [split; [apply good_refl; exact O | intros ? []]|].
  cbn [fold_left]. destruct (put_declared x (sel st) v st O) as [G P].
  { split; [exact M | apply S; exact O]. }
  destruct (IH (fun y Y => I y (or_intror Y)) (put_top x (sel st) st)) as [G' P']; [apply G|].
  split; [eapply good_trans; eassumption|]. intros y [<-|Y]; [|apply P'; exact Y].
  eapply keeps_present; [apply G' | apply I; now left |]. exact P.
Qed.

Lemma last_ok v st : ok v st -> match last st (0, []) with (t, _) => t end = m.
Proof.
  intros [_ L]. rewrite <- L. clear L. induction st as [|[t d] r IH]; [reflexivity|].
  destruct r as [|f r]; [reflexivity|]. exact IH.
Qed.
Lemma second_ok sc p r v0 (st : list frame) : ok ((sc :: p :: r) :: v0) st -> hd [] v0 = p :: r ->
  match st with _ :: (t, _) :: _ => t = id p | _ => False end.
Proof.
  intros [O _] E. inversion O as [|f ? a ? _ R]; subst. inversion R as [|[t d] ch b w F _]; subst; [discriminate|].
  cbn in E. subst ch. apply F.
Qed.

Lemma globals_good xs sc r v0 st (v := (sc :: r) :: v0) : ok v (fst st) -> incl xs D -> incl xs (globals sc) ->
  good [] v st (declare_global xs st) /\ forall x, List.In x xs -> present x (fst (declare_global xs st)).
Proof.
  intros O I J. unfold declare_global.
  apply (put_all (fun st => match last (fst st) (0, []) with (t, _) => t end) sc r v0 xs I); [|exact O].
  apply Forall_forall. intros x X. split; [right; left; apply J; exact X|]. intros s Os. rewrite (last_ok v _ Os). cbn [resolve].
  replace (has x (globals sc)) with true; [reflexivity|]. symmetry. apply has_in. apply J. exact X.
Qed.
Lemma nonlocals_good xs sc r v0 st (v := (sc :: r) :: v0) : ok v (fst st) -> nested v -> incl xs D -> incl xs (nonlocals sc) ->
  Forall (fun x => match sc :: r with _ :: p :: _ => resolve m (sc :: r) x = id p | _ => False end) xs ->
  good [] v st (declare_nonlocal xs st) /\ forall x, List.In x xs -> present x (fst (declare_nonlocal xs st)).
Proof.
  intros O N I J H. destruct xs as [|x0 xs0] eqn:X0; [split; [apply good_refl; exact O | intros ? []]|]. rewrite <- X0 in *. clear x0 xs0 X0.
  unfold declare_nonlocal. destruct r as [|p r].
  { destruct xs as [|x xs]; [split; [apply good_refl; exact O | intros ? []]|]. inversion H as [|? ? F _]. destruct F. }
  cbn in N. symmetry in N.
  assert (forall (s : state) l, ok v (fst s) -> Forall (fun x => List.In x xs) l ->
    fold_left (fun st x => match fst st with _ :: (p, _) :: _ => put_top x p st | _ => st end) l s
    = fold_left (fun (st : state) x => put_top x (id p) st) l s) as A.
  { intros s l. revert s. induction l as [|x l IH]; intros s Os Fl; [reflexivity|]. cbn [fold_left]. inversion Fl as [|? ? X Fl']; subst.
    pose proof (second_ok sc p r v0 (fst s) Os N) as Q. destruct (fst s) as [|f [|[t d] rest]] eqn:E; try contradiction. rewrite Q.
    apply IH; [|exact Fl']. apply put_declared; [rewrite E; exact Os|]. rewrite Forall_forall in H. split; [right; right; apply J; exact X|].
    symmetry. apply (H x X). }
  rewrite A; [|exact O | apply Forall_forall; auto].
  apply (put_all (fun _ => id p) sc (p :: r) v0 xs I); [|exact O].
  rewrite Forall_forall in *. intros x X. split; [right; right; apply J; exact X|]. intros s _. symmetry. apply (H x X).
Qed.

Definition Q_ok (b : stmt) := forall c v0 st st', let v := c :: v0 in
  full v (fst st) -> nested v -> heads v (bound_stmt b) -> plain_stmt m D c b -> undeclaring b ->
  visit_stmt b st = Ok st' -> good (names_stmt c v b) v st st'.

Lemma undeclaring_flat l : flat_map global_stmt l = [] /\ flat_map nonlocal_stmt l = [] <-> Forall undeclaring l.
Proof.
  induction l as [|a r IH]; cbn; [split; auto|]. split.
  - intros [A B]. apply app_eq_nil in A. apply app_eq_nil in B. constructor; [split; tauto|]. apply IH. tauto.
  - intros H. inversion H as [|? ? [A B] R]; subst. apply IH in R. rewrite A, B. exact R.
Qed.
Lemma stmts_each l c v0 st st' (v := c :: v0) : Forall Q_ok l -> full v (fst st) -> nested v -> heads v (flat_map bound_stmt l) ->
  Forall (plain_stmt m D c) l -> Forall undeclaring l -> each visit_stmt l st = Ok st' -> good (flat_map (names_stmt c v) l) v st st'.
Proof.
  intros H F N B Pl U E.
  eapply (good_each visit_stmt (names_stmt c v) v (fun s => full v (fst s))); [| |exact F|apply F|exact E].
  - intros os' a b [Oa Ca] G. split; [apply G | eapply good_full; eassumption].
  - rewrite Forall_forall in *. intros t I a b Fa. apply (H t I); auto. eapply heads_incl; [|exact B].
    intros x X. apply in_flat_map. exists t. split; assumption.
Qed.

Lemma declarations ds sc r v0 st st' (v := (sc :: r) :: v0) :
  ok v (fst st) -> nested v -> Forall (fun b => declaration b = true) ds -> Forall (plain_stmt m D (sc :: r)) ds ->
  incl (flat_map global_stmt ds) (globals sc) -> incl (flat_map nonlocal_stmt ds) (nonlocals sc) ->
  each (at_first visit_stmt) ds st = Ok st' ->
  good [] v st st' /\ (forall x, List.In x (flat_map global_stmt ds ++ flat_map nonlocal_stmt ds) -> present x (fst st'))
  /\ incl (flat_map global_stmt ds) D /\ incl (flat_map nonlocal_stmt ds) D.
Proof.
  revert st. induction ds as [|b ds IH]; intros st O N Hd Pl I J E.
  - cbn in E. injection E as <-. split; [apply good_refl; exact O|]. split; [intros ? []|]. split; intros ? [].
  - inversion Hd as [|? ? Hb Hd']; subst. inversion Pl as [|? ? Pb Pl']; subst. cbn [flat_map] in *.
    cbn [each] in E. apply bind_ok in E. destruct E as (s1 & E1 & E2).
    assert (good [] v st s1 /\ (forall x, List.In x (global_stmt b ++ nonlocal_stmt b) -> present x (fst s1))
      /\ incl (global_stmt b) D /\ incl (nonlocal_stmt b) D) as (G & P & Ig & In).
    { destruct b; try discriminate Hb; cbn [at_first visit_stmt global_stmt nonlocal_stmt plain_stmt] in *; injection E1 as <-.
      - rewrite app_nil_r. destruct (globals_good xs sc r v0 st O Pb) as [G P]; [intros x X; apply I; now apply in_or_app; left|].
        split; [exact G|]. split; [exact P|]. split; [exact Pb | intros ? []].
      - destruct Pb as [Pb Pr]. destruct (nonlocals_good xs sc r v0 st O N Pb) as [G P]; [intros x X; apply J; now apply in_or_app; left|exact Pr|].
        split; [exact G|]. split; [exact P|]. split; [intros ? [] | exact Pb]. }
    destruct (IH s1) as (G' & P' & Ig' & In'); [apply G | exact N | exact Hd' | exact Pl' | | | exact E2 |].
    { intros x X. apply I. apply in_or_app. now right. }
    { intros x X. apply J. apply in_or_app. now right. }
    split; [eapply good_trans; eassumption|]. split; [|split; apply incl_app; assumption].
    intros x X. assert (List.In x (global_stmt b ++ nonlocal_stmt b) \/ List.In x (flat_map global_stmt ds ++ flat_map nonlocal_stmt ds)) as [Y|Y].
    { rewrite !in_app_iff in *. tauto. }
    + eapply keeps_present; [apply G' | | apply P; exact Y]. apply in_app_or in Y. destruct Y; auto.
    + apply P'. exact Y.
Qed.

Lemma body_ok body sc r v0 st st' (v := (sc :: r) :: v0) :
  globals sc = flat_map global_stmt body -> nonlocals sc = flat_map nonlocal_stmt body -> incl (flat_map bound_stmt body) (bound sc) ->
  Forall Q_ok body -> ok v (fst st) -> fst st <> [] -> nested v -> declared_first body -> Forall (plain_stmt m D (sc :: r)) body ->
  visit_body body st = Ok st' -> good (flat_map (names_stmt (sc :: r) v) body) v st st'.
Proof.
  intros Eg En B H O NE N (ds & rest & Eb & Hd & U) Pl E. unfold visit_body in E. apply bind_ok in E. destruct E as (s2 & E1 & E2).
  pose proof U as U0. apply undeclaring_flat in U0. destruct U0 as [Ug Un].
  assert (flat_map global_stmt body = flat_map global_stmt ds) as Eg' by (rewrite Eb, flat_map_app, Ug, app_nil_r; reflexivity).
  assert (flat_map nonlocal_stmt body = flat_map nonlocal_stmt ds) as En' by (rewrite Eb, flat_map_app, Un, app_nil_r; reflexivity).
  pose proof E1 as E1'. rewrite Eb in E1'. apply each_app in E1'. destruct E1' as (s1 & Ea & Ec).
  pose proof Pl as Pl0. rewrite Eb in Pl0. apply Forall_app in Pl0. destruct Pl0 as [Pd Pr].
  destruct (declarations ds sc r v0 st s1 O N Hd Pd) as (G1 & P1 & Ig & In); [rewrite Eg, Eg'; apply incl_refl | rewrite En, En'; apply incl_refl | exact Ea |].
  assert (full v (fst s1)) as F1.
  { split; [apply G1|]. pose proof (proj1 G1) as [O1 _]. destruct (fst s1) as [|[t d] ?] eqn:Z.
    - destruct G1 as (_ & K & _). rewrite Z in K. inversion K. congruence.
    - cbn. rewrite Eg, En, Eg', En'. split; [exact Ig|]. split; [exact In|]. intros x X. cbn in P1. apply P1. apply in_or_app. exact X. }
  assert (forall b, List.In b rest -> List.In b body) as Sub by (intros b X; rewrite Eb; apply in_or_app; now right).
  assert (forall b, List.In b body -> heads v (bound_stmt b)) as Hb.
  { intros b X. cbn. intros x Y. apply B. apply in_flat_map. exists b. split; assumption. }
  rewrite Forall_forall in H, U, Pl.
  assert (good (flat_map (names_stmt (sc :: r) v) rest) v s1 s2) as G2.
  { eapply (good_each (at_first visit_stmt) (names_stmt (sc :: r) v) v (fun s => full v (fst s))); [| |exact F1|apply F1|exact Ec].
    - intros os' a b [Oa Ca] G. split; [apply G | eapply good_full; eassumption].
    - apply Forall_forall. intros b I a a' Fa Eq.
      assert (visit_stmt b a = Ok a' -> good (names_stmt (sc :: r) v b) v a a') as Go.
      { apply (H b (Sub b I)); auto. }
      destruct b; cbn [at_first] in Eq; try (exact (Go Eq)); injection Eq as <-;
        (eapply good_init; [apply Fa | apply Fa | | now left]; eapply heads_in; [apply (Hb _ (Sub _ I)) | now left]). }
  assert (full v (fst s2)) as F2.
  { split; [apply G2 | eapply good_full; [exact G2 | apply F1]]. }
  assert (good (flat_map (names_stmt (sc :: r) v) body) v s2 st') as G3.
  { eapply (good_each (later visit_stmt) (names_stmt (sc :: r) v) v (fun s => full v (fst s))); [| |exact F2|apply F2|exact E2].
    - intros os' a b [Oa Ca] G. split; [apply G | eapply good_full; eassumption].
    - apply Forall_forall. intros b I a a' Fa Eq.
      destruct b; cbn [later] in Eq; try (injection Eq as <-; apply good_refl; apply Fa);
        (refine (H _ I (sc :: r) v0 a a' Fa N (Hb _ I) (Pl _ I) _ Eq); split; reflexivity). }
  eapply good_trans; [eapply good_incl; [|exact G1]; intros ? []|]. eapply good_trans; [|exact G3].
  eapply good_incl; [|exact G2]. rewrite Eb, flat_map_app. apply incl_appr, incl_refl.
Qed.

Lemma all_stmts_ok b : Q_ok b.
Proof.
  pose proof all_ok as (HP & _ & HT). revert b. refine (all_stmts Q_ok _ _ _ _ _ _ _ _ _ _ _).
  - intros e c v0 st st' v F N B Pl U E. apply HP; [apply F | discriminate | exact E].
  - intros ts e c v0 st st' v F N B Pl U E. cbn [visit_stmt] in E. apply bind_ok in E. destruct E as (s1 & E1 & E2). cbn [names_stmt].
    assert (good (names_expr c v e) v st s1) as G1 by (apply HP; [apply F | discriminate | exact E1]).
    eapply good_trans; [weaken|]. eapply good_incl; [apply incl_appr, incl_refl|]. apply targets_ok; [|exact B|exact E2].
    split; [apply G1 | eapply good_full; [exact G1 | apply F]].
  - intros t e c v0 st st' v F N B Pl U E. cbn [visit_stmt] in E. apply bind_ok in E. destruct E as (s1 & E1 & E2). cbn [names_stmt].
    assert (good (names_target c v t) v st (read_target t st)) as G0.
    { destruct t; cbn [read_target]; try (apply good_refl; apply F). eapply good_event; [apply F | now left]. }
    assert (good (names_expr c v e) v (read_target t st) s1) as G1 by (apply HP; [apply G0 | discriminate | exact E1]).
    assert (good (names_target c v t) v s1 st') as G2.
    { apply HT; [|exact B|exact E2]. split; [apply G1|]. eapply good_full; [exact G1|]. eapply good_full; [exact G0 | apply F]. }
    eapply good_trans; [eapply good_incl; [|exact G0]; apply incl_appl, incl_refl|].
    eapply good_trans; [eapply good_incl; [|exact G1]; apply incl_appr, incl_refl|].
    eapply good_incl; [|exact G2]; apply incl_appl, incl_refl.
  - intros t i b o Hb Ho c v0 st st' v F N B Pl U E. cbn [visit_stmt] in E. cbn [names_stmt].
    apply bind_ok in E. destruct E as (s1 & E1 & E). apply bind_ok in E. destruct E as (s2 & E2 & E).
    apply bind_ok in E. destruct E as (s3 & E3 & E4). cbn [plain_stmt] in Pl. rewrite !plain_list in Pl. destruct Pl as [Pb Po].
    destruct U as [Ug Un]. cbn [global_stmt nonlocal_stmt] in Ug, Un. apply app_eq_nil in Ug. apply app_eq_nil in Un.
    cbn [bound_stmt] in B.
    assert (good (names_target c v t) v st s1) as G1.
    { apply HT; [exact F | eapply heads_incl; [|exact B]; apply incl_appl, incl_refl | exact E1]. }
    assert (good (names_expr c v i) v s1 s2) as G2 by (apply HP; [apply G1 | discriminate | exact E2]).
    assert (full v (fst s2)) as F2 by (split; [apply G2 | eapply good_full; [exact G2|]; eapply good_full; [exact G1 | apply F]]).
    assert (good (flat_map (names_stmt c v) b) v s2 s3) as G3.
    { apply stmts_each; [exact Hb | exact F2 | exact N | | exact Pb | apply undeclaring_flat; tauto | exact E3].
      eapply heads_incl; [|exact B]. apply incl_appr, incl_appl, incl_refl. }
    assert (full v (fst s3)) as F3 by (split; [apply G3 | eapply good_full; [exact G3 | apply F2]]).
    assert (good (flat_map (names_stmt c v) o) v s3 st') as G4.
    { apply stmts_each; [exact Ho | exact F3 | exact N | | exact Po | apply undeclaring_flat; tauto | exact E4].
      eapply heads_incl; [|exact B]. apply incl_appr, incl_appr, incl_refl. }
    eapply good_trans; [eapply good_incl; [|exact G1]; apply incl_appl, incl_refl|].
    eapply good_trans; [eapply good_incl; [|exact G2]; apply incl_appr, incl_appl, incl_refl|].
    eapply good_trans; [eapply good_incl; [|exact G3]; apply incl_appr, incl_appr, incl_appl, incl_refl|].
    eapply good_incl; [|exact G4]. apply incl_appr, incl_appr, incl_appr, incl_refl.
  - intros es ts bs Hbs c v0 st st' v F N B Pl U E. cbn [visit_stmt] in E. cbn [names_stmt].
    apply bind_ok in E. destruct E as (s1 & E1 & E). apply bind_ok in E. destruct E as (s2 & E2 & E3).
    cbn [plain_stmt] in Pl. rewrite plain_lists in Pl. destruct U as [Ug Un]. cbn [global_stmt nonlocal_stmt bound_stmt] in Ug, Un, B.
    assert (good (flat_map (names_expr c v) es) v st s1) as G1 by (apply exprs_ok; [apply F | discriminate | exact E1]).
    assert (full v (fst s1)) as F1 by (split; [apply G1 | eapply good_full; [exact G1 | apply F]]).
    assert (good (flat_map (names_target c v) ts) v s1 s2) as G2.
    { apply targets_ok; [exact F1 | eapply heads_incl; [|exact B]; apply incl_appl, incl_refl | exact E2]. }
    assert (full v (fst s2)) as F2 by (split; [apply G2 | eapply good_full; [exact G2 | apply F1]]).
    assert (good (flat_map (flat_map (names_stmt c v)) bs) v s2 st') as G3.
    { eapply (good_each (each visit_stmt) (flat_map (names_stmt c v)) v (fun s => full v (fst s))); [| |exact F2|apply F2|exact E3].
      - intros os' a b [Oa Ca] G. split; [apply G | eapply good_full; eassumption].
      - rewrite Forall_forall in *. intros l I a a' Fa. apply stmts_each; [apply Hbs; exact I | exact Fa | exact N | | apply Pl; exact I |].
        + eapply heads_incl; [|exact B]. apply incl_appr. intros x X. apply in_flat_map. exists l. split; assumption.
        + apply undeclaring_flat. split.
          * destruct (flat_map global_stmt l) as [|x xs] eqn:Z; [reflexivity|]. exfalso.
            assert (List.In x (flat_map (flat_map global_stmt) bs)) as Y by (apply in_flat_map; exists l; split; [exact I | rewrite Z; now left]).
            rewrite Ug in Y. exact Y.
          * destruct (flat_map nonlocal_stmt l) as [|x xs] eqn:Z; [reflexivity|]. exfalso.
            assert (List.In x (flat_map (flat_map nonlocal_stmt) bs)) as Y by (apply in_flat_map; exists l; split; [exact I | rewrite Z; now left]).
            rewrite Un in Y. exact Y. }
    eapply good_trans; [eapply good_incl; [|exact G1]; apply incl_appl, incl_refl|].
    eapply good_trans; [eapply good_incl; [|exact G2]; apply incl_appr, incl_appl, incl_refl|].
    eapply good_incl; [|exact G3]. apply incl_appr, incl_appr, incl_refl.
  - intros xs c v0 st st' v F N B Pl [Ug _] E. cbn in Ug. subst xs. cbn in E. injection E as <-. apply good_refl. apply F.
  - intros xs c v0 st st' v F N B Pl [_ Un] E. cbn in Un. subst xs. cbn in E. injection E as <-. apply good_refl. apply F.
  - intros n ns c v0 st st' v F N B Pl U E. cbn [visit_stmt] in E. cbn [names_stmt]. injection E as <-.
    cbn [bound_stmt plain_stmt] in B, Pl. revert st F. induction Pl as [|na ns Hn _ IH]; intros st F; [apply good_refl; apply F|].
    cbn [fold_left map] in *.
    assert (good [(n, bound_import na, c, v)] v st (init_var (imported na) n st)) as G.
    { replace (imported na) with (bound_import na) by (destruct na as [y [z|]]; [reflexivity | exact (Hn eq_refl)]). eapply good_init; [apply F | apply F | eapply heads_in; [exact B | now left] | now left]. }
    eapply good_trans; [eapply good_incl; [|exact G]; intros z [<-|[]]; now left|].
    eapply good_incl; [|apply IH]; [apply incl_tl, incl_refl | eapply heads_incl; [|exact B]; apply incl_tl, incl_refl | split; reflexivity | ].
    split; [apply G | eapply good_full; [exact G | apply F]].
  - intros n x c v0 st st' v F N B Pl U E. cbn [visit_stmt] in E. injection E as <-. cbn [plain_stmt names_stmt] in *. unfold del_var.
    assert (good [(n, x, c, v)] v st (add_event x n Delete st)) as G by (eapply good_event; [apply F | now left]).
    eapply good_trans; [exact G|]. eapply good_incl; [|apply good_remove; [apply G | exact Pl]]. intros ? [].
  - intros s n x o a ps ds b Hb c v0 st st' v F N B Pl U E. cbn [visit_stmt] in E.
    cbn [plain_stmt] in Pl. rewrite plain_list in Pl. destruct Pl as (Df & Pp & Pb).
    cbn [names_stmt]. set (sc := scope_of s false ps b) in *.
    eapply (good_scope _ sc c v s _ st st' eq_refl (proj1 F)); [|eapply nonempty; [apply F | discriminate]|exact E].
    intros q q' Oq Eq Ek. apply bind_ok in Ek. destruct Ek as (s1 & E1 & Ek). apply bind_ok in Ek. destruct Ek as (s2 & E2 & Ek).
    assert (visit_body b s2 = Ok q') as Eb.
    { rewrite <- Ek. apply visit_body_eq. }
    clear Ek. set (w := (sc :: c) :: v) in *.
    assert (good (flat_map (names_expr c w) a) w q s1) as G1 by (apply exprs_ok; [exact Oq | discriminate | exact E1]).
    assert (good (map (fun p => (fst p, snd p, sc :: c, w)) ps) w s1 (init_params ps s1)) as G2.
    { apply good_params_undeclared; [| |apply G1|apply incl_refl].
      - cbn. apply incl_appl, incl_refl.
      - exact Pp. }
    assert (good (flat_map (names_expr c w) ds) w (init_params ps s1) s2) as G3 by (apply exprs_ok; [apply G2 | discriminate | exact E2]).
    assert (good (flat_map (names_stmt (sc :: c) w) b) w s2 q') as G4.
    { apply body_ok; [reflexivity | reflexivity | apply incl_appr, incl_refl | exact Hb | apply G3 | | reflexivity | exact Df | exact Pb | exact Eb].
      eapply nonempty; [apply G3 | discriminate]. }
    eapply good_trans; [eapply good_incl; [|exact G1]; apply incl_tl, incl_appr, incl_appl, incl_refl|].
    eapply good_trans; [eapply good_incl; [|exact G2]; apply incl_tl, incl_appr, incl_appr, incl_appl, incl_refl|].
    eapply good_trans; [eapply good_incl; [|exact G3]; apply incl_tl, incl_appr, incl_appr, incl_appr, incl_appl, incl_refl|].
    eapply good_incl; [|exact G4]. apply incl_tl, incl_appr, incl_appr, incl_appr, incl_appr, incl_refl.
  - intros s n x o b Hb c v0 st st' v F N B Pl U E. cbn [visit_stmt] in E.
    cbn [plain_stmt] in Pl. rewrite plain_list in Pl. destruct Pl as (Df & Pb).
    cbn [names_stmt]. set (sc := scope_of s true [] b) in *.
    eapply (good_scope _ sc c v s _ st st' eq_refl (proj1 F)); [|eapply nonempty; [apply F | discriminate]|exact E].
    intros q q' Oq Eq Ek.
    assert (visit_body b q = Ok q') as Eb.
    { rewrite <- Ek. apply visit_body_eq. }
    eapply good_incl; [apply incl_tl, incl_appr, incl_refl|].
    apply body_ok; [reflexivity | reflexivity | apply incl_refl | exact Hb | exact Oq | | reflexivity | exact Df | exact Pb | exact Eb].
    eapply nonempty; [exact Oq | discriminate].
Qed.

Lemma collected body evs : plain m D body -> collect m body = Ok evs -> Forall (justified (names_of m body)) evs.
Proof.
  intros (Df & Pl) E. unfold collect in E. apply bind_ok in E. destruct E as (st & E & Z). injection Z as <-.
  unfold in_scope in E. apply bind_ok in E. destruct E as (st' & E & Z). injection Z as <-. cbn [snd].
  assert (good (names_of m body) [module_chain m body] ([(m, [])], []) st') as (_ & _ & new & En & F).
  { apply body_ok; [reflexivity | reflexivity | apply incl_refl | apply Forall_forall; intros b _; apply all_stmts_ok | | discriminate | reflexivity | exact Df | exact Pl | exact E].
    split; [|reflexivity]. constructor; [|constructor]. split; [reflexivity | discriminate]. }
  cbn in En. rewrite En. exact F.
Qed.
End Sound.

Lemma scope_enclosing m D body evs ev : plain m D body -> collect m body = Ok evs -> List.In ev evs ->
  exists c v, List.In (node ev, name ev, c, v) (names_of m body) /\ from_enclosing m (name ev) (scope ev) v.
Proof. intros Pl E I. pose proof (collected m D body evs Pl E) as F. rewrite Forall_forall in F. exact (F ev I). Qed.
Lemma scope_pythons m D body evs ev : plain m D body -> collect m body = Ok evs -> List.In ev evs ->
  (forall c v, List.In (node ev, name ev, c, v) (names_of m body) -> unambiguous m (name ev) c v) ->
  exists c v, List.In (node ev, name ev, c, v) (names_of m body) /\ scope ev = resolve m c (name ev).
Proof.
  intros Pl E I U. destruct (scope_enclosing m D body evs ev Pl E I) as (c & v & J & sc & r & K & M & ->).
  exists c, v. split; [exact J|]. apply (U c v J); assumption.
Qed.

(** No exception without a call of locals or globals. *)
Lemma existsb_false {A} (f : A -> bool) l : existsb f l = false <-> Forall (fun a => f a = false) l.
Proof.
  induction l as [|a r IH]; cbn; [split; auto|]. rewrite orb_false_iff, IH. split.
  - intros [H K]. constructor; assumption.
  - intros H. inversion H. split; assumption.
Qed.
Lemma each_total {A} (f : A -> state -> res state) l : Forall (fun a => forall st, exists st', f a st = Ok st') l ->
  forall st, exists st', each f l st = Ok st'.
Proof.
  induction 1 as [|a l H _ IH]; intros st; [exists st; reflexivity|]. destruct (H st) as [s1 E]. destruct (IH s1) as [s2 E2].
  exists s2. cbn. rewrite E. exact E2.
Qed.
Lemma in_scope_total s k st : (forall a, exists b, k a = Ok b) -> exists st', in_scope s k st = Ok st'.
Proof. intros H. unfold in_scope. destruct (H ((s, []) :: fst st, snd st)) as [b E]. rewrite E. eexists. reflexivity. Qed.
Lemma bind_total (a : res state) k : (exists x, a = Ok x) -> (forall x, exists y, k x = Ok y) -> exists y : state, bind a k = Ok y.
Proof. intros [x ->] H. apply H. Qed.
Lemma asks_unknowable f : asks_name f = unknowable f.
Proof. destruct f; try reflexivity. cbn. rewrite orb_false_r. reflexivity. Qed.

Ltac splitf := repeat match goal with
  | H : (_ || _) = false |- _ => apply orb_false_iff in H; destruct H
  | H : existsb _ _ = false |- _ => apply existsb_false in H
  end.
Lemma fwd {A} (f : A -> bool) (g : A -> state -> res state) l :
  Forall (fun a => f a = false -> forall st, exists st', g a st = Ok st') l -> Forall (fun a => f a = false) l ->
  forall st, exists st', each g l st = Ok st'.
Proof. intros H K. apply each_total. rewrite Forall_forall in *. intros a I. apply H; auto. Qed.

Definition P_total e := asks_expr e = false -> forall st, exists st', visit_expr e st = Ok st'.
Definition G_total g := asks_gen g = false -> forall st, exists st', visit_gen g st = Ok st'.
Definition T_total t := asks_target t = false -> forall st, exists st', visit_target t st = Ok st'.
Lemma all_total : (forall e, P_total e) /\ (forall g, G_total g) /\ (forall t, T_total t).
Proof.
  apply trees; unfold P_total, G_total, T_total; cbn [asks_expr asks_gen asks_target]; intros; splitf; cbn [visit_expr visit_gen visit_target].
  - eexists. reflexivity.
  - eapply fwd; eassumption.
  - rewrite <- asks_unknowable. match goal with H : asks_name _ = false |- _ => rewrite H end.
    apply bind_total; [auto|]. intros. eapply fwd; eassumption.
  - apply in_scope_total. auto.
  - apply in_scope_total. intros. apply bind_total; [eapply fwd; eassumption|]. intros. eapply fwd; eassumption.
  - apply bind_total; [auto|]. intros. apply bind_total; [auto|]. intros. eapply fwd; eassumption.
  - eexists. reflexivity.
  - eapply fwd; eassumption.
  - auto.
Qed.
Lemma exprs_total es : Forall (fun e => asks_expr e = false) es -> forall st, exists st', each visit_expr es st = Ok st'.
Proof. intros H. eapply fwd; [|exact H]. apply Forall_forall. intros e _. apply all_total. Qed.
Lemma targets_total es : Forall (fun e => asks_target e = false) es -> forall st, exists st', each visit_target es st = Ok st'.
Proof. intros H. eapply fwd; [|exact H]. apply Forall_forall. intros e _. apply all_total. Qed.
Lemma body_total b : Forall (fun c => asks_stmt c = false -> forall st, exists st', visit_stmt c st = Ok st') b ->
  Forall (fun c => asks_stmt c = false) b -> forall st, exists st', visit_body b st = Ok st'.
Proof.
  intros H K st. unfold visit_body. apply bind_total.
  - eapply fwd; [|exact K]. rewrite Forall_forall in *. intros c I A s. destruct c; cbn [at_first]; try (eexists; reflexivity); apply H; auto.
  - intros s. eapply fwd; [|exact K]. rewrite Forall_forall in *. intros c I A s'. destruct c; cbn [later]; try (eexists; reflexivity); apply H; auto.
Qed.
Lemma stmts_total c : asks_stmt c = false -> forall st, exists st', visit_stmt c st = Ok st'.
Proof.
  pose proof all_total as (HP & _ & HT). unfold P_total, T_total in *.
  revert c. refine (all_stmts (fun c => asks_stmt c = false -> forall st, exists st', visit_stmt c st = Ok st') _ _ _ _ _ _ _ _ _ _ _);
    cbn [asks_stmt]; intros; splitf; cbn [visit_stmt]; try (eexists; reflexivity).
  - auto.
  - apply bind_total; [auto|]. intros. apply targets_total. assumption.
  - apply bind_total; [auto|]. auto.
  - apply bind_total; [auto|]. intros. apply bind_total; [auto|]. intros.
    apply bind_total; [eapply fwd; eassumption|]. intros. eapply fwd; eassumption.
  - apply bind_total; [apply exprs_total; assumption|]. intros. apply bind_total; [apply targets_total; assumption|]. intros.
    apply each_total. rewrite Forall_forall in *. intros l I s. eapply fwd; [apply (H l I)|]. apply existsb_false. auto.
  - apply in_scope_total. intros. apply bind_total; [apply exprs_total; assumption|]. intros.
    apply bind_total; [apply exprs_total; assumption|]. intros s2.
    match goal with Hb : Forall (fun c => asks_stmt c = false) ?b |- _ => destruct (body_total b ltac:(assumption) Hb s2) as [z Z] end.
    exists z. rewrite <- Z. symmetry. apply visit_body_eq.
  - apply in_scope_total. intros s2.
    match goal with Hb : Forall (fun c => asks_stmt c = false) ?b |- _ => destruct (body_total b ltac:(assumption) Hb s2) as [z Z] end.
    exists z. rewrite <- Z. symmetry. apply visit_body_eq.
Qed.
Lemma collect_total m body : existsb asks_stmt body = false -> exists evs, collect m body = Ok evs.
Proof.
  intros H. apply existsb_false in H. unfold collect.
  destruct (in_scope_total m (visit_body body) ([], [])) as [st E].
  - intros a. apply body_total; [|exact H]. apply Forall_forall. intros c _. apply stmts_total.
  - rewrite E. eexists. reflexivity.
Qed.
Lemma nodup_map {A B} (f : A -> B) l a b : NoDup (map f l) -> List.In a l -> List.In b l -> f a = f b -> a = b.
Proof.
  induction l as [|c r IH]; cbn; [intros _ []|]. intros N I J E. inversion N as [|? ? N1 N2]; subst.
  destruct I as [->|I], J as [->|J]; [reflexivity | | |].
  - exfalso. apply N1. rewrite E. apply in_map. exact J.
  - exfalso. apply N1. rewrite <- E. apply in_map. exact I.
  - apply IH; assumption.
Qed.
Lemma scope_python m D body evs ev c v : plain m D body -> one_each m body -> collect m body = Ok evs -> List.In ev evs ->
  List.In (node ev, name ev, c, v) (names_of m body) -> unambiguous m (name ev) c v -> scope ev = resolve m c (name ev).
Proof.
  intros Pl N E I J U. destruct (scope_enclosing m D body evs ev Pl E I) as (c' & v' & J' & sc & r & K & M & Es).
  assert ((node ev, name ev, c', v') = (node ev, name ev, c, v)) as Q by (eapply (nodup_map node_name); [exact N | exact J' | exact J | reflexivity]).
  injection Q as -> ->. rewrite Es. apply U; assumption.
Qed.
