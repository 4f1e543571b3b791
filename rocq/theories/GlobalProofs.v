(** Proofs about the check of global variables. *)
From Coq Require Import String List Bool Arith Lia.
From Verif Require Import GlobalModel GlobalSpec.
Import ListNotations.
Local Open Scope string_scope.
Local Open Scope list_scope.
Local Open Scope nat_scope.

Lemma variable_eqb_eq : forall x y, variable_eqb x y = true <-> x = y.
Proof.
  intros [x s] [y t]. unfold variable_eqb. cbn [fst snd]. rewrite andb_true_iff, String.eqb_eq, Nat.eqb_eq. split; [intros [-> ->]; reflexivity|].
  intro H. split; congruence.
Qed.
Lemma variable_eqb_refl : forall x, variable_eqb x x = true.
Proof. intro x. apply variable_eqb_eq. reflexivity. Qed.
Lemma variable_eqb_neq : forall x y, x <> y -> variable_eqb x y = false.
Proof. intros x y N. destruct (variable_eqb x y) eqn:E; [|reflexivity]. apply variable_eqb_eq in E. contradiction. Qed.

Lemma lookup_store : forall x y e d, lookup y (store x e d) = if variable_eqb x y then Some e else lookup y d.
Proof.
  intros x y e. induction d as [|[z f] d IH]; cbn [store lookup]; [reflexivity|]. destruct (variable_eqb z x) eqn:E; cbn [lookup].
  - apply variable_eqb_eq in E. subst z. destruct (variable_eqb x y); reflexivity.
  - rewrite IH. destruct (variable_eqb z y) eqn:Q; [|reflexivity]. apply variable_eqb_eq in Q. subst z.
    rewrite variable_eqb_neq; [reflexivity|]. intros ->. rewrite variable_eqb_refl in E. discriminate E.
Qed.
Lemma lookup_pop : forall x y d, lookup y (pop x d) = if variable_eqb x y then None else lookup y d.
Proof.
  intros x y. unfold pop. induction d as [|[z f] d IH]; cbn [filter lookup fst]; [destruct (variable_eqb x y); reflexivity|].
  destruct (variable_eqb z x) eqn:E; cbn [negb lookup]; rewrite IH.
  - apply variable_eqb_eq in E. subst z. destruct (variable_eqb x y); reflexivity.
  - destruct (variable_eqb z y) eqn:Q; [|reflexivity]. apply variable_eqb_eq in Q. subst z.
    rewrite variable_eqb_neq; [reflexivity|]. intros ->. rewrite variable_eqb_refl in E. discriminate E.
Qed.

Lemma all_in : forall l x e, In (x, e) (all (events_at l)) <-> happens l x e.
Proof.
  intros l x e. unfold all, happens. rewrite in_flat_map. split.
  - intros ([y es] & I & J). apply in_map_iff in J as (f & E & J). cbn [fst snd] in *. exists es. assert (y = x) by congruence. assert (f = e) by congruence.
    subst. split; assumption.
  - intros (es & I & J). exists (x, es). split; [exact I|]. apply in_map_iff. exists e. split; [reflexivity|exact J].
Qed.
Lemma assigns_toplevel_is : forall x e, assigns_toplevel (x, e) = true <-> snd x = 0 /\ is_assignment e.
Proof.
  intros [x s] e. unfold assigns_toplevel, is_assignment, module. cbn [fst snd]. rewrite andb_true_iff, Nat.eqb_eq.
  split; intros [A B]; (split; [exact A|]); destruct (type e); auto; try discriminate B; destruct B as [B|B]; discriminate B.
Qed.

(** ** The variables of the top level *)

Definition stored (l : list (variable * event)) (d : list (variable * event)) := fold_left (fun d p => store (fst p) (snd p) d) l d.
Definition found_at (l : loc) : list (variable * event) := filter assigns_toplevel (if is_import l then [] else all (events_at l)).
Lemma found_at_in : forall l x e, In (x, e) (found_at l) <-> is_import l = false /\ snd x = 0 /\ happens l x e /\ is_assignment e.
Proof.
  intros l x e. unfold found_at. rewrite filter_In, assigns_toplevel_is. destruct (is_import l).
  - split; [intros [[] _]|intros [H _]; discriminate H].
  - rewrite all_in. tauto.
Qed.
Lemma filter_flat_map {A B} : forall (p : B -> bool) (f : A -> list B) l, filter p (flat_map f l) = flat_map (fun x => filter p (f x)) l.
Proof. intros p f. induction l as [|x l IH]; cbn [flat_map]; [reflexivity|]. rewrite filter_app, IH. reflexivity. Qed.
Lemma toplevel_vars_is : forall locs, toplevel_vars locs = stored (flat_map found_at locs) [].
Proof. intro locs. unfold toplevel_vars. rewrite filter_flat_map. reflexivity. Qed.
Lemma stored_cases : forall l d x, (exists e, In (x, e) l /\ lookup x (stored l d) = Some e) \/ ((forall e, ~ In (x, e) l) /\ lookup x (stored l d) = lookup x d).
Proof.
  induction l as [|[y f] l IH]; intros d x; [right; split; [intros e []|reflexivity]|]. change (stored ((y, f) :: l) d) with (stored l (store y f d)).
  destruct (IH (store y f d) x) as [(e & I & E)|[N E]]; [left; exists e; split; [right; exact I|exact E]|].
  rewrite lookup_store in E. destruct (variable_eqb y x) eqn:Q.
  - apply variable_eqb_eq in Q. subst y. left. exists f. split; [left; reflexivity|exact E].
  - right. split; [|exact E]. intros e [H|H]; [|exact (N e H)]. assert (y = x) by congruence. subst. rewrite variable_eqb_refl in Q. discriminate Q.
Qed.
Lemma stored_app : forall l m d, stored (l ++ m) d = stored m (stored l d).
Proof. intros l m d. apply fold_left_app. Qed.

Lemma toplevel_lookup : forall locs x e, lookup x (toplevel_vars locs) = Some e -> snd x = 0 /\ last_global_at locs (fst x) (lineno e).
Proof.
  intros locs x e. rewrite toplevel_vars_is. induction locs as [|l locs IH] using rev_ind; intro E; [discriminate E|].
  rewrite flat_map_app, stored_app in E. cbn [flat_map] in E. rewrite app_nil_r in E.
  destruct (stored_cases (found_at l) (stored (flat_map found_at locs) []) x) as [(f & I & F)|[N F]]; rewrite F in E.
  - assert (f = e) by congruence. subst f. apply found_at_in in I as (A & B & C & D). split; [exact B|]. exists locs, l, [], e.
    destruct x as [x s]. cbn [fst snd] in *. subst s. split; [reflexivity|]. split; [exact A|]. split; [exact C|]. split; [exact D|]. split; [reflexivity|].
    intros l' e' [].
  - destruct (IH E) as (B & l1 & l' & l2 & f & -> & A & C & D & Q & Z). split; [exact B|]. exists l1, l', (l2 ++ [l]), f.
    split; [rewrite <- app_assoc; reflexivity|]. split; [exact A|]. split; [exact C|]. split; [exact D|]. split; [exact Q|].
    intros m e' I M H As. apply in_app_iff in I as [I|[<-|[]]]; [exact (Z m e' I M H As)|]. apply (N e'). apply found_at_in.
    destruct x as [x s]. cbn [fst snd] in *. subst s. split; [exact M|]. split; [reflexivity|]. split; assumption.
Qed.
Lemma toplevel_has : forall locs x line, global_at locs x line -> exists e, lookup (x, 0) (toplevel_vars locs) = Some e.
Proof.
  intros locs x line (l & e & I & M & H & As & _). rewrite toplevel_vars_is. destruct (stored_cases (flat_map found_at locs) [] (x, 0)) as [(f & _ & F)|[N _]].
  - exists f. exact F.
  - exfalso. apply (N e). apply in_flat_map. exists l. split; [exact I|]. apply found_at_in. repeat split; assumption.
Qed.

(** ** The messages *)

Lemma changes_is : forall e, changes e = true <-> type e <> READ /\ within e <> 0.
Proof.
  intro e. unfold changes, module. rewrite andb_true_iff, negb_true_iff, Nat.eqb_neq. split; intros [A B]; (split; [|exact B]); destruct (type e); try discriminate; try reflexivity;
    try discriminate A; contradiction.
Qed.

Notation state := (list (variable * event) * list message)%type.
Definition invariant (vars : list (variable * event)) (done : list (variable * list event)) (s : state) : Prop :=
  (forall x e, lookup x (fst s) = Some e -> lookup x vars = Some e /\ (snd x = 0 -> ~ In (fst x) (map about (snd s)))) /\
  NoDup (map about (snd s)) /\
  (forall m, In m (snd s) -> exists e es f, lookup (about m, 0) vars = Some e /\ m = (lineno e, about m, lineno f) /\ In ((about m, 0), es) done /\ In f es /\ changes f = true) /\
  (forall x es f, In (x, es) done -> In f es -> changes f = true -> lookup x (fst s) = None).

Lemma invariant_step : forall vars done s p, (forall x e, lookup x vars = Some e -> snd x = 0) -> invariant vars done s -> invariant vars (done ++ [p]) (check_var s p).
Proof.
  intros vars done [d ms] [x es] Z (A & N & B & C). cbn [fst snd] in *.
  assert (More : forall m, In m ms -> exists e es0 f, lookup (about m, 0) vars = Some e /\ m = (lineno e, about m, lineno f) /\ In ((about m, 0), es0) (done ++ [(x, es)]) /\ In f es0 /\ changes f = true).
  { intros m I. destruct (B m I) as (e & es0 & f & H1 & H2 & H3 & H4). exists e, es0, f. split; [exact H1|]. split; [exact H2|]. split; [apply in_app_iff; left; exact H3|exact H4]. }
  unfold check_var. cbn [fst snd]. destruct (lookup x d) as [top|] eqn:L.
  - destruct (find changes es) as [f|] eqn:F.
    + destruct (A x top L) as [Lv Nx]. assert (Sx := Z x top Lv). specialize (Nx Sx). destruct (find_some _ _ F) as [If Cf].
      destruct x as [x s]. cbn [fst snd] in *. subst s. split; [|split; [|split]]; cbn [fst snd].
      * intros y e E. rewrite lookup_pop in E. destruct (variable_eqb (x, 0) y) eqn:Q; [discriminate E|]. destruct (A y e E) as [Lw Ny]. split; [exact Lw|]. intros Sy.
        rewrite map_app, in_app_iff. intros [H|[H|[]]]; [exact (Ny Sy H)|]. cbn [about fst snd] in H. destruct y as [y t]. cbn [fst snd] in *. subst.
        rewrite variable_eqb_refl in Q. discriminate Q.
      * rewrite map_app. cbn [map about fst snd]. clear - N Nx. induction (map about ms) as [|a l IH]; cbn [app]; [constructor; [intros []|constructor]|].
        inversion N as [|? ? Na Nl]. subst. constructor; [|apply IH; [exact Nl|intro H; apply Nx; right; exact H]].
        rewrite in_app_iff. intros [H|[H|[]]]; [exact (Na H)|]. apply Nx. left. symmetry. exact H.
      * intros m I. apply in_app_iff in I as [I|[<-|[]]]; [exact (More m I)|]. cbn [about fst snd]. exists top, es, f. split; [exact Lv|]. split; [reflexivity|].
        split; [apply in_app_iff; right; left; reflexivity|]. split; [exact If|exact Cf].
      * intros y es' g I J Cg. rewrite lookup_pop. destruct (variable_eqb (x, 0) y) eqn:Q; [reflexivity|]. apply in_app_iff in I as [I|[I|[]]]; [exact (C y es' g I J Cg)|].
        assert ((x, 0) = y) by congruence. subst y. rewrite variable_eqb_refl in Q. discriminate Q.
    + split; [exact A|]. split; [exact N|]. split; [exact More|]. intros y es' g I J Cg. apply in_app_iff in I as [I|[I|[]]]; [exact (C y es' g I J Cg)|].
      assert (es = es') by congruence. subst es'. rewrite (find_none _ _ F g J) in Cg. discriminate Cg.
  - split; [exact A|]. split; [exact N|]. split; [exact More|]. intros y es' g I J Cg. apply in_app_iff in I as [I|[I|[]]]; [exact (C y es' g I J Cg)|].
    assert (x = y) by congruence. subst y. exact L.
Qed.
Lemma invariant_all : forall vars, (forall x e, lookup x vars = Some e -> snd x = 0) -> forall l, invariant vars l (fold_left check_var l (vars, [])).
Proof.
  intros vars Z l. induction l as [|p l IH] using rev_ind.
  - cbn [fold_left]. split; [|split; [constructor|split; [intros m []|intros x es f []]]]. cbn [fst snd map]. intros x e E. split; [exact E|]. intros _ [].
  - rewrite fold_left_app. cbn [fold_left]. apply invariant_step; assumption.
Qed.

(** A name that was there is still there or reported. *)
Lemma kept : forall vars l s x e, lookup x vars = Some e -> (lookup x (fst s) = None -> In (fst x) (map about (snd s))) ->
  lookup x (fst (fold_left check_var l s)) = None -> In (fst x) (map about (snd (fold_left check_var l s))).
Proof.
  intros vars. induction l as [|[y es] l IH]; intros s x e E H; cbn [fold_left]; [exact H|]. apply (IH _ x e E). unfold check_var. cbn [fst snd].
  destruct (lookup y (fst s)) as [top|] eqn:L; [|exact H]. destruct (find changes es) as [f|]; [|exact H]. cbn [fst snd]. rewrite lookup_pop. destruct (variable_eqb y x) eqn:Q.
  - intros _. apply variable_eqb_eq in Q. subst y. rewrite map_app, in_app_iff. right. left. reflexivity.
  - intro G. rewrite map_app, in_app_iff. left. exact (H G).
Qed.

(** ** Functions and classes *)

Definition of_all (P : loc -> Prop) (d : definition) : Prop := match d with Plain => True | Function b | Class b => Forall P b end.
Section Induction.
  Variable P : loc -> Prop.
  Hypothesis step : forall i e d, of_all P d -> P (Loc i e d).
  Fixpoint loc_tree_ind (l : loc) : P l :=
    match l with
    | Loc i e d => step i e d
        match d as d0 return of_all P d0 with
        | Plain => I
        | Function b | Class b => (fix go (b : list loc) : Forall P b := match b with [] => Forall_nil P | x :: b => Forall_cons x (loc_tree_ind x) (go b) end) b
        end
    end.
End Induction.

Definition steps_into (l m : loc) : Prop :=
  match l with
  | Loc _ _ Plain => False
  | Loc _ _ (Function b) => In m b
  | Loc _ _ (Class b) => exists j f b', In (Loc j f (Function b')) b /\ In m b'
  end.
Lemma explore_self : forall l, In l (explore l).
Proof. intros [i e d]. cbn [explore]. left. reflexivity. Qed.
Lemma explore_step : forall l m, In m (explore l) <-> m = l \/ exists k, steps_into l k /\ In m (explore k).
Proof.
  intros [i e d] m. cbn [explore In]. split.
  - intros [<-|I]; [left; reflexivity|right]. destruct d as [|b|b]; [destruct I| |].
    + apply in_flat_map in I as (k & K & I). exists k. split; assumption.
    + apply in_flat_map in I as ([j f [|b'|b']] & K & I); [destruct I| |destruct I]. apply in_flat_map in I as (k & K' & I). exists k.
      split; [|exact I]. exists j, f, b'. split; assumption.
  - intros [->|(k & K & I)]; [left; reflexivity|right]. destruct d as [|b|b]; cbn [steps_into] in K; [destruct K| |].
    + apply in_flat_map. exists k. split; assumption.
    + destruct K as (j & f & b' & J & K). apply in_flat_map. exists (Loc j f (Function b')). split; [exact J|]. apply in_flat_map. exists k. split; assumption.
Qed.
(** Exploring goes on: what can be stepped into is explored, too. *)
Lemma explore_closed : forall l k m, In k (explore l) -> steps_into k m -> In m (explore l).
Proof.
  assert (H : forall l, (forall k m, In k (explore l) -> steps_into k m -> In m (explore l)) /\
    (forall n, (exists i e b, l = Loc i e (Function b) /\ In n b) -> forall k m, In k (explore n) -> steps_into k m -> In m (explore n))).
  { apply loc_tree_ind. intros i e d F.
    assert (G : forall n, steps_into (Loc i e d) n -> forall k m, In k (explore n) -> steps_into k m -> In m (explore n)).
    { intros n N. destruct d as [|b|b]; cbn [steps_into] in N; [destruct N| |]; unfold of_all in F; rewrite Forall_forall in F.
      - exact (proj1 (F n N)).
      - destruct N as (j & f & b' & J & N). apply (proj2 (F _ J)). exists j, f, b'. split; [reflexivity|exact N]. }
    split.
    - intros k m K M. apply explore_step in K as [->|(n & N & K)]; apply explore_step; right.
      + exists m. split; [exact M|apply explore_self].
      + exists n. split; [exact N|exact (G n N k m K M)].
    - intros n (i' & e' & b & E & N). apply G. assert (d = Function b) by congruence. subst d. exact N. }
  intro l. exact (proj1 (H l)).
Qed.
Lemma explored_inside_functions : forall locs m, inside_functions locs m <-> In m (flat_map explore locs).
Proof.
  intros locs m. split.
  - intro H. induction H as [l I|i e b m H IH I|i e b j f b' m H IH J I].
    + apply in_flat_map. exists l. split; [exact I|apply explore_self].
    + apply in_flat_map in IH as (l & L & K). apply in_flat_map. exists l. split; [exact L|]. apply (explore_closed l _ m K). exact I.
    + apply in_flat_map in IH as (l & L & K). apply in_flat_map. exists l. split; [exact L|]. apply (explore_closed l _ m K). exists j, f, b'. split; assumption.
  - intro H. apply in_flat_map in H as (l & L & H). assert (G : inside_functions locs l) by (apply functions_here; exact L). clear L. revert l G H.
    assert (Q : forall l, (inside_functions locs l -> In m (explore l) -> inside_functions locs m) /\
      (forall n, (exists i e b, l = Loc i e (Function b) /\ In n b) -> inside_functions locs n -> In m (explore n) -> inside_functions locs m)).
    { apply loc_tree_ind. intros i e d F. split.
      - intros G H. apply explore_step in H as [->|(k & K & H)]; [exact G|]. destruct d as [|b|b]; cbn [steps_into] in K; [destruct K| |]; unfold of_all in F; rewrite Forall_forall in F.
        + apply (proj1 (F k K)); [|exact H]. exact (functions_function locs i e b k G K).
        + destruct K as (j & f & b' & J & K). apply (proj2 (F _ J) k); [exists j, f, b'; split; [reflexivity|exact K]| |exact H].
          exact (functions_method locs i e b j f b' k G J K).
      - intros n (i' & e' & b & E & N). assert (d = Function b) by congruence. subst d. unfold of_all in F; rewrite Forall_forall in F. exact (proj1 (F n N)). }
    intro l. exact (proj1 (Q l)).
Qed.
Lemma functions_inside : forall locs m, inside_functions locs m -> inside locs m.
Proof.
  intros locs m H. induction H as [l I|i e b m H IH I|i e b j f b' m H IH J I].
  - apply inside_here. exact I.
  - exact (inside_function locs i e b m IH I).
  - exact (inside_function locs j f b' m (inside_class locs i e b _ IH J) I).
Qed.

(** ** The check *)

Lemma messages_are : forall locs walk m, In m (visit_module locs walk) ->
  In m (snd (fold_left check_var (flat_map events_at (flat_map explore walk)) (toplevel_vars locs, []))).
Proof. intros locs walk m I. unfold visit_module in I. cbv zeta in I. destruct (toplevel_vars locs); [destruct I|exact I]. Qed.
Lemma toplevel_scope : forall locs x e, lookup x (toplevel_vars locs) = Some e -> snd x = 0.
Proof. intros locs x e E. exact (proj1 (toplevel_lookup locs x e E)). Qed.

Theorem message_right : forall locs walk line x example, In (line, x, example) (visit_module locs walk) ->
  last_global_at locs x line /\ changed_in (inside walk) x example.
Proof.
  intros locs walk line x ex I. apply messages_are in I. destruct (invariant_all _ (toplevel_scope locs) (flat_map events_at (flat_map explore walk))) as (_ & _ & B & _).
  destruct (B _ I) as (e & es & f & L & E & D & F & C). cbn [about fst snd] in *. assert (line = lineno e) by congruence. assert (ex = lineno f) by congruence. subst.
  split; [exact (proj2 (toplevel_lookup locs _ e L))|]. apply in_flat_map in D as (l & M & D). apply changes_is in C as [Ct Cw].
  exists l, f. split; [apply functions_inside, explored_inside_functions; exact M|]. split; [exists es; split; assumption|]. split; [exact Ct|]. split; [exact Cw|reflexivity].
Qed.
Theorem message_once : forall locs walk, NoDup (map about (visit_module locs walk)).
Proof.
  intros locs walk. unfold visit_module. cbv zeta. destruct (toplevel_vars locs) as [|v vars] eqn:V; [constructor|]. rewrite <- V.
  exact (proj1 (proj2 (invariant_all _ (toplevel_scope locs) _))).
Qed.
Theorem message_complete : forall locs walk x line example, global_at locs x line -> changed_in (inside_functions walk) x example ->
  In x (map about (visit_module locs walk)).
Proof.
  intros locs walk x line ex G (l & f & I & (es & H & F) & Ct & Cw & _). destruct (toplevel_has locs x line G) as [e L].
  set (work := flat_map events_at (flat_map explore walk)).
  assert (V : visit_module locs walk = snd (fold_left check_var work (toplevel_vars locs, []))).
  { unfold visit_module. cbv zeta. destruct (toplevel_vars locs) eqn:V; [discriminate L|reflexivity]. }
  rewrite V. change x with (fst (x, 0)). apply (kept (toplevel_vars locs) work _ (x, 0) e L); [cbn [fst]; congruence|].
  apply (proj2 (proj2 (proj2 (invariant_all _ (toplevel_scope locs) work))) (x, 0) es f); [|exact F|apply changes_is; split; assumption].
  apply in_flat_map. exists l. split; [apply explored_inside_functions; exact I|exact H].
Qed.
