(** Proofs about the variables of cores and their merging. *)
From Coq Require Import String List Bool Arith ZArith QArith Lia.
From Verif Require Import Base AuModel AuSpec AuProofs.
Import ListNotations.
Local Open Scope string_scope.
Local Open Scope list_scope.
Local Open Scope nat_scope.

(** ** Equality of plain values *)

Lemma atom_eq_refl : forall a, atom_eq a a = true.
Proof.
  intros a. unfold atom_eq.
  destruct a; cbn [number]; rewrite ?String.eqb_refl; try reflexivity;
    rewrite (proj2 (Qeq_bool_iff _ _) (Qeq_refl _)), (proj2 (Qeq_bool_iff _ _) (Qeq_refl _)); reflexivity.
Qed.
Lemma atom_eq_sym : forall a b, atom_eq a b = true -> atom_eq b a = true.
Proof.
  intros a b. unfold atom_eq. destruct (number a) as [[x y]|]; destruct (number b) as [[u v]|]; try discriminate.
  - rewrite !andb_true_iff, !Qeq_bool_iff. intros [E F]. split; symmetry; assumption.
  - destruct a, b; try discriminate; try reflexivity; rewrite !String.eqb_eq; congruence.
Qed.
Lemma atom_eq_trans : forall a b c, atom_eq a b = true -> atom_eq b c = true -> atom_eq a c = true.
Proof.
  intros a b c. unfold atom_eq.
  destruct (number a) as [[x y]|]; destruct (number b) as [[u v]|]; destruct (number c) as [[w z]|]; try discriminate.
  - rewrite !andb_true_iff, !Qeq_bool_iff. intros [E F] [G H]. split; etransitivity; eassumption.
  - destruct a, b; try discriminate; destruct c; try discriminate; try reflexivity; rewrite !String.eqb_eq; congruence.
Qed.
Lemma atom_eq_str : forall a s, atom_eq a (AStr s) = true -> a = AStr s.
Proof.
  intros a s. unfold atom_eq. cbn [number]. destruct (number a) as [[x y]|] eqn:N; [discriminate|].
  destruct a; try discriminate. rewrite String.eqb_eq. congruence.
Qed.
Lemma const_eq_sym : forall u v, const_eq u v = true -> const_eq v u = true.
Proof. intros [] []; cbn [const_eq]; try discriminate. apply atom_eq_sym. Qed.
Lemma const_eq_trans : forall u v w, const_eq u v = true -> const_eq v w = true -> const_eq u w = true.
Proof. intros [] []; cbn [const_eq]; try discriminate. intros []; try discriminate. apply atom_eq_trans. Qed.
Lemma keys_eq_sym : forall u v, keys_eq u v = true -> keys_eq v u = true.
Proof.
  induction u as [|x u IH]; intros [|y v]; cbn [keys_eq]; try discriminate; [reflexivity|].
  rewrite !andb_true_iff. intros [E F]. split; [apply const_eq_sym; exact E|apply IH; exact F].
Qed.
Lemma keys_eq_trans : forall u v w, keys_eq u v = true -> keys_eq v w = true -> keys_eq u w = true.
Proof.
  induction u as [|x u IH]; intros [|y v] [|z w]; cbn [keys_eq]; try discriminate; [reflexivity|].
  rewrite !andb_true_iff. intros [E F] [G H]. split; [exact (const_eq_trans _ _ _ E G)|exact (IH _ _ F H)].
Qed.
Lemma keys_eq_nth : forall u v i x, keys_eq u v = true -> nth_error v i = Some x -> exists y, nth_error u i = Some y /\ const_eq y x = true.
Proof.
  induction u as [|a u IH]; intros [|b v] i x; cbn [keys_eq]; try discriminate.
  - intros _ E. destruct i; discriminate.
  - rewrite andb_true_iff. intros [E F]. destruct i as [|i]; cbn [nth_error].
    + intros G. injection G as <-. exists a. split; [reflexivity|exact E].
    + intros G. exact (IH _ _ _ F G).
Qed.
Lemma all_same_nth : forall subs i x y, all_same subs = true -> nth_error subs 0 = Some x -> nth_error subs i = Some y -> const_eq y x = true.
Proof.
  intros [|s subs] i x y A E F; [discriminate|]. cbn [nth_error] in E. injection E as <-.
  unfold all_same in A. rewrite forallb_forall in A. apply A. exact (nth_error_In _ _ F).
Qed.
Lemma all_same_keys : forall k subs i x y, keys_eq k subs = true -> all_same k = true ->
  nth_error subs 0 = Some x -> nth_error subs i = Some y -> const_eq y x = true.
Proof.
  intros k subs i x y K A E F.
  destruct (keys_eq_nth _ _ _ _ K E) as (x' & E' & X). destruct (keys_eq_nth _ _ _ _ K F) as (y' & F' & Y).
  pose proof (all_same_nth _ _ _ _ A E' F') as C.
  exact (const_eq_trans _ _ _ (const_eq_sym _ _ Y) (const_eq_trans _ _ _ C X)).
Qed.

(** ** The variables of a core *)

Fixpoint vars_in (core : val) : list val :=
  match core with
  | VVar _ _ => [core]
  | VNode _ attrs _ => flat_map (fun '(_, v) => vars_in v) attrs
  | VList l | VTup l => flat_map vars_in l
  | VAtom _ => []
  end.

Definition functional (l : list (nat * option string)) : Prop := forall n p q, List.In (n, p) l -> List.In (n, q) l -> p = q.
Definition within (num num' : nat) (l : list (nat * option string)) : Prop := forall n p, List.In (n, p) l -> num < n /\ n <= num'.

Lemma functional_app : forall l m num n1 n2, functional l -> functional m -> within num n1 l -> within n1 n2 m -> functional (l ++ m).
Proof.
  intros l m num n1 n2 Fl Fm Wl Wm n p q Ip Iq. apply in_app_or in Ip, Iq.
  destruct Ip as [Ip|Ip]; destruct Iq as [Iq|Iq].
  - exact (Fl _ _ _ Ip Iq).
  - apply Wl in Ip. apply Wm in Iq. lia.
  - apply Wm in Ip. apply Wl in Iq. lia.
  - exact (Fm _ _ _ Ip Iq).
Qed.
Lemma within_app : forall l m num n1 n2, num <= n1 -> n1 <= n2 -> within num n1 l -> within n1 n2 m -> within num n2 (l ++ m).
Proof. intros l m num n1 n2 L1 L2 Wl Wm n p I. apply in_app_or in I. destruct I as [I|I]; [apply Wl in I|apply Wm in I]; lia. Qed.

Definition namek (k : string) : bool := str_in k ["Name"; "AssignName"].
Lemma namek_iff : forall k, namek k = true <-> name_class k.
Proof.
  intros k. unfold namek. rewrite str_in_iff. unfold name_class. cbn [List.In]. intuition congruence.
Qed.

Lemma parents_vars : forall core p, map fst (parents_in p core) = map (fun v => match v with VVar n _ => n | _ => 0 end) (vars_in core).
Proof.
  induction core as [a|l IH|l IH|k attrs s IH|n s] using val_ind2; intros p; try reflexivity.
  - cbn [parents_in vars_in]. induction IH as [|v l E F IHF]; [reflexivity|]. cbn [flat_map]. rewrite !map_app, E, IHF. reflexivity.
  - cbn [parents_in vars_in]. induction IH as [|v l E F IHF]; [reflexivity|]. cbn [flat_map]. rewrite !map_app, E, IHF. reflexivity.
  - cbn [parents_in vars_in]. induction IH as [|[a v] l E F IHF]; [reflexivity|]. cbn [flat_map snd] in *. rewrite !map_app, E, IHF. reflexivity.
Qed.

Lemma vars_are_vars : forall core v, List.In v (vars_in core) -> exists n subs, v = VVar n subs.
Proof.
  induction core as [a|l IH|l IH|k attrs s IH|n s] using val_ind2; intros v I; cbn [vars_in] in I.
  - destruct I.
  - apply in_flat_map in I. destruct I as (w & Iw & I). rewrite Forall_forall in IH. exact (IH w Iw v I).
  - apply in_flat_map in I. destruct I as (w & Iw & I). rewrite Forall_forall in IH. exact (IH w Iw v I).
  - apply in_flat_map in I. destruct I as ([a w] & Iw & I). rewrite Forall_forall in IH. exact (IH _ Iw v I).
  - destruct I as [<-|[]]. eauto.
Qed.

Definition textual (subs : list val) : Prop := subs <> [] /\ Forall (fun v => exists s, v = VAtom (AStr s)) subs.

(** The variables made between the states [num] and [num'], with their places. *)
Record made (num num' : nat) (places : option string -> list (nat * option string)) (vars avars : list val) : Prop := mk_made {
  made_le : num <= num';
  made_within : forall p, within num num' (places p);
  made_functional : forall p, functional (places p);
  made_vars : forall n subs, List.In (VVar n subs) vars -> List.In (VVar n subs) avars \/ subs = [];
  made_avars : forall v, List.In v avars -> exists n subs, v = VVar n subs /\ num < n <= num';
  made_once : forall n s t, List.In (VVar n s) avars -> List.In (VVar n t) avars -> s = t;
  made_placed : forall n subs, List.In (VVar n subs) avars -> forall p, exists q, List.In (n, q) (places p) }.

Lemma made_app : forall num n1 n2 pl pl' vars vars' avars avars', made num n1 pl vars avars -> made n1 n2 pl' vars' avars' ->
  made num n2 (fun p => pl p ++ pl' p) (vars ++ vars') (avars ++ avars').
Proof.
  intros num n1 n2 pl pl' vars vars' avars avars' [L W F V A O P] [L' W' F' V' A' O' P']. constructor.
  - lia.
  - intros p. eapply within_app; eauto.
  - intros p. eapply functional_app; eauto.
  - intros n subs I. apply in_app_or in I. rewrite in_app_iff. destruct I as [I|I]; [apply V in I|apply V' in I]; tauto.
  - intros v I. apply in_app_or in I. destruct I as [I|I]; [apply A in I|apply A' in I]; destruct I as (n & subs & E & B); exists n, subs; (split; [exact E|lia]).
  - intros n s t I J. apply in_app_or in I, J.
    assert (R : forall m u, List.In (VVar m u) avars -> num < m <= n1).
    { intros m u K. apply A in K. destruct K as (m' & u' & E & B). injection E as <- <-. exact B. }
    assert (R' : forall m u, List.In (VVar m u) avars' -> n1 < m <= n2).
    { intros m u K. apply A' in K. destruct K as (m' & u' & E & B). injection E as <- <-. exact B. }
    destruct I as [I|I]; destruct J as [J|J].
    + exact (O _ _ _ I J).
    + apply R in I. apply R' in J. lia.
    + apply R' in I. apply R in J. lia.
    + exact (O' _ _ _ I J).
  - intros n subs I p. apply in_app_or in I. destruct I as [I|I]; [destruct (P _ _ I p) as (q & K)|destruct (P' _ _ I p) as (q & K)];
      exists q; apply in_or_app; [left|right]; exact K.
Qed.

Lemma made_nil : forall num, made num num (fun _ => []) [] [].
Proof.
  intros num. constructor; try (intros; contradiction); [lia|intros p n q []|intros p n q r []].
Qed.

Section Vars.
  Variable astroid_fields : string -> list string.
  Variable is_subclass : string -> string -> bool.
  Variable class_of : string -> node_class.
  Variable stop_on : list val -> res bool.
  Notation unify := (unify astroid_fields is_subclass class_of stop_on).

  Definition made_by (num : nat) (r : val * list val * nat) : Prop :=
    let '(core, avars, num') := r in made num num' (fun p => parents_in p core) (vars_in core) avars.

  Lemma new_aunifier_made : forall subs num r, new_aunifier stop_on subs num = Ok r -> made_by num r.
  Proof.
    intros subs num [[core avars] num'] E. apply new_aunifier_ok in E. destruct E as (-> & -> & ->). constructor; cbn [parents_in vars_in].
    - lia.
    - intros p n q [E|[]]. injection E as <- <-. lia.
    - intros p n q r [E|[]] [F|[]]. congruence.
    - intros n s I. left. exact I.
    - intros v [<-|[]]. do 2 eexists. split; [reflexivity|lia].
    - intros n s t [E|[]] [F|[]]. congruence.
    - intros n s [E|[]] p. injection E as <- <-. exists p. left. reflexivity.
  Qed.

  Lemma as_tuple_vars : forall children core core', as_tuple children core = Ok core' ->
    vars_in core' = vars_in core /\ forall p, parents_in p core' = parents_in p core.
  Proof.
    intros children core core' E. unfold as_tuple in E. destruct children as [|[]]; try (injection E as <-; split; reflexivity).
    destruct core; try discriminate; injection E as <-; split; reflexivity.
  Qed.

  Lemma new_node_places : forall kind cores attrs, new_node class_of kind cores = Ok attrs ->
    forall a c, List.In (a, c) attrs -> List.In (a, c) cores \/ (vars_in c = [] /\ forall p, parents_in p c = []).
  Proof.
    intros kind cores attrs E a c I. unfold new_node in E.
    set (after_ := postinit_params (class_of kind)) in *. set (before_ := filter _ cores) in E.
    assert (B : forall x, List.In x before_ -> List.In x cores) by (intros x Ix; unfold before_ in Ix; apply filter_In in Ix; exact (proj1 Ix)).
    clearbody before_. destruct (_ && _) in E; [|discriminate].
    match type of E with Ok ?x = _ => assert (E' : x = attrs) by congruence end. clear E. rewrite <- E' in I. apply in_app_or in I. destruct I as [I|I].
    - apply in_map_iff in I. destruct I as ([b l] & F & _). injection F as -> <-.
      destruct (attr_of cores a) as [v|] eqn:A.
      + left. clear - A. induction cores as [|[b w] cores IH]; [discriminate|]. cbn [attr_of] in A.
        destruct (String.eqb_spec a b) as [->|N]; [left; congruence|right; exact (IH A)].
      + right. destruct l; split; reflexivity.
    - destruct (String.eqb kind "Arguments"); [apply in_app_or in I; destruct I as [I|I]|].
      + left. exact (B _ I).
      + apply filter_In in I. destruct I as ([I|[I|[]]] & _); injection I as <- <-; right; split; reflexivity.
      + left. exact (B _ I).
  Qed.

  Definition made_list (num : nat) (r : list val * list val * nat) : Prop :=
    let '(cores, avars, num') := r in made num num' (fun p => flat_map (parents_in p) cores) (flat_map vars_in cores) avars.
  Definition made_attrs (num : nat) (r : list (string * val) * list val * nat) : Prop :=
    let '(cores, avars, num') := r in
    made num num' (fun p => flat_map (fun '(_, v) => parents_in p v) cores) (flat_map (fun '(_, v) => vars_in v) cores) avars.

  Lemma positions_made : forall run, (forall vs num r, run vs num = Ok r -> made_by num r) ->
    forall columns num r, positions run columns num = Ok r -> made_list num r.
  Proof.
    intros run IH. induction columns as [|c columns IHc]; intros num r E; cbn [positions] in E.
    - injection E as <-. exact (made_nil num).
    - destruct (run c num) as [[[core av] n1]|e] eqn:R; cbn [bind] in E; [|discriminate].
      destruct (as_tuple c core) as [core'|e] eqn:T; cbn [bind] in E; [|discriminate].
      destruct (positions run columns n1) as [[[cs more] n2]|e] eqn:P; cbn [bind] in E; [|discriminate]. injection E as <-.
      apply IH in R. apply IHc in P. unfold made_list, made_by in *. cbn [flat_map].
      destruct (as_tuple_vars _ _ _ T) as (-> & PT).
      destruct (made_app _ _ _ _ _ _ _ _ _ R P) as [L W F V A O Pl]. constructor; try assumption.
      + intros p. rewrite PT. apply W.
      + intros p. rewrite PT. apply F.
      + intros n s I p. rewrite PT. exact (Pl _ _ I p).
  Qed.

  Lemma many_made : forall run, (forall vs num r, run vs num = Ok r -> made_by num r) ->
    forall vs attrs num r, many run vs attrs num = Ok r -> made_attrs num r.
  Proof.
    intros run IH vs. induction attrs as [|a attrs IHa]; intros num r E; cbn [many] in E.
    - injection E as <-. exact (made_nil num).
    - destruct (mapM _ vs) as [vals|e]; cbn [bind] in E; [|discriminate].
      destruct (run vals num) as [[[core av] n1]|e] eqn:R; cbn [bind] in E; [|discriminate].
      destruct (many run vs attrs n1) as [[[cs more] n2]|e] eqn:P; cbn [bind] in E; [|discriminate]. injection E as <-.
      apply IH in R. apply IHa in P. unfold made_attrs, made_by in *. cbn [flat_map].
      exact (made_app _ _ _ _ _ _ _ _ _ R P).
  Qed.

  (** [kept attrs c]: every core that holds variables is an attribute of the node. *)
  Lemma make_core_made : forall kind vs cores avars num0 num r,
    (forall a c, List.In (a, c) cores -> attr_of cores a = Some c) ->
    make_core class_of stop_on kind vs cores avars num = Ok r -> made_attrs num0 (cores, avars, num) -> made_by num0 r.
  Proof.
    intros kind vs cores avars num0 num [[core avars'] num'] U E M. apply make_core_ok in E. destruct E as (attrs & NN & -> & -> & -> & _).
    destruct M as [L W F V A O Pl].
    assert (PL := new_node_places _ _ _ NN).
    assert (SUB : forall p n q, List.In (n, q) (parents_in p (VNode kind attrs (Some vs))) -> List.In (n, q) (flat_map (fun '(_, v) => parents_in (Some kind) v) cores)).
    { intros p n q I. cbn [parents_in] in I. apply in_flat_map in I. destruct I as ([a c] & Ic & I). apply in_flat_map.
      destruct (PL _ _ Ic) as [K|[_ K]]; [exists (a, c); split; assumption|rewrite K in I; destruct I]. }
    constructor.
    - exact L.
    - intros p n q I. exact (W _ _ _ (SUB _ _ _ I)).
    - intros p n q r I J. exact (F _ _ _ _ (SUB _ _ _ I) (SUB _ _ _ J)).
    - intros n s I. apply V. cbn [vars_in] in I. apply in_flat_map in I. destruct I as ([a c] & Ic & I). apply in_flat_map.
      destruct (PL _ _ Ic) as [K|[K _]]; [exists (a, c); split; assumption|rewrite K in I; destruct I].
    - exact A.
    - exact O.
    - intros n s I p. destruct (Pl _ _ I (Some kind)) as (q & K). exists q. apply in_flat_map in K. destruct K as ([a c] & Ic & K).
      cbn [parents_in]. apply in_flat_map. exists (a, c). split; [|exact K].
      pose proof (new_node_attr _ _ _ _ _ _ NN (U _ _ Ic)) as AT. clear - AT.
      induction attrs as [|[b w] attrs IH]; [discriminate|]. cbn [attr_of] in AT.
      destruct (String.eqb_spec a b) as [->|N]; [left; congruence|right; exact (IH AT)].
  Qed.

  Lemma many_names : forall run vs attrs num r, many run vs attrs num = Ok r -> map fst (fst (fst r)) = attrs.
  Proof.
    intros run vs. induction attrs as [|a attrs IHa]; intros num r E; cbn [many] in E.
    - injection E as <-. reflexivity.
    - destruct (mapM _ vs) as [vals|e]; cbn [bind] in E; [|discriminate].
      destruct (run vals num) as [[[core av] n1]|e] eqn:R; cbn [bind] in E; [|discriminate].
      destruct (many run vs attrs n1) as [[[cs more] n2]|e] eqn:P; cbn [bind] in E; [|discriminate]. injection E as <-.
      apply IHa in P. cbn [fst map] in *. congruence.
  Qed.

  Lemma attr_of_nodup : forall (l : list (string * val)) a c, NoDup (map fst l) -> List.In (a, c) l -> attr_of l a = Some c.
  Proof.
    induction l as [|[b w] l IH]; intros a c N I; [destruct I|]. cbn [attr_of map fst] in *. inversion N as [|? ? NI ND]; subst.
    destruct I as [E|I].
    - injection E as <- <-. rewrite String.eqb_refl. reflexivity.
    - destruct (String.eqb_spec a b) as [->|_]; [|exact (IH _ _ ND I)]. exfalso. apply NI. apply in_map_iff. exists (b, c). split; [reflexivity|exact I].
  Qed.

  Hypothesis fields_once : forall k, NoDup (all_fields astroid_fields k).

  Lemma unify_made : forall fuel vs num r, unify fuel vs num = Ok r -> made_by num r.
  Proof.
    induction fuel as [|fuel IH]; intros vs num r E; [discriminate|]. cbn [AuModel.unify] in E.
    destruct (existsb is_var vs).
    { unfold aunify_avars in E. exact (new_aunifier_made _ _ _ E). }
    destruct vs as [|v0 vs]; [discriminate|]. set (all := v0 :: vs) in *.
    destruct (is_seq v0).
    - destruct (forallb is_seq all); [|discriminate].
      destruct (forallb _ all).
      + destruct (positions _ _ num) as [[[cs av] n1]|e] eqn:P; cbn [bind] in E; [|discriminate]. injection E as <-.
        exact (positions_made _ IH _ _ _ P).
      + destruct (new_aunifier stop_on all num) as [[[c av] n1]|e] eqn:NA; cbn [bind] in E; [|discriminate].
        destruct (flat_map elements all) as [|first rest]; [discriminate|].
        destruct (list_core stop_on c first n1) as [[c' n2]|e] eqn:LC; cbn [bind] in E; [|discriminate]. injection E as <-.
        pose proof (new_aunifier_made _ _ _ NA) as M. apply new_aunifier_ok in NA. destruct NA as (-> & -> & ->).
        destruct M as [L W F V A O Pl]. unfold list_core in LC.
        assert (SIMPLE : forall x, (forall p, parents_in p x = [(S num, p)]) -> vars_in x = [VVar (S num) all] -> made_by num (x, [VVar (S num) all], S num)).
        { intros x PX VX. constructor; try assumption.
          - intros p. rewrite PX. apply W.
          - intros p. rewrite PX. apply F.
          - rewrite VX. exact V.
          - intros n s I p. rewrite PX. apply (Pl _ _ I p). }
        assert (TWO : forall o n, new_aunifier stop_on [] (S num) = Ok (o, n) -> made_by num (VList [VTup [VVar (S num) all; fst o]], [VVar (S num) all], n)).
        { intros [o av] n NA. apply new_aunifier_ok in NA. destruct NA as (-> & -> & ->). cbn [fst]. constructor; try assumption; cbn [parents_in vars_in flat_map app].
          - lia.
          - intros p m q [I|[I|[]]]; injection I as <- <-; lia.
          - intros p m q r [I|[I|[]]] [J|[J|[]]]; try congruence; injection I as <- <-; exfalso; injection J; lia.
          - intros m s [I|[I|[]]]; [left; left; exact I|right; congruence].
          - intros v [<-|[]]. do 2 eexists. split; [reflexivity|lia].
          - intros m s [I|[]] p. injection I as <- <-. exists p. left. reflexivity. }
        destruct (new_aunifier stop_on [] (S num)) as [[[o av] n]|e] eqn:NA; cbn [bind] in LC.
        * specialize (TWO _ _ eq_refl). cbn [fst] in TWO.
          repeat match type of LC with
          | Ok _ = Ok _ => injection LC as <- <-; first [exact TWO | apply SIMPLE; reflexivity]
          | Raise _ = _ => discriminate LC
          | context [if ?b then _ else _] => destruct b
          | context [match ?x with _ => _ end] => destruct x
          end.
        * clear TWO.
          repeat match type of LC with
          | Ok _ = Ok _ => injection LC as <- <-; apply SIMPLE; reflexivity
          | Raise _ = _ => discriminate LC
          | context [if ?b then _ else _] => destruct b
          | context [match ?x with _ => _ end] => destruct x
          end.
    - destruct (existsb is_node all); cbn [negb] in E.
      + destruct v0 as [| | |kind at0 s0|]; try exact (new_aunifier_made _ _ _ E).
        destruct (forallb (instance_of is_subclass kind) all); [|exact (new_aunifier_made _ _ _ E)].
        destruct (str_in kind ["Name"; "AssignName"]).
        * destruct (mapM _ all) as [names|e]; cbn [bind] in E; [|discriminate].
          destruct (new_aunifier stop_on names num) as [[[c av] n1]|e] eqn:NA; cbn [bind] in E; [|discriminate].
          refine (make_core_made _ _ _ _ _ _ _ _ E _).
          -- intros a x [I|[]]. injection I as <- <-. reflexivity.
          -- apply new_aunifier_made in NA. unfold made_attrs, made_by in *. cbn [flat_map]. destruct NA as [L W F V A O Pl].
             constructor; try assumption.
             ++ intros p. rewrite app_nil_r. apply W.
             ++ intros p. rewrite app_nil_r. apply F.
             ++ rewrite app_nil_r. exact V.
             ++ intros n s I p. rewrite app_nil_r. exact (Pl _ _ I p).
        * destruct (many _ all _ num) as [[[cs av] n1]|e] eqn:M; cbn [bind] in E; [|discriminate].
          refine (make_core_made _ _ _ _ _ _ _ _ E (many_made _ IH _ _ _ _ M)).
          intros a c I. apply attr_of_nodup; [|exact I]. apply many_names in M. cbn [fst] in M. rewrite M. apply fields_once.
      + unfold aunify_consts in E. unfold all in E at 1. fold all in E.
        destruct (forallb (fun w => const_eq w v0) all) eqn:FC; [|exact (new_aunifier_made _ _ _ E)].
        injection E as <-. rewrite forallb_forall in FC. specialize (FC v0 (or_introl eq_refl)).
        destruct v0; try discriminate. exact (made_nil num).
  Qed.
End Vars.
