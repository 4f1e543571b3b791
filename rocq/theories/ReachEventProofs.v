(** Without calls, uses are linked to exactly the definitions that arrive at them. *)
From Coq Require Import String List Bool Arith NArith Lia.
From Verif Require Import Base ReachModel ReachSpec ReachProofs.
Import ListNotations.
Local Open Scope list_scope.
Local Open Scope nat_scope.

Definition kills (e : var_event) (v : nat) : Prop := killing e = true /\ variable e = v.
Definition killsb (v : nat) (e : var_event) : bool := killing e && Nat.eqb (variable e) v.
Definition kills_of (v : nat) (es : list var_event) : list var_event := filter (killsb v) es.

Lemma killsb_iff v e : killsb v e = true <-> kills e v.
Proof. unfold killsb, kills. rewrite andb_true_iff, Nat.eqb_eq. tauto. Qed.

Lemma kills_of_nil v es : kills_of v es = [] <-> untouched var_event kills v es.
Proof.
  unfold untouched. split.
  - intros H e K D. assert (List.In e (kills_of v es)) as Z by (apply filter_In; split; [exact K | apply killsb_iff; exact D]).
    rewrite H in Z. destruct Z.
  - intro H. destruct (kills_of v es) as [|e l] eqn:E; [reflexivity|]. exfalso.
    assert (List.In e (kills_of v es)) as Z by (rewrite E; left; reflexivity). apply filter_In in Z. destruct Z as [Z1 Z2].
    apply killsb_iff in Z2. exact (H e Z1 Z2).
Qed.

(** The last definition. *)
Lemma last_kill v es d : (exists l, kills_of v es = l ++ [d]) <-> exists a b, es = a ++ d :: b /\ kills d v /\ untouched var_event kills v b.
Proof.
  induction es as [|e es IH] using rev_ind.
  - split.
    + intros (l & H). destruct l; discriminate H.
    + intros (a & b & H & _). destruct a; discriminate H.
  - unfold kills_of in *. rewrite filter_app. cbn [filter]. destruct (killsb v e) eqn:K.
    + split.
      * intros (l & H). apply app_inj_tail in H. destruct H as [_ <-]. exists es, []. split; [reflexivity|].
        split; [apply killsb_iff; exact K | intros z []].
      * intros (a & b & H & D & U). destruct b as [|b0 b] using rev_ind.
        -- apply app_inj_tail in H. destruct H as [_ ->]. exists (filter (killsb v) es). reflexivity.
        -- exfalso. rewrite app_comm_cons, app_assoc in H. apply app_inj_tail in H. destruct H as [_ ->].
           apply (U b0); [apply in_app_iff; right; left; reflexivity | apply killsb_iff; exact K].
    + rewrite app_nil_r. rewrite IH. split.
      * intros (a & b & -> & D & U). exists a, (b ++ [e]). split; [rewrite <- app_assoc; reflexivity|]. split; [exact D|].
        intros z Z. apply in_app_iff in Z. destruct Z as [Z|[<-|[]]]; [exact (U z Z)|]. intro W. apply killsb_iff in W. congruence.
      * intros (a & b & H & D & U). destruct b as [|b0 b _] using rev_ind.
        -- exfalso. apply app_inj_tail in H. destruct H as [_ ->]. apply killsb_iff in D. congruence.
        -- rewrite app_comm_cons, app_assoc in H. apply app_inj_tail in H. destruct H as [-> ->]. exists a, b. split; [reflexivity|]. split; [exact D|].
           intros z Z. apply U. apply in_app_iff. left. exact Z.
Qed.

Section Names.
  (** All the events there are; the numbers that stand for their identity differ. *)
  Variable world : var_event -> Prop.
  Hypothesis names : forall e e', world e -> world e' -> name e = name e' -> e = e'.
  Definition inside (l : list (var_event * var_event)) : Prop := forall u d, List.In (u, d) l -> world u /\ world d.

  Lemma add_link_right l u d : inside l -> world u -> world d ->
    inside (add_link l u d) /\ forall x, List.In x (add_link l u d) <-> List.In x l \/ x = (u, d).
  Proof.
    intros I U D. unfold add_link. destruct (existsb _ l) eqn:E.
    - split; [exact I|]. intro x. split; [tauto|]. intros [K| ->]; [exact K|].
      apply existsb_exists in E. destruct E as ((a & b) & K & Q). cbn [fst snd] in Q. apply andb_true_iff in Q. destruct Q as [S1 S2].
      unfold same in S1, S2. apply Nat.eqb_eq in S1, S2. destruct (I a b K) as [WA WB].
      rewrite (names u a U WA S1), (names d b D WB S2). exact K.
    - split.
      + intros a b K. apply in_app_iff in K. destruct K as [K|[K|[]]]; [exact (I a b K)|].
        assert (u = a /\ d = b) as [-> ->] by (split; congruence). auto.
      + intro x. rewrite in_app_iff. cbn [List.In]. intuition congruence.
  Qed.

  Lemma add_links_right u ds : forall l, inside l -> world u -> Forall world ds ->
    inside (add_links l u ds) /\ forall x, List.In x (add_links l u ds) <-> List.In x l \/ exists d, List.In d ds /\ x = (u, d).
  Proof.
    induction ds as [|d ds IH]; intros l I U F.
    - split; [exact I|]. intro x. cbn. split; [tauto|]. intros [K|(d & [] & _)]. exact K.
    - inversion F as [|? ? F1 F2]; subst. destruct (add_link_right l u d I U F1) as [A1 A2].
      unfold add_links. cbn [fold_left]. fold (add_links (add_link l u d) u ds). destruct (IH _ A1 U F2) as [B1 B2]. split; [exact B1|].
      intro x. rewrite B2, A2. split.
      + intros [[K|K]|(y & K1 & K2)]; [left; exact K | right; exists d; split; [left; reflexivity | exact K] | right; exists y; split; [right; exact K1 | exact K2]].
      + intros [K|(y & [K1|K1] & K2)]; [left; left; exact K | subst y; left; right; exact K2 | right; exists y; auto].
  Qed.

  (** ** The events of one block *)
  Record state_of (f : found) (es : list var_event) : Prop := {
    s_gens : forall v e, List.In e (gens f v) <-> exists p, nth_error es p = Some e /\ generating e = true /\ variable e = v /\ kills_of v (firstn p es) = [];
    s_kill : forall v, kill f v = map (fun e => [e]) (kills_of v es) }.

  Lemma state_nothing : state_of nothing_found [].
  Proof.
    constructor; [|reflexivity]. intros v e. cbn. split; [intros []|]. intros (p & H & _). destruct p; discriminate H.
  Qed.

  Lemma last_map (l : list var_event) e : last (map (fun e => [e]) (l ++ [e])) [] = [e].
  Proof. rewrite map_app. cbn [map]. apply last_last. Qed.

  Lemma firstn_short {A} (a : list A) b p : p <= List.length a -> firstn p (a ++ b) = firstn p a.
  Proof. intro H. rewrite firstn_app. replace (p - List.length a) with 0 by lia. cbn. apply app_nil_r. Qed.

  Definition link_of (sel : var_event -> bool) (pre rest : list var_event) (x : var_event * var_event) : Prop :=
    exists p u d, x = (u, d) /\ nth_error rest p = Some u /\ sel u = true /\ exists l, kills_of (variable u) (pre ++ firstn p rest) = l ++ [d].

  Lemma one_own pre e f l f' l' : state_of f pre -> inside (definitions l) -> inside (redefines l) -> world e -> Forall world pre ->
    one_item (Own e) f l = (f', l') ->
    state_of f' (pre ++ [e]) /\ inside (definitions l') /\ inside (redefines l') /\
    (forall x, List.In x (definitions l') <-> List.In x (definitions l) \/ link_of generating pre [e] x) /\
    (forall x, List.In x (redefines l') <-> List.In x (redefines l) \/ link_of killing pre [e] x).
  Proof.
    intros [SG SK] ID IR WE WP R.
    assert (LK : forall sel x, link_of sel pre [e] x <-> sel e = true /\ exists d, x = (e, d) /\ exists l, kills_of (variable e) pre = l ++ [d]).
    { intros sel x. split.
      - intros ([|p] & u & d & -> & H1 & H2 & H3); [|destruct p; discriminate H1]. cbn in H1. assert (e = u) by congruence. subst u.
        cbn [firstn] in H3. rewrite app_nil_r in H3. split; [exact H2|]. exists d. auto.
      - intros (S & d & -> & H). exists 0, e, d. split; [reflexivity|]. split; [reflexivity|]. split; [exact S|]. cbn [firstn]. rewrite app_nil_r. exact H. }
    (* the groups so far *)
    assert (G : (kill f (variable e) = [] /\ kills_of (variable e) pre = []) \/
                exists ks d, kill f (variable e) <> [] /\ kills_of (variable e) pre = ks ++ [d] /\ last (kill f (variable e)) [] = [d] /\ world d).
    { rewrite SK. destruct (kills_of (variable e) pre) as [|d ks _] eqn:E using rev_ind; [left; auto|]. right. exists ks, d.
      split; [intro Z; destruct ks; discriminate Z|]. split; [reflexivity|]. split; [apply last_map|].
      rewrite Forall_forall in WP. apply WP. assert (List.In d (kills_of (variable e) pre)) as Z by (rewrite E; apply in_app_iff; right; left; reflexivity).
      apply filter_In in Z. exact (proj1 Z). }
    (* what the events of the longer list are *)
    assert (KA : forall v, kills_of v (pre ++ [e]) = kills_of v pre ++ if killsb v e then [e] else []).
    { intro v. unfold kills_of. rewrite filter_app. cbn [filter]. destruct (killsb v e); reflexivity. }
    assert (GA : forall v u, (exists p, nth_error (pre ++ [e]) p = Some u /\ generating u = true /\ variable u = v /\ kills_of v (firstn p (pre ++ [e])) = []) <->
                 (exists p, nth_error pre p = Some u /\ generating u = true /\ variable u = v /\ kills_of v (firstn p pre) = []) \/
                 (u = e /\ generating e = true /\ variable e = v /\ kills_of v pre = [])).
    { intros v u. split.
      - intros (p & H1 & H2 & H3 & H4). destruct (lt_dec p (List.length pre)) as [L|L].
        + left. exists p. rewrite nth_error_app1 in H1 by exact L. rewrite firstn_short in H4 by lia. auto.
        + right. rewrite nth_error_app2 in H1 by lia. destruct (p - List.length pre) as [|k] eqn:E; [|destruct k; discriminate H1].
          cbn in H1. assert (e = u) by congruence. subst u. rewrite firstn_short in H4 by lia.
          assert (p = List.length pre) by lia. subst p. rewrite firstn_all in H4. auto.
      - intros [(p & H1 & H2 & H3 & H4)|(-> & H2 & H3 & H4)].
        + assert (L : p < List.length pre) by (apply nth_error_Some; congruence). exists p. rewrite nth_error_app1 by exact L. rewrite firstn_short by lia. auto.
        + exists (List.length pre). rewrite nth_error_app2 by lia. rewrite Nat.sub_diag. rewrite firstn_short by lia. rewrite firstn_all. auto. }
    unfold one_item in R.
    (* the events before the first definition *)
    set (used := if generating e then match kill f (variable e) with
                                      | [] => (mk_found (at_key (gens f) (variable e) (gens f (variable e) ++ [e])) (kill f), l)
                                      | _ => (f, mk_links (add_links (definitions l) e (last (kill f (variable e)) [])) (redefines l))
                                      end else (f, l)) in R.
    assert (U1 : forall v u, List.In u (gens (fst used) v) <->
               (exists p, nth_error (pre ++ [e]) p = Some u /\ generating u = true /\ variable u = v /\ kills_of v (firstn p (pre ++ [e])) = [])).
    { intros v u. rewrite GA, <- SG. unfold used. destruct (generating e) eqn:GE; [|cbn [fst]; split; [tauto | intros [K|(_ & K & _)]; [exact K | discriminate K]]].
      destruct G as [[G1 G2]|(ks & d & G1 & G2 & _)].
      - rewrite G1. cbn [fst gens]. unfold at_key. destruct (Nat.eqb v (variable e)) eqn:EV.
        + apply Nat.eqb_eq in EV. subst v. rewrite in_app_iff. cbn [List.In]. split.
          * intros [K|[K|[]]]; [left; exact K | right; subst; auto].
          * intros [K|(K & _)]; [left; exact K | right; left; symmetry; exact K].
        + split; [tauto|]. intros [K|(_ & _ & K & _)]; [exact K|]. subst v. rewrite Nat.eqb_refl in EV. discriminate EV.
      - destruct (kill f (variable e)) as [|g gs]; [exfalso; apply G1; reflexivity|]. cbn [fst]. split; [tauto|].
        intros [K|(-> & _ & <- & K)]; [exact K|]. rewrite G2 in K. destruct ks; discriminate K. }
    assert (U2 : kill (fst used) = kill f).
    { unfold used. destruct (generating e); [|reflexivity]. destruct (kill f (variable e)); reflexivity. }
    assert (U3 : inside (definitions (snd used)) /\ redefines (snd used) = redefines l /\
                 forall x, List.In x (definitions (snd used)) <-> List.In x (definitions l) \/ link_of generating pre [e] x).
    { unfold used. destruct (generating e) eqn:GE.
      - destruct G as [[G1 G2]|(ks & d & G1 & G2 & G3 & WD)].
        + rewrite G1. cbn [snd]. split; [exact ID|]. split; [reflexivity|]. intro x. rewrite LK. split; [tauto|].
          intros [K|(_ & d & _ & (q & Q))]; [exact K|]. rewrite G2 in Q. destruct q; discriminate Q.
        + rewrite G3. destruct (kill f (variable e)) as [|g gs]; [exfalso; apply G1; reflexivity|]. cbn [snd definitions redefines].
          destruct (add_links_right e [d] (definitions l) ID WE (Forall_cons d WD (Forall_nil _))) as [A1 A2].
          split; [exact A1|]. split; [reflexivity|]. intro x. rewrite A2, LK. split.
          * intros [K|(y & [<-|[]] & ->)]; [left; exact K|]. right. split; [exact GE|]. exists d. split; [reflexivity|]. exists ks. exact G2.
          * intros [K|(_ & y & -> & (q & Q))]; [left; exact K|]. right. exists y. split; [|reflexivity].
            rewrite G2 in Q. apply app_inj_tail in Q. destruct Q as [_ Q]. left. exact Q.
      - cbn [snd]. split; [exact ID|]. split; [reflexivity|]. intro x. rewrite LK. split; [tauto|]. intros [K|(K & _)]; [exact K | congruence]. }
    destruct U3 as (U3 & U4 & U5).
    clearbody used. destruct used as [fu lu]. cbn [fst snd] in *.
    destruct (killing e) eqn:KE.
    - (* a definition *)
      match type of R with (mk_found _ ?kl, ?ll) = _ => set (knew := kl) in R; set (lnew := ll) in R end.
      assert (f' = mk_found (gens fu) knew /\ l' = lnew) as [-> ->] by (split; congruence).
      split; [|].
      { constructor; cbn [gens kill]; [exact U1|]. intro v. unfold knew, at_key. rewrite KA. unfold killsb. rewrite KE. cbn [andb].
        rewrite U2, !SK. rewrite (Nat.eqb_sym (variable e) v). destruct (Nat.eqb v (variable e)) eqn:EV.
        - apply Nat.eqb_eq in EV. subst v. rewrite map_app. reflexivity.
        - rewrite app_nil_r. reflexivity. }
      destruct G as [[G1 G2]|(ks & d & G1 & G2 & G3 & WD)].
      + unfold lnew. rewrite G1. split; [exact U3|]. split; [rewrite U4; exact IR|]. split; [exact U5|]. intro x. rewrite U4, LK. split; [tauto|].
        intros [K|(_ & d & _ & (q & Q))]; [exact K|]. rewrite G2 in Q. destruct q; discriminate Q.
      + unfold lnew. rewrite G3. destruct (kill f (variable e)) as [|g gs]; [exfalso; apply G1; reflexivity|]. cbn [definitions redefines].
        rewrite <- U4 in IR.
        destruct (add_links_right e [d] (redefines lu) IR WE (Forall_cons d WD (Forall_nil _))) as [A1 A2].
        split; [exact U3|]. split; [exact A1|]. split; [exact U5|]. intro x. rewrite A2, U4, LK. split.
        * intros [K|(y & [<-|[]] & ->)]; [left; exact K|]. right. split; [exact KE|]. exists d. split; [reflexivity|]. exists ks. exact G2.
        * intros [K|(_ & y & -> & (q & Q))]; [left; exact K|]. right. exists y. split; [|reflexivity].
          rewrite G2 in Q. apply app_inj_tail in Q. destruct Q as [_ Q]. left. exact Q.
    - assert (f' = fu /\ l' = lu) as [-> ->] by (split; congruence).
      split; [|].
      { constructor; [exact U1|]. intro v. rewrite U2, KA. unfold killsb. rewrite KE. cbn [andb]. rewrite app_nil_r. apply SK. }
      split; [exact U3|]. split; [rewrite U4; exact IR|]. split; [exact U5|].
      intro x. rewrite U4, LK. split; [tauto|]. intros [K|(K & _)]; [exact K | congruence].
  Qed.

  Lemma link_cons sel pre e rest x : link_of sel pre (e :: rest) x <-> link_of sel pre [e] x \/ link_of sel (pre ++ [e]) rest x.
  Proof.
    split.
    - intros (p & u & d & -> & H1 & H2 & H3). destruct p as [|p].
      + left. exists 0, u, d. cbn in H1. auto.
      + right. exists p, u, d. split; [reflexivity|]. split; [exact H1|]. split; [exact H2|]. rewrite <- app_assoc. exact H3.
    - intros [(p & u & d & -> & H1 & H2 & H3)|(p & u & d & -> & H1 & H2 & H3)].
      + destruct p as [|p]; [|destruct p; discriminate H1]. exists 0, u, d. auto.
      + exists (S p), u, d. split; [reflexivity|]. split; [exact H1|]. split; [exact H2|]. rewrite <- app_assoc in H3. exact H3.
  Qed.

  Lemma own_items : forall rest pre f l f' l', state_of f pre -> inside (definitions l) -> inside (redefines l) -> Forall world rest -> Forall world pre ->
    items_of_block (map Own rest) f l = (f', l') ->
    state_of f' (pre ++ rest) /\ inside (definitions l') /\ inside (redefines l') /\
    (forall x, List.In x (definitions l') <-> List.In x (definitions l) \/ link_of generating pre rest x) /\
    (forall x, List.In x (redefines l') <-> List.In x (redefines l) \/ link_of killing pre rest x).
  Proof.
    induction rest as [|e rest IH]; intros pre f l f' l' SF ID IR WR WP R.
    - cbn in R. assert (f' = f /\ l' = l) as [-> ->] by (split; congruence). rewrite app_nil_r.
      split; [exact SF|]. split; [exact ID|]. split; [exact IR|].
      assert (Z : forall sel x, ~ link_of sel pre [] x) by (intros sel x (p & u & d & _ & H & _); destruct p; discriminate H).
      split; intro x; (split; [tauto | intros [K|K]; [exact K | destruct (Z _ _ K)]]).
    - inversion WR as [|? ? W1 W2]; subst. cbn [map items_of_block] in R. destruct (one_item (Own e) f l) as [f1 l1] eqn:E.
      destruct (one_own pre e f l f1 l1 SF ID IR W1 WP E) as (A1 & A2 & A3 & A4 & A5).
      destruct (IH (pre ++ [e]) f1 l1 f' l' A1 A2 A3 W2) as (B1 & B2 & B3 & B4 & B5); [apply Forall_app; split; [exact WP | constructor; [exact W1 | constructor]] | exact R|].
      split; [rewrite <- app_assoc in B1; exact B1|]. split; [exact B2|]. split; [exact B3|]. split; intro x.
      + rewrite B4, A4, (link_cons generating pre e rest x). tauto.
      + rewrite B5, A5, (link_cons killing pre e rest x). tauto.
  Qed.

  Lemma own_blocks : forall blocks l fs l', inside (definitions l) -> inside (redefines l) -> Forall (Forall world) blocks ->
    items_of_blocks (map (map Own) blocks) l = (fs, l') ->
    Forall2 (fun es f => state_of f es) blocks fs /\ inside (definitions l') /\ inside (redefines l') /\
    (forall x, List.In x (definitions l') <-> List.In x (definitions l) \/ exists es, List.In es blocks /\ link_of generating [] es x) /\
    (forall x, List.In x (redefines l') <-> List.In x (redefines l) \/ exists es, List.In es blocks /\ link_of killing [] es x).
  Proof.
    induction blocks as [|es blocks IH]; intros l fs l' ID IR W R.
    - cbn in R. assert (fs = [] /\ l' = l) as [-> ->] by (split; congruence). split; [constructor|]. split; [exact ID|]. split; [exact IR|].
      split; intro x; (split; [tauto | intros [K|(es & [] & _)]; exact K]).
    - inversion W as [|? ? W1 W2]; subst. cbn [map items_of_blocks] in R.
      destruct (items_of_block (map Own es) nothing_found l) as [f1 l1] eqn:E.
      destruct (items_of_blocks (map (map Own) blocks) l1) as [fs2 l2] eqn:E2.
      assert (fs = f1 :: fs2 /\ l' = l2) as [-> ->] by (split; congruence).
      destruct (own_items es [] nothing_found l f1 l1 state_nothing ID IR W1 (Forall_nil _) E) as (A1 & A2 & A3 & A4 & A5).
      destruct (IH l1 fs2 l2 A2 A3 W2 E2) as (B1 & B2 & B3 & B4 & B5).
      split; [constructor; [exact A1 | exact B1]|]. split; [exact B2|]. split; [exact B3|]. split; intro x.
      + rewrite B4, A4. split.
        * intros [[K|K]|(y & K1 & K2)]; [left; exact K | right; exists es; split; [left; reflexivity | exact K] | right; exists y; split; [right; exact K1 | exact K2]].
        * intros [K|(y & [->|K1] & K2)]; [left; left; exact K | left; right; exact K2 | right; exists y; auto].
      + rewrite B5, A5. split.
        * intros [[K|K]|(y & K1 & K2)]; [left; exact K | right; exists es; split; [left; reflexivity | exact K] | right; exists y; split; [right; exact K1 | exact K2]].
        * intros [K|(y & [->|K1] & K2)]; [left; left; exact K | left; right; exact K2 | right; exists y; auto].
  Qed.
End Names.

(** ** Connecting the blocks *)
Lemma ones_indices_in val k : List.In k (ones_indices val) <-> N.testbit val (N.of_nat k) = true.
Proof.
  unfold ones_indices. rewrite filter_In, in_seq, N.shiftr_spec', N.add_0_l. split; [tauto|]. intro H. split; [|exact H]. split; [lia|].
  destruct (le_lt_dec (N.to_nat (N.size val)) k) as [L|L]; [|lia]. exfalso.
  rewrite N.bits_above_log2 in H; [discriminate H|].
  destruct (N.eq_dec val 0) as [->|Z]; [rewrite N.bits_0 in H; discriminate H|].
  rewrite N.size_log2 in L by exact Z. lia.
Qed.

Lemma fold_add {A B} (us : list A) (d : B) : forall l, fold_left (fun ds u => ds ++ [(u, d)]) us l = l ++ map (fun u => (u, d)) us.
Proof. induction us as [|u us IH]; intro l; cbn [fold_left map]; [symmetry; apply app_nil_r|]. rewrite IH, <- app_assoc. reflexivity. Qed.

Section Connect.
  Variable all : list found.

  Definition last_of (k v : nat) (d : var_event) : Prop :=
    exists g gs last, nth_error all k = Some g /\ rev (kill g v) = last :: gs /\ List.In d last.
  Definition first_of (f : found) (v : nat) (o : var_event) : Prop := exists first gs, kill f v = first :: gs /\ List.In o first.

  Lemma connect_var_right f v val l :
    (forall k, N.testbit val (N.of_nat k) = true -> exists g, nth_error all k = Some g /\ kill g v <> []) ->
    exists l', connect_var all f v val l = Ok l' /\
      (forall x, List.In x (definitions l') <-> List.In x (definitions l) \/
         exists k u d, x = (u, d) /\ N.testbit val (N.of_nat k) = true /\ last_of k v d /\ List.In u (gens f v)) /\
      (forall x, List.In x (redefines l') <-> List.In x (redefines l) \/
         exists k u d, x = (u, d) /\ N.testbit val (N.of_nat k) = true /\ last_of k v d /\ first_of f v u).
  Proof.
    intro H.
    set (look := fun k : nat => do g <- get all k; match rev (kill g v) with [] => Raise IndexError | last :: _ => Ok last end).
    assert (M : exists groups, mapM look (ones_indices val) = Ok groups /\
                forall d, List.In d (concat groups) <-> exists k, N.testbit val (N.of_nat k) = true /\ last_of k v d).
    { assert (Q : forall k, List.In k (ones_indices val) -> exists last, look k = Ok last /\ forall d, List.In d last <-> last_of k v d).
      { intros k K. apply ones_indices_in in K. destruct (H k K) as (g & G1 & G2). unfold look, get. rewrite G1. cbn [bind].
        destruct (rev (kill g v)) as [|last gs] eqn:E.
        - exfalso. apply G2. rewrite <- (rev_involutive (kill g v)), E. reflexivity.
        - exists last. split; [reflexivity|]. intro d. split.
          + intro D. exists g, gs, last. auto.
          + intros (g' & gs' & last' & D1 & D2 & D3). assert (g' = g) by congruence. subst g'. assert (last' = last) by congruence. subst. exact D3. }
      assert (R : forall k, N.testbit val (N.of_nat k) = true <-> List.In k (ones_indices val)) by (intro k; rewrite ones_indices_in; tauto).
      setoid_rewrite R. clear R. clear H. revert Q. induction (ones_indices val) as [|k ks IH]; intro Q.
      - exists []. split; [reflexivity|]. intro d. cbn. split; [intros [] | intros (k & [] & _)].
      - destruct (Q k (or_introl eq_refl)) as (last & L1 & L2). destruct (IH (fun j K => Q j (or_intror K))) as (groups & G1 & G2).
        exists (last :: groups). cbn [mapM]. rewrite L1. cbn [bind]. rewrite G1. split; [reflexivity|].
        intro d. cbn [concat]. rewrite in_app_iff, L2, G2. split.
        + intros [K|(j & K1 & K2)]; [exists k; split; [left; reflexivity | exact K] | exists j; split; [right; exact K1 | exact K2]].
        + intros (j & [<-|K1] & K2); [left; exact K2 | right; exists j; auto]. }
    destruct M as (groups & M1 & M2).
    assert (N : forall ds l,
      let l' := fold_left (fun l d =>
            mk_links (fold_left (fun ds u => ds ++ [(u, d)]) (gens f v) (definitions l))
                     (match kill f v with [] => redefines l | first :: _ => fold_left (fun rs o => rs ++ [(o, d)]) first (redefines l) end)) ds l in
      (forall x, List.In x (definitions l') <-> List.In x (definitions l) \/ exists u d, x = (u, d) /\ List.In d ds /\ List.In u (gens f v)) /\
      (forall x, List.In x (redefines l') <-> List.In x (redefines l) \/ exists u d, x = (u, d) /\ List.In d ds /\ first_of f v u)).
    { induction ds as [|d ds IH]; intros l0 l'.
      - cbn in l'. subst l'. split; intro x; (split; [tauto | intros [K|(u & d & _ & [] & _)]; exact K]).
      - cbn [fold_left] in l'.
        match type of l' with _ => pose proof (IH (mk_links (fold_left (fun ds u => ds ++ [(u, d)]) (gens f v) (definitions l0))
                     (match kill f v with [] => redefines l0 | first :: _ => fold_left (fun rs o => rs ++ [(o, d)]) first (redefines l0) end))) as [I1 I2] end.
        fold l' in I1, I2. cbn [definitions redefines] in I1, I2. split; intro x.
        + rewrite I1, fold_add, in_app_iff, in_map_iff. split.
          * intros [[K|(u & K1 & K2)]|(u & e & K1 & K2 & K3)]; [left; exact K | right; exists u, d; split; [symmetry; exact K1|]; split; [left; reflexivity | exact K2] |].
            right. exists u, e. split; [exact K1|]. split; [right; exact K2 | exact K3].
          * intros [K|(u & e & -> & [<-|K2] & K3)]; [left; left; exact K | left; right; exists u; auto | right; exists u, e; auto].
        + rewrite I2. unfold first_of. destruct (kill f v) as [|first gs] eqn:EK.
          * split.
            -- intros [K|(u & e & _ & _ & (a & b & K & _))]; [left; exact K | discriminate K].
            -- intros [K|(u & e & _ & _ & (a & b & K & _))]; [left; exact K | discriminate K].
          * rewrite fold_add, in_app_iff, in_map_iff. split.
            -- intros [[K|(u & K1 & K2)]|(u & e & K1 & K2 & K3)]; [left; exact K | |].
               ++ right. exists u, d. split; [symmetry; exact K1|]. split; [left; reflexivity|]. exists first, gs. auto.
               ++ right. exists u, e. split; [exact K1|]. split; [right; exact K2 | exact K3].
            -- intros [K|(u & e & -> & [<-|K2] & K3)]; [left; left; exact K | | right; exists u, e; auto].
               destruct K3 as (first' & gs' & K3 & K4). assert (first' = first) by congruence. subst first'. left. right. exists u. auto. }
    destruct (N (concat groups) l) as [N1 N2].
    unfold connect_var. fold look.
    assert (Z : gens f v = [] -> kill f v = [] ->
      (forall x, List.In x (definitions l) <-> List.In x (definitions l) \/
         exists k u d, x = (u, d) /\ N.testbit val (N.of_nat k) = true /\ last_of k v d /\ List.In u (gens f v)) /\
      (forall x, List.In x (redefines l) <-> List.In x (redefines l) \/
         exists k u d, x = (u, d) /\ N.testbit val (N.of_nat k) = true /\ last_of k v d /\ first_of f v u)).
    { intros Z1 Z2. split; intro x; (split; [tauto|]).
      - intros [K|(k & u & d & _ & _ & _ & K)]; [exact K|]. rewrite Z1 in K. destruct K.
      - intros [K|(k & u & d & _ & _ & _ & (a & b & K & _))]; [exact K|]. rewrite Z2 in K. discriminate K. }
    assert (W : let l' := fold_left (fun l d =>
            mk_links (fold_left (fun ds u => ds ++ [(u, d)]) (gens f v) (definitions l))
                     (match kill f v with [] => redefines l | first :: _ => fold_left (fun rs o => rs ++ [(o, d)]) first (redefines l) end)) (concat groups) l in
      (forall x, List.In x (definitions l') <-> List.In x (definitions l) \/
         exists k u d, x = (u, d) /\ N.testbit val (N.of_nat k) = true /\ last_of k v d /\ List.In u (gens f v)) /\
      (forall x, List.In x (redefines l') <-> List.In x (redefines l) \/
         exists k u d, x = (u, d) /\ N.testbit val (N.of_nat k) = true /\ last_of k v d /\ first_of f v u)).
    { split; intro x; [rewrite N1 | rewrite N2]; split; (intros [K|K]; [left; exact K|]); right.
      - destruct K as (u & d & K1 & K2 & K3). apply M2 in K2. destruct K2 as (k & K2 & K4). exists k, u, d. auto.
      - destruct K as (k & u & d & K1 & K2 & K3 & K4). exists u, d. split; [exact K1|]. split; [apply M2; exists k; auto | exact K4].
      - destruct K as (u & d & K1 & K2 & K3). apply M2 in K2. destruct K2 as (k & K2 & K4). exists k, u, d. auto.
      - destruct K as (k & u & d & K1 & K2 & K3 & K4). exists u, d. split; [exact K1|]. split; [apply M2; exists k; auto | exact K4]. }
    destruct (gens f v) as [|g0 gs0] eqn:EG; [destruct (kill f v) as [|k0 ks0] eqn:EK|].
    - exists l. split; [reflexivity|]. apply Z; reflexivity.
    - rewrite M1. cbn [bind]. eexists. split; [reflexivity|]. exact W.
    - rewrite M1. cbn [bind]. eexists. split; [reflexivity|]. exact W.
  Qed.

  Definition block_link (sel : found -> nat -> var_event -> Prop) (f : found) (parent : dict) (x : var_event * var_event) : Prop :=
    exists v val k u d, x = (u, d) /\ List.In (v, val) parent /\ N.testbit val (N.of_nat k) = true /\ last_of k v d /\ sel f v u.

  Lemma connect_block_right f : forall parent l,
    (forall v val k, List.In (v, val) parent -> N.testbit val (N.of_nat k) = true -> exists g, nth_error all k = Some g /\ kill g v <> []) ->
    exists l', connect_block all f parent l = Ok l' /\
      (forall x, List.In x (definitions l') <-> List.In x (definitions l) \/ block_link (fun f v u => List.In u (gens f v)) f parent x) /\
      (forall x, List.In x (redefines l') <-> List.In x (redefines l) \/ block_link first_of f parent x).
  Proof.
    induction parent as [|(v & val) parent IH]; intros l H.
    - exists l. split; [reflexivity|]. split; intro x; (split; [tauto | intros [K|(v & val & k & u & d & _ & [] & _)]; exact K]).
    - cbn [connect_block]. destruct (connect_var_right f v val l (fun k => H v val k (or_introl eq_refl))) as (l1 & R1 & A1 & A2).
      rewrite R1. cbn [bind]. destruct (IH l1 (fun w y k K => H w y k (or_intror K))) as (l' & R & B1 & B2). exists l'. split; [exact R|].
      assert (C : forall sel x, block_link sel f ((v, val) :: parent) x <->
                (exists k u d, x = (u, d) /\ N.testbit val (N.of_nat k) = true /\ last_of k v d /\ sel f v u) \/ block_link sel f parent x).
      { intros sel x. unfold block_link. split.
        - intros (w & y & k & u & d & K1 & [K2|K2] & K3).
          + assert (v = w /\ val = y) as [-> ->] by (split; congruence). left. exists k, u, d. auto.
          + right. exists w, y, k, u, d. auto.
        - intros [(k & u & d & K1 & K2)|(w & y & k & u & d & K1 & K2 & K3)].
          + exists v, val, k, u, d. split; [exact K1|]. split; [left; reflexivity | exact K2].
          + exists w, y, k, u, d. split; [exact K1|]. split; [right; exact K2 | exact K3]. }
      split; intro x; rewrite C.
      + rewrite B1, A1. tauto.
      + rewrite B2, A2. tauto.
  Qed.

  Lemma connect_events_right : forall blocks l,
    (forall f parent v val k, List.In (f, parent) blocks -> List.In (v, val) parent -> N.testbit val (N.of_nat k) = true ->
       exists g, nth_error all k = Some g /\ kill g v <> []) ->
    exists l', connect_events all blocks l = Ok l' /\
      (forall x, List.In x (definitions l') <-> List.In x (definitions l) \/
         exists f parent, List.In (f, parent) blocks /\ block_link (fun f v u => List.In u (gens f v)) f parent x) /\
      (forall x, List.In x (redefines l') <-> List.In x (redefines l) \/
         exists f parent, List.In (f, parent) blocks /\ block_link first_of f parent x).
  Proof.
    induction blocks as [|(f & parent) blocks IH]; intros l H.
    - exists l. split; [reflexivity|]. split; intro x; (split; [tauto | intros [K|(f & parent & [] & _)]; exact K]).
    - cbn [connect_events]. destruct (connect_block_right f parent l (fun v val k => H f parent v val k (or_introl eq_refl))) as (l1 & R1 & A1 & A2).
      rewrite R1. cbn [bind]. destruct (IH l1 (fun g q v val k K => H g q v val k (or_intror K))) as (l' & R & B1 & B2). exists l'. split; [exact R|].
      assert (C : forall sel x, (exists g q, List.In (g, q) ((f, parent) :: blocks) /\ block_link sel g q x) <->
                block_link sel f parent x \/ exists g q, List.In (g, q) blocks /\ block_link sel g q x).
      { intros sel x. split.
        - intros (g & q & [K|K] & L); [assert (f = g /\ parent = q) as [-> ->] by (split; congruence); left; exact L | right; exists g, q; auto].
        - intros [L|(g & q & K & L)]; [exists f, parent; split; [left; reflexivity | exact L] | exists g, q; split; [right; exact K | exact L]]. }
      split; intro x; rewrite C; [rewrite B1, A1 | rewrite B2, A2]; tauto.
  Qed.
End Connect.
