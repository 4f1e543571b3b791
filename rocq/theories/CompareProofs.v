From Coq Require Import ZArith String List Bool Lia Arith.
From Verif Require Import CompareModel CompareSpec.
Import ListNotations.
Open Scope Z_scope.

Ltac zb := repeat match goal with
  | H : (_ =? _) = true |- _ => apply Z.eqb_eq in H
  | H : (_ =? _) = false |- _ => apply Z.eqb_neq in H
  | H : (_ <? _) = true |- _ => apply Z.ltb_lt in H
  | H : (_ <? _) = false |- _ => apply Z.ltb_ge in H
  | H : (_ >? _) = _ |- _ => rewrite Z.gtb_ltb in H
  end.

Lemma remove_redundant_ok : forall c1 k1 c2 k2 o c k x,
  is_less c1 = is_less c2 ->
  remove_redundant_compare c1 k1 c2 k2 (is_and o) = (c, k) ->
  is_less c = is_less c1 /\ (holds c x k <-> comb o (holds c1 x k1) (holds c2 x k2)).
Proof.
  intros c1 k1 c2 k2 o c k x Hd H.
  unfold remove_redundant_compare, get_comparator_by_restriction in H.
  destruct c1, c2; try discriminate Hd; destruct o; cbn in H;
    destruct (k1 =? k2) eqn:E1; [| destruct (k1 >? k2) eqn:E2 | | destruct (k1 >? k2) eqn:E2
      | | destruct (k1 >? k2) eqn:E2 | | destruct (k1 >? k2) eqn:E2
      | | destruct (k1 >? k2) eqn:E2 | | destruct (k1 >? k2) eqn:E2
      | | destruct (k1 >? k2) eqn:E2 | | destruct (k1 >? k2) eqn:E2
      | | destruct (k1 >? k2) eqn:E2 | | destruct (k1 >? k2) eqn:E2
      | | destruct (k1 >? k2) eqn:E2 | | destruct (k1 >? k2) eqn:E2
      | | destruct (k1 >? k2) eqn:E2 | | destruct (k1 >? k2) eqn:E2
      | | destruct (k1 >? k2) eqn:E2 | | destruct (k1 >? k2) eqn:E2 ];
    cbn in H; injection H as <- <-; zb; cbn; split; try reflexivity; lia.
Qed.

Lemma remove_redundant_total : forall c1 k1 c2 k2 a, exists c k,
  remove_redundant_compare c1 k1 c2 k2 a = (c, k).
Proof. intros. destruct (remove_redundant_compare c1 k1 c2 k2 a); eauto. Qed.

(** Meaning of a partially processed group: neutral element of the operation when empty. *)
Definition part_holds (o : boolop) (p : option (cmp * Z)) (x : Z) : Prop :=
  match p with Some (c, k) => holds c x k | None => match o with And => True | Or => False end end.

Definition bounds_inv (b : bounds) : Prop :=
  (forall c k, less b = Some (c, k) -> is_less c = true) /\
  (forall c k, greater b = Some (c, k) -> is_less c = false).

Definition bounds_holds (o : boolop) (b : bounds) (x : Z) : Prop :=
  comb o (part_holds o (less b) x) (part_holds o (greater b) x).

Lemma bounds_step_ok : forall o b c k x,
  bounds_inv b ->
  bounds_inv (bounds_step o b (c, k)) /\
  (bounds_holds o (bounds_step o b (c, k)) x <-> comb o (bounds_holds o b x) (holds c x k)).
Proof.
  intros o [l g ch] c k x [Hl Hg]. unfold bounds_step. cbn in *.
  destruct (is_less c) eqn:Hc.
  - destruct l as [[cl v1]|].
    + destruct (remove_redundant_compare cl v1 c k (is_and o)) as [c' k'] eqn:R.
      pose proof (Hl _ _ eq_refl) as Hcl.
      destruct (remove_redundant_ok _ _ _ _ _ _ _ x (eq_trans Hcl (eq_sym Hc)) R) as [D E].
      unfold bounds_inv, bounds_holds; cbn. split.
      * split; [ intros ? ? [= <- <-]; congruence | exact Hg ].
      * destruct o; cbn in *; tauto.
    + unfold bounds_inv, bounds_holds; cbn. split.
      * split; [ intros ? ? [= <- <-]; exact Hc | exact Hg ].
      * destruct o; cbn; tauto.
  - destruct g as [[cg v2]|].
    + destruct (remove_redundant_compare cg v2 c k (is_and o)) as [c' k'] eqn:R.
      pose proof (Hg _ _ eq_refl) as Hcg.
      destruct (remove_redundant_ok _ _ _ _ _ _ _ x (eq_trans Hcg (eq_sym Hc)) R) as [D E].
      unfold bounds_inv, bounds_holds; cbn. split.
      * split; [ exact Hl | intros ? ? [= <- <-]; congruence ].
      * destruct o; cbn in *; tauto.
    + unfold bounds_inv, bounds_holds; cbn. split.
      * split; [ exact Hl | intros ? ? [= <- <-]; exact Hc ].
      * destruct o; cbn; tauto.
Qed.

Lemma fold_ok : forall o x g b, bounds_inv b ->
  bounds_inv (fold_left (bounds_step o) g b) /\
  (bounds_holds o (fold_left (bounds_step o) g b) x <-> comb o (bounds_holds o b x) (group_holds o g x)).
Proof.
  intros o x g. induction g as [|[c k] g IH]; intros b Hb; cbn [fold_left].
  - split; [exact Hb|]. destruct o; cbn; firstorder.
  - destruct (bounds_step_ok o b c k x Hb) as [Hb' E].
    destruct (IH _ Hb') as [Hb'' E'']. split; [exact Hb''|].
    rewrite E''. destruct o; cbn in *.
    + rewrite E. split.
      * intros [[A B] C]. split; [exact A|]. intros c0 k0 [[= <- <-]|Hin]; [exact B|exact (C _ _ Hin)].
      * intros [A B]. split; [split; [exact A| apply B; left; reflexivity]|].
        intros c0 k0 Hin. apply B. right. exact Hin.
    + rewrite E. split.
      * intros [[A|B]|[c0 [k0 [Hin C]]]]; [left; exact A| right; exists c, k; auto|].
        right. exists c0, k0. auto.
      * intros [A|[c0 [k0 [[[= <- <-]|Hin] C]]]]; [tauto|tauto|].
        right. exists c0, k0. auto.
Qed.

Lemma no_bounds_inv : bounds_inv no_bounds.
Proof. split; cbn; discriminate. Qed.

(** Some bound is always found for a non-empty group. *)
Lemma step_nonempty : forall o b cv,
  less (bounds_step o b cv) <> None \/ greater (bounds_step o b cv) <> None.
Proof.
  intros o [l g ch] [c k]. unfold bounds_step; cbn.
  destruct (is_less c).
  - destruct l as [[cl v1]|]; left; cbn; discriminate.
  - destruct g as [[cg v2]|]; right; cbn; discriminate.
Qed.

Lemma fold_nonempty : forall o g b, g <> [] ->
  less (fold_left (bounds_step o) g b) <> None \/ greater (fold_left (bounds_step o) g b) <> None.
Proof.
  intros o g. induction g as [|cv g IH]; intros b Hg; [congruence|].
  cbn [fold_left]. destruct g as [|cv' g'].
  - cbn. apply step_nonempty.
  - apply IH. discriminate.
Qed.

Lemma always_ok : forall o k1 c1 k2 c2 s x,
  is_less c1 = true -> is_less c2 = false ->
  check_if_always_true_or_false k1 c1 k2 c2 o = Some s ->
  (suggestion_holds s x <-> comb o (holds c1 x k1) (holds c2 x k2)).
Proof.
  intros o k1 c1 k2 c2 s x H1 H2 H. unfold check_if_always_true_or_false in H.
  destruct c1, c2; try discriminate; destruct o; cbn in H;
    destruct (k1 =? k2) eqn:E;
    try (injection H as <-; zb; cbn; lia);
    try (destruct (k1 <? k2) eqn:E1; destruct (k1 >? k2) eqn:E2; cbn in H; try discriminate;
         injection H as <-; zb; cbn; lia).
Qed.

Lemma always_none : forall o k1 c1 k2 c2,
  is_less c1 = true -> is_less c2 = false ->
  check_if_always_true_or_false k1 c1 k2 c2 o = None ->
  match o with And => k1 > k2 | Or => k1 < k2 end.
Proof.
  intros o k1 c1 k2 c2 H1 H2 H. unfold check_if_always_true_or_false in H.
  destruct c1, c2; try discriminate; destruct o; cbn in H;
    destruct (k1 =? k2) eqn:E; try discriminate;
    destruct (k1 <? k2) eqn:E1; destruct (k1 >? k2) eqn:E2; cbn in H; try discriminate; zb; lia.
Qed.

Lemma cmp_eqb_eq : forall a b, cmp_eqb a b = true <-> a = b.
Proof. intros [] []; unfold cmp_eqb; cbn; split; congruence. Qed.

(** The central lemma: whatever is suggested is equivalent to the group, if the expression text does
    not start with "abs(" or its value is not negative. *)
Lemma group_suggestion_ok : forall o t g m s x,
  (String.prefix "abs(" t = true -> 0 <= x) ->
  suggestion_for_group t g o = Msg m s ->
  (suggestion_holds s x <-> group_holds o g x).
Proof.
  intros o t g m s x Habs H. unfold suggestion_for_group in H.
  destruct (fold_ok o x g no_bounds no_bounds_inv) as [[Hl Hg] E].
  set (b := fold_left (bounds_step o) g no_bounds) in *.
  assert (E' : group_holds o g x <-> bounds_holds o b x).
  { rewrite E. unfold bounds_holds, no_bounds. destruct o; cbn; tauto. }
  rewrite E'. clear E E'. unfold bounds_holds.
  destruct (less b) as [[cl v1]|]; destruct (greater b) as [[cg v2]|]; try discriminate.
  - specialize (Hl _ _ eq_refl). specialize (Hg _ _ eq_refl).
    destruct (check_if_always_true_or_false v1 cl v2 cg o) as [s'|] eqn:C.
    + injection H as _ <-. cbn [part_holds]. apply always_ok; assumption.
    + pose proof (always_none _ _ _ _ _ Hl Hg C) as Hn.
      destruct (v1 =? - v2) eqn:Ev; cbn [negb orb] in H.
      * destruct (cmp_eqb cl (switched cg)) eqn:Ec; cbn [negb] in H.
        -- apply cmp_eqb_eq in Ec. injection H as _ <-. zb.
           unfold check_for_simplification_of_single_and, check_for_simplification_of_single_or,
             add_abs_if_necessary.
           destruct cg; try discriminate Hg; cbn in Ec; subst cl; destruct o; cbn [is_and is_less negb];
             cbn in Hn; cbn [part_holds comb];
             try (destruct (v1 >? 0) eqn:E1; [|zb; lia]);
             try (destruct (v1 <? 0) eqn:E1; [|zb; lia]); zb;
             destruct (String.prefix "abs(" t); cbn [negb suggestion_holds holds];
             try specialize (Habs eq_refl); lia.
        -- destruct (changed b); [|discriminate]. injection H as _ <-. destruct o; cbn; tauto.
      * destruct (changed b); [|discriminate]. injection H as _ <-. destruct o; cbn; tauto.
  - injection H as _ <-. destruct o; cbn; tauto.
  - injection H as _ <-. destruct o; cbn; tauto.
Qed.

Lemma group_suggestion_no_crash : forall o t g, g <> [] -> suggestion_for_group t g o <> Crash.
Proof.
  intros o t g Hg. unfold suggestion_for_group.
  destruct (fold_nonempty o g no_bounds Hg) as [H|H];
    destruct (less _) as [[cl v1]|]; destruct (greater _) as [[cg v2]|]; try congruence.
  all: destruct (check_if_always_true_or_false _ _ _ _ _); try discriminate.
  all: destruct (_ || _); try discriminate; destruct (changed _); discriminate.
Qed.

(** Expression texts that start with "abs(" only for an abs call. *)
Lemma abs_call_value : forall env e, is_abs_call e = true -> 0 <= value env e.
Proof. intros env [] H; try discriminate. cbn. lia. Qed.

Lemma C33_lemma : forall o e g m s env,
  (String.prefix "abs(" (as_string e) = true -> is_abs_call e = true) ->
  suggestion_for_group (as_string e) g o = Msg m s ->
  (suggestion_holds s (value env e) <-> group_holds o g (value env e)).
Proof.
  intros o e g m s env Ha H. eapply group_suggestion_ok; [|exact H].
  intro Hp. apply abs_call_value. auto.
Qed.

(** The other way round: a report is made whenever two comparisons point in the same direction. *)
Lemma C34_witness :
  let e := ESub (EAbs (EVar "x")) (EInt 5) in
  let g := [(Lt, 4); (Gt, -4)] in
  exists m s, suggestion_for_group (as_string e) g And = Msg m s /\
    suggestion_holds s (value (fun _ => 0) e) /\ ~ group_holds And g (value (fun _ => 0) e).
Proof.
  eexists. eexists. split; [vm_compute; reflexivity|]. split.
  - vm_compute. reflexivity.
  - cbn [group_holds]. intro H. specialize (H Gt (-4) (or_intror (or_introl eq_refl))).
    vm_compute in H. discriminate.
Qed.

(** Grouping. *)
Lemma filter_split_perm : forall (A : Type) (f : A -> bool) l x,
  In x l <-> In x (filter f l) \/ In x (filter (fun y => negb (f y)) l).
Proof.
  intros A f l x. rewrite !filter_In. destruct (f x); cbn; intuition congruence.
Qed.

Lemma filter_len : forall (A : Type) (f : A -> bool) l, (List.length (filter f l) <= List.length l)%nat.
Proof. intros A f l. induction l as [|a l IH]; cbn; [lia|]. destruct (f a); cbn; lia. Qed.

Lemma groups_exact : forall fuel ops e g,
  (List.length ops <= fuel)%nat ->
  In (e, g) (group_by_representation fuel ops) ->
  g = map (fun '(_, c, v) => (c, v))
        (filter (fun '(e2, _, _) => String.eqb (as_string e) (as_string e2)) ops) /\
  exists c v, In (e, c, v) ops.
Proof.
  intros fuel. induction fuel as [|f IH]; intros ops e g Hlen Hin; [destruct Hin|].
  destruct ops as [|[[e1 c1] v1] rest]; [destruct Hin|].
  cbn [group_by_representation] in Hin.
  destruct Hin as [Heq|Hin].
  - injection Heq as <- <-. split.
    + cbn [filter]. rewrite String.eqb_refl. reflexivity.
    + exists c1, v1. left. reflexivity.
  - apply IH in Hin.
    + destruct Hin as [Hg [c [v Hin]]].
      assert (Hne : String.eqb (as_string e1) (as_string e) = false).
      { apply filter_In in Hin. destruct Hin as [_ Hn]. apply negb_true_iff in Hn. exact Hn. }
      split.
      * rewrite Hg. cbn [filter]. rewrite String.eqb_sym, Hne. f_equal.
        clear -Hne. induction rest as [|[[e2 c2] v2] rest IHr]; [reflexivity|].
        cbn [filter]. destruct (String.eqb (as_string e1) (as_string e2)) eqn:E; cbn [negb].
        -- apply String.eqb_eq in E. rewrite <- E. rewrite String.eqb_sym, Hne. exact IHr.
        -- cbn [filter]. rewrite IHr. reflexivity.
      * exists c, v. right. apply filter_In in Hin. tauto.
    + cbn in Hlen. etransitivity; [apply filter_len|]. lia.
Qed.

Lemma groups_cover : forall fuel ops e c v,
  (List.length ops <= fuel)%nat -> In (e, c, v) ops ->
  exists e' g, In (e', g) (group_by_representation fuel ops) /\
               as_string e' = as_string e /\ In (c, v) g.
Proof.
  intros fuel. induction fuel as [|f IH]; intros ops e c v Hlen Hin.
  - destruct ops; [destruct Hin|cbn in Hlen; lia].
  - destruct ops as [|[[e1 c1] v1] rest]; [destruct Hin|].
    cbn [group_by_representation].
    destruct Hin as [Heq|Hin].
    + injection Heq as <- <- <-. eexists. eexists. split; [left; reflexivity|].
      split; [reflexivity|left; reflexivity].
    + destruct (String.eqb (as_string e1) (as_string e)) eqn:E.
      * eexists. eexists. split; [left; reflexivity|]. split; [apply String.eqb_eq; exact E|].
        right. apply in_map_iff. exists (e, c, v). split; [reflexivity|].
        apply filter_In. split; [exact Hin|exact E].
      * destruct (IH (filter (fun o => negb ((fun '(e2, _, _) => String.eqb (as_string e1) (as_string e2)) o)) rest)
                     e c v) as [e' [g [H1 [H2 H3]]]].
        -- cbn in Hlen. etransitivity; [apply filter_len|]. lia.
        -- apply filter_In. split; [exact Hin|]. cbn. rewrite E. reflexivity.
        -- exists e', g. split; [right; exact H1|]. split; assumption.
Qed.

Lemma groups_nonempty : forall fuel ops e g, In (e, g) (group_by_representation fuel ops) -> g <> [].
Proof.
  intros fuel. induction fuel as [|f IH]; intros ops e g Hin; [destruct Hin|].
  destruct ops as [|[[e1 c1] v1] rest]; [destruct Hin|]. destruct Hin as [H|H].
  - injection H as _ <-. discriminate.
  - eapply IH. exact H.
Qed.

(** Replacing the operands of one text by the suggestion leaves the whole and/or unchanged. *)
Lemma whole_condition_ok : forall ops o e g m s env,
  (String.prefix "abs(" (as_string e) = true -> is_abs_call e = true) ->
  (forall e2 c v, In (e2, c, v) ops -> as_string e2 = as_string e -> value env e2 = value env e) ->
  In (e, g, Msg m s) (group_and_check ops o) ->
  (comb o (suggestion_holds s (value env e))
     (match o with
      | And => forall e2 c v, In (e2, c, v) ops -> as_string e2 <> as_string e -> holds c (value env e2) v
      | Or => exists e2 c v, In (e2, c, v) ops /\ as_string e2 <> as_string e /\ holds c (value env e2) v
      end)
   <->
   match o with
   | And => forall e2 c v, In (e2, c, v) ops -> holds c (value env e2) v
   | Or => exists e2 c v, In (e2, c, v) ops /\ holds c (value env e2) v
   end).
Proof.
  intros ops o e g m s env Ha Hsame Hin.
  unfold group_and_check in Hin. apply in_map_iff in Hin. destruct Hin as [[e' g'] [Heq Hin]].
  injection Heq as -> -> Hm. apply filter_In in Hin. destruct Hin as [Hin _].
  destruct (groups_exact _ _ _ _ (le_n _) Hin) as [Hg _].
  pose proof (C33_lemma o e g m s env Ha Hm) as Hok.
  assert (Hmem : forall c v, In (c, v) g <-> exists e2, In (e2, c, v) ops /\ as_string e2 = as_string e).
  { intros c v. rewrite Hg, in_map_iff. split.
    - intros [[[e2 c2] v2] [[= <- <-] Hf]]. apply filter_In in Hf. destruct Hf as [Hi He].
      exists e2. split; [exact Hi|]. apply String.eqb_eq in He. symmetry. exact He.
    - intros [e2 [Hi He]]. exists (e2, c, v). split; [reflexivity|]. apply filter_In. split; [exact Hi|].
      apply String.eqb_eq. symmetry. exact He. }
  destruct o; cbn [comb].
  - rewrite Hok. cbn [group_holds]. split.
    + intros [A B] e2 c v Hi. destruct (String.eqb_spec (as_string e2) (as_string e)) as [E|E].
      * rewrite (Hsame _ _ _ Hi E). apply A. apply Hmem. eauto.
      * eapply B; eassumption.
    + intros A. split.
      * intros c v Hc. apply Hmem in Hc. destruct Hc as [e2 [Hi He]].
        rewrite <- (Hsame _ _ _ Hi He). apply A. exact Hi.
      * intros e2 c v Hi _. apply A. exact Hi.
  - rewrite Hok. cbn [group_holds]. split.
    + intros [[c [v [Hc Hh]]]|[e2 [c [v [Hi [_ Hh]]]]]].
      * apply Hmem in Hc. destruct Hc as [e2 [Hi He]]. exists e2, c, v.
        split; [exact Hi|]. rewrite (Hsame _ _ _ Hi He). exact Hh.
      * exists e2, c, v. auto.
    + intros [e2 [c [v [Hi Hh]]]].
      destruct (String.eqb_spec (as_string e2) (as_string e)) as [E|E].
      * left. exists c, v. split; [apply Hmem; eauto|]. rewrite <- (Hsame _ _ _ Hi E). exact Hh.
      * right. exists e2, c, v. auto.
Qed.
