(** Proofs about the results of anti-unification: fragments after merging, branches reported as identical, consistent names. *)
From Coq Require Import String List Bool Arith Lia.
From Verif Require Import Base AuModel AuSpec AuProofs AuMergeProofs.
Import ListNotations.
Local Open Scope string_scope.
Local Open Scope list_scope.
Local Open Scope nat_scope.

(** ** The groups *)

Definition belongs (k : list val) (a : avar) : Prop := k = avar_subs a \/ keys_eq k (avar_subs a) = true.
Definition members (all : list avar) (g : groups) : Prop := forall k l a, List.In (k, l) g -> List.In a l -> List.In a all /\ belongs k a.

Lemma members_nil : forall all, members all [].
Proof. intros all k l a []. Qed.

Lemma belongs_eq : forall k k' a, belongs k a -> keys_eq k k' = true -> belongs k' a.
Proof.
  intros k k' a [-> | K] E; right.
  - apply keys_eq_sym. exact E.
  - exact (keys_eq_trans _ _ _ (keys_eq_sym _ _ E) K).
Qed.

Lemma extend_members : forall all g k l, members all g -> (forall a, List.In a l -> List.In a all /\ belongs k a) -> members all (extend_group g k l).
Proof.
  intros all g k l. induction g as [|[k' l'] g IH]; intros M L; cbn [extend_group].
  - intros k1 l1 a [E|[]] I. injection E as <- <-. exact (L _ I).
  - assert (M' : members all g) by (intros k1 l1 a I; apply M; right; exact I).
    destruct (keys_eq k k') eqn:K.
    + intros k1 l1 a [E|I] Ia.
      * injection E as <- <-. apply in_app_or in Ia. destruct Ia as [Ia|Ia]; [exact (M _ _ _ (or_introl eq_refl) Ia)|].
        destruct (L _ Ia) as (A & B). split; [exact A|exact (belongs_eq _ _ _ B K)].
      * exact (M' _ _ _ I Ia).
    + intros k1 l1 a [E|I] Ia.
      * injection E as <- <-. exact (M _ _ _ (or_introl eq_refl) Ia).
      * exact (IH M' L _ _ _ I Ia).
Qed.

Lemma pop_incl : forall g k x, List.In x (pop_group g k) -> List.In x g.
Proof.
  induction g as [|[k' l'] g IH]; intros k x I; cbn [pop_group] in I; [destruct I|].
  destruct (keys_eq k k'); [right; exact I|]. destruct I as [<-|I]; [left; reflexivity|right; exact (IH _ _ I)].
Qed.
Lemma pop_members : forall all g k, members all g -> members all (pop_group g k).
Proof. intros all g k M k1 l1 a I. apply M. exact (pop_incl _ _ _ I). Qed.
Lemma pops_members : forall all ks g, members all g -> members all (fold_left pop_group ks g).
Proof. induction ks as [|k ks IH]; intros g M; [exact M|]. cbn [fold_left]. apply IH, pop_members, M. Qed.

Lemma merge_loop_members : forall all consistent avars o g forced g' forced', incl avars all -> members all g -> members all forced ->
  merge_loop consistent avars o g forced = Ok (Some (g', forced')) -> members all g' /\ members all forced'.
Proof.
  intros all consistent. induction avars as [|a avars IH]; intros o g forced g' forced' IN M MF E; cbn [merge_loop] in E.
  - injection E as <- <-. split; assumption.
  - assert (IN' : incl avars all) by (intros x Ix; apply IN; right; exact Ix).
    assert (SELF : forall x, List.In x [a] -> List.In x all /\ belongs (avar_subs a) x).
    { intros x [<-|[]]. split; [apply IN; left; reflexivity|left; reflexivity]. }
    destruct (avar_subs a) as [|s subs] eqn:S; [discriminate|]. rewrite <- S in *.
    assert (G : (if negb consistent && all_same (avar_subs a) then merge_loop consistent avars o g (extend_group forced (avar_subs a) [a])
              else match canonicals o a with
                   | [] => merge_loop consistent avars (rev (map (fun p => (p, avar_subs a)) (combine (seq 0 (length (avar_subs a))) (avar_subs a))) ++ o)
                               (if named a then extend_group g (avar_subs a) [a] else g) forced
                   | [canon] =>
                       if named a && keys_eq canon (avar_subs a) && in_groups g canon
                       then merge_loop consistent avars o (extend_group g canon [a]) forced
                       else if consistent then Ok None else merge_loop consistent avars o (pop_group g canon) forced
                   | canons => if consistent then Ok None else merge_loop consistent avars o (fold_left pop_group canons g) forced
                   end) = Ok (Some (g', forced')) \/ merge_loop consistent avars o g forced = Ok (Some (g', forced'))).
    { destruct s; try (left; exact E). right. exact E. }
    clear E. destruct G as [E|E]; [|exact (IH _ _ _ _ _ IN' M MF E)].
    destruct (negb consistent && all_same (avar_subs a)).
    + exact (IH _ _ _ _ _ IN' M (extend_members _ _ _ _ MF SELF) E).
    + destruct (canonicals o a) as [|canon [|canon' canons]].
      * refine (IH _ _ _ _ _ IN' _ MF E). destruct (named a); [exact (extend_members _ _ _ _ M SELF)|exact M].
      * destruct (named a && keys_eq canon (avar_subs a) && in_groups g canon) eqn:C.
        -- rewrite !andb_true_iff in C. destruct C as ((_ & C) & _).
           refine (IH _ _ _ _ _ IN' (extend_members _ _ _ _ M _) MF E).
           intros x [<-|[]]. split; [apply IN; left; reflexivity|right; exact C].
        -- destruct consistent; [discriminate|]. exact (IH _ _ _ _ _ IN' (pop_members _ _ _ M) MF E).
      * destruct consistent; [discriminate|]. exact (IH _ _ _ _ _ IN' (pops_members _ _ _ M) MF E).
Qed.

Lemma candidates_members : forall consistent avars g, get_merge_candidates consistent avars = Ok (Some g) -> members avars g.
Proof.
  intros consistent avars g E. unfold get_merge_candidates in E.
  destruct (merge_loop consistent avars [] [] []) as [[[g1 forced]|]|e] eqn:ML; cbn [bind] in E; try discriminate.
  apply (merge_loop_members avars) in ML; [|apply incl_refl|apply members_nil|apply members_nil].
  destruct ML as (M & MF). injection E as <-. revert g1 M. induction forced as [|[k l] forced IH]; intros g1 M; cbn [fold_left]; [exact M|].
  apply IH.
  - intros k1 l1 a I. apply MF. right. exact I.
  - apply extend_members; [exact M|]. intros a Ia. exact (MF _ _ _ (or_introl eq_refl) Ia).
Qed.

(** ** Renaming *)

Lemma rename_stands : forall M c subs, stands c subs -> rename M c = c.
Proof. intros M c subs []; reflexivity. Qed.

Lemma concatM_nil : forall l, concatM l = Ok [] -> Forall (fun r => r = Ok []) l.
Proof.
  induction l as [|r l IH]; intros E; [constructor|]. cbn [concatM] in E.
  destruct r as [avars|e]; cbn [bind] in E; [|discriminate]. destruct (concatM l) as [more|e]; cbn [bind] in E; [|discriminate].
  injection E as E. apply app_eq_nil in E. destruct E as (-> & ->). constructor; [reflexivity|exact (IH eq_refl)].
Qed.

Section Result.
  Variable astroid_fields : string -> list string.
  Variable shape_of : string -> string -> shape.
  Variable used : string -> Prop.
  Variable plain : atom -> Prop.
  Hypothesis names_alone : forall k, used k -> name_class k -> astroid_fields k = [].
  Notation fields := (all_fields astroid_fields).
  Notation well := (well fields shape_of used plain).
  Notation get_avars := (get_avars astroid_fields).

  Lemma get_avars_attr : forall k attrs s a, get_avars (VNode k attrs s) = Ok [] -> List.In a (fields k) -> exists v, attr_of attrs a = Some v /\ get_avars v = Ok [].
  Proof.
    intros k attrs s a E I. cbn [AuModel.get_avars] in E. apply concatM_nil in E. rewrite Forall_forall in E.
    specialize (E _ (in_map _ _ _ I)). clear I. cbv beta in E.
    induction attrs as [|[b w] attrs IH]; [discriminate|]. cbn [map find attr_of] in *.
    destruct (String.eqb a b); [exists w; split; [reflexivity|exact E]|exact (IH E)].
  Qed.

  Definition renamed (M : list nat) (kind a : string) (v : val) : val :=
    match v with
    | VVar n (s :: _) => if str_in kind ["Name"; "AssignName"] && String.eqb a "name" && existsb (Nat.eqb n) M then s else v
    | _ => rename M v
    end.

  Lemma rename_attr : forall M k attrs a, attr_of (map (fun '(b, v) => (b, renamed M k b v)) attrs) a =
    match attr_of attrs a with Some v => Some (renamed M k a v) | None => None end.
  Proof.
    intros M k attrs a. induction attrs as [|[b w] attrs IH]; [reflexivity|]. cbn [map attr_of].
    destruct (String.eqb_spec a b) as [->|_]; [reflexivity|exact IH].
  Qed.
  Lemma rename_node : forall M k attrs s, rename M (VNode k attrs s) = VNode k (map (fun '(b, v) => (b, renamed M k b v)) attrs) s.
  Proof. reflexivity. Qed.

  Lemma renamed_other : forall M k a v, ~ name_class k -> renamed M k a v = rename M v.
  Proof.
    intros M k a v N. unfold renamed. destruct v as [| | | |n [|x subs]]; try reflexivity.
    replace (str_in k ["Name"; "AssignName"]) with false; [reflexivity|].
    destruct (str_in k ["Name"; "AssignName"]) eqn:E; [|reflexivity]. exfalso. apply N. apply namek_iff. exact E.
  Qed.

  Lemma name_field : forall k a, used k -> name_class k -> List.In a (fields k) <-> a = "name".
  Proof.
    intros k a U N. unfold all_fields. rewrite (names_alone k U N). cbn [app].
    destruct N as [-> | ->]; cbn; intuition congruence.
  Qed.

  (** What merging knows about a merged variable. *)
  Variable rel : atom -> atom -> Prop.
  Hypothesis rel_eq : forall x y, atom_eq x y = true -> rel x y.
  Variable i : nat.
  Variable M : list nat.
  Definition merged_well (core : val) : Prop := forall n s subs x y, List.In (VVar n (s :: subs)) (vars_in core) -> existsb (Nat.eqb n) M = true ->
    s = VAtom x -> nth_error (s :: subs) i = Some (VAtom y) -> rel x y.

  Notation fills0 := (fills fields (fun a b => atom_eq a b = true) (fun _ _ => False)).

  Lemma merged_attr : forall k attrs s a c, merged_well (VNode k attrs s) -> attr_of attrs a = Some c -> merged_well c.
  Proof.
    intros k attrs s a c W A n s' subs x y I. apply W. cbn [vars_in].
    induction attrs as [|[b w] attrs IH]; [discriminate|]. cbn [attr_of flat_map] in *. apply in_or_app.
    destruct (String.eqb_spec a b) as [->|_]; [left; injection A as ->; exact I|right; apply IH; [|exact A]].
    intros n' s1 subs1 x1 y1 I1. apply W. cbn [vars_in flat_map]. apply in_or_app. right. exact I1.
  Qed.

  (** Branches whose core has no variables left after renaming. *)
  Lemma no_vars_alike : forall core s v0 v, fills0 0 core v0 -> fills0 i core v -> well s v0 -> well s v -> merged_well core ->
    get_avars (rename M core) = Ok [] -> alike fields (fun a b => atom_eq a b = true) rel v0 v.
  Proof.
    induction core as [a|l IH|l IH|k attrs s0 IH|n subs] using val_ind2; intros s v0 v F0 Fi W0 Wi MW G.
    - inversion F0; subst. inversion Fi; subst. constructor. eapply atom_eq_trans; [apply atom_eq_sym|]; eassumption.
    - assert (ST : forall c subs, l = [c] -> stands c subs -> False).
      { intros c subs -> ST. cbn [rename map] in G. rewrite (rename_stands _ _ _ ST) in G. destruct ST; cbn in G; discriminate. }
      inversion F0 as [|?|cs vs0 FF E1 E2|?|? ? ? ST1 ? E1|?|?]; subst; [|exfalso; exact (ST _ _ eq_refl ST1)].
      inversion Fi as [|?|cs vs1 FF' E1 E2|?|? ? ? ST1 ? E1|?|?]; subst; [|exfalso; exact (ST _ _ eq_refl ST1)].
      inversion W0 as [|?|sh ? WW0|?]; subst. inversion Wi as [|?|sh' ? WW1|?]; subst.
      constructor. cbn [rename AuModel.get_avars] in G. apply concatM_nil in G. clear ST W0 Wi F0 Fi.
      revert vs1 FF' WW1. revert WW0. induction FF as [|c w0 cs vs0 Fc FF IHF]; intros WW0 vs1 FF' WW1; inversion FF' as [|? w ? ws Fw FF1]; subst; [constructor|].
      inversion IH as [|? ? IHc IHcs]; subst. cbn [map] in G. inversion G as [|? ? Gc Gs]; subst.
      inversion WW0; subst. inversion WW1; subst.
      constructor.
      + refine (IHc sh _ _ Fc Fw _ _ _ Gc); [assumption|assumption|].
        intros n s subs x y I. apply MW. cbn [vars_in flat_map]. apply in_or_app. left. exact I.
      + refine (IHF _ _ _ _ _ _ _); try assumption.
        intros n s subs x y I. apply MW. cbn [vars_in flat_map]. apply in_or_app. right. exact I.
    - inversion F0 as [|?|?|cs vs0 FF E1 E2|?|?|?]; subst. inversion Fi as [|?|?|cs vs1 FF' E1 E2|?|?|?]; subst.
      inversion W0 as [|?|?|sa sb x0 y0 Wx0 Wy0]; subst. inversion Wi as [|?|?|sa' sb' x1 y1 Wx1 Wy1]; subst.
      inversion FF as [|cx ? cs1 ? Fx0 FF1]; subst. inversion FF1 as [|cy ? cs2 ? Fy0 FF2]; subst. inversion FF2; subst.
      inversion FF' as [|? ? ? ? Fx1 FF1']; subst. inversion FF1' as [|? ? ? ? Fy1 ?]; subst.
      constructor. cbn [rename AuModel.get_avars] in G. apply concatM_nil in G. cbn [map] in G.
      inversion G as [|? ? Gx G1]; subst. inversion G1 as [|? ? Gy G2]; subst.
      inversion IH as [|? ? IHx IH1]; subst. inversion IH1 as [|? ? IHy IH2]; subst.
      constructor; [|constructor; [|constructor]].
      + refine (IHx sa _ _ Fx0 Fx1 Wx0 Wx1 _ Gx). intros n s subs x y I. apply MW. cbn [vars_in flat_map]. apply in_or_app. left. exact I.
      + refine (IHy sb _ _ Fy0 Fy1 Wy0 Wy1 _ Gy). intros n s subs x y I. apply MW. cbn [vars_in flat_map]. apply in_or_app. right. apply in_or_app. left. exact I.
    - inversion F0 as [|?|?|?|?|?|? ? at0 ? t0 H0]; subst; [contradiction|].
      inversion Fi as [|?|?|?|?|?|? ? at1 ? t1 H1]; subst; [contradiction|].
      inversion W0 as [|? ? U0 A0 N0|?|?]; subst. inversion Wi as [|? ? U1 A1 N1|?|?]; subst.
      assert (AT : forall a c, attr_of attrs a = Some c -> List.In c (map snd attrs)).
      { intros a c E. clear - E. induction attrs as [|[b w] attrs IH]; [discriminate|]. cbn [attr_of map snd] in *.
        destruct (String.eqb a b); [left; congruence|right; exact (IH E)]. }
      destruct (namek k) eqn:NK.
      + assert (NC : name_class k) by (apply namek_iff; exact NK).
        assert (IF : List.In "name" (fields k)) by (apply name_field; [assumption|assumption|reflexivity]).
        destruct (H0 _ IF) as (c & w0 & Hc & Hw0 & Fw0). destruct (H1 _ IF) as (c' & w1 & Hc' & Hw1 & Fw1).
        rewrite (holds_fun _ _ _ _ Hc' Hc) in Fw1. clear c' Hc'.
        destruct (N0 NC) as (x0 & Hx0 & _). destruct (N1 NC) as (x1 & Hx1 & _).
        rewrite (holds_fun _ _ _ _ Hw0 Hx0) in *. rewrite (holds_fun _ _ _ _ Hw1 Hx1) in *.
        refine (alike_name _ _ _ _ _ _ _ _ _ _ NC Hx0 Hx1 _).
        rewrite rename_node in G. destruct (get_avars_attr _ _ _ _ G IF) as (u & Hu & Gu).
        rewrite rename_attr in Hu. rewrite holds_iff in Hc. rewrite Hc in Hu. injection Hu as <-.
        inversion Fw0 as [n subs ? E0|? ? S0|?|?|?|?|?]; subst c.
        * inversion Fw1 as [? ? ? E1|?|?|?|?|?|?]; subst.
          destruct subs as [|s subs]; [discriminate E0|]. cbn [renamed] in Gu.
          unfold namek in NK. rewrite NK in Gu. change (String.eqb "name" "name") with true in Gu. cbn [andb] in Gu.
          destruct (existsb (Nat.eqb n) M) eqn:EM; [|discriminate Gu].
          cbn [nth_error] in E0. injection E0 as ->.
          refine (MW n _ subs _ _ _ EM eq_refl E1). cbn [vars_in].
          clear - Hc. induction attrs as [|[b w] attrs IH]; [discriminate|]. cbn [attr_of flat_map] in *. apply in_or_app.
          destruct (String.eqb "name" b); [left; injection Hc as ->; left; reflexivity|right; exact (IH Hc)].
        * inversion Fw1 as [|? ? S1|?|?|?|?|?]; subst. apply rel_eq. eapply atom_eq_trans; [apply atom_eq_sym; exact S0|exact S1].
      + assert (NC : ~ name_class k) by (intros N; apply namek_iff in N; congruence).
        apply alike_node; [exact NC|]. intros a Ia.
        destruct (H0 _ Ia) as (c & w0 & Hc & Hw0 & Fw0). destruct (H1 _ Ia) as (c' & w1 & Hc' & Hw1 & Fw1).
        rewrite (holds_fun _ _ _ _ Hc' Hc) in Fw1. clear c' Hc'.
        exists w0, w1. refine (conj Hw0 (conj Hw1 _)).
        destruct (A0 _ Ia) as (w0' & Hw0' & Ww0). rewrite (holds_fun _ _ _ _ Hw0' Hw0) in Ww0.
        destruct (A1 _ Ia) as (w1' & Hw1' & Ww1). rewrite (holds_fun _ _ _ _ Hw1' Hw1) in Ww1.
        rewrite rename_node in G. destruct (get_avars_attr _ _ _ _ G Ia) as (u & Hu & Gu).
        rewrite rename_attr in Hu. rewrite holds_iff in Hc. rewrite Hc in Hu. injection Hu as <-.
        rewrite (renamed_other _ _ _ _ NC) in Gu.
        pose proof (AT _ _ Hc) as IC. apply in_map_iff in IC. destruct IC as (p & <- & Ip). rewrite Forall_forall in IH.
        exact (IH _ Ip _ _ _ Fw0 Fw1 Ww0 Ww1 (merged_attr _ _ _ _ _ MW Hc) Gu).
    - cbn in G. discriminate.
  Qed.

  Notation fillsr := (fills fields (fun a b => atom_eq a b = true) rel).

  Lemma fills_mono : forall core v, fills0 i core v -> fillsr i core v.
  Proof.
    induction core as [a|l IH|l IH|k attrs s0 IH|n subs] using val_ind2; intros v F.
    - inversion F; subst. constructor. assumption.
    - inversion F as [|?|cs vs0 FF E1 E2|?|? ? ? ST1 ? E1|?|?]; subst; [|eapply fills_whole_list; eassumption].
      constructor. clear F. induction FF; [constructor|]. inversion IH; subst. constructor; auto.
    - inversion F as [|?|?|cs vs0 FF E1 E2|?|?|?]; subst.
      constructor. clear F. induction FF; [constructor|]. inversion IH; subst. constructor; auto.
    - inversion F as [|?|?|?|?|?|? ? at0 ? t0 H0]; subst; [contradiction|]. apply fills_node. intros a Ia.
      destruct (H0 _ Ia) as (c & w & Hc & Hw & Fw). exists c, w. refine (conj Hc (conj Hw _)).
      assert (IC : List.In c (map snd attrs)).
      { rewrite holds_iff in Hc. clear - Hc. induction attrs as [|[b u] attrs IH]; [discriminate|]. cbn [attr_of map snd] in *.
        destruct (String.eqb a b); [left; congruence|right; exact (IH Hc)]. }
      apply in_map_iff in IC. destruct IC as (p & <- & Ip). rewrite Forall_forall in IH. exact (IH _ Ip _ Fw).
    - inversion F; subst. constructor. assumption.
  Qed.

  (** Renaming keeps the fragments up to [rel]. *)
  Lemma rename_fills : forall core s v0 v, fills0 0 core v0 -> fills0 i core v -> well s v0 -> well s v -> merged_well core ->
    fillsr i (rename M core) v.
  Proof.
    induction core as [a|l IH|l IH|k attrs s0 IH|n subs] using val_ind2; intros s v0 v F0 Fi W0 Wi MW.
    - inversion Fi; subst. constructor. assumption.
    - assert (ST : forall c subs, l = [c] -> stands c subs -> fillsr i (rename M (VList l)) v).
      { intros c subs -> ST. cbn [rename map]. rewrite (rename_stands _ _ _ ST). apply fills_mono. exact Fi. }
      inversion F0 as [|?|cs vs0 FF E1 E2|?|? ? ? ST1 ? E1|?|?]; subst; [|exact (ST _ _ eq_refl ST1)].
      inversion Fi as [|?|cs vs1 FF' E1 E2|?|? ? ? ST1 ? E1|?|?]; subst; [|exact (ST _ _ eq_refl ST1)].
      inversion W0 as [|?|sh ? WW0|?]; subst. inversion Wi as [|?|sh' ? WW1|?]; subst.
      cbn [rename]. constructor. clear ST W0 Wi F0 Fi.
      revert vs1 FF' WW1. revert WW0. induction FF as [|c w0 cs vs0 Fc FF IHF]; intros WW0 vs1 FF' WW1; inversion FF' as [|? w ? ws Fw FF1]; subst; [constructor|].
      inversion IH as [|? ? IHc IHcs]; subst.
      inversion WW0; subst. inversion WW1; subst. cbn [map].
      constructor.
      + refine (IHc sh _ _ Fc Fw _ _ _); [assumption|assumption|].
        intros n s subs x y I. apply MW. cbn [vars_in flat_map]. apply in_or_app. left. exact I.
      + refine (IHF _ _ _ _ _ _); try assumption.
        intros n s subs x y I. apply MW. cbn [vars_in flat_map]. apply in_or_app. right. exact I.
    - inversion F0 as [|?|?|cs vs0 FF E1 E2|?|?|?]; subst. inversion Fi as [|?|?|cs vs1 FF' E1 E2|?|?|?]; subst.
      inversion W0 as [|?|?|sa sb x0 y0 Wx0 Wy0]; subst. inversion Wi as [|?|?|sa' sb' x1 y1 Wx1 Wy1]; subst.
      inversion FF as [|cx ? cs1 ? Fx0 FF1]; subst. inversion FF1 as [|cy ? cs2 ? Fy0 FF2]; subst. inversion FF2; subst.
      inversion FF' as [|? ? ? ? Fx1 FF1']; subst. inversion FF1' as [|? ? ? ? Fy1 ?]; subst.
      cbn [rename map]. constructor.
      inversion IH as [|? ? IHx IH1]; subst. inversion IH1 as [|? ? IHy IH2]; subst.
      constructor; [|constructor; [|constructor]].
      + refine (IHx sa _ _ Fx0 Fx1 Wx0 Wx1 _). intros n s subs x y I. apply MW. cbn [vars_in flat_map]. apply in_or_app. left. exact I.
      + refine (IHy sb _ _ Fy0 Fy1 Wy0 Wy1 _). intros n s subs x y I. apply MW. cbn [vars_in flat_map]. apply in_or_app. right. apply in_or_app. left. exact I.
    - inversion F0 as [|?|?|?|?|?|? ? at0 ? t0 H0]; subst; [contradiction|].
      inversion Fi as [|?|?|?|?|?|? ? at1 ? t1 H1]; subst; [contradiction|].
      inversion W0 as [|? ? U0 A0 N0|?|?]; subst. inversion Wi as [|? ? U1 A1 N1|?|?]; subst.
      rewrite rename_node.
      destruct (namek k) eqn:NK.
      + assert (NC : name_class k) by (apply namek_iff; exact NK).
        assert (IF : List.In "name" (fields k)) by (apply name_field; [assumption|assumption|reflexivity]).
        destruct (H0 _ IF) as (c & w0 & Hc & Hw0 & Fw0). destruct (H1 _ IF) as (c' & w1 & Hc' & Hw1 & Fw1).
        rewrite (holds_fun _ _ _ _ Hc' Hc) in Fw1. clear c' Hc'.
        destruct (N0 NC) as (x0 & Hx0 & _). destruct (N1 NC) as (x1 & Hx1 & _).
        rewrite (holds_fun _ _ _ _ Hw0 Hx0) in *. rewrite (holds_fun _ _ _ _ Hw1 Hx1) in *.
        rewrite holds_iff in Hc. pose proof (rename_attr M k attrs "name") as RA. rewrite Hc in RA.
        inversion Fw0 as [n subs ? E0|? ? S0|?|?|?|?|?]; subst c.
        * inversion Fw1 as [? ? ? E1|?|?|?|?|?|?]; subst.
          destruct subs as [|s subs]; [discriminate E0|]. cbn [renamed] in RA.
          unfold namek in NK. rewrite NK in RA. change (String.eqb "name" "name") with true in RA. cbn [andb] in RA.
          cbn [nth_error] in E0. injection E0 as ->.
          destruct (existsb (Nat.eqb n) M) eqn:EM.
          -- refine (fills_name _ _ _ _ _ _ _ _ _ _ _ NC (proj2 (holds_iff _ _ _) RA) Hx1 _).
             refine (MW n _ subs _ _ _ EM eq_refl E1). cbn [vars_in].
             clear - Hc. induction attrs as [|[b w] attrs IH]; [discriminate|]. cbn [attr_of flat_map] in *. apply in_or_app.
             destruct (String.eqb "name" b); [left; injection Hc as ->; left; reflexivity|right; exact (IH Hc)].
          -- apply fills_node. intros a Ia. apply name_field in Ia; [|assumption|assumption]. subst a.
             eexists. eexists. refine (conj (proj2 (holds_iff _ _ _) RA) (conj Hx1 _)). constructor. exact E1.
        * inversion Fw1 as [|? ? S1|?|?|?|?|?]; subst. cbn [renamed rename] in RA.
          apply fills_node. intros a' Ia. apply name_field in Ia; [|assumption|assumption]. subst a'.
          eexists. eexists. refine (conj (proj2 (holds_iff _ _ _) RA) (conj Hx1 _)). constructor. exact S1.
      + assert (NC : ~ name_class k) by (intros N; apply namek_iff in N; congruence).
        apply fills_node. intros a Ia.
        destruct (H0 _ Ia) as (c & w0 & Hc & Hw0 & Fw0). destruct (H1 _ Ia) as (c' & w1 & Hc' & Hw1 & Fw1).
        rewrite (holds_fun _ _ _ _ Hc' Hc) in Fw1. clear c' Hc'.
        destruct (A0 _ Ia) as (w0' & Hw0' & Ww0). rewrite (holds_fun _ _ _ _ Hw0' Hw0) in Ww0.
        destruct (A1 _ Ia) as (w1' & Hw1' & Ww1). rewrite (holds_fun _ _ _ _ Hw1' Hw1) in Ww1.
        rewrite holds_iff in Hc. pose proof (rename_attr M k attrs a) as RA. rewrite Hc, (renamed_other _ _ _ _ NC) in RA.
        exists (rename M c), w1. refine (conj (proj2 (holds_iff _ _ _) RA) (conj Hw1 _)).
        assert (IC : List.In c (map snd attrs)).
        { clear - Hc. induction attrs as [|[b u] attrs IH]; [discriminate|]. cbn [attr_of map snd] in *.
          destruct (String.eqb a b); [left; congruence|right; exact (IH Hc)]. }
        apply in_map_iff in IC. destruct IC as (p & <- & Ip). rewrite Forall_forall in IH.
        exact (IH _ Ip _ _ _ Fw0 Fw1 Ww0 Ww1 (merged_attr _ _ _ _ _ MW Hc)).
    - apply fills_mono. exact Fi.
  Qed.
End Result.
