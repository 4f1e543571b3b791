(** Proofs about sequences of names and operations, and about exceptions. *)
From Coq Require Import String Ascii List Bool Arith NArith ZArith Lia.
From Verif Require Import Base PyModel PySpec IfModel FoldModel FoldSpec LocalModel LocalSpec IterModel IterSpec IterProofs IterConstProofs.
Import ListNotations.
Local Open Scope string_scope.
Local Open Scope list_scope.
Local Open Scope nat_scope.

Lemma kind_eqb_eq a b : kind_eqb a b = true <-> a = b.
Proof. unfold kind_eqb. destruct (_ : {a = b} + {a <> b}); split; congruence. Qed.
Lemma kind_eqb_refl a : kind_eqb a a = true. Proof. apply kind_eqb_eq. reflexivity. Qed.

(** ** Groups *)
Definition good_group (g : list sub) : Prop := match g with [] => False | s :: r => (forall e, s = Node e -> Forall (fun t => kind_of t = kind_of s) r) /\ (forall v, s = Raw v -> Forall (fun t => exists u, t = Raw u) r) end.
Lemma instance_node n m : instance_of n m = true -> (forall e, m = Node e -> kind_of n = kind_of m) /\ (forall v, m = Raw v -> exists u, n = Raw u).
Proof.
  unfold instance_of. intro I. apply orb_true_iff in I. destruct I as [I|I].
  - apply kind_eqb_eq in I. split; [congruence|]. intros v ->. destruct n as [u|e]; [eexists; reflexivity|]. destruct v, e; discriminate.
  - apply andb_true_iff in I. destruct I as (I & J). apply kind_eqb_eq in I. apply kind_eqb_eq in J. split.
    + intros e ->. destruct e; discriminate.
    + intros v _. destruct n as [u|e]; [eexists; reflexivity|]. destruct e; discriminate.
Qed.
Definition chained (m : sub) (cur : list sub) : Prop := (forall e, m = Node e -> Forall (fun t => kind_of t = kind_of m) cur) /\ (forall v, m = Raw v -> Forall (fun t => exists u, t = Raw u) cur).
Lemma chained_group m cur : chained m cur -> good_group (rev (m :: cur)).
Proof.
  intros (C1 & C2). assert (ALL : forall t, List.In t (m :: cur) -> (forall e, m = Node e -> kind_of t = kind_of m) /\ (forall v, m = Raw v -> exists u, t = Raw u)).
  { intros t [<-|I]; [split; [reflexivity|intros v ->; eexists; reflexivity]|]. split; [intros e E; exact (proj1 (Forall_forall _ _) (C1 e E) t I)|intros v E; exact (proj1 (Forall_forall _ _) (C2 v E) t I)]. }
  destruct (rev (m :: cur)) as [|s r] eqn:R; [apply (f_equal (@length sub)) in R; rewrite rev_length in R; discriminate|]. cbn [good_group].
  assert (IN : forall t, List.In t (s :: r) -> List.In t (m :: cur)) by (intros t I; rewrite <- R in I; apply in_rev in I; exact I).
  assert (IS := ALL s (IN s (or_introl eq_refl))). destruct m as [v|e].
  - destruct (proj2 IS v eq_refl) as (u & ->). split; [discriminate|]. intros v' _. apply Forall_forall. intros t I. apply (proj2 (ALL t (IN t (or_intror I))) v eq_refl).
  - split.
    + intros e' _. apply Forall_forall. intros t I. rewrite (proj1 (ALL t (IN t (or_intror I))) e eq_refl). symmetry. apply (proj1 IS e eq_refl).
    + intros v ->. specialize (proj1 IS e eq_refl). destruct v, e; discriminate.
Qed.
Lemma partition_groups : forall l m cur, chained m cur -> Forall good_group (partition_loop m cur l).
Proof.
  induction l as [|n l IH]; intros m cur C; cbn [partition_loop].
  - constructor; [apply chained_group; exact C|constructor].
  - destruct (instance_of n m) eqn:I.
    + apply IH. destruct (instance_node n m I) as (I1 & I2). destruct C as (C1 & C2). split.
      * intros e ->. destruct m as [v|e']; [destruct (I2 v eq_refl); discriminate|]. specialize (I1 e' eq_refl). rewrite I1. constructor; [reflexivity|]. apply (C1 e' eq_refl).
      * intros v ->. destruct m as [v'|e'].
        -- constructor; [eexists; reflexivity|]. apply (C2 v' eq_refl).
        -- specialize (I1 e' eq_refl). destruct v, e'; discriminate.
    + constructor; [apply chained_group; exact C|]. apply IH. split; constructor.
Qed.
Lemma groups_ok l : Forall good_group (partition_by_type l).
Proof. destruct l as [|n l]; [constructor|]. apply partition_groups. split; constructor. Qed.

Lemma group_kind k part s : (forall v, kind_of (Raw v) <> k) -> Forall good_group part -> List.In s (group_of k part) -> kind_of s = k /\ exists e, s = Node e.
Proof.
  intros NR G I. unfold group_of in I. apply in_concat in I. destruct I as (g & IG & I). apply filter_In in IG. destruct IG as (IG & K).
  pose proof (proj1 (Forall_forall _ _) G g IG) as GG. destruct g as [|t r]; [destruct GG|]. apply kind_eqb_eq in K. destruct t as [v|e]; [destruct (NR v K)|].
  destruct GG as (GG & _). destruct I as [<-|I]; [split; [exact K|eexists; reflexivity]|]. pose proof (proj1 (Forall_forall _ _) (GG e eq_refl) s I) as Q. cbn beta in Q. split; [congruence|].
  destruct s as [u|e']; [|eexists; reflexivity]. destruct (NR u). congruence.
Qed.
Lemma binary_group part s : Forall good_group part -> List.In s (group_of KBinary part) -> exists o a b, s = Node (Binary o a b).
Proof.
  intros G I. destruct (group_kind KBinary part s) as (K & e & ->); [intros []; discriminate|exact G|exact I|]. destruct e; try discriminate. repeat eexists.
Qed.
Lemma nodes_all l : (forall s, List.In s l -> exists e, s = Node e) -> l = map Node (nodes_of l).
Proof.
  induction l as [|s l IH]; intro A; [reflexivity|]. destruct (A s (or_introl eq_refl)) as (e & ->). cbn [nodes_of flat_map app map]. f_equal. apply IH. intros t I. apply A. right. exact I.
Qed.
Lemma binops_all part : Forall good_group part -> group_of KBinary part = map Node (nodes_of (group_of KBinary part)).
Proof. intro G. apply nodes_all. intros s I. destruct (binary_group part s G I) as (o & a & b & ->). eexists. reflexivity. Qed.

(** ** Anti-unification of operations *)
Lemma all_binaries_ok : forall es, (forall e, List.In e es -> exists o a b, e = Binary o a b) -> exists bs, all_binaries es = Some bs /\ es = map (fun q => Binary (fst (fst q)) (snd (fst q)) (snd q)) bs.
Proof.
  induction es as [|e es IH]; intro A; [exists []; split; reflexivity|]. destruct (A e (or_introl eq_refl)) as (o & a & b & ->). destruct (IH (fun x X => A x (or_intror X))) as (bs & E & Q).
  exists ((o, a, b) :: bs). cbn [all_binaries]. rewrite E. split; [reflexivity|]. cbn [map fst snd]. congruence.
Qed.
Lemma all_binaries_some : forall es bs, all_binaries es = Some bs -> es = map (fun q => Binary (fst (fst q)) (snd (fst q)) (snd q)) bs.
Proof.
  induction es as [|e es IH]; intros bs E; cbn [all_binaries] in E; [assert (bs = []) by congruence; subst; reflexivity|]. destruct e; try discriminate. destruct (all_binaries es) as [r|]; [|discriminate].
  assert (bs = (o, e1, e2) :: r) by congruence. subst. cbn [map fst snd]. f_equal. apply IH. reflexivity.
Qed.
Lemma all_consts_len : forall es cs, all_consts es = Some cs -> length cs = length es.
Proof.
  induction es as [|e es IH]; intros cs E; cbn [all_consts] in E; [assert (cs = []) by congruence; subst; reflexivity|]. destruct e; try discriminate. destruct (all_consts es) as [r|]; [|discriminate].
  assert (cs = c :: r) by congruence. subst. cbn [length]. f_equal. apply IH. reflexivity.
Qed.
Lemma all_names_len : forall es xs, all_names es = Some xs -> length xs = length es.
Proof.
  induction es as [|e es IH]; intros cs E; cbn [all_names] in E; [assert (cs = []) by congruence; subst; reflexivity|]. destruct e; try discriminate. destruct (all_names es) as [r|]; [|discriminate].
  assert (cs = x :: r) by congruence. subst. cbn [length]. f_equal. apply IH. reflexivity.
Qed.
(** A variable has one value for each expression; its nodes are parts of the expressions; numbers are not all the same. *)
Definition some_differ (l : list sub) : Prop := ~ exists z, Forall (fun s => int_of s = Some z) l.
Definition var_ok (Q : expr -> Prop) (n : nat) (v : found) : Prop := fst v = false -> length (snd v) = n /\ (forall e, List.In (Node e) (snd v) -> Q e) /\ some_differ (snd v).
Lemma whole_ok (Q : expr -> Prop) e es : (forall x, List.In x (e :: es) -> Q x) -> var_ok Q (S (length es)) (false, map Node (e :: es)).
Proof.
  intros A _. cbn [snd]. split; [rewrite map_length; reflexivity|]. split.
  - intros x I. apply in_map_iff in I. destruct I as (y & Y & I). assert (y = x) by congruence. subst. apply A. exact I.
  - intros (z & F). inversion F as [|? ? F1 _]; subst. discriminate.
Qed.
Lemma aunify_vars (Q : expr -> Prop) : (forall o a b, Q (Binary o a b) -> Q a /\ Q b) -> forall e es, (forall x, List.In x (e :: es) -> Q x) -> Forall (var_ok Q (S (length es))) (snd (aunify e es)).
Proof.
  intro SUB. fix IH 1. intros e es A. destruct e; cbn [aunify]; destruct (forallb _ es) eqn:SAME; try (cbn [snd]; apply Forall_nil); try (cbn [snd]; apply Forall_cons; [apply whole_ok; exact A|apply Forall_nil]).
  - destruct (all_names es) as [xs|] eqn:N; cbn [snd]; (constructor; [|constructor]); [|apply whole_ok; exact A].
    intros _. cbn [snd]. split; [rewrite map_length; cbn [length]; rewrite (all_names_len _ _ N); reflexivity|]. split.
    + intros y I. apply in_map_iff in I. destruct I as (z & Z & _). discriminate.
    + intros (z & F). inversion F as [|? ? F1 _]; subst. discriminate.
  - destruct (all_consts es) as [cs|] eqn:N; [|cbn [snd]; constructor; [apply whole_ok; exact A|constructor]].
    destruct (forallb (const_eqb c) cs) eqn:CE; cbn [snd]; [constructor|]. constructor; [|constructor].
    intros _. cbn [snd]. split; [rewrite map_length; cbn [length]; rewrite (all_consts_len _ _ N); reflexivity|]. split.
    + intros y I. apply in_map_iff in I. destruct I as (z & Z & _). discriminate.
    + intros (z & F). assert (T : forallb (const_eqb c) cs = true); [|congruence]. cbn [map] in F. inversion F as [|? ? F1 F2]; subst. cbn [int_of] in F1. apply forallb_forall. intros d D.
      rewrite Forall_map in F2. pose proof (proj1 (Forall_forall _ _) F2 d D) as FD. cbn [int_of] in FD. unfold const_eqb, value_eqb. rewrite F1, FD. apply Z.eqb_refl.
  - destruct (all_binaries es) as [bs|] eqn:B; [|cbn [snd]; constructor; [apply whole_ok; exact A|constructor]]. pose proof (all_binaries_some _ _ B) as E.
    assert (LB : length bs = length es) by (rewrite E, map_length; reflexivity).
    assert (QA : forall x, List.In x (e1 :: map (fun q => snd (fst q)) bs) -> Q x).
    { intros x [<-|I]; [exact (proj1 (SUB _ _ _ (A _ (or_introl eq_refl))))|]. apply in_map_iff in I. destruct I as (q & <- & I).
      assert (J : Q (Binary (fst (fst q)) (snd (fst q)) (snd q))) by (apply A; right; rewrite E; apply in_map_iff; exists q; split; [reflexivity|exact I]). exact (proj1 (SUB _ _ _ J)). }
    assert (QB : forall x, List.In x (e2 :: map snd bs) -> Q x).
    { intros x [<-|I]; [exact (proj2 (SUB _ _ _ (A _ (or_introl eq_refl))))|]. apply in_map_iff in I. destruct I as (q & <- & I).
      assert (J : Q (Binary (fst (fst q)) (snd (fst q)) (snd q))) by (apply A; right; rewrite E; apply in_map_iff; exists q; split; [reflexivity|exact I]). exact (proj2 (SUB _ _ _ J)). }
    pose proof (IH e1 _ QA) as I1. pose proof (IH e2 _ QB) as I2. rewrite map_length, LB in I1, I2.
    destruct (aunify e1 (map (fun q => snd (fst q)) bs)) as [a' va]. destruct (aunify e2 (map snd bs)) as [b' vb]. cbn [snd] in *. apply Forall_app. split; [exact I1|]. apply Forall_app. split; [exact I2|].
    destruct (forallb _ bs); [constructor|]. constructor; [|constructor]. intro F. discriminate.
Qed.
Lemma aunify_none e : snd (aunify e []) = [].
Proof. destruct e; reflexivity. Qed.
(** Operations give an operation, with the operator of the first. *)
Lemma aunify_binary o a b es : (forall e, List.In e es -> exists o a b, e = Binary o a b) -> exists a' b' vs, aunify (Binary o a b) es = (Binary o a' b', vs).
Proof.
  intro A. destruct (all_binaries_ok es A) as (bs & B & _). cbn [aunify]. destruct (forallb _ es); [repeat eexists|]. rewrite B.
  destruct (aunify a (map (fun q => snd (fst q)) bs)) as [a' va]. destruct (aunify b (map snd bs)) as [b' vb]. repeat eexists.
Qed.
Lemma aunify_parts (Q : expr -> Prop) o a b es : (forall o' a' b', List.In (Binary o' a' b') (Binary o a b :: es) -> Q a' /\ Q b') -> (forall o a b, Q (Binary o a b) -> Q a /\ Q b) ->
  (forall e, List.In e es -> exists o a b, e = Binary o a b) -> Forall (var_ok Q (S (length es))) (snd (aunify (Binary o a b) es)).
Proof.
  intros A SUB BIN. destruct (all_binaries_ok es BIN) as (bs & B & E). cbn [aunify]. destruct (forallb _ es); [constructor|]. rewrite B.
  assert (LB : length bs = length es) by (rewrite E, map_length; reflexivity).
  assert (QA : forall x, List.In x (a :: map (fun q => snd (fst q)) bs) -> Q x).
  { intros x [<-|I]; [exact (proj1 (A _ _ _ (or_introl eq_refl)))|]. apply in_map_iff in I. destruct I as (q & <- & I). apply (A (fst (fst q)) _ (snd q)). right. rewrite E. apply in_map_iff. exists q. split; [reflexivity|exact I]. }
  assert (QB : forall x, List.In x (b :: map snd bs) -> Q x).
  { intros x [<-|I]; [exact (proj2 (A _ _ _ (or_introl eq_refl)))|]. apply in_map_iff in I. destruct I as (q & <- & I). apply (A (fst (fst q)) (snd (fst q)) _). right. rewrite E. apply in_map_iff. exists q. split; [reflexivity|exact I]. }
  pose proof (aunify_vars Q SUB a _ QA) as I1. pose proof (aunify_vars Q SUB b _ QB) as I2. rewrite map_length, LB in I1, I2.
  destruct (aunify a (map (fun q => snd (fst q)) bs)) as [a' va]. destruct (aunify b (map snd bs)) as [b' vb]. cbn [snd] in *. apply Forall_app. split; [exact I1|]. apply Forall_app. split; [exact I2|].
  destruct (forallb _ bs); [constructor|]. constructor; [|constructor]. intro F. discriminate.
Qed.

(** ** Counting by types *)
Definition sum (l : list nat) : nat := fold_right Nat.add 0 l.
Lemma flat_map_len {A B} (f : A -> list B) l : length (flat_map f l) = sum (map (fun x => length (f x)) l).
Proof. induction l as [|x l IH]; [reflexivity|]. cbn [flat_map map sum fold_right]. rewrite app_length, IH. reflexivity. Qed.
Lemma types_in part k : List.In k (types_of part) <-> exists g s r, List.In g part /\ g = s :: r /\ kind_of s = k.
Proof.
  unfold types_of. rewrite in_flat_map. split.
  - intros ([|s r] & I & J); [destruct J|]. destruct J as [<-|[]]. exists (s :: r), s, r. repeat split. exact I.
  - intros (g & s & r & I & -> & <-). exists (s :: r). split; [exact I|left; reflexivity].
Qed.
Lemma repeats_nodup : forall ts, repeats ts = false -> NoDup ts.
Proof.
  induction ts as [|t ts IH]; intro R; [constructor|]. cbn [repeats] in R. apply orb_false_iff in R. destruct R as (R1 & R2). constructor; [|apply IH; exact R2].
  intro I. assert (existsb (kind_eqb t) ts = true) by (apply existsb_exists; exists t; split; [exact I|apply kind_eqb_refl]). congruence.
Qed.
Lemma group_sum : forall part, Forall (fun g => g <> []) part -> NoDup (types_of part) -> length (concat part) = sum (map (fun k => length (group_of k part)) (types_of part)).
Proof.
  induction part as [|[|s r] part IH]; intros N D; [reflexivity|inversion N; congruence|]. inversion N as [|? ? _ N']; subst.
  change (types_of ((s :: r) :: part)) with (kind_of s :: types_of part) in *. inversion D as [|? ? NI D']; subst. cbn [concat map sum fold_right]. rewrite app_length, (IH N' D').
  assert (G : group_of (kind_of s) ((s :: r) :: part) = s :: r).
  { unfold group_of. cbn [filter]. rewrite kind_eqb_refl. cbn [concat]. replace (concat (filter _ part)) with (@nil sub); [rewrite app_nil_r; reflexivity|]. symmetry.
    destruct (filter _ part) as [|g gs] eqn:FI; [reflexivity|]. exfalso. assert (I : List.In g (filter (fun p => match p with [] => false | s0 :: _ => kind_eqb (kind_of s0) (kind_of s) end) part)) by (rewrite FI; left; reflexivity).
    apply filter_In in I. destruct I as (I & K). destruct g as [|t q]; [discriminate|]. apply kind_eqb_eq in K. apply NI. apply types_in. exists (t :: q), t, q. repeat split; assumption. }
  rewrite G. f_equal. unfold sum. f_equal. apply map_ext_in. intros k K. f_equal. unfold group_of. cbn [filter]. destruct (kind_eqb (kind_of s) k) eqn:E; [|reflexivity]. apply kind_eqb_eq in E. subst k. destruct (NI K).
Qed.
Lemma group_nonempty part k : List.In k (types_of part) -> group_of k part <> [].
Proof.
  intros I E. apply types_in in I. destruct I as (g & s & r & I & -> & K). assert (J : List.In s (group_of k part)); [|rewrite E in J; destruct J].
  unfold group_of. apply in_concat. exists (s :: r). split; [|left; reflexivity]. apply filter_In. split; [exact I|]. apply kind_eqb_eq. exact K.
Qed.
Lemma good_nonempty g : good_group g -> g <> [].
Proof. intros G ->. exact G. Qed.
Lemma kinds_eqb_eq : forall a b, kinds_eqb a b = true -> a = b.
Proof. induction a as [|x a IH]; intros [|y b] E; try discriminate; [reflexivity|]. cbn [kinds_eqb] in E. apply andb_true_iff in E. destruct E as (E & F). apply kind_eqb_eq in E. f_equal; [exact E|apply IH; exact F]. Qed.
Lemma nice_in ex ts : nice_types ex ts || nice_types ex (rev ts) = true -> List.In KBinary ts /\ forall t, List.In t ts -> t = KConst \/ t = KBinary \/ ex = Some t.
Proof.
  assert (ONE : forall us, nice_types ex us = true -> List.In KBinary us /\ forall t, List.In t us -> t = KConst \/ t = KBinary \/ ex = Some t).
  { intros us N. unfold nice_types in N. apply orb_true_iff in N. destruct N as [N|N].
    - destruct ex as [k|]; [|discriminate]. apply orb_true_iff in N. destruct N as [N|N]; apply kinds_eqb_eq in N; subst us.
      + split; [right; right; left; reflexivity|]. intros t [<-|[<-|[<-|[]]]]; auto.
      + split; [right; left; reflexivity|]. intros t [<-|[<-|[]]]; auto.
    - apply kinds_eqb_eq in N. subst us. split; [right; left; reflexivity|]. intros t [<-|[<-|[]]]; auto. }
  intro N. apply orb_true_iff in N. destruct N as [N|N]; [exact (ONE _ N)|]. destruct (ONE _ N) as (I & A). split; [apply in_rev; exact I|]. intros t T. apply A. apply in_rev in T. exact T.
Qed.

Lemma in_flat_keep {A B} (f : A -> list B) l t x : List.In t l -> List.In x (f t) -> List.In x (flat_map f l).
Proof. intros I J. apply in_flat_map. exists t. split; assumption. Qed.
Lemma in_flat_len {A B} (f : A -> list B) l t : List.In t l -> length (f t) <= length (flat_map f l).
Proof.
  induction l as [|x l IH]; intro I; [destruct I|]. cbn [flat_map]. rewrite app_length. destruct I as [<-|I]; [lia|]. specialize (IH I). lia.
Qed.
Lemma some_differ_incl l m : (forall s, List.In s l -> List.In s m) -> some_differ l -> some_differ m.
Proof. intros I D (z & F). apply D. exists z. apply Forall_forall. intros s S. exact (proj1 (Forall_forall _ _) F s (I s S)). Qed.

(** One step of [nums_from_partition], as far as it succeeds. *)
Lemma nums_step f part nums : nums_from_partition (S f) part = Ok (Some nums) -> Forall good_group part ->
  exists o a b es lt rt avar_subs binop_nums (left_is : bool), let types := types_of part in
    NoDup types /\ group_of KBinary part = map Node (Binary o a b :: es) /\ (forall e, List.In e es -> exists o a b, e = Binary o a b) /\
    aunify (Binary o a b) es = (Binary o lt rt, [(false, avar_subs)]) /\
    (match avar_subs with Node _ :: _ => nums_from_partition f (partition_by_type avar_subs) | _ => Ok (Some avar_subs) end) = Ok (Some binop_nums) /\
    List.In KBinary types /\ length (group_of KConst part) <= 1 /\
    (forall t, List.In t types -> t = KConst \/ t = KBinary \/ (exclusive_kind t = true /\ length (group_of t part) <= 1 /\
      exists excl_nums, (o = Add \/ o = Mul -> length excl_nums = 1) /\ nums = flat_map (fun t => match t with KConst => match group_of KConst part with [] => [] | _ => [Raw (VInt 0)] end | KBinary => binop_nums | _ => excl_nums end) types)) /\
    exists excl_nums, (forall k, List.In k types -> exclusive_kind k = true -> o = Add \/ o = Mul -> length excl_nums = 1) /\
      nums = flat_map (fun t => match t with KConst => match group_of KConst part with [] => [] | _ => [Raw (VInt 0)] end | KBinary => binop_nums | _ => excl_nums end) types.
Proof.
  intros E G. cbn [nums_from_partition] in E. destruct (repeats (types_of part)) eqn:R; [discriminate|]. destruct (1 <? length (filter exclusive_kind (types_of part))) eqn:X1; [discriminate|].
  destruct ((1 <? length (group_of KConst part)) || (length (nodes_of (group_of KBinary part)) =? 0)) eqn:C; [discriminate|]. apply orb_false_iff in C. destruct C as (C1 & C2).
  set (ex := hd_error (filter exclusive_kind (types_of part))) in *. set (exg := match ex with Some k => group_of k part | None => [] end) in *.
  destruct (1 <? length exg) eqn:X2; [discriminate|]. destruct (nice_types ex (types_of part) || nice_types ex (rev (types_of part))) eqn:N; [|discriminate]. cbn [negb] in E.
  pose proof (binops_all part G) as GB. destruct (nodes_of (group_of KBinary part)) as [|e es] eqn:NB; [discriminate|].
  assert (ALLB : forall x, List.In x (e :: es) -> exists o a b, x = Binary o a b).
  { intros x I. rewrite <- NB in I. apply nodes_in in I. destruct (binary_group part _ G I) as (o & a & b & Q). exists o, a, b. congruence. }
  destruct (ALLB e (or_introl eq_refl)) as (o & a & b & ->).
  destruct (aunify_binary o a b es (fun x X => ALLB x (or_intror X))) as (lt & rt & vs & AU). rewrite AU in E.
  destruct vs as [|[[|] avar_subs] [|]]; try discriminate. cbn beta iota in E.
  match type of E with (if negb ?r then _ else _) = _ => destruct r; cbn [negb] in E; [|discriminate] end.
  destruct (match avar_subs with Node _ :: _ => nums_from_partition f (partition_by_type avar_subs) | _ => Ok (Some avar_subs) end) as [[binop_nums|]|x] eqn:BN; try discriminate. cbn [bind] in E.
  set (excl_nums := match hd_error exg with Some v => exclusive_nums o (same_text lt v) | None => [] end) in E.
  assert (EN : nums = flat_map (fun t => match t with KConst => match group_of KConst part with [] => [] | _ => [Raw (VInt 0)] end | KBinary => binop_nums | _ => excl_nums end) (types_of part)) by congruence.
  destruct (nice_in _ _ N) as (NI & NA). apply Nat.ltb_ge in C1. apply Nat.ltb_ge in X2. apply Nat.ltb_ge in X1.
  assert (EXN : forall k, List.In k (types_of part) -> exclusive_kind k = true -> ex = Some k /\ (o = Add \/ o = Mul -> length excl_nums = 1)).
  { intros k K EK. assert (EX : ex = Some k).
    { unfold ex. assert (I : List.In k (filter exclusive_kind (types_of part))) by (apply filter_In; split; assumption). destruct (filter exclusive_kind (types_of part)) as [|y [|]]; [destruct I| |cbn [length] in X1; lia]. destruct I as [->|[]]. reflexivity. }
    split; [exact EX|]. intro OO. unfold excl_nums, exg. rewrite EX. pose proof (group_nonempty part k K) as NE. destruct (group_of k part) as [|v q]; [destruct (NE eq_refl)|]. cbn [hd_error]. destruct OO as [->| ->]; reflexivity. }
  exists o, a, b, es, lt, rt, avar_subs, binop_nums, true. cbn zeta. split; [apply repeats_nodup; exact R|]. split; [exact GB|]. split; [intros x X; apply ALLB; right; exact X|]. split; [exact AU|]. split; [exact BN|]. split; [exact NI|]. split; [exact C1|].
  assert (EXK : forall t, ex = Some t -> List.In t (types_of part) /\ exclusive_kind t = true).
  { intros t T. unfold ex in T. destruct (filter exclusive_kind (types_of part)) as [|y ys] eqn:FI; [discriminate|]. assert (y = t) by (cbn in T; congruence). subst y. apply filter_In. rewrite FI. left. reflexivity. }
  split.
  - intros t T. destruct (NA t T) as [->|[->|Q]]; auto. right. right. destruct (EXK t Q) as (_ & EK). split; [exact EK|]. split; [unfold exg in X2; rewrite Q in X2; exact X2|].
    exists excl_nums. split; [apply (EXN t T EK)|exact EN].
  - exists excl_nums. split; [|exact EN]. intros k K EK. apply (EXN k K EK).
Qed.

(** ** As many numbers as there are expressions *)
Lemma sp_sub o a b : sums_products (Binary o a b) = true -> (o = Add \/ o = Mul) /\ sums_products a = true /\ sums_products b = true.
Proof. cbn [sums_products]. destruct o; cbn [andb]; intro E; try discriminate; apply andb_true_iff in E; destruct E; auto. Qed.
Theorem nums_count : forall f l nums, (forall e, List.In (Node e) l -> sums_products e = true) -> nums_from_partition f (partition_by_type l) = Ok (Some nums) -> length nums = length l /\ some_differ nums.
Proof.
  induction f as [|f IH]; intros l nums SP E; [discriminate|]. pose proof (groups_ok l) as G.
  destruct (nums_step f (partition_by_type l) nums E G) as (o & a & b & es & lt & rt & avs & bn & _ & ND & GB & BIN & AU & BN & KB & KC & KT & excl & KE & EN).
  assert (INB : forall x, List.In x (Binary o a b :: es) -> List.In (Node x) l).
  { intros x X. rewrite <- (partition_all l). apply (group_in KBinary). rewrite GB. apply in_map. exact X. }
  destruct (sp_sub o a b (SP _ (INB _ (or_introl eq_refl)))) as (OO & _ & _).
  assert (VOK : Forall (var_ok (fun e => sums_products e = true) (S (length es))) (snd (aunify (Binary o a b) es))).
  { apply aunify_parts; [|intros o' a' b' S; apply (sp_sub o' a' b' S)|exact BIN]. intros o' a' b' I. apply (sp_sub o' a' b' (SP _ (INB _ I))). }
  rewrite AU in VOK. cbn [snd] in VOK. inversion VOK as [|? ? V _]; subst x l0. destruct (V eq_refl) as (LA & SA & DA). cbn [snd] in LA, SA, DA.
  assert (BOK : length bn = S (length es) /\ some_differ bn).
  { destruct avs as [|[v|e] avs']; [assert (bn = []) by congruence; subst bn; split; assumption|assert (bn = Raw v :: avs') by congruence; subst bn; split; assumption|].
    destruct (IH _ _ SA BN) as (L & D). split; [rewrite L; exact LA|exact D]. }
  destruct BOK as (LB & DB). split.
  - rewrite EN, flat_map_len. rewrite <- (partition_all l) at 2. rewrite group_sum; [|eapply Forall_impl; [|exact G]; intros g; apply good_nonempty|exact ND].
    unfold sum. f_equal. apply map_ext_in. intros t T. pose proof (group_nonempty _ t T) as NE.
    destruct (KT t T) as [->|[->|(EK & LG & _)]].
    + destruct (group_of KConst (partition_by_type l)) as [|c [|]]; [destruct (NE eq_refl)|reflexivity|cbn [length] in KC; lia].
    + rewrite GB, map_length, LB. reflexivity.
    + assert (length (group_of t (partition_by_type l)) = 1) as -> by (destruct (group_of t (partition_by_type l)); [destruct (NE eq_refl)|cbn [length] in *; lia]).
      destruct t; try discriminate; apply (KE _ T EK OO).
  - rewrite EN. apply (some_differ_incl bn); [|exact DB]. intros s S. apply (in_flat_keep _ _ KBinary s KB). exact S.
Qed.

(** ** No exceptions *)
Lemma nums_long : forall f l nums, nums_from_partition f (partition_by_type l) = Ok (Some nums) -> 2 <= length nums /\ some_differ nums.
Proof.
  induction f as [|f IH]; intros l nums E; [discriminate|]. pose proof (groups_ok l) as G.
  destruct (nums_step f (partition_by_type l) nums E G) as (o & a & b & es & lt & rt & avs & bn & _ & ND & GB & BIN & AU & BN & KB & KC & KT & excl & KE & EN).
  assert (VOK : Forall (var_ok (fun e => True) (S (length es))) (snd (aunify (Binary o a b) es))) by (apply aunify_parts; auto).
  rewrite AU in VOK. cbn [snd] in VOK. inversion VOK as [|? ? V _]; subst. destruct (V eq_refl) as (LA & _ & DA). cbn [snd] in LA, DA.
  assert (NE : es <> []) by (intros ->; pose proof (aunify_none (Binary o a b)) as Q; rewrite AU in Q; discriminate).
  assert (BOK : 2 <= length bn /\ some_differ bn).
  { destruct avs as [|[v|e] avs'].
    - cbn [length] in LA. discriminate.
    - assert (bn = Raw v :: avs') by congruence. subst bn. split; [|exact DA]. rewrite LA. destruct es; [destruct (NE eq_refl)|cbn [length]; lia].
    - apply (IH _ _ BN). }
  destruct BOK as (LB & DB). split.
  - pose proof (in_flat_len (fun t => match t with KConst => match group_of KConst (partition_by_type l) with [] => [] | _ => [Raw (VInt 0)] end | KBinary => bn | _ => excl end) _ KBinary KB) as Q. cbn beta iota in Q. lia.
  - apply (some_differ_incl bn); [|exact DB]. intros s S. apply (in_flat_keep _ _ KBinary s KB). exact S.
Qed.

Lemma depth_pos e : 1 <= depth e.
Proof. destruct e; cbn [depth]; lia. Qed.
Theorem nums_total : forall f l, (forall e, List.In (Node e) l -> depth e <= f) -> exists r, nums_from_partition (S f) (partition_by_type l) = Ok r.
Proof.
  induction f as [|f IH]; intros l D; pose proof (groups_ok l) as G; cbn [nums_from_partition]; set (part := partition_by_type l) in *;
  (destruct (repeats (types_of part)); [eexists; reflexivity|]); (destruct (1 <? length (filter exclusive_kind (types_of part))); [eexists; reflexivity|]);
  destruct ((1 <? length (group_of KConst part)) || (length (nodes_of (group_of KBinary part)) =? 0)) eqn:C; try (eexists; reflexivity); apply orb_false_iff in C; destruct C as (_ & C2);
  destruct (1 <? length (match hd_error (filter exclusive_kind (types_of part)) with Some k => group_of k part | None => [] end)); try (eexists; reflexivity);
  destruct (negb (nice_types _ _ || nice_types _ _)); try (eexists; reflexivity);
  destruct (nodes_of (group_of KBinary part)) as [|e es] eqn:NB; try discriminate;
  assert (ALLB : forall x, List.In x (e :: es) -> (exists o a b, x = Binary o a b) /\ List.In (Node x) l)
    by (intros x I; rewrite <- NB in I; apply nodes_in in I; split; [destruct (binary_group part _ G I) as (o & a & b & Q); exists o, a, b; congruence|rewrite <- (partition_all l); apply (group_in KBinary); exact I]).
  - destruct (ALLB e (or_introl eq_refl)) as (_ & I). pose proof (D e I) as Q. pose proof (depth_pos e). lia.
  - destruct (ALLB e (or_introl eq_refl)) as ((o & a & b & ->) & _).
    assert (BIN : forall x, List.In x es -> exists o a b, x = Binary o a b) by (intros x X; apply (ALLB x (or_intror X))).
    assert (VOK : Forall (var_ok (fun e => depth e <= f) (S (length es))) (snd (aunify (Binary o a b) es))).
    { apply aunify_parts; [| |exact BIN].
      - intros o' a' b' I. destruct (ALLB _ I) as (_ & J). pose proof (D _ J) as Q. cbn [depth] in Q. lia.
      - intros o' a' b' Q. cbn [depth] in Q. lia. }
    destruct (aunify_binary o a b es BIN) as (lt & rt & vs & AU). rewrite AU in *. cbn [snd] in VOK. destruct vs as [|[[|] avs] [|]]; try (eexists; reflexivity).
    inversion VOK as [|? ? V _]; subst. destruct (V eq_refl) as (_ & SA & _). cbn [snd] in SA.
    match goal with |- exists r, (if negb ?c then _ else _) = _ => destruct c; cbn [negb]; [|eexists; reflexivity] end.
    destruct avs as [|[v|e'] avs'].
    + cbn [bind]. eexists. reflexivity.
    + cbn [bind]. eexists. reflexivity.
    + change (exists r, (do binop_nums <- nums_from_partition (S f) (partition_by_type (Node e' :: avs')); match binop_nums with None => Ok None | Some binop_nums => Ok (Some (flat_map (fun t => match t with KConst => match group_of KConst part with [] => [] | _ => [Raw (VInt 0)] end | KBinary => binop_nums | _ => match hd_error (match hd_error (filter exclusive_kind (types_of part)) with Some k => group_of k part | None => [] end) with Some v => exclusive_nums o (same_text lt v) | None => [] end end) (types_of part))) end) = Ok r).
      destruct (IH _ SA) as (r & ->). cbn [bind]. destruct r; eexists; reflexivity.
Qed.
