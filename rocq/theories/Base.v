(** Shared vocabulary of the models: Python exceptions as values, strings, dictionaries.
    Python's [str] is modelled as Coq's [string] (a list of bytes); case mapping is ASCII only. *)
From Coq Require Import String Ascii List Bool Arith Lia.
Import ListNotations.
Local Open Scope string_scope.

(** Python exceptions that the modelled code can raise. *)
Inductive exn :=
| TypeError | AttributeError | AssertionError | KeyError | IndexError | ValueError
| RecursionError | ZeroDivisionError | OverflowError | OtherError (what : string).

(** Result of running Python code: a value or a raised exception. *)
Inductive res (A : Type) := Ok (a : A) | Raise (e : exn).
Arguments Ok {A} a.
Arguments Raise {A} e.

Definition bind {A B} (r : res A) (f : A -> res B) : res B :=
  match r with Ok a => f a | Raise e => Raise e end.
Notation "'do' x <- r ; k" := (bind r (fun x => k)) (at level 200, x pattern, r at level 100, k at level 200).

Fixpoint mapM {A B} (f : A -> res B) (l : list A) : res (list B) :=
  match l with
  | [] => Ok []
  | a :: r => do b <- f a; do bs <- mapM f r; Ok (b :: bs)
  end.

(** [str.lower], ASCII letters only. *)
Definition lower_ascii (c : ascii) : ascii :=
  let n := nat_of_ascii c in
  if ((65 <=? n) && (n <=? 90))%nat then ascii_of_nat (n + 32) else c.
Fixpoint lower (s : string) : string :=
  match s with EmptyString => EmptyString | String c r => String (lower_ascii c) (lower r) end.

(** [s.split(c)] for a one-character separator. *)
Fixpoint split_on (c : ascii) (s : string) : list string :=
  match s with
  | EmptyString => [EmptyString]
  | String x r =>
      if Ascii.eqb x c then EmptyString :: split_on c r
      else match split_on c r with
           | [] => [String x EmptyString]
           | h :: t => String x h :: t
           end
  end.

(** [c.join(l)] for a one-character separator. *)
Fixpoint join (c : ascii) (l : list string) : string :=
  match l with
  | [] => EmptyString
  | [s] => s
  | s :: r => s ++ String c (join c r)
  end.

(** [s.split(c, 1)] when [c in s], [None] otherwise. *)
Fixpoint split_first (c : ascii) (s : string) : option (string * string) :=
  match s with
  | EmptyString => None
  | String x r =>
      if Ascii.eqb x c then Some (EmptyString, r)
      else match split_first c r with
           | Some (a, b) => Some (String x a, b)
           | None => None
           end
  end.

(** [c in s]. *)
Fixpoint has_char (c : ascii) (s : string) : bool :=
  match s with EmptyString => false | String x r => Ascii.eqb x c || has_char c r end.

(** [s[n:]]. *)
Fixpoint drop (n : nat) (s : string) : string :=
  match n, s with
  | O, _ => s
  | S m, String _ r => drop m r
  | S _, EmptyString => EmptyString
  end.

Definition str_in (s : string) (l : list string) : bool := existsb (String.eqb s) l.

(** Python dictionaries: association lists in insertion order. *)
Definition dict (V : Type) := list (string * V).
Fixpoint dget {V} (k : string) (d : dict V) : option V :=
  match d with
  | [] => None
  | (k', v) :: r => if String.eqb k k' then Some v else dget k r
  end.
Fixpoint dset {V} (k : string) (v : V) (d : dict V) : dict V :=
  match d with
  | [] => [(k, v)]
  | (k', v') :: r => if String.eqb k k' then (k', v) :: r else (k', v') :: dset k v r
  end.
(** [{**a, **b}]. *)
Definition dmerge {V} (a b : dict V) : dict V :=
  fold_left (fun d kv => dset (fst kv) (snd kv) d) b a.

(** The non-[None] elements of a list. *)
Fixpoint somes {A} (l : list (option A)) : list A :=
  match l with [] => [] | Some a :: r => a :: somes r | None :: r => somes r end.

(* ------------------------------------------------------------------------------------------ *)
(** Lemmas. *)

Lemma somes_app : forall A (a b : list (option A)), somes (a ++ b)%list = (somes a ++ somes b)%list.
Proof. induction a as [|[x|] a IH]; intros; simpl; rewrite ?IH; auto. Qed.

Lemma dget_dset : forall V k k' (v : V) d,
  dget k (dset k' v d) = if String.eqb k k' then Some v else dget k d.
Proof.
  induction d as [|[k2 v2] d IH]; simpl.
  - destruct (String.eqb k k') eqn:E; auto.
  - destruct (String.eqb k' k2) eqn:E2; simpl.
    + apply String.eqb_eq in E2; subst k2. destruct (String.eqb k k'); auto.
    + rewrite IH. destruct (String.eqb k k2) eqn:E3; auto.
      apply String.eqb_eq in E3; subst k2. rewrite String.eqb_sym in E2. now rewrite E2.
Qed.

(** Last binding of a key. *)
Fixpoint dlast {V} (k : string) (d : dict V) : option V :=
  match d with
  | [] => None
  | (k', v) :: r => match dlast k r with
                    | Some w => Some w
                    | None => if String.eqb k k' then Some v else None
                    end
  end.

Lemma dget_dmerge_last : forall V (b a : dict V) k,
  dget k (dmerge a b) = match dlast k b with Some v => Some v | None => dget k a end.
Proof.
  unfold dmerge. induction b as [|[k' v] b IH]; intros; simpl; auto.
  rewrite IH, dget_dset. destruct (dlast k b); auto. destruct (String.eqb k k'); auto.
Qed.

Lemma dlast_nodup : forall V (d : dict V) k, NoDup (map fst d) -> dlast k d = dget k d.
Proof.
  induction d as [|[k' v] d IH]; intros k H; simpl; auto.
  inversion H; subst. rewrite IH by auto.
  destruct (String.eqb k k') eqn:E.
  - apply String.eqb_eq in E; subst k'.
    destruct (dget k d) eqn:G; auto. exfalso. apply H2.
    clear -G. induction d as [|[a b] d IH]; simpl in *; try discriminate.
    destruct (String.eqb k a) eqn:E; [apply String.eqb_eq in E; auto | right; apply IH; auto].
  - destruct (dget k d); auto.
Qed.

Lemma dget_dmerge : forall V (a b : dict V) k, NoDup (map fst b) ->
  dget k (dmerge a b) = match dget k b with Some v => Some v | None => dget k a end.
Proof. intros. now rewrite dget_dmerge_last, dlast_nodup. Qed.

Lemma dset_keys : forall V k (v : V) d x, In x (map fst (dset k v d)) <-> x = k \/ In x (map fst d).
Proof.
  induction d as [|[k' v'] d IH]; intros; simpl.
  - intuition.
  - destruct (String.eqb k k') eqn:E; simpl.
    + apply String.eqb_eq in E; subst. intuition.
    + rewrite IH. intuition.
Qed.

Lemma dset_nodup : forall V k (v : V) d, NoDup (map fst d) -> NoDup (map fst (dset k v d)).
Proof.
  induction d as [|[k' v'] d IH]; intros H; simpl.
  - constructor; auto.
  - inversion H; subst. destruct (String.eqb k k') eqn:E; simpl.
    + constructor; auto.
    + constructor; [|auto]. rewrite dset_keys. intros [->|]; auto.
      rewrite String.eqb_refl in E. discriminate.
Qed.

Lemma dmerge_nodup : forall V (b a : dict V), NoDup (map fst a) -> NoDup (map fst (dmerge a b)).
Proof.
  unfold dmerge. induction b as [|[k v] b IH]; intros; simpl; auto. apply IH, dset_nodup, H.
Qed.

Lemma dget_in : forall V k (v : V) d, dget k d = Some v -> In (k, v) d.
Proof.
  induction d as [|[k' v'] d IH]; simpl; intros; try discriminate.
  destruct (String.eqb k k') eqn:E; [apply String.eqb_eq in E; inversion H; subst; auto | auto].
Qed.

Lemma in_dget : forall V k (v : V) d, NoDup (map fst d) -> In (k, v) d -> dget k d = Some v.
Proof.
  induction d as [|[k' v'] d IH]; simpl; intros; try tauto.
  inversion H; subst. destruct H0 as [E|E].
  - inversion E; subst. now rewrite String.eqb_refl.
  - destruct (String.eqb k k') eqn:E2; [|auto].
    apply String.eqb_eq in E2; subst. exfalso. apply H3. now apply in_map with (f := fst) in E.
Qed.

Lemma dget_none : forall V k (d : dict V), dget k d = None <-> ~ In k (map fst d).
Proof.
  induction d as [|[k' v'] d IH]; simpl; [tauto|].
  destruct (String.eqb k k') eqn:E.
  - apply String.eqb_eq in E; subst. split; [discriminate | intros H; exfalso; apply H; auto].
  - rewrite IH. apply String.eqb_neq in E. intuition.
Qed.

Lemma split_on_nonempty : forall c s, split_on c s <> [].
Proof.
  destruct s; simpl; [discriminate|]. destruct (Ascii.eqb a c); [discriminate|].
  destruct (split_on c s); discriminate.
Qed.

Lemma join_split_on : forall c s, join c (split_on c s) = s.
Proof.
  induction s as [|x s IH]; simpl; auto.
  destruct (Ascii.eqb x c) eqn:E.
  - apply Ascii.eqb_eq in E; subst.
    destruct (split_on c s) eqn:D; [exfalso; eapply split_on_nonempty; eauto|].
    simpl in *. now rewrite IH.
  - destruct (split_on c s) as [|h t] eqn:D; [exfalso; eapply split_on_nonempty; eauto|].
    simpl in *. destruct t; simpl in *; now rewrite <- IH.
Qed.

Lemma split_on_no_char : forall c s, has_char c s = false -> split_on c s = [s].
Proof.
  induction s as [|x s IH]; simpl; auto; intros.
  apply orb_false_iff in H as [H1 H2]. rewrite H1, IH by auto. reflexivity.
Qed.

Lemma split_on_app : forall c s r, has_char c s = false ->
  split_on c (s ++ String c r) = s :: split_on c r.
Proof.
  induction s as [|x s IH]; simpl; intros.
  - now rewrite Ascii.eqb_refl.
  - apply orb_false_iff in H as [H1 H2]. rewrite H1, IH by auto. reflexivity.
Qed.

Lemma split_on_join : forall c l, l <> [] -> Forall (fun s => has_char c s = false) l ->
  split_on c (join c l) = l.
Proof.
  induction l as [|s l IH]; intros; [congruence|].
  inversion H0; subst. destruct l as [|s2 l].
  - simpl. now apply split_on_no_char.
  - change (join c (s :: s2 :: l)) with (s ++ String c (join c (s2 :: l))).
    rewrite split_on_app by auto. rewrite IH; auto. discriminate.
Qed.

Lemma split_first_app : forall c a b, has_char c a = false ->
  split_first c (a ++ String c b) = Some (a, b).
Proof.
  induction a as [|x a IH]; simpl; intros.
  - now rewrite Ascii.eqb_refl.
  - apply orb_false_iff in H as [H1 H2]. rewrite H1, IH by auto. reflexivity.
Qed.

Lemma split_first_none : forall c s, has_char c s = false -> split_first c s = None.
Proof.
  induction s as [|x s IH]; simpl; intros; auto.
  apply orb_false_iff in H as [H1 H2]. rewrite H1, IH by auto. reflexivity.
Qed.

Lemma split_first_some : forall c s a b, split_first c s = Some (a, b) ->
  s = a ++ String c b /\ has_char c a = false.
Proof.
  induction s as [|x s IH]; simpl; intros; try discriminate.
  destruct (Ascii.eqb x c) eqn:E.
  - inversion H; subst. apply Ascii.eqb_eq in E; subst. auto.
  - destruct (split_first c s) as [[a' b']|] eqn:D; try discriminate.
    inversion H; subst. destruct (IH _ _ eq_refl) as [-> H2]. split; auto. simpl. now rewrite E.
Qed.

Lemma lower_idem : forall s, lower (lower s) = lower s.
Proof.
  induction s as [|c s IH]; simpl; auto. rewrite IH. f_equal.
  unfold lower_ascii.
  destruct ((65 <=? nat_of_ascii c) && (nat_of_ascii c <=? 90))%nat eqn:E; [|now rewrite E].
  apply andb_true_iff in E as [E1 E2]. apply Nat.leb_le in E1, E2.
  rewrite nat_ascii_embedding by lia.
  destruct (nat_of_ascii c + 32 <=? 90)%nat eqn:E3; [apply Nat.leb_le in E3; lia|].
  rewrite andb_false_r. reflexivity.
Qed.

Lemma str_in_iff : forall s l, str_in s l = true <-> In s l.
Proof.
  unfold str_in. intros. rewrite existsb_exists. split.
  - intros [x [H1 H2]]. apply String.eqb_eq in H2; now subst.
  - intros. exists s. split; auto. apply String.eqb_refl.
Qed.
