(** Proofs about direct modifications of the structure. *)
From Coq Require Import String List Bool Arith NArith ZArith Lia.
From Verif Require Import Base PyModel PySpec IfModel IfSpec FoldModel TypeModel LocalSpec LoopModel LoopSpec EachModel EachSpec EachProofs EachEventProofs.
Import ListNotations.
Local Open Scope string_scope.
Local Open Scope list_scope.

Lemma last_leaves l : block_leaves l = ends_in_leave l.
Proof.
  induction l as [|s l IH]; [reflexivity|]. destruct l as [|t l]; [destruct s; reflexivity|].
  transitivity (block_leaves (t :: l)); [destruct s; reflexivity|]. rewrite IH. reflexivity.
Qed.
Lemma mutators_known m : existsb (String.eqb m) list_mutators = true -> non_pure m = true.
Proof.
  intro H. apply existsb_exists in H. destruct H as (n & N & E). apply String.eqb_eq in E. subst n. cbn [list_mutators List.In] in N.
  repeat (destruct N as [<-|N]; [vm_compute; reflexivity|]). contradiction.
Qed.
Section Mod.
  Variable a : string.
  (** A call of a method that modifies [a], in a block that ends as [lv] tells. *)
  Definition modifies (lv : bool) (ev : event) : bool :=
    String.eqb a (name ev) && match type ev, par ev, grand ev with Modify, ExprOf, KCall => true | _, _, _ => false end && Bool.eqb (leaves ev) lv.
  Lemma call_event lv : forall e p g, calls_mutator a e = true -> existsb (modifies lv) (events_of lv e p g) = true.
  Proof.
    apply (all_exprs (fun e => forall p g, calls_mutator a e = true -> existsb (modifies lv) (events_of lv e p g) = true)); try (intros; discriminate).
    - intros o b B p g C. exact (B _ _ C).
    - intros o b c B C p g X. cbn [calls_mutator events_of] in *. rewrite any_app. apply orb_true_iff in X. destruct X as [X|X]; [rewrite (B _ _ X); reflexivity|rewrite (C _ _ X); apply orb_true_r].
    - intros o vs H p g X. cbn [calls_mutator events_of] in *. induction H as [|v vs V Vs IH]; [discriminate|]. cbn [existsb flat_map] in *. rewrite any_app. apply orb_true_iff in X. destruct X as [X|X]; [rewrite (V _ _ X); reflexivity|rewrite (IH X); apply orb_true_r].
    - intros b ops B H p g X. cbn [calls_mutator events_of] in *. rewrite any_app. apply orb_true_iff in X. destruct X as [X|X]; [rewrite (B _ _ X); reflexivity|]. apply orb_true_iff. right.
      clear B. induction H as [|v vs V Vs IH]; [discriminate|]. cbn [existsb flat_map] in *. rewrite any_app. apply orb_true_iff in X. destruct X as [X|X]; [rewrite (V _ _ X); reflexivity|rewrite (IH X); apply orb_true_r].
    - intros f args F H p g X. cbn [calls_mutator] in X. apply orb_true_iff in X. destruct X as [X|X]; [apply orb_true_iff in X; destruct X as [X|X]|].
      + destruct f as [| | | | | | |b m| | |]; try discriminate. destruct b as [b| | | | | | | | | |]; try discriminate. apply andb_true_iff in X. destruct X as [X M]. apply mutators_known in M.
        cbn [events_of kind_of strip_to_name]. rewrite M. cbn [app existsb]. unfold modifies. cbn [name type par grand leaves]. rewrite X, eqb_reflx. reflexivity.
      + cbn [events_of]. rewrite any_app, (F _ _ X). reflexivity.
      + cbn [events_of]. rewrite any_app. apply orb_true_iff. right. clear F. induction H as [|v vs V Vs IH]; [discriminate|]. cbn [existsb flat_map] in *. rewrite any_app. apply orb_true_iff in X. destruct X as [X|X]; [rewrite (V _ _ X); reflexivity|rewrite (IH X); apply orb_true_r].
    - intros b m B p g X. cbn [events_of]. rewrite any_app, (B _ _ X). apply orb_true_r.
    - intros b s B C p g X. cbn [calls_mutator events_of] in *. rewrite any_app. apply orb_true_iff in X. destruct X as [X|X]; [rewrite (B _ _ X); reflexivity|rewrite (C _ _ X); apply orb_true_r].
    - intros c b d C B D p g X. cbn [calls_mutator events_of] in *. rewrite !any_app. apply orb_true_iff in X. destruct X as [X|X]; [apply orb_true_iff in X; destruct X as [X|X]|].
      + rewrite (C _ _ X). reflexivity.
      + rewrite (B _ _ X), orb_true_r. reflexivity.
      + rewrite (D _ _ X), !orb_true_r. reflexivity.
  Qed.
  Lemma target_event lv t : calls_mutator a t = true -> parsed_target t = true -> existsb (modifies lv) (target_events lv t) = true.
  Proof.
    intros C Pt. destruct t as [| | | | | | |v m|v s| |]; try discriminate; cbn [target_events calls_mutator] in *; rewrite !any_app.
    - rewrite (call_event lv v _ _ C). reflexivity.
    - apply orb_true_iff in C. destruct C as [C|C]; [rewrite (call_event lv v _ _ C); reflexivity|]. rewrite (call_event lv s _ _ C), orb_true_r. reflexivity.
  Qed.
  Notation Q := (fun s => parsed s = true -> forall lv, mutates a lv s = true -> existsb (modifies false) (stmt_events lv s) = true).
  Lemma block_event l : Forall Q l -> forallb parsed l = true -> existsb (mutates a (ends_in_leave l)) l = true -> existsb (modifies false) (flat_map (stmt_events (block_leaves l)) l) = true.
  Proof.
    rewrite <- last_leaves. generalize (block_leaves l). intros lv H. induction H as [|s l K _ IH]; [discriminate|]. cbn [forallb existsb flat_map]. rewrite any_app. intros Ps M. apply andb_true_iff in Ps. apply orb_true_iff in M.
    destruct M as [M|M]; [rewrite K by tauto; reflexivity|rewrite IH by tauto; apply orb_true_r].
  Qed.
  Lemma top_event lv e : negb lv && calls_mutator a e = true -> existsb (modifies false) (top lv e) = true.
  Proof. intro C. apply andb_true_iff in C. destruct C as [L C]. destruct lv; [discriminate|]. exact (call_event false e _ _ C). Qed.
  Lemma stmt_event : forall s, Q s.
  Proof.
    refine (all_stmts Q _ _ _ _ _ _ _ _ _ _ _); try (intros; discriminate); cbn [parsed mutates stmt_events].
    - intros y e _ lv M. rewrite any_app, (top_event _ _ M). reflexivity.
    - intros y o e _ lv M. rewrite !any_app, (top_event _ _ M), orb_true_r. reflexivity.
    - intros t e Ps lv M. apply andb_true_iff in Ps. destruct Ps as [Ps _]. apply andb_true_iff in Ps. destruct Ps as [Ps _]. apply andb_true_iff in M. destruct M as [L M]. destruct lv; [discriminate|]. rewrite any_app.
      apply orb_true_iff in M. destruct M as [M|M]; [rewrite (target_event _ _ M Ps); apply orb_true_r|rewrite (top_event false e M); reflexivity].
    - intros e _ lv M. exact (top_event _ _ M).
    - intros e _ lv M. exact (top_event _ _ M).
    - intros c b e B E Ps lv M. apply andb_true_iff in Ps. destruct Ps as [Ps P2]. apply andb_true_iff in Ps. destruct Ps as [_ P1]. rewrite !any_app. apply orb_true_iff in M. destruct M as [M|M]; [apply orb_true_iff in M; destruct M as [M|M]|].
      + rewrite (top_event _ _ M). reflexivity.
      + rewrite (block_event _ B P1 M), orb_true_r. reflexivity.
      + rewrite (block_event _ E P2 M), !orb_true_r. reflexivity.
    - intros c b e B E Ps lv M. apply andb_true_iff in Ps. destruct Ps as [Ps P2]. apply andb_true_iff in Ps. destruct Ps as [_ P1]. rewrite !any_app. apply orb_true_iff in M. destruct M as [M|M]; [apply orb_true_iff in M; destruct M as [M|M]|].
      + rewrite (top_event _ _ M). reflexivity.
      + rewrite (block_event _ B P1 M), orb_true_r. reflexivity.
      + rewrite (block_event _ E P2 M), !orb_true_r. reflexivity.
    - intros t c b e B E Ps lv M. apply andb_true_iff in Ps. destruct Ps as [Ps P3]. apply andb_true_iff in Ps. destruct Ps as [Ps P2]. apply andb_true_iff in Ps. destruct Ps as [P1 _]. destruct t as [y| | | | | | | | | |]; try discriminate.
      rewrite !any_app. cbn [calls_mutator orb] in M. apply orb_true_iff in M. destruct M as [M|M]; [apply orb_true_iff in M; destruct M as [M|M]|].
      + rewrite (top_event _ _ M), orb_true_r. reflexivity.
      + rewrite (block_event _ B P2 M), !orb_true_r. reflexivity.
      + rewrite (block_event _ E P3 M), !orb_true_r. reflexivity.
  Qed.
End Mod.
Lemma reported_unmodified i iter body orelse m a : improve_for_loop (SFor (Name i) iter body orelse) = Some m -> range_len iter = Some (Name a) -> forallb parsed body = true ->
  existsb (mutates a (ends_in_leave body)) body = false.
Proof.
  cbn [improve_for_loop]. intros H Rl Ps. rewrite Rl in H. destruct (existsb (mutates a (ends_in_leave body)) body) eqn:M; [|reflexivity]. exfalso.
  apply (block_event a body) in M; [|apply Forall_forall; intros s _; apply stmt_event|exact Ps]. fold (body_events body) in M.
  assert (D : directly_modified (events_for a (body_events body)) = true).
  { apply existsb_exists in M. destruct M as (ev & I & M). unfold directly_modified. apply existsb_exists. exists ev. unfold modifies in M. apply andb_true_iff in M. destruct M as [M L]. apply andb_true_iff in M. destruct M as [N M].
    split; [apply filter_In; split; [exact I|exact N]|]. apply eqb_prop in L. rewrite L, andb_true_r. destruct (type ev); try discriminate. exact M. }
  rewrite D in H. rewrite !orb_true_r in H. cbn [orb] in H. discriminate.
Qed.
Lemma reported_mods i iter body orelse m : improve_for_loop (SFor (Name i) iter body orelse) = Some m -> fine iter = true -> forallb parsed body = true ->
  exists a, over_indices iter a /\ existsb (mutates a (ends_in_leave body)) body = false.
Proof.
  intros H Fi Ps. destruct (range_len iter) as [s|] eqn:Rl; [|cbn [improve_for_loop] in H; rewrite Rl in H; discriminate]. destruct s as [a| | | | | | | | | |]; try (cbn [improve_for_loop] in H; rewrite Rl in H; discriminate).
  exists a. split; [exact (range_len_shape _ _ Fi Rl)|exact (reported_unmodified _ _ _ _ _ _ H Rl Ps)].
Qed.
