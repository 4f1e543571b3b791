(** Proofs about switched messages. *)
From Coq Require Import String List Bool Arith Lia.
From Verif Require Import Base SwitchModel SwitchSpec.
Import ListNotations.
Local Open Scope string_scope.
Local Open Scope list_scope.
Local Open Scope nat_scope.

Lemma existsb_string : forall x l, existsb (String.eqb x) l = true <-> In x l.
Proof.
  intros x l. rewrite existsb_exists. split.
  - intros (y & I & E). apply String.eqb_eq in E. subst. exact I.
  - intro I. exists x. split; [exact I|apply String.eqb_refl].
Qed.
Lemma enabled_registered : forall on x, In x registered -> is_message_enabled on x = on x.
Proof. intros on x I. unfold is_message_enabled. apply existsb_string in I. rewrite I. reflexivity. Qed.

Lemma report_wanted : forall on ms, (forall x, In x ms -> In (fst x) registered) -> report on ms = wanted on ms.
Proof.
  intros on ms. unfold report, wanted. induction ms as [|x ms IH]; intro H; [reflexivity|]. cbn [filter].
  rewrite (enabled_registered on (fst x) (H x (or_introl eq_refl))), IH; [reflexivity|]. intros y I. apply H. right. exact I.
Qed.
Lemma wanted_none : forall on ms, (forall x, In x ms -> on (fst x) = false) -> wanted on ms = [].
Proof.
  intros on ms. unfold wanted. induction ms as [|x ms IH]; intro H; [reflexivity|]. cbn [filter].
  rewrite (H x (or_introl eq_refl)). apply IH. intros y I. apply H. right. exact I.
Qed.
Lemma wanted_app : forall on l m, wanted on (l ++ m) = wanted on l ++ wanted on m.
Proof.
  intros on l m. unfold wanted. induction l as [|x l IH]; [reflexivity|]. cbn [filter app]. destruct (on (fst x)); cbn [app]; rewrite IH; reflexivity.
Qed.

(** A check whose messages are registered and in its condition. *)
Definition sound_check (c : check) : bool :=
  forallb (fun e => existsb (String.eqb e) registered && match guard c with None => true | Some g => existsb (String.eqb e) g end) (emits c).
Definition unknown (r : list string) : bool := existsb (fun x => negb (existsb (String.eqb x) registered)) r.
Definition sound_method (c : checker) (m : method) : bool :=
  forallb (fun k => sound_check k && forallb (fun e => existsb (String.eqb e) (defines c) &&
    match required m with None => true | Some r => existsb (String.eqb e) r || unknown r || String.eqb e "unreachable-else" end) (emits k)) (checks m).
Lemma all_sound : forallb (fun c => forallb (sound_method c) (methods c)) checkers = true.
Proof. vm_compute. reflexivity. Qed.

Lemma run_check_wanted : forall on c f, sound_check c = true -> (forall x, In x f -> In (fst x) (emits c)) -> run_check on c f = wanted on f.
Proof.
  intros on c f Sc F. unfold sound_check in Sc. rewrite forallb_forall in Sc.
  assert (R : forall x, In x f -> In (fst x) registered).
  { intros x I. specialize (Sc (fst x) (F x I)). apply andb_prop in Sc as [A _]. apply existsb_string in A. exact A. }
  unfold run_check. destruct (guard c) as [g|] eqn:G; [|apply report_wanted; exact R].
  destruct (existsb (is_message_enabled on) g) eqn:E; [apply report_wanted; exact R|].
  symmetry. apply wanted_none. intros x I. destruct (on (fst x)) eqn:O; [|reflexivity].
  assert (B := Sc (fst x) (F x I)). apply andb_prop in B as [_ B]. apply existsb_string in B.
  assert (X : existsb (is_message_enabled on) g = true).
  { apply existsb_exists. exists (fst x). split; [exact B|]. rewrite (enabled_registered on (fst x) (R x I)). exact O. }
  congruence.
Qed.
Lemma run_checks_wanted : forall on cs found, forallb sound_check cs = true ->
  Forall2 (fun c f => forall x, In x f -> In (fst x) (emits c)) cs found -> run_checks on cs found = wanted on (concat found).
Proof.
  intros on cs found Sc F. induction F as [|c f cs found Fc F IH]; [reflexivity|]. cbn [forallb] in Sc. apply andb_prop in Sc as [S1 S2].
  cbn [run_checks concat]. rewrite wanted_app, (run_check_wanted on c f S1 Fc), (IH S2). reflexivity.
Qed.
Lemma fits_in : forall cs found x, Forall2 (fun c f => forall x : message, In x f -> In (fst x) (emits c)) cs found -> In x (concat found) ->
  exists c, In c cs /\ In (fst x) (emits c).
Proof.
  intros cs found x F. induction F as [|c f cs found Fc F IH]; intro I; [destruct I|]. cbn [concat] in I. apply in_app_iff in I as [I|I].
  - exists c. split; [left; reflexivity|apply Fc; exact I].
  - destruct (IH I) as (d & D & E). exists d. split; [right; exact D|exact E].
Qed.

Lemma run_method_wanted : forall on c m found, In c checkers -> In m (methods c) -> fits m found ->
  (m = local_if -> on "unreachable-else" = true -> on "use-elif" = true \/ on "redundant-elif" = true \/ on "use-early-return" = true) ->
  run_method on c m found = wanted on (concat found).
Proof.
  intros on c m found Ic Im F U. assert (A := all_sound). rewrite forallb_forall in A. specialize (A c Ic). rewrite forallb_forall in A.
  specialize (A m Im). unfold sound_method in A. rewrite forallb_forall in A.
  assert (Sc : forallb sound_check (checks m) = true).
  { apply forallb_forall. intros k K. specialize (A k K). apply andb_prop in A as [A _]. exact A. }
  unfold run_method. destruct (existsb (is_message_enabled on) (defines c) && _) eqn:E; [apply run_checks_wanted; [exact Sc|exact F]|].
  symmetry. apply wanted_none. intros x I. destruct (on (fst x)) eqn:O; [|reflexivity]. exfalso.
  destruct (fits_in (checks m) found x F I) as (k & K & X). assert (B := A k K). apply andb_prop in B as [B1 B2].
  unfold sound_check in B1. rewrite forallb_forall in B1. specialize (B1 (fst x) X). apply andb_prop in B1 as [R _]. apply existsb_string in R.
  rewrite forallb_forall in B2. specialize (B2 (fst x) X). apply andb_prop in B2 as [D Q]. apply existsb_string in D.
  assert (Y : forall l, In (fst x) l -> existsb (is_message_enabled on) l = true).
  { intros l L. apply existsb_exists. exists (fst x). split; [exact L|]. rewrite (enabled_registered on (fst x) R). exact O. }
  rewrite (Y (defines c) D) in E. cbn [andb] in E. destruct (required m) as [r|] eqn:Rq; [|discriminate E].
  apply orb_prop in Q as [Q|Q]; [apply orb_prop in Q as [Q|Q]|].
  - apply existsb_string in Q. rewrite (Y r Q) in E. discriminate E.
  - unfold unknown in Q. apply existsb_exists in Q as (y & Iy & N).
    assert (Z : existsb (is_message_enabled on) r = true); [|congruence].
    apply existsb_exists. exists y. split; [exact Iy|]. unfold is_message_enabled. apply negb_true_iff in N. rewrite N. reflexivity.
  - apply String.eqb_eq in Q. rewrite Q in *. clear Y.
    assert (M : m = local_if).
    { clear - Ic Im K X. unfold checkers in Ic. cbn [In] in Ic.
      repeat match type of Ic with _ \/ _ => destruct Ic as [Ic|Ic] end; try destruct Ic; cbn [methods local simplifiable unsuited no_global_vars long_code
        invalid_for_target one_iteration shadowing_in_comprehension top_level_code In] in Im;
      repeat match type of Im with _ \/ _ => destruct Im as [Im|Im] end; try destruct Im; try reflexivity; exfalso; revert k K X;
      match goal with |- forall k, In k (checks ?m) -> _ => assert (Z : forallb (fun k => negb (existsb (String.eqb "unreachable-else") (emits k))) (checks m) = true) by (vm_compute; reflexivity) end;
      intros k K X; rewrite forallb_forall in Z; specialize (Z k K); apply existsb_string in X; rewrite X in Z; discriminate Z. }
    specialize (U M O). subst m. cbn [required local_if] in Rq. injection Rq as <-. cbn [existsb] in E.
    assert (En : forall y, In y ["use-elif"; "redundant-elif"; "use-early-return"] -> is_message_enabled on y = on y).
    { intros y Iy. apply enabled_registered. apply existsb_string. cbn [In] in Iy. destruct Iy as [<-|[<-|[<-|[]]]]; vm_compute; reflexivity. }
    rewrite (En "use-elif"), (En "redundant-elif"), (En "use-early-return") in E by (cbn [In]; tauto).
    destruct U as [U|[U|U]]; rewrite U in E; repeat rewrite orb_true_r in E; discriminate E.
Qed.

(** ** Attempts *)

Lemma dup_registered : forall x, In x duplication_messages -> In x registered.
Proof. intros x I. unfold registered. apply in_app_iff. right. exact I. Qed.
Definition may_report (a : attempt) (x : string) : Prop :=
  In x (symbols a) \/ (In "identical-if-branches-part" (symbols a) /\ x = "identical-if-branches").
Lemma may_report_registered : forall a x, In a attempts -> may_report a x -> In x registered.
Proof.
  intros a x Ia M. apply dup_registered. destruct M as [M|[_ ->]]; [|cbn; tauto]. unfold attempts in Ia. cbn [In] in Ia.
  repeat match type of Ia with _ \/ _ => destruct Ia as [Ia|Ia] end; try destruct Ia; cbn [symbols In] in M;
    repeat match type of M with _ \/ _ => destruct M as [M|M] end; try destruct M; subst; cbn; tauto.
Qed.
Lemma checked_first : forall a, In a attempts -> check_message_enabled a = true -> check_first_body a = false /\ ~ In "identical-if-branches-part" (symbols a).
Proof.
  intros a Ia C. unfold attempts in Ia. cbn [In] in Ia.
  repeat match type of Ia with _ \/ _ => destruct Ia as [Ia|Ia] end; try destruct Ia; cbn in C; try discriminate C; (split; [reflexivity|cbn; intuition discriminate]).
Qed.

Notation fitting := (Forall2 (fun a (f : bool * list message) => (forall x, In x (snd f) -> may_report a (fst x)) /\ (fst f = true -> snd f <> []))).

Lemma fit_fitting : forall found, attempts_fit found -> fitting attempts found.
Proof.
  intros found F. unfold attempts_fit, reports in F.
  repeat match goal with H : Forall2 _ (_ :: _) _ |- _ => inversion H; subst; clear H | H : Forall2 _ [] _ |- _ => inversion H; subst; clear H end.
  repeat match goal with H : _ /\ _ |- _ => destruct H end.
  unfold attempts. repeat (apply Forall2_cons; [split; [|assumption];
    match goal with |- forall x, In x (snd ?f) -> _ => intros x X;
      match goal with H : forall y, In y (snd f) -> In (fst y) _ |- _ => apply H in X end; cbn [In] in X; unfold may_report; cbn [symbols In];
      repeat match type of X with _ \/ _ => destruct X as [X|X] end; try contradiction; rewrite <- X; tauto end|]).
  apply Forall2_nil.
Qed.

Definition always (_ : string) : bool := true.
Lemma always_enabled : forall x, is_message_enabled always x = true.
Proof. intro x. unfold is_message_enabled, always. destruct (existsb _ _); reflexivity. Qed.
Lemma existsb_always : forall a, In a attempts -> existsb (is_message_enabled always) (symbols a) = true.
Proof.
  intros a Ia. unfold attempts in Ia. cbn [In] in Ia.
  repeat match type of Ia with _ \/ _ => destruct Ia as [Ia|Ia] end; try destruct Ia; vm_compute; reflexivity.
Qed.

(** With some messages off, the same attempt succeeds if it has a message that is on, and otherwise less is set aside. *)
Lemma attempts_monotone : forall on l found, incl l attempts -> fitting l found ->
  match try_attempts always l found, try_attempts on l found with
  | (ms, (true, f)), (ms', (d', f')) =>
      (forall x, In x ms -> on (fst x) = true -> In x ms') /\ (d' = true -> f' = f \/ f = false)
  | (ms, (false, _)), (ms', (d', _)) => ms = [] /\ d' = false
  end.
Proof.
  intros on l found I F. induction F as [|a [s ms] l found [Fa Fn] F IH]; [cbn; auto|].
  assert (Ia : In a attempts) by (apply I; left; reflexivity). assert (Il : incl l attempts) by (intros y Y; apply I; right; exact Y).
  specialize (IH Il). cbn [try_attempts]. rewrite (existsb_always a Ia), orb_true_r. cbn [andb]. destruct s.
  - cbn [fst snd] in *. destruct ((negb (check_message_enabled a) || existsb (is_message_enabled on) (symbols a)) && true) eqn:R.
    + split; [|left; reflexivity]. intros x X O. unfold report in *. apply filter_In in X as [X _]. apply filter_In. split; [exact X|].
      rewrite (enabled_registered on (fst x) (may_report_registered a (fst x) Ia (Fa x X))). exact O.
    + rewrite andb_true_r in R. apply orb_false_iff in R as [C N]. apply negb_false_iff in C. destruct (checked_first a Ia C) as [Cf Np].
      destruct (try_attempts on l found) as [ms' [d' f']]. split; [|right; exact Cf]. intros x X O. exfalso.
      unfold report in X. apply filter_In in X as [X _]. specialize (Fa x X). destruct Fa as [M|[M _]]; [|contradiction].
      assert (Z : existsb (is_message_enabled on) (symbols a) = true); [|congruence]. apply existsb_exists. exists (fst x). split; [exact M|].
      rewrite (enabled_registered on (fst x)); [exact O|]. apply (may_report_registered a (fst x) Ia). left. exact M.
  - rewrite andb_false_r. exact IH.
Qed.
Lemma attempts_on : forall on l found, incl l attempts -> fitting l found -> forall x, In x (fst (try_attempts on l found)) -> on (fst x) = true.
Proof.
  intros on l found I F. induction F as [|a [s ms] l found [Fa Fn] F IH]; intros x X; [destruct X|].
  assert (Ia : In a attempts) by (apply I; left; reflexivity). assert (Il : incl l attempts) by (intros y Y; apply I; right; exact Y).
  cbn [try_attempts] in X. destruct (_ && s); [|exact (IH Il x X)]. cbn [fst snd] in X, Fa. unfold report in X. apply filter_In in X as [X E].
  rewrite (enabled_registered on (fst x) (may_report_registered a (fst x) Ia (Fa x X))) in E. exact E.
Qed.
Lemma attempts_none : forall on l found, fst (snd (try_attempts on l found)) = false -> try_attempts on l found = ([], (false, false)).
Proof.
  intros on l. induction l as [|a l IH]; intros [|[s ms] found] E; try reflexivity. cbn [try_attempts] in *. destruct (_ && s); [discriminate E|]. exact (IH found E).
Qed.

Lemma nonempty_in {A} : forall l : list A, l <> [] -> exists x, In x l.
Proof. intros [|x l] N; [contradiction|exists x; left; reflexivity]. Qed.

(** An attempt that is made and succeeds says something. *)
Lemma attempt_speaks : forall on a (ms : list message), not_silent on -> In a attempts -> (forall x, In x ms -> may_report a (fst x)) ->
  negb (check_message_enabled a) || existsb (is_message_enabled on) (symbols a) = true -> forall x, In x ms -> on (fst x) = true.
Proof.
  intros on a ms [N L] Ia Fa R x X. specialize (Fa x X).
  assert (E : forall y, In y duplication_messages -> is_message_enabled on y = on y) by (intros y Y; apply enabled_registered, dup_registered, Y).
  unfold attempts in Ia. cbn [In] in Ia.
  repeat match type of Ia with _ \/ _ => destruct Ia as [Ia|Ia] end; try destruct Ia; subst; cbn [check_message_enabled symbols negb orb existsb] in R; try rewrite orb_false_r in R;
    try (destruct Fa as [Fa|[_ Fa]]; cbn [symbols In] in Fa; repeat match type of Fa with _ \/ _ => destruct Fa as [Fa|Fa] end; try destruct Fa;
         apply N; cbn; tauto);
    destruct Fa as [Fa|[Fa _]]; cbn [symbols In] in Fa; repeat match type of Fa with _ \/ _ => destruct Fa as [Fa|Fa] end; try (destruct Fa; fail); try discriminate Fa;
    rewrite <- Fa; repeat rewrite E in R by (cbn; tauto); try rewrite L in *; try (rewrite orb_diag in R); try exact R; try exact (eq_trans L R).
Qed.

Lemma attempts_speak : forall on l found, not_silent on -> incl l attempts -> fitting l found ->
  (fst (snd (try_attempts on l found)) = true -> exists x, In x (fst (try_attempts on l found))) /\
  (finds on found -> fst (snd (try_attempts on l found)) = true).
Proof.
  intros on l found Ns I F. induction F as [|a [s ms] l found [Fa Fn] F IH].
  { split; [cbn; discriminate|]. intros (f & x & [] & _). }
  assert (Ia : In a attempts) by (apply I; left; reflexivity). assert (Il : incl l attempts) by (intros y Y; apply I; right; exact Y).
  specialize (IH Il). cbn [fst snd] in *. cbn [try_attempts].
  destruct ((negb (check_message_enabled a) || existsb (is_message_enabled on) (symbols a)) && s) eqn:R.
  - apply andb_prop in R as [R ->]. split; [|reflexivity]. intros _. destruct (nonempty_in ms (Fn eq_refl)) as [x X]. exists x. cbn [fst]. unfold report.
    apply filter_In. split; [exact X|]. rewrite (enabled_registered on (fst x) (may_report_registered a (fst x) Ia (Fa x X))).
    exact (attempt_speaks on a ms Ns Ia Fa R x X).
  - split; [exact (proj1 IH)|]. intros (f & x & [<-|If] & Sf & X & O).
    + exfalso. cbn [fst snd] in *. subst s. rewrite andb_true_r in R. apply orb_false_iff in R as [C N]. apply negb_false_iff in C.
      destruct (checked_first a Ia C) as [_ Np]. specialize (Fa x X). destruct Fa as [M|[M _]]; [|contradiction].
      assert (Z : existsb (is_message_enabled on) (symbols a) = true); [|congruence]. apply existsb_exists. exists (fst x). split; [exact M|].
      rewrite (enabled_registered on (fst x)); [exact O|]. apply (may_report_registered a (fst x) Ia). left. exact M.
    + apply (proj2 IH). exists f, x. auto.
Qed.

(** ** The main loop *)

Lemma collect_follows : forall skipped ends l r, follows skipped ends l r <-> collect_siblings skipped ends l = r.
Proof.
  intros skipped ends l. induction l as [|s l IH]; intro r; split.
  - intro F. inversion F. reflexivity.
  - cbn. intros <-. constructor.
  - intro F. inversion F; subst; cbn [collect_siblings];
      repeat match goal with H : ends s = _ |- _ => rewrite H; clear H | H : skipped s = _ |- _ => rewrite H; clear H end;
      [reflexivity|apply IH; assumption|f_equal; apply IH; assumption].
  - cbn [collect_siblings]. destruct (ends s) eqn:E; [intros <-; apply follows_end; exact E|]. destruct (skipped s) eqn:K; intros <-.
    + apply follows_skip; [exact E|exact K|]. apply IH. reflexivity.
    + apply follows_keep; [exact E|exact K|]. apply IH. reflexivity.
Qed.

Lemma mem_in : forall x l, mem x l = true <-> In x l.
Proof.
  intros x l. unfold mem. rewrite existsb_exists. split.
  - intros (y & I & E). apply Nat.eqb_eq in E. subst. exact I.
  - intro I. exists x. split; [exact I|apply Nat.eqb_refl].
Qed.

Section Main.
  Variable block_from : nat -> list nat.
  Variable previous_sibling : nat -> option nat.
  Variable skipped ends : nat -> bool.
  Variable loop_found : list nat -> bool * list message.
  Variable if_found : nat -> option (list (bool * list message)).
  Variable nodes_of : list nat -> list nat.
  Variable first_body : nat -> list nat.
  Variable siblings : nat -> list nat.
  Hypothesis blocks : block_like block_from previous_sibling.
  Hypothesis sibs : forall s, follows skipped ends (block_from s) (siblings s).
  Notation included s := (skipped s = false /\ ends s = false).
  Notation loop := (main_loop block_from previous_sibling skipped ends loop_found if_found nodes_of first_body).
  Notation memoized := (get_memoized_siblings block_from previous_sibling skipped ends).

  Lemma siblings_collect : forall s, collect_siblings skipped ends (block_from s) = siblings s.
  Proof. intro s. apply collect_follows, sibs. Qed.
  Lemma siblings_head : forall s, included s -> exists l, siblings s = s :: l.
  Proof.
    intros s [K E]. destruct blocks as [B _]. destruct (B s) as [l L]. rewrite <- siblings_collect, L. cbn [collect_siblings]. rewrite K, E.
    eexists. reflexivity.
  Qed.
  Definition right (memo : list (nat * list nat)) : Prop := forall s l, lookup memo s = Some l -> included s /\ l = siblings s.

  Lemma lookup_cons : forall memo s l x, lookup ((s, l) :: memo) x = if Nat.eqb s x then Some l else lookup memo x.
  Proof. intros memo s l x. unfold lookup. cbn [find fst]. destruct (Nat.eqb s x); reflexivity. Qed.
  Lemma right_cons : forall memo s, right memo -> included s -> right ((s, siblings s) :: memo).
  Proof.
    intros memo s R I x l E. rewrite lookup_cons in E. destruct (Nat.eqb s x) eqn:Q; [|exact (R x l E)]. apply Nat.eqb_eq in Q. subst.
    assert (l = siblings x) by congruence. auto.
  Qed.
  Lemma memoized_right : forall memo s, right memo -> included s -> exists memo', memoized memo s = Ok (memo', siblings s) /\ right memo'.
  Proof.
    intros memo s R I. unfold get_memoized_siblings. destruct (lookup memo s) as [l|] eqn:L.
    { exists memo. destruct (R s l L) as [_ ->]. auto. }
    destruct (match previous_sibling s with Some p => lookup memo p | None => None end) as [l|] eqn:P.
    - destruct (previous_sibling s) as [p|] eqn:Q; [|discriminate P]. destruct (R p l P) as [[Kp Ep] ->].
      assert (T : tl (siblings p) = siblings s).
      { destruct blocks as [_ B]. rewrite <- (siblings_collect p), (B s p Q). cbn [collect_siblings]. rewrite Kp, Ep. cbn [tl]. apply siblings_collect. }
      rewrite T. eexists. split; [reflexivity|]. apply right_cons; assumption.
    - unfold get_siblings. rewrite siblings_collect. destruct (siblings_head s I) as [t T]. rewrite T. cbn [bind]. rewrite <- T.
      eexists. split; [reflexivity|]. apply right_cons; assumption.
  Qed.

  Definition set_aside (s : nat) (f : bool) : list nat :=
    filter (fun x => negb (mem x (if f then first_body s else []))) (nodes_of [s]).
  (** What is done for a statement, without the memory. *)
  Fixpoint plain (on : string -> bool) (l duplicate : list nat) : list (nat * message) :=
    match l with
    | [] => []
    | s :: l =>
        if mem s duplicate then plain on l duplicate
        else if fst (is_similar_to_loop loop_found (siblings s)) then
          map (pair s) (report on (snd (is_similar_to_loop loop_found (siblings s)))) ++ plain on l (nodes_of (siblings s) ++ duplicate)
        else if fst (snd (is_duplicate_in_if if_found on s)) then
          map (pair s) (fst (is_duplicate_in_if if_found on s)) ++ plain on l (set_aside s (snd (snd (is_duplicate_in_if if_found on s))) ++ duplicate)
        else plain on l duplicate
    end.
  Lemma loop_plain : forall on l duplicate memo, (forall s, In s l -> included s) -> right memo -> loop on l duplicate memo = Ok (plain on l duplicate).
  Proof.
    intros on l. induction l as [|s l IH]; intros duplicate memo I R; [reflexivity|]. cbn [main_loop plain].
    assert (Il : forall x, In x l -> included x) by (intros x X; apply I; right; exact X).
    destruct (mem s duplicate); [exact (IH duplicate memo Il R)|]. destruct (memoized_right memo s R (I s (or_introl eq_refl))) as (memo' & E & R'). rewrite E.
    cbn [bind]. destruct (is_similar_to_loop loop_found (siblings s)) as [b ms]. cbn [fst snd]. destruct b.
    - rewrite (IH _ memo' Il R'). reflexivity.
    - destruct (is_duplicate_in_if if_found on s) as [ms' [d f]]. cbn [fst snd]. destruct d.
      + unfold set_aside. rewrite (IH _ memo' Il R'). reflexivity.
      + exact (IH _ memo' Il R').
  Qed.

  Hypothesis tree : nested siblings nodes_of first_body.
  Hypothesis loops_fit : forall l x, In x (snd (loop_found l)) -> In (fst x) about_loops.
  Hypothesis ifs_fit : forall s found, if_found s = Some found -> attempts_fit found.

  Lemma loop_registered : forall l x, In x (snd (is_similar_to_loop loop_found l)) -> In (fst x) registered.
  Proof.
    intros l x I. unfold is_similar_to_loop in I. destruct (Nat.ltb _ _); [destruct I|]. apply loops_fit in I. apply dup_registered.
    unfold about_loops in I. cbn [In] in I. destruct I as [<-|[<-|[<-|[]]]]; cbn; tauto.
  Qed.
  Lemma if_monotone : forall on s,
    match is_duplicate_in_if if_found always s, is_duplicate_in_if if_found on s with
    | (ms, (true, f)), (ms', (d', f')) => (forall x, In x ms -> on (fst x) = true -> In x ms') /\ (d' = true -> f' = f \/ f = false)
    | (ms, (false, _)), (ms', (d', _)) => ms = [] /\ d' = false
    end.
  Proof.
    intros on s. unfold is_duplicate_in_if. destruct (if_found s) as [found|] eqn:E; [|cbn; auto].
    exact (attempts_monotone on attempts found (fun x X => X) (fit_fitting _ (ifs_fit s found E))).
  Qed.

  Lemma if_none : forall on s, fst (snd (is_duplicate_in_if if_found on s)) = false -> fst (is_duplicate_in_if if_found on s) = [].
  Proof.
    intros on s E. unfold is_duplicate_in_if in *. destruct (if_found s) as [found|]; [|reflexivity]. rewrite (attempts_none on attempts found E). reflexivity.
  Qed.

  Lemma set_aside_in : forall s f x, In x (set_aside s f) <-> In x (nodes_of [s]) /\ (f = true -> ~ In x (first_body s)).
  Proof.
    intros s f x. unfold set_aside. rewrite filter_In, negb_true_iff. destruct f.
    - split; intros [A B]; (split; [exact A|]).
      + intros _ C. apply mem_in in C. congruence.
      + destruct (mem x (first_body s)) eqn:M; [|reflexivity]. apply mem_in in M. exfalso. exact (B eq_refl M).
    - split; intros [A B]; (split; [exact A|]); [discriminate|reflexivity].
  Qed.
  Lemma aside_less : forall s f f', (f' = f \/ f = false) -> incl (set_aside s f') (set_aside s f).
  Proof.
    intros s f f' H x X. apply set_aside_in in X as [A B]. apply set_aside_in. split; [exact A|]. destruct H as [->| ->]; [exact B|discriminate].
  Qed.
  Lemma aside_siblings : forall s f, incl (set_aside s f) (nodes_of (siblings s)).
  Proof. intros s f x X. apply set_aside_in in X as [A _]. apply (among_siblings _ _ _ tree s). exact A. Qed.

  (** What is set aside is so with all that follows it in its block, for all that is still to come. *)
  Definition closed (rest D : list nat) : Prop := forall x, In x rest -> In x D -> incl (nodes_of (siblings x)) D.
  Lemma closed_less : forall s rest D, closed (s :: rest) D -> closed rest D.
  Proof. intros s rest D C x X. apply C. right. exact X. Qed.
  Lemma closed_siblings : forall s rest D, closed rest D -> closed rest (nodes_of (siblings s) ++ D).
  Proof.
    intros s rest D C x X I. apply in_app_iff in I as [I|I].
    - intros y Y. apply in_app_iff. left. exact (within_siblings _ _ _ tree s x I y Y).
    - intros y Y. apply in_app_iff. right. exact (C x X I y Y).
  Qed.
  Lemma closed_aside : forall s f rest D, ~ In s rest -> closed rest D -> closed rest (set_aside s f ++ D).
  Proof.
    intros s f rest D N C x X I. apply in_app_iff in I as [I|I].
    - assert (Ns : x <> s) by (intros ->; contradiction). apply set_aside_in in I as [A B].
      intros y Y. apply in_app_iff. left. apply set_aside_in. split; [exact (within_statement _ _ _ tree s x Ns A y Y)|].
      intro F. exact (after_first _ _ _ tree s x y Ns A (B F) Y).
    - intros y Y. apply in_app_iff. right. exact (C x X I y Y).
  Qed.

  Lemma plain_monotone : forall on l Da Do, NoDup l -> incl Do Da -> closed l Da ->
    forall s m, In (s, m) (plain always l Da) -> on (fst m) = true -> In (s, m) (plain on l Do).
  Proof.
    intros on l. induction l as [|t l IH]; intros Da Do Nd Inc Cl s m I O; [destruct I|]. cbn [plain] in *.
    inversion Nd as [|? ? Nt Nl]. subst. assert (C := closed_less t l Da Cl).
    destruct (mem t Da) eqn:Ma.
    - assert (B : incl (nodes_of (siblings t)) Da) by (apply Cl; [left; reflexivity|apply mem_in; exact Ma]).
      destruct (mem t Do); [exact (IH Da Do Nl Inc C s m I O)|].
      destruct (fst (is_similar_to_loop loop_found (siblings t))).
      + apply in_app_iff. right. apply (IH Da); try assumption. intros x X. apply in_app_iff in X as [X|X]; [exact (B x X)|exact (Inc x X)].
      + destruct (fst (snd (is_duplicate_in_if if_found on t))); [|exact (IH Da Do Nl Inc C s m I O)].
        apply in_app_iff. right. apply (IH Da); try assumption. intros x X.
        apply in_app_iff in X as [X|X]; [exact (B x (aside_siblings t _ x X))|exact (Inc x X)].
    - destruct (mem t Do) eqn:Mo; [apply mem_in in Mo; apply Inc in Mo; apply mem_in in Mo; congruence|].
      destruct (fst (is_similar_to_loop loop_found (siblings t))).
      + apply in_app_iff in I as [I|I]; apply in_app_iff.
        * left. apply in_map_iff in I as (x & E & X). apply in_map_iff. exists x. split; [exact E|]. assert (m = x) by congruence. subst x.
          unfold report in *. apply filter_In in X as [X _]. apply filter_In. split; [exact X|]. rewrite (enabled_registered on (fst m) (loop_registered _ m X)). exact O.
        * right. refine (IH _ _ Nl _ _ s m I O); [|apply closed_siblings; exact C].
          intros x X. apply in_app_iff in X as [X|X]; apply in_app_iff; [left; exact X|right; exact (Inc x X)].
      + assert (M := if_monotone on t). assert (Z := if_none on t). destruct (is_duplicate_in_if if_found always t) as [ms [d f]]. destruct (is_duplicate_in_if if_found on t) as [ms' [d' f']].
        cbn [fst snd] in *. destruct d.
        * destruct M as [M Mf]. apply in_app_iff in I as [I|I].
          -- apply in_map_iff in I as (x & E & X). assert (m = x) by congruence. assert (t = s) by congruence. subst x t.
             assert (Y := M m X O). destruct d'; [apply in_app_iff; left; apply in_map; exact Y|].
             rewrite (Z eq_refl) in Y. destruct Y.
          -- destruct d'.
             ++ apply in_app_iff. right. refine (IH _ _ Nl _ _ s m I O); [|apply closed_aside; assumption].
                intros x X. apply in_app_iff in X as [X|X]; apply in_app_iff; [left; exact (aside_less t f f' (Mf eq_refl) x X)|right; exact (Inc x X)].
             ++ refine (IH _ _ Nl _ _ s m I O); [|apply closed_aside; assumption]. intros x X. apply in_app_iff. right. exact (Inc x X).
        * destruct M as [_ ->]. refine (IH _ _ Nl Inc C s m I O).
  Qed.
  Lemma plain_on : forall on l D s m, In (s, m) (plain on l D) -> on (fst m) = true.
  Proof.
    intros on l. induction l as [|t l IH]; intros D s m I; [destruct I|]. cbn [plain] in I. destruct (mem t D); [exact (IH D s m I)|].
    destruct (fst (is_similar_to_loop loop_found (siblings t))).
    - apply in_app_iff in I as [I|I]; [|exact (IH _ s m I)]. apply in_map_iff in I as (x & E & X). assert (m = x) by congruence. subst x.
      unfold report in X. apply filter_In in X as [X R]. rewrite (enabled_registered on (fst m) (loop_registered _ m X)) in R. exact R.
    - destruct (fst (snd (is_duplicate_in_if if_found on t))); [|exact (IH _ s m I)].
      apply in_app_iff in I as [I|I]; [|exact (IH _ s m I)]. apply in_map_iff in I as (x & E & X). assert (m = x) by congruence. subst x.
      unfold is_duplicate_in_if in X. destruct (if_found t) as [found|] eqn:F; [|destruct X].
      exact (attempts_on on attempts found (fun x X => X) (fit_fitting _ (ifs_fit t found F)) m X).
  Qed.

  (** Where messages are switched on and off. *)
  Lemma loop_monotone : forall on l, NoDup l -> (forall s, In s l -> included s) ->
    exists all some, loop (fun _ => true) l [] [] = Ok all /\ loop on l [] [] = Ok some /\ (forall s m, In (s, m) all -> on (fst m) = true -> In (s, m) some) /\ (forall s m, In (s, m) some -> on (fst m) = true).
  Proof.
    intros on l Nd I. assert (R : right []) by (intros s t E; discriminate E).
    exists (plain always l []), (plain on l []). split; [exact (loop_plain always l [] [] I R)|]. split; [exact (loop_plain on l [] [] I R)|].
    split; [|exact (plain_on on l [])]. intros s m. apply plain_monotone; [exact Nd|intros x X; exact X|]. intros x _ [].
  Qed.

  Hypothesis loops_speak : forall l, fst (loop_found l) = true -> snd (loop_found l) <> [].
  (** The statement is in what something is reported about. *)
  Definition covered (reported : list (nat * message)) (s : nat) : Prop :=
    exists t m, In (t, m) reported /\ (t = s \/ In s (nodes_of (siblings t))).

  Lemma plain_covers : forall on l D done, not_silent on -> (forall x, In x D -> covered done x) ->
    forall s found, In s l -> if_found s = Some found -> finds on found -> covered (done ++ plain on l D) s.
  Proof.
    intros on l. induction l as [|t l IH]; intros D done Ns Cd s found I If Fi; [destruct I|]. cbn [plain].
    assert (More : forall a b x, covered a x -> covered (a ++ b) x).
    { intros a b x (u & m & U & X). exists u, m. split; [apply in_app_iff; left; exact U|exact X]. }
    destruct (mem t D) eqn:M.
    { destruct I as [->|I]; [|exact (IH D done Ns Cd s found I If Fi)]. apply More, Cd, mem_in, M. }
    destruct (fst (is_similar_to_loop loop_found (siblings t))) eqn:Lp.
    - assert (Sp : exists m, In (t, m) (map (pair t) (report on (snd (is_similar_to_loop loop_found (siblings t)))))).
      { unfold is_similar_to_loop in *. destruct (Nat.ltb _ _); [discriminate Lp|]. destruct (nonempty_in _ (loops_speak _ Lp)) as [m X]. exists m.
        apply in_map. unfold report. apply filter_In. split; [exact X|]. apply loops_fit in X. rewrite enabled_registered.
        - apply (proj1 Ns). apply in_app_iff. right. exact X.
        - apply dup_registered. unfold about_loops in X. cbn [In] in X. destruct X as [<-|[<-|[<-|[]]]]; cbn; tauto. }
      destruct Sp as [m Sp]. rewrite app_assoc. destruct I as [->|I].
      { apply More. exists s, m. split; [apply in_app_iff; right; exact Sp|left; reflexivity]. }
      refine (IH _ _ Ns _ s found I If Fi). intros x X. apply in_app_iff in X as [X|X]; [|apply More, Cd, X].
      exists t, m. split; [apply in_app_iff; right; exact Sp|right; exact X].
    - assert (Q : forall f, if_found t = Some f -> (fst (snd (is_duplicate_in_if if_found on t)) = true -> exists x, In x (fst (is_duplicate_in_if if_found on t))) /\
        (finds on f -> fst (snd (is_duplicate_in_if if_found on t)) = true)).
      { intros f E. unfold is_duplicate_in_if. rewrite E. exact (attempts_speak on attempts f Ns (fun x X => X) (fit_fitting _ (ifs_fit t f E))). }
      destruct (fst (snd (is_duplicate_in_if if_found on t))) eqn:Dp.
      + assert (Sp : exists m, In (t, m) (map (pair t) (fst (is_duplicate_in_if if_found on t)))).
        { destruct (if_found t) as [f|] eqn:E; [|unfold is_duplicate_in_if in Dp; rewrite E in Dp; discriminate Dp].
          destruct (proj1 (Q f eq_refl) eq_refl) as [m X]. exists m. apply in_map. exact X. }
        destruct Sp as [m Sp]. rewrite app_assoc. destruct I as [->|I].
        { apply More. exists s, m. split; [apply in_app_iff; right; exact Sp|left; reflexivity]. }
        refine (IH _ _ Ns _ s found I If Fi). intros x X. apply in_app_iff in X as [X|X]; [|apply More, Cd, X].
        exists t, m. split; [apply in_app_iff; right; exact Sp|right; exact (aside_siblings t _ x X)].
      + destruct I as [->|I]; [|exact (IH D done Ns Cd s found I If Fi)]. discriminate (proj2 (Q found If) Fi).
  Qed.
  Lemma loop_covers : forall on l, not_silent on -> (forall s, In s l -> included s) ->
    exists reported, loop on l [] [] = Ok reported /\
      forall s found, In s l -> if_found s = Some found -> finds on found ->
        exists t m, In (t, m) reported /\ (t = s \/ In s (nodes_of (siblings t))).
  Proof.
    intros on l Ns I. assert (R : right []) by (intros s t E; discriminate E). exists (plain on l []). split; [exact (loop_plain on l [] [] I R)|].
    intros s found Is If Fi. exact (plain_covers on l [] [] Ns (fun x (X : In x []) => match X with end) s found Is If Fi).
  Qed.
End Main.
