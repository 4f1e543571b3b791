(** What the messages about identical parts of branches guarantee. *)
From Coq Require Import String List Bool Arith ZArith Lia.
From Verif Require Import Base DupModel DupSpec DupProofs.
Import ListNotations.
Local Open Scope string_scope.
Local Open Scope list_scope.
Local Open Scope nat_scope.

Definition is_part (m : message) : bool := match m with SeqIfs _ _ _ _ => false | _ => true end.

Lemma seq_no_part : forall src el fuel ifs ms, seq_messages src el fuel ifs = Ok ms -> Forall (fun m => is_part m = false) ms.
Proof.
  intros src el fuel. induction fuel as [|fuel IH]; intros ifs ms E; [discriminate|]. cbn [seq_messages] in E.
  destruct ifs as [|f [|o rest]]; [injection E as <-; constructor|injection E as <-; constructor|].
  destruct (more_ifs src f (o :: rest)) as [more|e]; cbn [bind] in E; [|discriminate].
  destruct (seq_messages src el fuel (skipn more (o :: rest))) as [ms'|e] eqn:S1; cbn [bind] in E; [|discriminate].
  specialize (IH _ _ S1). injection E as <-. destruct (more =? 0); [exact IH|]. constructor; [reflexivity|exact IH].
Qed.

Lemma seq_ifs_no_part : forall src b ifs s ms, identical_seq_ifs src b ifs s = Ok ms -> Forall (fun m => is_part m = false) ms.
Proof.
  intros src b ifs s ms E. unfold identical_seq_ifs in E. destruct b; [exact (seq_no_part _ _ _ _ _ E)|].
  destruct s; [exact (seq_no_part _ _ _ _ _ E)|]. injection E as <-. constructor.
Qed.

(** A message about parts comes from the comparison of branches. *)
Lemma part_from : forall src prev node rest ms m, identical_in_if src prev node rest = Ok ms -> List.In m ms -> is_part m = true ->
  exists ifs branches, extract_from_elif node = (true, ifs) /\ get_bodies ifs = Ok branches /\ identical_before_after_branch src branches = Ok ms.
Proof.
  intros src prev node rest ms m E I PM. unfold identical_in_if in E. destruct (extract_from_elif node) as [b ifs] eqn:X.
  destruct (get_bodies ifs) as [branches|e] eqn:G; cbn [bind] in E; [|discriminate].
  destruct b; cbn [bind] in E.
  - destruct (identical_before_after_branch src branches) as [ms'|e] eqn:B; cbn [bind] in E; [|discriminate].
    destruct ms' as [|m' ms']; [apply seq_ifs_no_part in E; rewrite Forall_forall in E; rewrite (E m I) in PM; discriminate|].
    exists ifs, branches. split; [reflexivity|]. split; [exact G|]. congruence.
  - apply seq_ifs_no_part in E. rewrite Forall_forall in E. rewrite (E m I) in PM. discriminate.
Qed.

(** The messages of one comparison. *)
Lemma after_messages : forall src branches ms0 ms, identical_after src branches ms0 = Ok ms ->
  exists n, get_stmts_difference src branches false = Ok n /\
    (ms = ms0 /\ (n = 0 \/ (n = 1 /\ exists reference compare s, branches = reference :: compare /\ nth_error (rev reference) 0 = Some s /\ is_return src s = true)) \/
     1 <= n /\ exists m, part_message src branches n false = Ok m /\ ms = ms0 ++ [m]).
Proof.
  intros src branches ms0 ms E. unfold identical_after in E. destruct (get_stmts_difference src branches false) as [n|e] eqn:D; cbn [bind] in E; [|discriminate].
  exists n. split; [reflexivity|]. destruct (1 <=? n) eqn:L.
  - apply Nat.leb_le in L. destruct branches as [|reference compare]; [discriminate|]. destruct (at_index reference 0 false) as [s|] eqn:A; [|discriminate].
    destruct ((n =? 1) && is_return src s) eqn:R.
    + apply andb_true_iff in R. destruct R as (R1 & R2). apply Nat.eqb_eq in R1. left. split; [congruence|]. right. split; [exact R1|].
      exists reference, compare, s. repeat split; assumption.
    + destruct (part_message src (reference :: compare) n false) as [m|e] eqn:P; cbn [bind] in E; [|discriminate]. right. split; [exact L|].
      exists m. split; [reflexivity|congruence].
  - apply Nat.leb_gt in L. left. split; [congruence|left; lia].
Qed.

Lemma part_is_part : forall src branches n fw m, part_message src branches n fw = Ok m -> exists lines, m = BranchesPart lines fw.
Proof.
  intros src [|reference compare] n fw m E; [discriminate|]. unfold part_message in E.
  destruct (at_index reference _ fw); [|discriminate]. destruct (at_index reference _ fw); [|discriminate]. destruct (_ <=? _)%Z; [|discriminate].
  injection E as <-. eexists. reflexivity.
Qed.

Lemma branch_messages : forall src branches ms, identical_before_after_branch src branches = Ok ms ->
  exists n, get_stmts_difference src branches true = Ok n /\
    (n = 0 /\ identical_after src branches [] = Ok ms \/
     1 <= n /\ Forall (fun b => n = length b) branches /\ ms = [IdenticalBranches] \/
     1 <= n /\ exists m, part_message src branches n true = Ok m /\ (ms = [m] \/ identical_after src branches [m] = Ok ms)).
Proof.
  intros src branches ms E. unfold identical_before_after_branch in E. destruct (get_stmts_difference src branches true) as [n|e] eqn:D; cbn [bind] in E; [|discriminate].
  exists n. split; [reflexivity|]. destruct (1 <=? n) eqn:L; [apply Nat.leb_le in L|apply Nat.leb_gt in L; left; split; [lia|exact E]].
  right. destruct (forallb (fun b => n =? length b) branches) eqn:A.
  - left. split; [exact L|]. split; [|congruence]. rewrite Forall_forall. intros b I. rewrite forallb_forall in A. apply Nat.eqb_eq. exact (A b I).
  - right. split; [exact L|]. destruct (part_message src branches n true) as [m|e] eqn:P; cbn [bind] in E; [|discriminate].
    exists m. split; [reflexivity|]. destruct (existsb (fun b => n =? length b) branches); [left; congruence|right; exact E].
Qed.

(** A message about a part, with the number of statements. *)
Lemma part_message_in : forall src branches ms lines fw, identical_before_after_branch src branches = Ok ms -> List.In (BranchesPart lines fw) ms ->
  exists n, 1 <= n /\ get_stmts_difference src branches fw = Ok n /\ part_message src branches n fw = Ok (BranchesPart lines fw).
Proof.
  intros src branches ms lines fw E I. destruct (branch_messages _ _ _ E) as (n & D & H).
  assert (AF : forall ms0, identical_after src branches ms0 = Ok ms -> ~ List.In (BranchesPart lines fw) ms0 ->
    exists n, 1 <= n /\ get_stmts_difference src branches fw = Ok n /\ part_message src branches n fw = Ok (BranchesPart lines fw)).
  { intros ms0 A NI. destruct (after_messages _ _ _ _ A) as (k & D' & [(-> & _)|(L & m & P & ->)]); [contradiction|].
    apply in_app_or in I. destruct I as [I|[Q|[]]]; [contradiction|]. subst m. destruct (part_is_part _ _ _ _ _ P) as (l & EQ). injection EQ as <- ->.
    exists k. repeat split; assumption. }
  destruct H as [(-> & A)|[(L & _ & ->)|(L & m & P & H)]].
  - apply (AF _ A). intros [].
  - destruct I as [I|[]]. discriminate.
  - destruct (part_is_part _ _ _ _ _ P) as (l & ->). destruct H as [-> | A].
    + destruct I as [I|[]]. injection I as <- <-. exists n. repeat split; assumption.
    + destruct fw.
      * destruct (Z.eq_dec l lines) as [->|N]; [exists n; repeat split; assumption|]. apply (AF _ A). intros [X|[]]. congruence.
      * apply (AF _ A). intros [X|[]]. congruence.
Qed.

Lemma branches_first : forall arms e, arms <> [] -> exists t b arms', arms = (t, b) :: arms' /\ branches_of arms e = b :: branches_of arms' e.
Proof. intros [|[t b] arms] e N; [congruence|]. exists t, b, arms. split; reflexivity. Qed.

Lemma same_code_app src a b c d : same_code src a b -> same_code src c d -> same_code src (a ++ c) (b ++ d).
Proof. unfold same_code. intros H1 H2. rewrite !map_app, H1, H2. reflexivity. Qed.
Lemma same_code_sym src a b : same_code src a b -> same_code src b a.
Proof. unfold same_code. congruence. Qed.
Lemma same_code_refl src a : same_code src a a.
Proof. reflexivity. Qed.

Lemma in_branches_arm arms e t b : List.In (t, b) arms -> List.In b (branches_of arms e).
Proof. intros I. unfold branches_of. apply in_or_app. left. apply in_map_iff. exists (t, b). split; [reflexivity|exact I]. Qed.
Lemma in_branches_else arms e : e <> [] -> List.In e (branches_of arms e).
Proof. intros N. unfold branches_of. apply in_or_app. right. destruct e; [congruence|left; reflexivity]. Qed.

Section Moving.
  Context {State : Type}.
  Variable P : python State.
  Variable src : source.
  Hypothesis decides : text_decides P src.

  (** Replacing the branches of a chain by others that do the same. *)
  Lemma same_branches arms e (f : list stmt -> list stmt) : e <> [] ->
    (forall b, List.In b (branches_of arms e) -> same_code src b (f b)) ->
    same_run P (as_ifs arms e) (as_ifs (map (fun '(t, b) => (t, f b)) arms) (f e)).
  Proof.
    intros N H. apply same_chain; [|apply (same_code_run P src decides), H, in_branches_else, N].
    assert (G : forall l, incl l arms -> Forall2 (fun '(t, b) '(t', b') => t = t' /\ same_run P b b') l (map (fun '(t, b) => (t, f b)) l)).
    { induction l as [|[t b] l IH]; intros I; [constructor|]. cbn [map]. constructor.
      - split; [reflexivity|]. apply (same_code_run P src decides), H, (in_branches_arm _ _ t), I. left. reflexivity.
      - apply IH. intros x X. apply I. right. exact X. }
    apply G. intros x X. exact X.
  Qed.

  Lemma same_everywhere body st : forall arms : list (cond * list stmt), Forall (undisturbed P []) (map fst arms) ->
    run_block P (as_ifs (map (fun '(t, b) => (t, (fun _ : list stmt => body) b)) arms) ((fun _ => body) body)) st = run_block P body st.
  Proof.
    induction arms as [|[u b] arms IH]; intros U; [reflexivity|]. cbn [map as_ifs fst] in *.
    inversion U as [|? ? U1 U2]; subst. rewrite run_one, run_if. destruct (U1 st) as (c & T & _). rewrite T. destruct c; [reflexivity|exact (IH U2)].
  Qed.

  Theorem moved_after prev node rest ms lines : is_if node = true -> identical_in_if src prev node rest = Ok ms -> List.In (BranchesPart lines false) ms ->
    exists arms e n t body others, [node] = as_ifs arms e /\ e <> [] /\ arms = (t, body) :: others /\
      1 <= n /\ Forall (fun b => n <= length b) (branches_of arms e) /\ lines_of src (last_part n body) lines /\
      same_run P [node] (as_ifs (map (fun '(t, b) => (t, without_last n b)) arms) (without_last n e) ++ last_part n body).
  Proof.
    intros I E IN. destruct (part_from _ _ _ _ _ _ E IN eq_refl) as (ifs & branches & X & G & B).
    destruct (extract_arms _ _ _ I X) as (arms & e & A & NA & G' & _ & _ & _ & NE & _). specialize (NE eq_refl).
    assert (branches = branches_of arms e) by congruence. subst branches.
    destruct (part_message_in _ _ _ _ _ B IN) as (n & N1 & D & PM).
    destruct (get_difference _ _ _ _ D) as (_ & _ & _ & NM & AG & _).
    destruct (branches_first arms e NA) as (t & body & others & -> & BF).
    destruct (part_lines _ _ _ _ _ _ PM N1 NM) as (_ & reference & compare & RC & LI). rewrite BF in RC. injection RC as <- _.
    exists ((t, body) :: others), e, n, t, body, others. split; [exact A|]. split; [exact NE|]. split; [reflexivity|]. split; [exact N1|].
    split; [rewrite Forall_forall; intros b Ib; pose proof (min_length_le _ _ Ib); lia|]. split; [exact LI|].
    intros st. rewrite A. set (arms := (t, body) :: others) in *.
    rewrite <- after_chain. rewrite map_map.
    rewrite (same_branches arms e (fun b => without_last n b ++ last_part n body) NE).
    - f_equal. f_equal. apply map_ext. intros [u b]. reflexivity.
    - intros b Ib. rewrite <- (firstn_skipn (length b - n) b) at 1. apply same_code_app; [apply same_code_refl|].
      apply (agree_suffix src (branches_of arms e) n b body NM AG Ib). rewrite BF. left. reflexivity.
  Qed.

  Theorem moved_before prev node rest ms lines : is_if node = true -> identical_in_if src prev node rest = Ok ms -> List.In (BranchesPart lines true) ms ->
    exists arms e n t body others, [node] = as_ifs arms e /\ e <> [] /\ arms = (t, body) :: others /\
      1 <= n /\ Forall (fun b => n <= length b) (branches_of arms e) /\ lines_of src (firstn n body) lines /\
      (Forall (undisturbed P (firstn n body)) (map fst arms) ->
       same_run P [node] (firstn n body ++ as_ifs (map (fun '(t, b) => (t, skipn n b)) arms) (skipn n e))).
  Proof.
    intros I E IN. destruct (part_from _ _ _ _ _ _ E IN eq_refl) as (ifs & branches & X & G & B).
    destruct (extract_arms _ _ _ I X) as (arms & e & A & NA & G' & _ & _ & _ & NE & _). specialize (NE eq_refl).
    assert (branches = branches_of arms e) by congruence. subst branches.
    destruct (part_message_in _ _ _ _ _ B IN) as (n & N1 & D & PM).
    destruct (get_difference _ _ _ _ D) as (_ & _ & _ & NM & AG & _).
    destruct (branches_first arms e NA) as (t & body & others & -> & BF).
    destruct (part_lines _ _ _ _ _ _ PM N1 NM) as (_ & reference & compare & RC & LI). rewrite BF in RC. injection RC as <- _.
    exists ((t, body) :: others), e, n, t, body, others. split; [exact A|]. split; [exact NE|]. split; [reflexivity|]. split; [exact N1|].
    split; [rewrite Forall_forall; intros b Ib; pose proof (min_length_le _ _ Ib); lia|]. split; [exact LI|].
    intros U st. rewrite A. set (arms := (t, body) :: others) in *.
    rewrite <- before_chain.
    - rewrite map_map. rewrite (same_branches arms e (fun b => firstn n body ++ skipn n b) NE).
      + f_equal. f_equal. apply map_ext. intros [u b]. reflexivity.
      + intros b Ib. rewrite <- (firstn_skipn n b) at 1. apply same_code_app; [|apply same_code_refl].
        apply (agree_prefix src (branches_of arms e) n b body NM AG Ib). rewrite BF. left. reflexivity.
    - rewrite Forall_forall in U |- *. intros [u b] Ix. apply in_map_iff in Ix. destruct Ix as ([u' b'] & EQ & Iy). injection EQ as <- <-.
      apply U. apply in_map_iff. exists (u', b'). split; [reflexivity|exact Iy].
  Qed.

  Theorem same_branches_removed prev node rest ms : is_if node = true -> identical_in_if src prev node rest = Ok ms -> List.In IdenticalBranches ms ->
    exists arms e t body others, [node] = as_ifs arms e /\ e <> [] /\ arms = (t, body) :: others /\
      Forall (same_code src body) (branches_of arms e) /\ (Forall (undisturbed P []) (map fst arms) -> same_run P [node] body).
  Proof.
    intros I E IN. destruct (part_from _ _ _ _ _ _ E IN eq_refl) as (ifs & branches & X & G & B).
    destruct (extract_arms _ _ _ I X) as (arms & e & A & NA & G' & _ & _ & _ & NE & _). specialize (NE eq_refl).
    assert (branches = branches_of arms e) by congruence. subst branches.
    destruct (branch_messages _ _ _ B) as (n & D & H).
    assert (NP : forall ms0, ~ List.In IdenticalBranches ms0 -> identical_after src (branches_of arms e) ms0 = Ok ms -> False).
    { intros ms0 NI AF. destruct (after_messages _ _ _ _ AF) as (k & _ & [(-> & _)|(_ & m & PM & ->)]); [contradiction|].
      apply in_app_or in IN. destruct IN as [IN|[Q|[]]]; [contradiction|]. subst m. destruct (part_is_part _ _ _ _ _ PM) as (l & EQ). discriminate. }
    destruct H as [(_ & AF)|[(L & FL & ->)|(L & m & PM & H)]].
    - destruct (NP [] (fun x => x) AF).
    - destruct (get_difference _ _ _ _ D) as (_ & _ & _ & NM & AG & _). destruct (branches_first arms e NA) as (t & body & others & -> & BF).
      assert (SC : Forall (same_code src body) (branches_of ((t, body) :: others) e)).
      { rewrite Forall_forall in FL |- *. intros b Ib.
        assert (Ibody : List.In body (branches_of ((t, body) :: others) e)) by (rewrite BF; left; reflexivity).
        pose proof (agree_prefix src _ n body b NM AG Ibody Ib) as SC. rewrite (FL b Ib) in SC at 2. rewrite firstn_all in SC.
        rewrite (FL body Ibody) in SC. rewrite firstn_all in SC. exact SC. }
      exists ((t, body) :: others), e, t, body, others. split; [exact A|]. split; [exact NE|]. split; [reflexivity|]. split; [exact SC|].
      intros U st. rewrite A.
      set (arms := (t, body) :: others) in *. rewrite Forall_forall in SC.
      rewrite (same_branches arms e (fun _ => body) NE) by (intros b Ib; apply same_code_sym, SC, Ib).
      apply same_everywhere. exact U.
    - destruct (part_is_part _ _ _ _ _ PM) as (l & ->). destruct H as [-> | AF]; [destruct IN as [IN|[]]; discriminate|].
      exfalso. refine (NP _ _ AF). intros [Q|[]]. discriminate Q.
  Qed.
End Moving.

(** ** The reported part is the longest one *)

Lemma part_longest : forall src prev node rest ms lines fw, is_if node = true -> identical_in_if src prev node rest = Ok ms -> List.In (BranchesPart lines fw) ms ->
  exists arms e n t body others, [node] = as_ifs arms e /\ arms = (t, body) :: others /\ lines_of src (if fw then firstn n body else last_part n body) lines /\
    (forall j, j < n -> agree src fw (branches_of arms e) j) /\ ~ agree src fw (branches_of arms e) n.
Proof.
  intros src prev node rest ms lines fw I E IN. destruct (part_from _ _ _ _ _ _ E IN eq_refl) as (ifs & branches & X & G & B).
  destruct (extract_arms _ _ _ I X) as (arms & e & A & NA & G' & _ & _ & _ & NE & _). specialize (NE eq_refl).
  assert (branches = branches_of arms e) by congruence. subst branches.
  destruct (part_message_in _ _ _ _ _ B IN) as (n & N1 & D & PM).
  destruct (get_difference _ _ _ _ D) as (_ & _ & _ & NM & AG & MX).
  destruct (branches_first arms e NA) as (t & body & others & -> & BF).
  destruct (part_lines _ _ _ _ _ _ PM N1 NM) as (_ & reference & compare & RC & LI). rewrite BF in RC. injection RC as <- _.
  exists ((t, body) :: others), e, n, t, body, others. split; [exact A|]. split; [reflexivity|]. split; [exact LI|]. split; [exact AG|].
  destruct (Nat.eq_dec n (min_length (branches_of ((t, body) :: others) e))) as [EQ|NQ]; [|apply MX; lia].
  intros (text & F). destruct (min_length_in (branches_of ((t, body) :: others) e)) as (b & Ib & Lb); [rewrite BF; discriminate|].
  rewrite Forall_forall in F. destruct (F b Ib) as (s & S1 & _).
  assert (n < length (if fw then b else rev b)) by (apply nth_error_Some; congruence). destruct fw; [|rewrite rev_length in H]; lia.
Qed.

(** Without a message the branches do not begin alike, and end alike at most in one [return]. *)
Lemma silent_parts : forall src node ifs branches, is_if node = true -> extract_from_elif node = (true, ifs) -> get_bodies ifs = Ok branches ->
  identical_before_after_branch src branches = Ok [] ->
  ~ agree src true branches 0 /\
  (agree src false branches 0 -> ~ agree src false branches 1 /\ exists b s, List.In b branches /\ nth_error (rev b) 0 = Some s /\ is_return src s = true).
Proof.
  intros src node ifs branches I X G B.
  assert (MX : forall fw n, get_stmts_difference src branches fw = Ok n -> ~ agree src fw branches n).
  { intros fw n D. destruct (get_difference _ _ _ _ D) as (r & c & EQ & NM & _ & M).
    destruct (Nat.eq_dec n (min_length branches)) as [E|NQ]; [|apply M; lia]. intros (text & F).
    destruct (min_length_in branches) as (b & Ib & Lb); [rewrite EQ; discriminate|]. rewrite Forall_forall in F. destruct (F b Ib) as (s & S1 & _).
    assert (n < length (if fw then b else rev b)) by (apply nth_error_Some; congruence). destruct fw; [|rewrite rev_length in H]; lia. }
  destruct (branch_messages _ _ _ B) as (n & D & H). destruct H as [(-> & AF)|[(_ & _ & Q)|(_ & m & _ & [Q|AF])]]; try discriminate.
  - split; [exact (MX _ _ D)|]. intros AG. destruct (after_messages _ _ _ _ AF) as (k & D' & [(_ & [-> |(-> & r & c & s & EQ & S1 & S2)])|(_ & m & _ & Q)]).
    + destruct (MX _ _ D' AG).
    + split; [exact (MX _ _ D')|]. exists r, s. split; [rewrite EQ; left; reflexivity|]. split; assumption.
    + discriminate.
  - destruct (after_messages _ _ _ _ AF) as (k & _ & [(Q & _)|(_ & m' & _ & Q)]); discriminate.
Qed.

(** ** No exceptions *)

Lemma proper_all : forall l, (fix all l := match l with [] => True | x :: l => proper x /\ all l end) l <-> Forall proper l.
Proof.
  induction l as [|x l IH]; [split; intros; [constructor|exact Logic.I]|]. rewrite IH. split; [intros (H1 & H2); constructor; assumption|].
  intros F. inversion F; subst. split; assumption.
Qed.
Lemma proper_arms : forall arms e, Forall proper (as_ifs arms e) -> Forall (fun b => b <> []) (map snd arms) /\ Forall proper e.
Proof.
  induction arms as [|[t b] arms IH]; intros e F; [split; [constructor|exact F]|]. cbn [as_ifs] in F. inversion F as [|? ? H _]; subst.
  cbn [proper] in H. destruct H as (NB & _ & H). apply proper_all in H. destruct (IH e H) as (F1 & F2). split; [constructor; assumption|exact F2].
Qed.

Section Total.
  Variable src : source.

  Lemma difference_total branches fw : branches <> [] -> Forall (fun b => b <> []) branches -> exists n, get_stmts_difference src branches fw = Ok n.
  Proof.
    intros N F. destruct (min_length_in branches N) as (b & Ib & Lb). rewrite Forall_forall in F. specialize (F b Ib).
    destruct branches as [|r c]; [congruence|]. unfold get_stmts_difference. rewrite <- Lb. destruct b; [congruence|]. eexists. reflexivity.
  Qed.
  Lemma part_total branches n fw : Forall (in_order src) branches -> 1 <= n -> n <= min_length branches -> branches <> [] ->
    exists m, part_message src branches n fw = Ok m.
  Proof.
    intros F N L NE. destruct branches as [|r c]; [congruence|]. pose proof (min_length_le r (r :: c) (or_introl eq_refl)) as LR.
    inversion F as [|? ? OR _]; subst. unfold part_message, at_index.
    assert (RV : forall i s, nth_error (rev r) i = Some s -> exists j, nth_error r j = Some s /\ j + i + 1 = length r).
    { intros i s. clear. revert i. induction r as [|x r IH]; intros i E; [destruct i; discriminate|]. cbn [rev] in E.
      destruct (Nat.lt_ge_cases i (length r)) as [LT|GE].
      - rewrite nth_error_app1 in E by (rewrite rev_length; lia). destruct (IH _ E) as (j & J & Q). exists (S j). split; [exact J|cbn [length]; lia].
      - rewrite nth_error_app2 in E by (rewrite rev_length; lia). rewrite rev_length in E. destruct (i - length r) as [|k] eqn:D; [|destruct k; discriminate].
        injection E as ->. exists 0. split; [reflexivity|cbn [length]; lia]. }
    assert (EX : forall i, i < length r -> exists s, nth_error (if fw then r else rev r) i = Some s).
    { intros i I. destruct (nth_error (if fw then r else rev r) i) as [s|] eqn:Q; [exists s; reflexivity|]. apply nth_error_None in Q.
      destruct fw; [|rewrite rev_length in Q]; lia. }
    destruct (EX (if fw then 0 else n - 1)) as (f & EF); [destruct fw; lia|].
    destruct (EX (if fw then n - 1 else 0)) as (l & EL); [destruct fw; lia|]. rewrite EF, EL.
    assert (LE : (fromlineno src f <= fromlineno src l)%Z).
    { destruct fw; [apply (OR 0 (n - 1)); [lia|assumption|assumption]|].
      destruct (RV _ _ EF) as (j & J & Q). destruct (RV _ _ EL) as (k & K & Q'). apply (OR j k); [lia|assumption|assumption]. }
    apply Z.leb_le in LE. rewrite LE. eexists. reflexivity.
  Qed.
  Lemma after_total branches ms : branches <> [] -> Forall (fun b => b <> []) branches -> Forall (in_order src) branches ->
    exists ms', identical_after src branches ms = Ok ms'.
  Proof.
    intros N F O. unfold identical_after. destruct (difference_total branches false N F) as (n & D). rewrite D. cbn [bind].
    destruct (1 <=? n) eqn:L; [|eexists; reflexivity]. apply Nat.leb_le in L. destruct (get_difference _ _ _ _ D) as (r & c & -> & NM & _).
    inversion F as [|? ? NR _]; subst. unfold at_index.
    destruct (nth_error (rev r) 0) as [s|] eqn:Q.
    - destruct ((n =? 1) && is_return src s); [eexists; reflexivity|]. destruct (part_total (r :: c) n false O L NM N) as (m & ->). eexists. reflexivity.
    - apply nth_error_None in Q. rewrite rev_length in Q. destruct r; [congruence|cbn in Q; lia].
  Qed.
  Lemma branch_total branches : branches <> [] -> Forall (fun b => b <> []) branches -> Forall (in_order src) branches ->
    exists ms, identical_before_after_branch src branches = Ok ms.
  Proof.
    intros N F O. unfold identical_before_after_branch. destruct (difference_total branches true N F) as (n & D). rewrite D. cbn [bind].
    destruct (1 <=? n) eqn:L; [|apply after_total; assumption]. apply Nat.leb_le in L. destruct (get_difference _ _ _ _ D) as (r & c & EQ & NM & _).
    destruct (forallb _ branches); [eexists; reflexivity|]. destruct (part_total branches n true O L NM N) as (m & ->). cbn [bind].
    destruct (existsb _ branches); [eexists; reflexivity|]. apply after_total; assumption.
  Qed.

  Lemma items_if k ifs : Forall (fun s => is_if s = true) ifs -> Forall (fun i => is_if (snd i) = true) (items k ifs).
  Proof.
    intros F. unfold items. rewrite Forall_forall in F |- *. intros [p s] I. apply in_map_iff in I. destruct I as ([d s'] & EQ & I). injection EQ as <- <-.
    apply in_combine_r in I. exact (F _ I).
  Qed.
  Lemma elifs_if s : Forall (fun s => is_if s = true) (elifs s).
  Proof.
    remember (elifs s) as es eqn:E. revert s E. induction es as [|x es IH]; intros s E; [constructor|].
    destruct (elifs_cons _ _ _ (eq_sym E)) as (t & b & -> & I & EQ). constructor; [exact I|exact (IH x EQ)].
  Qed.
  Lemma siblings_if rest : forall k, Forall (fun i => is_if (snd i) = true) (from_siblings k rest).
  Proof.
    induction rest as [|s rest IH]; intros k; cbn [from_siblings]; [constructor|]. destruct (is_if s) eqn:I; [|constructor]. apply Forall_app. split; [|apply IH].
    apply items_if. constructor; [exact I|apply elifs_if].
  Qed.
  Lemma extract_if s b ifs : is_if s = true -> extract_from_elif s = (b, ifs) -> Forall (fun s => is_if s = true) ifs.
  Proof.
    intros I E. unfold extract_from_elif in E. destruct (has_else_block s); [injection E as <- <-; constructor; [exact I|constructor]|].
    assert (F : Forall (fun s => is_if s = true) (s :: elifs s)) by (constructor; [exact I|apply elifs_if]).
    destruct (_ || _); injection E as <- <-; [exact F|]. unfold but_last. rewrite Forall_forall in F |- *. intros x Ix. apply F.
    rewrite <- (firstn_skipn (length (s :: elifs s) - match s with If _ b0 _ => count_nested_ifs b0 | Other _ => 0 end) (s :: elifs s)). apply in_or_app. left. exact Ix.
  Qed.
  Lemma more_total f rest : is_if (snd f) = true -> Forall (fun i => is_if (snd i) = true) rest ->
    exists n, more_ifs src f rest = Ok n /\ n <= length rest.
  Proof.
    intros I F. induction F as [|o rest Io F IH]; [exists 0; split; [reflexivity|cbn; lia]|]. cbn [more_ifs]. unfold joins.
    destruct (is_ancestor (parent_of (fst f)) (fst o)); [|exists 0; split; [reflexivity|lia]].
    destruct (snd f) as [|t b e] eqn:SF; [discriminate|]. destruct (snd o) as [|t' b' e'] eqn:SO; [discriminate|]. cbn [body_of bind].
    destruct (same_texts src b b'); [|exists 0; split; [reflexivity|lia]]. destruct IH as (n & -> & L). exists (S n). split; [reflexivity|cbn [length]; lia].
  Qed.
  Lemma seq_total el fuel : forall ifs, length ifs < fuel -> Forall (fun i => is_if (snd i) = true) ifs -> exists ms, seq_messages src el fuel ifs = Ok ms.
  Proof.
    induction fuel as [|fuel IH]; intros ifs L F; [lia|]. cbn [seq_messages]. destruct ifs as [|f [|o rest]]; [eexists; reflexivity|eexists; reflexivity|].
    inversion F as [|? ? If_ F']; subst. destruct (more_total f (o :: rest) If_ F') as (n & -> & LN). cbn [bind].
        destruct (IH (skipn n (o :: rest))) as (ms & ->); [rewrite skipn_length; cbn [length] in *; lia| |eexists; reflexivity].
    rewrite <- (firstn_skipn n (o :: rest)) in F'. apply Forall_app in F'. apply F'.
  Qed.

  Theorem identical_total prev node rest : is_if node = true -> proper node ->
    (forall arms e, [node] = as_ifs arms e -> Forall (in_order src) (branches_of arms e)) -> exists ms, identical_in_if src prev node rest = Ok ms.
  Proof.
    intros I PR O. unfold identical_in_if. destruct (extract_from_elif node) as [b ifs] eqn:X.
    destruct (extract_arms _ _ _ I X) as (arms & e & A & NA & G & _). rewrite G. cbn [bind].
    assert (NB : Forall (fun b => b <> []) (branches_of arms e)).
    { assert (F : Forall proper (as_ifs arms e)) by (rewrite <- A; constructor; [exact PR|constructor]).
      apply proper_arms in F. destruct F as (F & _). unfold branches_of. apply Forall_app. split; [exact F|]. destruct e; constructor; [discriminate|constructor]. }
    assert (NE : branches_of arms e <> []) by (destruct arms; [congruence|discriminate]).
    assert (IS : exists ms, identical_seq_ifs src b ifs (seq_ifs prev node rest) = Ok ms).
    { pose proof (extract_if _ _ _ I X) as FI. unfold identical_seq_ifs. destruct b.
      - apply seq_total; [unfold items; rewrite map_length, combine_length, seq_length; lia|apply items_if; exact FI].
      - unfold seq_ifs. rewrite X. cbn [snd]. 
        assert (K : exists ms, seq_messages src false (S (length (items 0 ifs ++ from_siblings 1 rest))) (items 0 ifs ++ from_siblings 1 rest) = Ok ms).
        { apply seq_total; [lia|]. apply Forall_app. split; [apply items_if; exact FI|apply siblings_if]. }
        destruct prev as [p|]; [destruct (is_if p && negb (fst (extract_from_elif p))); [eexists; reflexivity|exact K]|exact K]. }
    destruct b; cbn [bind].
    - destruct (branch_total (branches_of arms e) NE NB (O arms e A)) as (ms & ->). cbn [bind]. destruct ms; [exact IS|eexists; reflexivity].
    - exact IS.
  Qed.
End Total.
