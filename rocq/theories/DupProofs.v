(** Moving identical beginnings and ends out of branches. *)
From Coq Require Import String List Bool Arith ZArith Lia.
From Verif Require Import Base DupModel DupSpec.
Import ListNotations.
Local Open Scope string_scope.
Local Open Scope list_scope.
Local Open Scope nat_scope.

(** ** Chains of [if] and [elif] *)

Lemma elifs_cons : forall s e r, elifs s = e :: r -> exists t b, s = If t b [e] /\ is_if e = true /\ r = elifs e.
Proof.
  intros [id|t b o] e r H; [discriminate|]. destruct o as [|x [|y o]]; [discriminate| |discriminate].
  cbn [elifs] in H. destruct x as [id|t' b' o']; [discriminate|]. injection H as <- <-. exists t, b. repeat split.
Qed.

Lemma chain_arms : forall n s, is_if s = true -> n < length (s :: elifs s) ->
  exists arms e, [s] = as_ifs arms e /\ length arms = S n /\ get_bodies (firstn (S n) (s :: elifs s)) = Ok (branches_of arms e) /\
    mapM test_of (firstn (S n) (s :: elifs s)) = Ok (map fst arms) /\ mapM body_of (firstn (S n) (s :: elifs s)) = Ok (map snd arms) /\
    (exists l, nth_error (s :: elifs s) n = Some l /\ orelse_of l = Ok e).
Proof.
  induction n as [|n IH]; intros s I L.
  - destruct s as [id|t b o]; [discriminate|]. exists [(t, b)], o. split; [reflexivity|]. split; [reflexivity|]. split.
    + cbn [firstn get_bodies body_of orelse_of bind]. unfold branches_of. destruct o; reflexivity.
    + split; [reflexivity|]. split; [reflexivity|]. exists (If t b o). split; reflexivity.
  - destruct (elifs s) as [|e r] eqn:E; [cbn in L; lia|]. destruct (elifs_cons _ _ _ E) as (t & b & -> & Ie & ->).
    destruct (IH e Ie) as (arms & el & A & LA & G & T & B & ln & N & O); [cbn [length] in L |- *; lia|].
    exists ((t, b) :: arms), el. split; [cbn [as_ifs]; rewrite <- A; reflexivity|]. split; [cbn [length]; lia|].
    split; [|split; [|split]].
    + change (firstn (S (S n)) (If t b [e] :: e :: elifs e)) with (If t b [e] :: firstn (S n) (e :: elifs e)).
      assert (C : exists x y, firstn (S n) (e :: elifs e) = x :: y) by (cbn [firstn]; eexists; eexists; reflexivity).
      cbn [get_bodies body_of bind]. destruct C as (x & y & C). rewrite C in *. rewrite G. reflexivity.
    + change (firstn (S (S n)) (If t b [e] :: e :: elifs e)) with (If t b [e] :: firstn (S n) (e :: elifs e)). cbn [mapM test_of bind]. rewrite T. reflexivity.
    + change (firstn (S (S n)) (If t b [e] :: e :: elifs e)) with (If t b [e] :: firstn (S n) (e :: elifs e)). cbn [mapM body_of bind]. rewrite B. reflexivity.
    + exists ln. split; [exact N|exact O].
Qed.

Lemma last_cons : forall (A : Type) (l : list A) x d, last (x :: l) d = last l x.
Proof.
  intros A l. induction l as [|y l IH]; intros x d; [reflexivity|]. change (last (x :: y :: l) d) with (last (y :: l) d). rewrite !IH. reflexivity.
Qed.
Lemma last_nth : forall (A : Type) (l : list A) d, nth_error (d :: l) (length l) = Some (last l d).
Proof.
  intros A l. induction l as [|x l IH]; intros d; [reflexivity|]. rewrite last_cons. exact (IH x).
Qed.

Lemma no_else_elif : forall s, is_if s = true -> has_else_block s = false -> elifs s <> [] \/ exists t b, s = If t b [].
Proof.
  intros [id|t b o] I H; [discriminate|]. destruct o as [|x [|y o]].
  - right. exists t, b. reflexivity.
  - left. cbn in H. destruct x; [discriminate|]. discriminate.
  - destruct x; discriminate.
Qed.
Lemma else_no_elif : forall s, has_else_block s = true -> elifs s = [] /\ exists t b o, s = If t b o /\ o <> [].
Proof.
  intros [id|t b o] H; [discriminate|]. destruct o as [|x [|y o]]; [discriminate| |].
  - destruct x; [|discriminate]. split; [reflexivity|]. exists t, b, [Other id]. split; [reflexivity|discriminate].
  - split; [reflexivity|]. exists t, b, (x :: y :: o). split; [reflexivity|discriminate].
Qed.

(** What [extract_from_elif] gives is a chain of the examined statement, and if it says so the chain has an [else] branch. *)
Lemma extract_arms : forall s b ifs, is_if s = true -> extract_from_elif s = (b, ifs) ->
  exists arms e, [s] = as_ifs arms e /\ arms <> [] /\ get_bodies ifs = Ok (branches_of arms e) /\ mapM test_of ifs = Ok (map fst arms) /\
    mapM body_of ifs = Ok (map snd arms) /\ length ifs = length arms /\ (b = true -> e <> []) /\ (b = false -> e = []).
Proof.
  intros s b ifs I E. unfold extract_from_elif in E. destruct (has_else_block s) eqn:H.
  - injection E as <- <-. destruct (else_no_elif _ H) as (EL & t & b & o & -> & NO).
    destruct (chain_arms 0 (If t b o) eq_refl) as (arms & e & A & LA & G & T & B & ln & N & O); [cbn; lia|].
    exists arms, e. cbn [firstn] in *. repeat (split; [eassumption || (intros ->; discriminate) || (cbn; lia)|]).
    injection N as <-. injection O as <-. split; intros; [exact NO|discriminate].
  - set (nc := match s with If _ b0 _ => count_nested_ifs b0 | Other _ => 0 end) in E.
    destruct ((nc =? 0) || (length (s :: elifs s) <=? nc)) eqn:C.
    + injection E as <- <-.
      destruct (chain_arms (length (elifs s)) s I) as (arms & e & A & LA & G & T & B & ln & N & O); [cbn; lia|].
      change (S (length (elifs s))) with (length (s :: elifs s)) in G, T, B. rewrite firstn_all in G, T, B.
      exists arms, e. split; [exact A|]. split; [intros ->; discriminate|]. split; [exact G|]. split; [exact T|]. split; [exact B|].
      split; [cbn [length]; lia|]. rewrite last_nth in N. injection N as <-. unfold last_if.
      set (l := last (elifs s) s) in *.
      assert (IL : is_if l = true /\ elifs l = []).
      { clear - I. subst l. remember (elifs s) as es eqn:ES. revert s I ES. induction es as [|x es IH]; intros s I ES; [split; [exact I|symmetry; exact ES]|].
        destruct (elifs_cons _ _ _ (eq_sym ES)) as (t & b & -> & Ix & EQ).
        rewrite last_cons.
        exact (IH x Ix EQ). }
      destruct IL as (IL & EL). split; intros HB.
      * destruct (else_no_elif _ HB) as (_ & t & b & o & EQ & NO). rewrite EQ in O. injection O as <-. exact NO.
      * destruct (no_else_elif _ IL HB) as [N|(t & b & EQ)]; [contradiction|]. rewrite EQ in O. injection O as <-. reflexivity.
    + injection E as <- <-. apply orb_false_iff in C. destruct C as (C0 & C1). apply Nat.eqb_neq in C0. apply Nat.leb_gt in C1.
      set (result := s :: elifs s) in *. unfold but_last. set (n := length result - nc).
      assert (exists m, n = S m) as (m & M) by (exists (n - 1); unfold n; lia). 
      destruct (chain_arms m s I) as (arms & e & A & LA & G & T & B & ln & N & O); [fold result; lia|]. fold result in G, T, B, N. rewrite <- M in G, T, B.
      exists arms, e. split; [exact A|]. split; [intros ->; discriminate|]. split; [exact G|]. split; [exact T|]. split; [exact B|].
      split; [rewrite firstn_length; lia|]. split; [|discriminate]. intros _ ->.
      (* the next one in the chain is in the else branch *)
      assert (NX : S m < length result) by lia. clear - N O NX. subst result.
      revert s N NX. induction m as [|m IH]; intros s N NX.
      * injection N as <-. destruct (elifs s) as [|x r] eqn:ES; [cbn in NX; lia|]. destruct (elifs_cons _ _ _ ES) as (t & b & -> & _). discriminate.
      * destruct (elifs s) as [|x r] eqn:ES; [cbn in NX; lia|]. destruct (elifs_cons _ _ _ ES) as (t & b & -> & _ & ->).
        cbn [nth_error] in N. apply (IH x); [exact N|cbn [length] in NX |- *; lia].
Qed.

(** ** How chains run *)

Section Chains.
  Context {State : Type}.
  Variable P : python State.

  Lemma run_app a b st : run_block P (a ++ b) st = match run_block P a st with (st', true) => run_block P b st' | r => r end.
  Proof.
    unfold run_block. revert st. induction a as [|x a IH]; intros st; [reflexivity|]. cbn [app run_list].
    destruct (run P x st) as [st' [|]]; [apply IH|reflexivity].
  Qed.
  Lemma run_one s st : run_block P [s] st = run P s st.
  Proof. unfold run_block. cbn [run_list]. destruct (run P s st) as [st' [|]]; reflexivity. Qed.
  Lemma run_if t b o st : run P (If t b o) st =
    match truth P t st with (st', Some true) => run_block P b st' | (st', Some false) => run_block P o st' | (st', None) => (st', false) end.
  Proof. reflexivity. Qed.

  (** A statement after a chain is as good as at the end of all its branches. *)
  Lemma after_chain arms e tail_ st :
    run_block P (as_ifs (map (fun '(t, b) => (t, b ++ tail_)) arms) (e ++ tail_)) st = run_block P (as_ifs arms e ++ tail_) st.
  Proof.
    revert st. induction arms as [|[t b] arms IH]; intros st; [reflexivity|]. cbn [map as_ifs]. rewrite run_app, !run_one, !run_if.
    destruct (truth P t st) as [st' [[|]|]]; [apply run_app| |reflexivity]. rewrite IH, run_app. reflexivity.
  Qed.

  (** A statement before a chain, if it does not change the conditions. *)
  Lemma before_chain arms e head_ st : Forall (fun '(t, _) => undisturbed P head_ t) arms ->
    run_block P (as_ifs (map (fun '(t, b) => (t, head_ ++ b)) arms) (head_ ++ e)) st = run_block P (head_ ++ as_ifs arms e) st.
  Proof.
    revert st. induction arms as [|[t b] arms IH]; intros st F; [reflexivity|]. inversion F as [|? ? U F']; subst. cbn [map as_ifs].
    rewrite run_app, run_one, run_if. destruct (U st) as (c & T & K). rewrite T.
    destruct c.
    - rewrite run_app. destruct (run_block P head_ st) as [st' [|]] eqn:R; [|reflexivity]. rewrite run_one, run_if. rewrite (K st' eq_refl). reflexivity.
    - rewrite (IH st F'), run_app. destruct (run_block P head_ st) as [st' [|]] eqn:R; [|reflexivity]. rewrite run_one, run_if. rewrite (K st' eq_refl). reflexivity.
  Qed.

  Lemma same_chain arms arms' e e' : Forall2 (fun '(t, b) '(t', b') => t = t' /\ same_run P b b') arms arms' -> same_run P e e' ->
    same_run P (as_ifs arms e) (as_ifs arms' e').
  Proof.
    intros F E. induction F as [|[t b] [t' b'] arms arms' (-> & S1) F IH]; intros st; [apply E|]. cbn [as_ifs]. rewrite !run_one, !run_if.
    destruct (truth P t' st) as [st' [[|]|]]; [apply S1|apply IH|reflexivity].
  Qed.

  Variable src : source.
  Hypothesis decides : text_decides P src.
  Lemma same_code_run a b : same_code src a b -> same_run P a b.
  Proof.
    unfold same_code. revert b. induction a as [|x a IH]; intros [|y b] H st; try discriminate; [reflexivity|]. cbn [map] in H.
    injection H as H1 H2. unfold run_block. cbn [run_list]. rewrite (decides x y H1). destruct (run P y st) as [st' [|]]; [exact (IH b H2 st')|reflexivity].
  Qed.
End Chains.

(** ** Common parts *)

Lemma nth_firstn : forall (A : Type) (l : list A) n m, m < n -> nth_error (firstn n l) m = nth_error l m.
Proof.
  intros A l. induction l as [|x l IH]; intros n m L; [destruct n; reflexivity|]. destruct n as [|n]; [lia|]. destruct m as [|m]; [reflexivity|].
  apply IH. lia.
Qed.

Section Common.
  Variable src : source.

  Lemma differ_false reference branch i forward : differ src reference branch i forward = false <->
    exists a b, at_index reference i forward = Some a /\ at_index branch i forward = Some b /\ as_string src a = as_string src b.
  Proof.
    unfold differ. destruct (at_index reference i forward) as [a|]; [destruct (at_index branch i forward) as [b|]|].
    - rewrite negb_false_iff, String.eqb_eq. split; [intros E; exists a, b; auto|intros (a' & b' & E1 & E2 & E3); congruence].
    - split; [discriminate|intros (a' & b' & _ & E & _); discriminate].
    - split; [discriminate|intros (a' & b' & E & _); discriminate].
  Qed.

  Lemma difference_spec reference compare forward n : forall i k, difference_from src reference compare forward i n = k ->
    i <= k <= i + n /\ (forall j, i <= j < k -> existsb (fun branch => differ src reference branch j forward) compare = false) /\
    (k < i + n -> existsb (fun branch => differ src reference branch k forward) compare = true).
  Proof.
    induction n as [|n IH]; intros i k E; cbn [difference_from] in E.
    - subst k. split; [lia|]. split; intros; lia.
    - destruct (existsb _ compare) eqn:X.
      + subst k. split; [lia|]. split; [intros; lia|]. intros _. exact X.
      + apply IH in E. destruct E as (B & A & M). split; [lia|]. split.
        * intros j J. destruct (Nat.eq_dec j i) as [->|N]; [exact X|]. apply A. lia.
        * intros L. apply M. lia.
  Qed.

  Lemma min_length_le b branches : List.In b branches -> min_length branches <= length b.
  Proof.
    destruct branches as [|r bs]; [intros []|]. cbn [min_length]. intros I.
    assert (A : forall m, fold_right (fun b n => Nat.min (length b) n) m bs <= m).
    { clear I. induction bs as [|x bs IH]; intros m; [cbn; lia|]. cbn [fold_right]. specialize (IH m). lia. }
    destruct I as [->|I]; [apply A|]. revert I. clear A. induction bs as [|x bs IH]; intros I; [destruct I|]. cbn [fold_right].
    destruct I as [->|I]; [lia|]. specialize (IH I). lia.
  Qed.
  Lemma min_length_in branches : branches <> [] -> exists b, List.In b branches /\ length b = min_length branches.
  Proof.
    destruct branches as [|r bs]; [congruence|]. intros _. cbn [min_length]. induction bs as [|x bs IH]; [exists r; split; [left; reflexivity|reflexivity]|].
    cbn [fold_right]. destruct IH as (b & I & L). set (m := fold_right (fun b n => Nat.min (length b) n) (length r) bs) in *.
    destruct (Nat.le_ge_cases (length x) m).
    - exists x. split; [right; left; reflexivity|lia].
    - exists b. split; [|lia]. destruct I as [->|I]; [left; reflexivity|right; right; exact I].
  Qed.

  Lemma get_difference branches forward k : get_stmts_difference src branches forward = Ok k ->
    exists reference compare, branches = reference :: compare /\ k <= min_length branches /\
      (forall j, j < k -> agree src forward branches j) /\ (k < min_length branches -> ~ agree src forward branches k).
  Proof.
    intros E. destruct branches as [|reference compare]; [discriminate|]. exists reference, compare. split; [reflexivity|]. unfold get_stmts_difference in E.
    destruct (min_length (reference :: compare)) as [|n] eqn:M; [discriminate|].
    assert (D : difference_from src reference compare forward 0 (S n) = k) by congruence. clear E.
    destruct (difference_spec _ _ _ _ _ _ D) as (B & A & X). split; [lia|].
    assert (LR : S n <= length reference) by (rewrite <- M; apply min_length_le; left; reflexivity).
    split.
    - intros j J. specialize (A j ltac:(lia)).
      assert (AR : exists s, at_index reference j forward = Some s).
      { unfold at_index. destruct (nth_error (if forward then reference else rev reference) j) as [s|] eqn:N; [exists s; reflexivity|].
        apply nth_error_None in N. destruct forward; [|rewrite rev_length in N]; lia. }
      destruct AR as (s & AR). exists (as_string src s). constructor; [exists s; split; [exact AR|reflexivity]|].
      rewrite Forall_forall. intros b I.
      assert (DF : differ src reference b j forward = false).
      { destruct (differ src reference b j forward) eqn:Q; [|reflexivity]. rewrite <- A. symmetry. apply existsb_exists. exists b. split; assumption. }
      apply differ_false in DF. destruct DF as (x & y & Ex & Ey & E). exists y. split; [exact Ey|congruence].
    - intros L (text & F). specialize (X L). apply existsb_exists in X. destruct X as (b & I & DF).
      rewrite Forall_forall in F. destruct (F reference (or_introl eq_refl)) as (s & S1 & S2). destruct (F b (or_intror I)) as (s' & T1 & T2).
      assert (differ src reference b k forward = false) by (apply differ_false; exists s, s'; split; [exact S1|split; [exact T1|congruence]]). congruence.
  Qed.

  (** Agreeing at the first places means having a common beginning. *)
  Lemma common_prefix k : forall (a b : list stmt), k <= length a -> k <= length b ->
    (forall j, j < k -> exists s t, nth_error a j = Some s /\ nth_error b j = Some t /\ as_string src s = as_string src t) ->
    same_code src (firstn k a) (firstn k b).
  Proof.
    unfold same_code. induction k as [|k IH]; intros a b LA LB H; [reflexivity|].
    destruct a as [|x a]; [cbn in LA; lia|]. destruct b as [|y b]; [cbn in LB; lia|]. cbn [firstn map]. f_equal.
    - destruct (H 0 ltac:(lia)) as (s & t & E1 & E2 & E). cbn in E1, E2. congruence.
    - apply IH; [cbn in LA; lia|cbn in LB; lia|]. intros j J. apply (H (S j)). lia.
  Qed.
  Lemma rev_firstn (A : Type) k (l : list A) : k <= length l -> rev (firstn k (rev l)) = last_part k l.
  Proof. intros L. unfold last_part. rewrite firstn_rev, rev_involutive. reflexivity. Qed.

  Lemma agree_pair forward branches j a b : agree src forward branches j -> List.In a branches -> List.In b branches ->
    exists s t, nth_error (if forward then a else rev a) j = Some s /\ nth_error (if forward then b else rev b) j = Some t /\ as_string src s = as_string src t.
  Proof.
    intros (text & F) Ia Ib. rewrite Forall_forall in F. destruct (F a Ia) as (s & S1 & S2). destruct (F b Ib) as (t & T1 & T2).
    exists s, t. repeat split; congruence.
  Qed.

  Lemma agree_prefix branches k a b : k <= min_length branches -> (forall j, j < k -> agree src true branches j) ->
    List.In a branches -> List.In b branches -> same_code src (firstn k a) (firstn k b).
  Proof.
    intros L H Ia Ib. apply common_prefix; [pose proof (min_length_le _ _ Ia); lia|pose proof (min_length_le _ _ Ib); lia|].
    intros j J. exact (agree_pair true branches j a b (H j J) Ia Ib).
  Qed.
  Lemma agree_suffix branches k a b : k <= min_length branches -> (forall j, j < k -> agree src false branches j) ->
    List.In a branches -> List.In b branches -> same_code src (last_part k a) (last_part k b).
  Proof.
    intros L H Ia Ib. pose proof (min_length_le _ _ Ia). pose proof (min_length_le _ _ Ib).
    rewrite <- (rev_firstn _ k a), <- (rev_firstn _ k b) by lia. unfold same_code. rewrite !map_rev. f_equal.
    apply common_prefix; [rewrite rev_length; lia|rewrite rev_length; lia|].
    intros j J. exact (agree_pair false branches j a b (H j J) Ia Ib).
  Qed.

  Lemma part_lines branches n forward lines fw : part_message src branches n forward = Ok (BranchesPart lines fw) -> 1 <= n -> n <= min_length branches ->
    fw = forward /\ exists reference compare, branches = reference :: compare /\ lines_of src (if forward then firstn n reference else last_part n reference) lines.
  Proof.
    intros E N L. destruct branches as [|reference compare]; [discriminate|]. unfold part_message in E.
    pose proof (min_length_le reference (reference :: compare) (or_introl eq_refl)) as LR.
    destruct (at_index reference _ forward) as [f|] eqn:F; [|discriminate].
    destruct (at_index reference (if forward then n - 1 else 0) forward) as [l|] eqn:LA; [|discriminate].
    destruct (fromlineno src f <=? fromlineno src l)%Z; [|discriminate]. injection E as <- <-. split; [reflexivity|].
    exists reference, compare. split; [reflexivity|].
    assert (K : forall q : list stmt, length q = n -> nth_error q 0 = Some f -> nth_error q (n - 1) = Some l ->
      lines_of src q (tolineno src l - fromlineno src f + 1)%Z).
    { intros q LQ Q0 Q1. destruct q as [|x q]; [cbn in LQ; lia|]. injection Q0 as ->.
      exists f, l, q, (firstn (n - 1) (f :: q)). split; [reflexivity|]. split; [|reflexivity].
      rewrite <- (firstn_skipn (n - 1) (f :: q)) at 1. f_equal.
      assert (SK : skipn (n - 1) (f :: q) = l :: skipn n (f :: q)).
      { clear - Q1 N. revert Q1. replace n with (S (n - 1)) at 3 by lia. generalize (n - 1) as m. generalize (f :: q) as p.
        induction p as [|y p IH]; intros m Q; [destruct m; discriminate|]. destruct m as [|m]; [injection Q as ->; reflexivity|]. exact (IH m Q). }
      rewrite SK. f_equal. apply skipn_all2. lia. }
    destruct forward.
    - unfold at_index in F, LA. assert (LF : length (firstn n reference) = n) by (rewrite firstn_length; lia). apply K; [exact LF| |].
      + destruct reference; [discriminate|]. destruct n; [lia|]. exact F.
      + rewrite <- LA. apply nth_firstn. lia.
    - unfold at_index in F, LA. assert (LF : length (last_part n reference) = n) by (unfold last_part; rewrite skipn_length; lia).
      assert (NR : forall i, i < length reference -> nth_error (rev reference) i = nth_error reference (length reference - S i)).
      { intros i I. destruct (nth_error (rev reference) i) as [x|] eqn:X.
        - symmetry. rewrite <- (rev_involutive reference) at 1.
          assert (G : forall (q : list stmt) j y, nth_error q j = Some y -> nth_error (rev q) (length q - S j) = Some y).
          { clear. induction q as [|z q IH]; intros j y Q; [destruct j; discriminate|]. cbn [rev length]. destruct j as [|j].
            - injection Q as ->. rewrite nth_error_app2; rewrite rev_length; [|lia]. replace (S (length q) - 1 - length q) with 0 by lia. reflexivity.
            - pose proof (nth_error_Some q j) as NS. assert (j < length q) by (apply NS; cbn in Q; congruence).
              rewrite nth_error_app1; [|rewrite rev_length; lia]. replace (S (length q) - S (S j)) with (length q - S j) by lia. exact (IH j y Q). }
          rewrite <- (rev_length reference). exact (G _ _ _ X).
        - apply nth_error_None in X. rewrite rev_length in X. lia. }
      rewrite NR in F, LA by lia. apply K; [exact LF| |]; unfold last_part.
      + rewrite <- F. replace (length reference - S (n - 1)) with (length reference - n) by lia.
        generalize (length reference - n) as m. generalize reference. clear. induction reference as [|x r IH]; intros m; destruct m; try reflexivity. apply IH.
      + rewrite <- LA. replace (length reference - 1) with ((length reference - n) + (n - 1)) by lia.
        generalize (length reference - n) as m. generalize (n - 1) as i. generalize reference. clear.
        induction reference as [|x r IH]; intros i m; destruct m; try reflexivity; [destruct i; reflexivity|]. apply IH.
  Qed.
End Common.
