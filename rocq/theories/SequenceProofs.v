(** Proofs about the merging of consecutive if statements. *)
From Coq Require Import String Ascii List Bool Arith NArith ZArith QArith Lia.
From Verif Require Import Base PyModel PySpec PyProofs IfModel IfSpec IfProofs FoldModel FoldSpec FoldProofs TypeModel LocalModel LocalSpec LocalProofs MergeSpec SolverModel SolverSpec SolverProofs RedundantProofs ChainModel ChainSpec ChainProofs ChainRightProofs SequenceModel SequenceSpec.
Import ListNotations.
Local Open Scope string_scope.
Local Open Scope list_scope.
Local Open Scope nat_scope.

(** ** What the solver says *)
Section Solver.
  Variable unsat : zexpr -> bool.
  Hypothesis SOUND : sound unsat.
  Variable E : environment.
  Variable rel : zexpr.
  Hypothesis REL : ev E rel true.
  Lemma ev_or l bs : Forall2 (ev E) l bs -> ev E (ZOr l) (existsb (fun b => b) bs).
  Proof. intro F. exact (ev_bool E true l bs F). Qed.
  Lemma excludes_right neg nb : ev E neg nb -> forall cs nt bs, excludes unsat rel nt cs neg = true -> Forall2 (ev E) cs bs -> Forall2 (ev E) nt (map (fun _ => false) nt) ->
    existsb (fun b => b) bs = true -> nb = true.
  Proof.
    intro N. induction cs as [|c cs IH]; intros nt bs X F FN T; inversion F as [|? b ? bs' EC F']; subst; [discriminate T|]. cbn [excludes] in X.
    destruct (implies unsat rel (ZOr (ZNot c :: nt ++ [neg]))) eqn:IM; [|discriminate]. cbn [existsb] in T. destruct b.
    - assert (Q : Forall2 (ev E) (ZNot c :: nt ++ [neg]) (false :: map (fun _ => false) nt ++ [nb])).
      { constructor; [exact (ev_not E c true EC)|]. apply Forall2_app; [exact FN|]. constructor; [exact N|constructor]. }
      pose proof (implied unsat SOUND E rel _ true _ IM REL (ev_or _ _ Q) eq_refl) as K. cbn [existsb] in K. rewrite existsb_app in K. cbn [existsb] in K.
      assert (Z0 : existsb (fun b : bool => b) (map (fun _ : zexpr => false) nt) = false) by (clear; induction nt; [reflexivity|exact IHnt]). rewrite Z0 in K. cbn in K. rewrite orb_false_r in K. exact K.
    - refine (IH (nt ++ [c]) bs' X F' _ T). rewrite map_app. apply Forall2_app; [exact FN|]. constructor; [exact EC|constructor].
  Qed.
  Lemma can_merge_right c1 c2 b1 b2 : can_merge unsat c1 c2 rel = true -> Forall2 (ev E) c1 b1 -> Forall2 (ev E) c2 b2 -> existsb (fun b => b) b1 = true -> forallb negb b2 = true.
  Proof.
    intros C F1 F2 T. unfold can_merge in C.
    assert (N : ev E (match c2 with [c] => ZNot c | _ => ZAnd (map ZNot c2) end) (forallb negb b2)).
    { assert (A : ev E (ZAnd (map ZNot c2)) (forallb negb b2)).
      { assert (M : forallb (fun b => b) (map negb b2) = forallb negb b2) by (clear; induction b2 as [|b l IH]; [reflexivity|]; cbn [map forallb]; rewrite IH; reflexivity). rewrite <- M. apply ev_and. clear -F2. induction F2 as [|z b l l' X F IH]; [constructor|]. constructor; [exact (ev_not E z b X)|exact IH]. }
      destruct c2 as [|c [|c' c2]]; try exact A. inversion F2 as [|? b ? ? X F']; subst. inversion F'; subst. cbn [forallb]. rewrite andb_true_r. exact (ev_not E c b X). }
    exact (excludes_right _ _ N c1 [] b1 C F1 (Forall2_nil _) T).
  Qed.
End Solver.

(** ** Groups *)
Section Group.
  Context {W B : Type}.
  Variable P : python W.
  Variable run : B -> W -> W * res unit.
  Definition no (w : W) (t : expr) : Prop := test P t w = (w, Ok false).
  Definition known (w : W) (t : expr) : Prop := exists b, test P t w = (w, Ok b).
  Lemma branches_cases (l : list (expr * B)) w : Forall (known w) (map fst l) ->
    (Forall (no w) (map fst l) /\ forall l' e, run_branches P run (l ++ l') e w = run_branches P run l' e w) \/
    (exists t b, List.In (t, b) l /\ test P t w = (w, Ok true) /\ forall l' e, run_branches P run (l ++ l') e w = run b w).
  Proof.
    induction l as [|[t b] l IH]; cbn [map fst]; intro F; [left; split; [constructor|reflexivity]|]. inversion F as [|? ? (v & T) F']; subst. destruct v.
    - right. exists t, b. split; [left; reflexivity|]. split; [exact T|]. intros l' e. cbn [app run_branches]. rewrite T. reflexivity.
    - destruct (IH F') as [[N R]|(t' & b' & I & T' & R)].
      + left. split; [constructor; assumption|]. intros l' e. cbn [app run_branches]. rewrite T. apply R.
      + right. exists t', b'. split; [right; exact I|]. split; [exact T'|]. intros l' e. cbn [app run_branches]. rewrite T. apply R.
  Qed.
  Lemma no_known w t : no w t -> known w t. Proof. intro N. exists false. exact N. Qed.
  Lemma none_run (s : if_statement B) w : otherwise s = None -> Forall (no w) (conditions s) -> run_if P run s w = (w, Ok tt).
  Proof.
    unfold run_if, conditions. intros -> F. induction (branches s) as [|[t b] l IH]; [reflexivity|]. cbn [map fst] in F. inversion F as [|? ? T F']; subst. cbn [run_branches]. rewrite T. exact (IH F').
  Qed.
  Lemma none_run_all (l : list (if_statement B)) w : Forall (fun s => otherwise s = None /\ Forall (no w) (conditions s)) l -> run_all P run l w = (w, Ok tt).
  Proof. induction 1 as [|s l [O N] F IH]; [reflexivity|]. cbn [run_all]. rewrite (none_run s w O N). exact IH. Qed.
  Fixpoint apart (g : list (if_statement B)) (w : W) : Prop :=
    match g with
    | [] => True
    | s :: g =>
        otherwise s = None /\ Forall (known w) (conditions s) /\ (Forall (no w) (conditions s) -> apart g w) /\
        (forall t w', List.In t (conditions s) -> test P t w = (w, Ok true) -> run_if P run s w = (w', Ok tt) ->
           Forall (fun s => otherwise s = None /\ Forall (no w') (conditions s)) g)
    end.
  Lemma apart_same g : forall w, apart g w -> run_all P run g w = run_branches P run (concat (map branches g)) None w.
  Proof.
    induction g as [|s g IH]; intros w A; [reflexivity|]. destruct A as (O & K & A1 & A2). cbn [run_all map concat]. unfold run_if at 1. rewrite O.
    destruct (branches_cases (branches s) w K) as [[N R]|(t & b & I & T & R)].
    - rewrite R. specialize (R [] None). rewrite app_nil_r in R. rewrite R. cbn [run_branches]. exact (IH w (A1 N)).
    - rewrite R. specialize (R [] None). rewrite app_nil_r in R. rewrite R. destruct (run b w) as [w' [[]|x]] eqn:RB; [|reflexivity]. apply none_run_all. refine (A2 t w' _ T _); [unfold conditions; apply in_map_iff; exists (t, b); auto|]. unfold run_if. rewrite O. exact R.
  Qed.
  Lemma run_all_app l l' w w' : run_all P run l w = (w', Ok tt) -> run_all P run (l ++ l') w = run_all P run l' w'.
  Proof.
    revert w. induction l as [|s l IH]; intros w R; [cbn [run_all] in R; assert (w = w') by congruence; subst; reflexivity|]. cbn [app run_all] in *. destruct (run_if P run s w) as [w1 [[]|x]]; [exact (IH w1 R)|discriminate].
  Qed.
End Group.

Lemma Forall_app_2 {A} {Q : A -> Prop} {l l'} : Forall Q l -> Forall Q l' -> Forall Q (l ++ l').
Proof. intros A1 A2. apply Forall_app. split; assumption. Qed.
(** ** Counting *)
Section Count.
  Variable unsat : zexpr -> bool.
  Hypothesis SOUND : sound unsat.
  Fixpoint all_merge (rel : zexpr) (merged : list zexpr) (l : list (list zexpr)) : Prop :=
    match l with [] => True | c :: l => can_merge unsat merged c rel = true /\ all_merge rel (merged ++ c) l end.
  Lemma count_more_ok rel rest : forall merged, let n := fst (count_more unsat rel merged rest) in n <= length rest /\ all_merge rel merged (firstn n rest).
  Proof.
    induction rest as [|c rest IH]; intros merged; cbn [count_more]; [split; [reflexivity|exact Logic.I]|]. destruct (can_merge unsat merged c rel) eqn:C; [|split; [apply Nat.le_0_l|exact Logic.I]].
    cbn zeta. cbn [fst]. destruct (IH (merged ++ c)) as [L A]. cbn [firstn length all_merge]. split; [lia|]. split; [exact C|exact A].
  Qed.
  Lemma all_merge_right E rel : ev E rel true -> forall l merged bs bss, all_merge rel merged l -> Forall2 (ev E) merged bs -> existsb (fun b => b) bs = true -> Forall2 (Forall2 (ev E)) l bss ->
    Forall (fun bs => forallb negb bs = true) bss.
  Proof.
    intro R. induction l as [|c l IH]; intros merged bs bss A F T FF; inversion FF as [|? b ? bss' EC FF']; subst; [constructor|]. destruct A as [C A].
    constructor; [exact (can_merge_right unsat SOUND E rel R merged c bs b C F EC T)|]. refine (IH (merged ++ c) (bs ++ b) bss' A (Forall2_app F EC) _ FF'). rewrite existsb_app, T. reflexivity.
  Qed.
  (** The count, and the lists from the next index on. *)
  Lemma counted rel l i k l' : count_mergeable unsat rel l i = Ok (k, l') -> 1 <= k /\ (l = [] /\ l' = [] /\ k = 1 \/
    exists c rest, skipn i l = c :: rest /\ k <= S (length rest) /\ all_merge rel c (firstn (k - 1) rest) /\ length l' = length l /\ forall j, 1 <= j -> skipn (i + j) l' = skipn j (skipn i l)).
  Proof.
    unfold count_mergeable. destruct l as [|x l0]; [intro K; assert (k = 1 /\ l' = []) as [-> ->] by (split; congruence); split; [lia|]; left; auto|]. set (l := x :: l0).
    destruct (get l i) as [c|] eqn:G; [|discriminate]. cbn [bind]. intro K. unfold get in G. destruct (nth_error l i) as [c'|] eqn:N; [|discriminate]. assert (c' = c) by congruence. subst c'. clear G.
    assert (SP : skipn i l = c :: skipn (S i) l).
    { clear -N. revert N. generalize l. clear l. induction i as [|i IH]; intros [|y l] N; try discriminate; cbn [nth_error] in N; [assert (y = c) by congruence; subst; reflexivity|]. cbn [skipn]. apply IH. exact N. }
    set (r := count_more unsat rel c (skipn (S i) l)) in *. assert (K1 : k = S (fst r)) by congruence. assert (K2 : l' = firstn i l ++ snd r :: skipn (S i) l) by congruence. clear K. subst k l'.
    split; [lia|]. right. exists c, (skipn (S i) l). split; [exact SP|]. destruct (count_more_ok rel (skipn (S i) l) c) as [L A]. fold r in L, A. split; [lia|]. split; [replace (S (fst r) - 1) with (fst r) by lia; exact A|].
    assert (LI : i < length l) by (apply nth_error_Some; congruence). assert (LF : length (firstn i l) = i) by (apply firstn_length_le; lia). split.
    - rewrite app_length, LF. cbn [length]. rewrite skipn_length. lia.
    - intros j J. rewrite skipn_app, LF. rewrite skipn_all2 by (rewrite LF; lia). replace (i + j - i) with j by lia. destruct j as [|j]; [lia|]. rewrite SP. reflexivity.
  Qed.
End Count.

Section Right.
  Variable unsat : zexpr -> bool.
  Hypothesis SOUND : sound unsat.
  Variables (I : purity) (H : host) (G : inspection).
  Hypothesis CH : closed_host H.
  Context {W B : Type}.
  Variable P : python W.
  Hypothesis AG : agrees P H.
  Variable run : B -> W -> W * res unit.
  Variable may_modify : expr -> list (if_statement B) -> bool.
  Variable Inv : W -> Prop.
  Hypothesis ABS : forall w, Inv w -> has_abs P w.
  Hypothesis KNOWN : modifications_known P run Inv may_modify.

  (** ** Conditions that are not modified *)
  Definition started (c : expr) : Prop := exists da db, initialize H G true false true c da = Ok (true, db).
  Fixpoint good (d : variables) (rest : list (if_statement B)) (L : list (list zexpr)) {struct L} : Prop :=
    match L with
    | [] => True
    | z :: L =>
        match rest with
        | [] => False
        | s :: rest' => otherwise s = None /\ convert_each H d (conditions s) = Ok (Some z) /\
            Forall (fun c => may_modify c (removelast rest) = false /\ started c) (conditions s) /\ good d rest' L
        end
    end.
  Lemma good_skip d k : forall rest L, good d rest L -> good d (skipn k rest) (skipn k L).
  Proof. induction k as [|k IH]; intros rest [|z L] X; try exact X. destruct rest as [|s rest]; [destruct X|]. cbn [skipn]. apply IH. exact (proj2 (proj2 (proj2 X))). Qed.
  Lemma good_first d k : forall rest L, good d rest L -> good d rest (firstn k L).
  Proof. induction k as [|k IH]; intros rest [|z L] X; try exact Logic.I. destruct rest as [|s rest]; [destruct X|]. destruct X as (A & C & D & X). exact (conj A (conj C (conj D (IH rest L X)))). Qed.
  Lemma good_length d rest : forall L, good d rest L -> length L <= length rest.
  Proof. induction rest as [|s rest IH]; intros [|z L] X; cbn [length]; try lia; [destruct X|]. specialize (IH L (proj2 (proj2 (proj2 X)))). lia. Qed.

  Lemma valid_conditions_ok later cs : forall d d1, valid_conditions may_modify I H G later cs d = Ok (true, d1) -> Forall (fun c => may_modify c later = false /\ started c) cs.
  Proof.
    induction cs as [|c cs IH]; intros d d1 V; [constructor|]. cbn [valid_conditions] in V. destruct (may_modify c later) eqn:M; [discriminate|]. cbn [orb] in V.
    destruct (is_pure_expression I c); cbn [negb] in V; [|discriminate]. destruct (initialize H G true false true c d) as [[[] dx]|] eqn:IX; try discriminate. cbn [bind fst snd] in V.
    constructor; [split; [exact M|exists d, dx; exact IX]|exact (IH _ _ V)].
  Qed.
  Lemma valid_good d' rest : forall d n d1 L, valid_ifs may_modify I H G rest d = Ok (n, d1) -> convert_ifs H d' (firstn n rest) = Ok (Some L) -> good d' rest L.
  Proof.
    induction rest as [|s rest IH]; intros d n d1 L V C.
    - cbn [valid_ifs] in V. assert (n = 0) by congruence. subst n. cbn [firstn convert_ifs] in C. assert (L = []) by congruence. subst L. exact Logic.I.
    - cbn [valid_ifs] in V. destruct (with_else s || with_end s)%bool eqn:X; [assert (n = 0) by congruence; subst n; cbn [firstn convert_ifs] in C; assert (L = []) by congruence; subst L; exact Logic.I|].
      apply orb_false_iff in X. destruct X as [X _]. destruct (valid_conditions may_modify I H G (removelast (s :: rest)) (conditions s) d) as [[[] dx]|] eqn:VC; try discriminate; cbn [bind fst snd] in V.
      + destruct (valid_ifs may_modify I H G rest dx) as [[m dy]|] eqn:VI; [|discriminate]. cbn [bind fst snd] in V. assert (n = S m) by congruence. subst n. cbn [firstn convert_ifs] in C.
        destruct (convert_each H d' (conditions s)) as [[zs|]|] eqn:CE; try discriminate. cbn [bind] in C. destruct (convert_ifs H d' (firstn m rest)) as [[L'|]|] eqn:CI; try discriminate. cbn [bind] in C.
        assert (L = zs :: L') by congruence. subst L. refine (conj _ (conj CE (conj (valid_conditions_ok _ _ _ _ VC) (IH _ _ _ _ VI CI)))). unfold with_else in X. destruct (otherwise s); [discriminate|reflexivity].
      + assert (n = 0) by congruence; subst n; cbn [firstn convert_ifs] in C; assert (L = []) by congruence; subst L; exact Logic.I.
  Qed.
  Lemma unmodified_good ifs start L : unmodified_from may_modify I H G ifs start = Ok (Some L) -> exists d, good d (skipn start ifs) L.
  Proof.
    unfold unmodified_from. destruct (valid_ifs may_modify I H G (skipn start ifs) []) as [[n d]|] eqn:V; [|discriminate]. cbn [bind fst snd]. destruct (Nat.leb n 1); intro U.
    - assert (L = []) by congruence. subst L. exists d. exact Logic.I.
    - exists d. exact (valid_good d _ _ _ _ _ V U).
  Qed.

  Lemma each_app d a b : forall za zb, convert_each H d a = Ok (Some za) -> convert_each H d b = Ok (Some zb) -> convert_each H d (a ++ b) = Ok (Some (za ++ zb)).
  Proof.
    induction a as [|x a IH]; intros za zb A C; cbn [convert_each app] in *; [assert (za = []) by congruence; subst; exact C|].
    destruct (convert H d true x) as [[[z|] c]|]; try discriminate. cbn [bind fst] in *. destruct (convert_each H d a) as [[zs|]|] eqn:CA; try discriminate. cbn [bind] in A. assert (za = z :: zs) by congruence. subst za.
    rewrite (IH zs zb eq_refl C). reflexivity.
  Qed.
  (** Conditions about integers in all states. *)
  Definition clear_always (c : expr) : Prop := (forall w, Inv w -> clear P w c) /\ started c.
  Lemma clear_usable w E c : Inv w -> clear_always c -> assigns E P w (numbers c) -> usable H G P w E c.
  Proof. intros IW [C S1] A. destruct (C w IW) as (F & WH & DV). exact (conj F (conj WH (conj DV (conj A S1)))). Qed.
  Lemma environment_for w cs : Inv w -> Forall clear_always cs -> exists E, assigns E P w (flat_map numbers cs) /\ Forall (usable H G P w E) cs.
  Proof.
    intros IW F. destruct (assigned P w (flat_map numbers cs)) as (E & A).
    - rewrite Forall_forall in *. intros s IN. apply in_flat_map in IN. destruct IN as (c & IC & IN). destruct (proj1 (F c IC) w IW) as (FC & _). exact (proj1 (Forall_forall _ _) (fine_numbers c FC) s IN).
    - rewrite Forall_forall in *. intros s IN. apply in_flat_map in IN. destruct IN as (c & IC & IN). destruct (proj1 (F c IC) w IW) as (_ & WC & _). exact (proj1 (Forall_forall _ _) WC s IN).
    - exists E. split; [exact A|]. rewrite Forall_forall in *. intros c IC. apply clear_usable; [exact IW|exact (F c IC)|]. intros s z IN. apply A. apply in_flat_map. exists c. auto.
  Qed.
  Lemma holds_unique w t a b : holds P w t a -> holds P w t b -> a = b.
  Proof. intros A C. apply holds_test in A, C. congruence. Qed.

  Lemma unmodified_apart d : forall L z0 rest ms merged w, good d rest (z0 :: L) -> Forall (fun s => Forall (fun c => forall w, Inv w -> clear P w c) (conditions s)) rest -> kept_by P run Inv rest ->
    convert_each H d ms = Ok (Some merged) -> Forall clear_always ms -> all_merge unsat (ZBool true) (merged ++ z0) L -> Inv w -> apart P run (firstn (S (length L)) rest) w.
  Proof.
    induction L as [|z1 L IH]; intros z0 [|s rest] ms merged w X CL KB CM FM AM IW; try (destruct X; fail); destruct X as (O & C & F & X); inversion CL as [|? ? CS CL']; subst.
    all: assert (FS : Forall clear_always (conditions s)) by (rewrite Forall_forall in *; intros c IC; exact (conj (CS c IC) (proj2 (F c IC)))).
    all: assert (KS : Forall (known P w) (conditions s)) by
      (destruct (environment_for w (conditions s) IW FS) as (E & A & U); destruct (each_converted H G CH P w AG (ABS w IW) E d (conditions s) U z0 C) as (bs & _ & HB);
       clear -HB; induction HB as [|t b l l' X HB IH]; constructor; [exists b; exact (holds_test P w t b X)|exact IH]).
    all: cbn [firstn length apart]; refine (conj O (conj KS (conj _ _))).
    - intros _. exact Logic.I.
    - intros. constructor.
    - intros _. refine (IH z1 rest (ms ++ conditions s) (merged ++ z0) w X CL' _ (each_app d _ _ _ _ CM C) (Forall_app_2 FM FS) (proj2 AM) IW).
      intros s' w1 w2 IN. apply KB. right. exact IN.
    - intros t0 w' IN0 T0 RI. assert (IS : List.In s (s :: rest)) by (left; reflexivity). pose proof (KB s w w' IS IW RI) as IW'.
      destruct (branches_cases P run (branches s) w KS) as [[N _]|(t & b & IN & T & R)]; [exfalso; rewrite Forall_forall in N; specialize (N t0 IN0); unfold no in N; congruence|].
      specialize (R [] None). rewrite app_nil_r in R. unfold run_if in RI. rewrite O, R in RI. rename RI into RB. clear t0 IN0 T0.
      assert (IB : List.In b (bodies s)) by (unfold bodies; apply in_or_app; left; apply in_map_iff; exists (t, b); auto).
      destruct rest as [|s1 rest1]; [destruct X|]. set (rest := s1 :: rest1) in *.
      set (group := firstn (S (length L)) rest). change (Forall (fun s => otherwise s = None /\ Forall (no P w') (conditions s)) group).
      assert (FG : Forall (fun s => Forall clear_always (conditions s)) group /\ Forall2 (fun s z => convert_each H d (conditions s) = Ok (Some z)) group (z1 :: L) /\ Forall (fun s => otherwise s = None) group).
      { unfold group. clear -X CL'. change (S (length L)) with (length (z1 :: L)). revert X CL'. generalize rest. generalize (z1 :: L). induction l as [|z l IH]; intros [|s r] X CL; try (destruct X; fail); try (cbn [length firstn]; repeat split; constructor; fail).
        destruct X as (O & C & F & X). inversion CL as [|? ? CS CL']; subst. destruct (IH r X CL') as (A1 & A2 & A3). cbn [length firstn]. refine (conj _ (conj _ _)); constructor; try assumption.
        rewrite Forall_forall in *. intros c IC. exact (conj (CS c IC) (proj2 (F c IC))). }
      destruct FG as (FG & CG & OG). clearbody group.
      destruct (environment_for w' (conditions s ++ ms ++ flat_map conditions group) IW') as (E & A & U).
      { apply Forall_app_2; [exact FS|]. apply Forall_app_2; [exact FM|]. rewrite Forall_forall in *. intros c IC. apply in_flat_map in IC. destruct IC as (s' & IS' & IC). exact (proj1 (Forall_forall _ _) (FG s' IS') c IC). }
      apply Forall_app in U. destruct U as [US U]. apply Forall_app in U. destruct U as [UM UG].
      destruct (each_converted H G CH P w' AG (ABS w' IW') E d (conditions s) US z0 C) as (bs & E0 & H0). destruct (each_converted H G CH P w' AG (ABS w' IW') E d ms UM merged CM) as (bm & E1 & H1).
      assert (TT : existsb (fun b => b) (bm ++ bs) = true).
      { assert (IC : List.In t (conditions s)) by (unfold conditions; apply in_map_iff; exists (t, b); auto). rewrite existsb_app. apply orb_true_iff. right. apply existsb_exists. exists true. split; [|reflexivity].
        assert (UT : usable H G P w E t).
        { apply clear_usable; [exact IW|exact (proj1 (Forall_forall _ _) FS t IC)|]. intros e z IE IZ. apply A; [apply in_flat_map; exists t; split; [apply in_or_app; left; exact IC|exact IE]|].
          refine (KNOWN t (removelast (s :: rest)) s b w w' (proj1 (proj1 (Forall_forall _ _) F t IC)) _ IB IW RB e z IE IZ). unfold rest. left. reflexivity. }
        clear -C E0 H0 IC UT T US AG ABS CH IW IW'. revert z0 bs C E0 H0. induction (conditions s) as [|c cs IH]; intros z0 bs C E0 H0; [destruct IC|]. cbn [convert_each] in C.
        destruct (convert H d true c) as [[[z|] cc]|] eqn:CX; try discriminate. cbn [bind fst] in C. destruct (convert_each H d cs) as [[zs|]|] eqn:CE; try discriminate. cbn [bind] in C. assert (z0 = z :: zs) by congruence. subst z0.
        inversion E0 as [|? b0 ? bs0 EZ E0']; subst. inversion H0 as [|? ? ? ? HZ H0']; subst. inversion US as [|? ? UC US']; subst. destruct IC as [->|IC].
        - left. destruct (converted H G CH P w AG (ABS w IW) E d t z cc UT CX) as (b1 & HB & EB). apply holds_test in HB. assert (b1 = true) by congruence. subst b1. unfold ev in EZ, EB. congruence.
        - right. exact (IH US' IC zs bs0 eq_refl E0' H0'). }
      assert (BB : exists bss, Forall2 (Forall2 (ev E)) (z1 :: L) bss /\ Forall2 (fun s bs => Forall2 (holds P w') (conditions s) bs) group bss).
      { clear -CG UG AG ABS CH IW'. revert UG. induction CG as [|s z g l C CG IH]; intro UG; [exists []; split; constructor|]. cbn [flat_map] in UG. apply Forall_app in UG. destruct UG as [U1 U2].
        destruct (IH U2) as (bss & A1 & A2). destruct (each_converted H G CH P w' AG (ABS w' IW') E d (conditions s) U1 z C) as (b & EB & HB). exists (b :: bss). split; constructor; assumption. }
      destruct BB as (bss & EB & HB). pose proof (all_merge_right unsat SOUND E (ZBool true) eq_refl (z1 :: L) (merged ++ z0) (bm ++ bs) bss AM (Forall2_app E1 E0) TT EB) as FF.
      clear -HB FF OG. revert OG FF. induction HB as [|s3 b3 g3 bss3 X3 HB3 IH3]; intros OG FF; [constructor|]. inversion FF as [|? ? N FF']; subst. inversion OG as [|? ? O OG']; subst. constructor; [|exact (IH3 OG' FF')].
      split; [exact O|]. clear -X3 N. induction X3 as [|t b l l' Y X IH]; [constructor|]. cbn [forallb] in N. apply andb_true_iff in N. destruct N as [N1 N2]. destruct b; [discriminate|]. constructor; [exact (holds_test P w' t false Y)|exact (IH N2)].
  Qed.

  (** ** Conditions with assignments in between *)
  Section Tracked.
    Variable E : environment.
    Variable rel : zexpr.
    Hypothesis REL : ev E rel true.
    Lemma cond_values w cs z : Forall2 (fun t z => exists b, test P t w = (w, Ok b) /\ zeval E z = Some (ZB b)) cs z ->
      exists bs, Forall2 (ev E) z bs /\ Forall2 (fun t b => test P t w = (w, Ok b)) cs bs.
    Proof. induction 1 as [|t z cs zs (b & T & Z) F (bs & A1 & A2)]; [exists []; split; constructor|]. exists (b :: bs). split; constructor; assumption. Qed.
    Lemma values_known w cs bs : Forall2 (fun t b => test P t w = (w, Ok b)) cs bs -> Forall (known P w) cs.
    Proof. induction 1; constructor; [eexists; eassumption|assumption]. Qed.
    Lemma values_no w cs bs : Forall2 (fun t b => test P t w = (w, Ok b)) cs bs -> forallb negb bs = true -> Forall (no P w) cs.
    Proof. induction 1 as [|t b cs bs T F IH]; intro N; [constructor|]. cbn [forallb] in N. apply andb_true_iff in N. destruct N as [N1 N2]. destruct b; [discriminate|]. constructor; [exact T|exact (IH N2)]. Qed.
    Lemma rest_none L : forall ifs merged bs w, tracks P run E w ifs L -> Forall2 (ev E) merged bs -> existsb (fun b => b) bs = true -> all_merge unsat rel merged L ->
      Forall (fun s => otherwise s = None /\ Forall (no P w) (conditions s)) (firstn (length L) ifs).
    Proof.
      induction L as [|z L IH]; intros [|s ifs] merged bs w T F X A; cbn [length firstn]; try constructor; destruct T as (O & V & T), A as [A1 A2]; destruct (cond_values w _ _ V) as (b & EB & TB).
      - split; [exact O|]. exact (values_no w _ b TB (can_merge_right unsat SOUND E rel REL merged z bs b A1 F EB X)).
      - refine (IH ifs (merged ++ z) (bs ++ b) w (T w _) (Forall2_app F EB) _ A2); [|rewrite existsb_app, X; reflexivity].
        exact (none_run P run s w O (values_no w _ b TB (can_merge_right unsat SOUND E rel REL merged z bs b A1 F EB X))).
    Qed.
    Lemma tracked_apart L : forall z0 ifs merged bs w, tracks P run E w ifs (z0 :: L) -> Forall2 (ev E) merged bs -> all_merge unsat rel (merged ++ z0) L -> apart P run (firstn (S (length L)) ifs) w.
    Proof.
      induction L as [|z1 L IH]; intros z0 [|s ifs] merged bs w T F A; try (destruct T; fail); destruct T as (O & V & T); destruct (cond_values w _ _ V) as (b & EB & TB).
      all: cbn [firstn length apart]; refine (conj O (conj (values_known w _ b TB) (conj _ _))).
      - intros _. exact Logic.I.
      - intros. constructor.
      - intro N. exact (IH z1 ifs (merged ++ z0) (bs ++ b) w (T w (none_run P run s w O N)) (Forall2_app F EB) (proj2 A)).
      - intros t w' IN TT RI. refine (rest_none (z1 :: L) ifs (merged ++ z0) (bs ++ b) w' (T w' RI) (Forall2_app F EB) _ A). rewrite existsb_app. apply orb_true_iff. right. apply existsb_exists. exists true. split; [|reflexivity].
        clear -TB IN TT. induction TB as [|t' b cs bs T1 F IH]; [destruct IN|]. destruct IN as [->|IN]; [left; congruence|right; exact (IH IN)].
    Qed.
    Lemma tracks_skip k : forall ifs zs w w', tracks P run E w ifs zs -> run_all P run (firstn k ifs) w = (w', Ok tt) -> tracks P run E w' (skipn k ifs) (skipn k zs).
    Proof.
      induction k as [|k IH]; intros ifs zs w w' T R; [cbn [firstn run_all] in R; assert (w = w') by congruence; subst; exact T|]. destruct zs as [|z zs]; [exact Logic.I|]. destruct ifs as [|s ifs]; [destruct T|].
      destruct T as (O & V & T). cbn [firstn run_all] in R. destruct (run_if P run s w) as [w1 [[]|x]] eqn:RI; [|discriminate]. cbn [skipn]. exact (IH ifs zs w1 w' (T w1 eq_refl) R).
    Qed.
  End Tracked.

  (** ** All messages *)
  Variable ifs : list (if_statement B).
  Hypothesis KB : kept_by P run Inv ifs.
  Hypothesis CLEAR : Forall (fun s => Forall (fun c => forall w, Inv w -> clear P w c) (conditions s)) ifs.
  Variable blocks : nat -> res (zexpr * list (list zexpr)).
  Hypothesis BLOCKS : blocks_right P run Inv ifs blocks.
  Variable w0 : W.
  Hypothesis IW0 : Inv w0.
  Lemma run_all_inv l : incl l ifs -> forall w w', Inv w -> run_all P run l w = (w', Ok tt) -> Inv w'.
  Proof.
    induction l as [|s l IH]; intros IC w w' IW R; [cbn [run_all] in R; assert (w = w') by congruence; subst; exact IW|]. cbn [run_all] in R. destruct (run_if P run s w) as [w1 [[]|x]] eqn:RI; [|discriminate].
    refine (IH _ w1 w' _ R); [intros y Y; apply IC; right; exact Y|]. exact (KB s w w1 (IC s (or_introl eq_refl)) IW RI).
  Qed.
  Lemma firstn_incl {A} n : forall (l : list A), incl (firstn n l) l.
  Proof. induction n as [|n IH]; intros [|x l]; cbn [firstn]; intros y Y; try destruct Y as [->|Y]; [destruct Y|destruct Y|destruct Y|left; reflexivity|right; exact (IH l y Y)]. Qed.
  Lemma skipn_incl {A} n : forall (l : list A), incl (skipn n l) l.
  Proof. induction n as [|n IH]; intros [|x l]; cbn [skipn]; intros y Y; try exact Y. right. exact (IH l y Y). Qed.
  Lemma firstn_plus {A} k : forall i (l : list A), firstn (i + k) l = firstn i l ++ firstn k (skipn i l).
  Proof. induction i as [|i IH]; intros l; [reflexivity|]. destruct l as [|x l]; [cbn [skipn]; rewrite !firstn_nil; reflexivity|]. cbn [Nat.add firstn skipn app]. rewrite IH. reflexivity. Qed.
  Definition tracked_at (i : nat) (rel : zexpr) (L : list (list zexpr)) : Prop :=
    length L <= length (skipn i ifs) /\ Forall (fun s => otherwise s = None) (firstn (length L) (skipn i ifs)) /\
    forall w, run_all P run (firstn i ifs) w0 = (w, Ok tt) -> exists E, ev E rel true /\ tracks P run E w (skipn i ifs) L.
  Lemma tracked_next i rel L k : tracked_at i rel L -> tracked_at (i + k) rel (skipn k L).
  Proof.
    intros (A & O & T). unfold tracked_at. rewrite <- (skip_skip k i ifs). rewrite !(skipn_length k). refine (conj _ (conj _ _)); [lia| |].
    - clear -O A. revert k L O A. generalize (skipn i ifs). intro l. induction l as [|s l IH]; intros k L O A; [rewrite skipn_nil, firstn_nil; constructor|].
      destruct k as [|k]; [rewrite Nat.sub_0_r; exact O|]. destruct L as [|z L]; [constructor|]. cbn [length firstn] in O. inversion O as [|? ? O1 O2]; subst. cbn [skipn length Nat.sub]. apply IH; [exact O2|cbn [length] in A; lia].
    - intros w R. rewrite firstn_plus in R.
      assert (X : exists w1, run_all P run (firstn i ifs) w0 = (w1, Ok tt) /\ run_all P run (firstn k (skipn i ifs)) w1 = (w, Ok tt)).
      { clear -R. revert w0 R. generalize (firstn i ifs), (firstn k (skipn i ifs)). induction l as [|s l IH]; intros l' w0 R; [exists w0; split; [reflexivity|exact R]|]. cbn [app run_all] in *. destruct (run_if P run s w0) as [w1 [[]|x]]; [exact (IH l' w1 R)|discriminate]. }
      destruct X as (w1 & R1 & R2). destruct (T w1 R1) as (E & RE & TE). exists E. split; [exact RE|]. exact (tracks_skip E k _ _ _ _ TE R2).
  Qed.
  Lemma nil_tracked i rel : ev {| int_var := fun _ => 0%Z; real_var := fun _ => 0%Q; quot0 := fun _ => 0%Z; over0 := fun _ => 0%Q |} rel true -> tracked_at i rel [].
  Proof. intro R. refine (conj (Nat.le_0_l _) (conj (Forall_nil _) _)). intros w _. eexists. split; [exact R|exact Logic.I]. Qed.

  Lemma group_right i k L rel c rest : tracked_at i rel L -> L = c :: rest -> 2 <= k -> k <= S (length rest) -> all_merge unsat rel c (firstn (k - 1) rest) ->
    forall b, right_merge P run ifs w0 {| first_if := i; merged_with := k - 1; modifying := b |}.
  Proof.
    intros (A & O & T) -> K1 K2 AM b. unfold right_merge. cbn [first_if merged_with]. replace (S (k - 1)) with k by lia. cbn [length] in A. refine (conj _ (conj _ (conj _ _))).
    - lia.
    - rewrite firstn_length. lia.
    - clear -O K2. cbn [length] in O. replace (firstn k (skipn i ifs)) with (firstn k (firstn (S (length rest)) (skipn i ifs))) by (rewrite firstn_firstn; f_equal; lia). apply firstn_forall. exact O.
    - intros w R. destruct (T w R) as (E & RE & TE). apply apart_same.
      assert (TE' : tracks P run E w (skipn i ifs) (c :: firstn (k - 1) rest)).
      { clear -TE. change (c :: firstn (k - 1) rest) with (firstn (S (k - 1)) (c :: rest)). revert TE. generalize (skipn i ifs), (S (k - 1)), (c :: rest). intros r n l. revert r l w. induction n as [|n IH]; intros r [|z l] w T; try exact Logic.I.
        destruct r as [|s r]; [destruct T|]. destruct T as (O & V & T). exact (conj O (conj V (fun w' R => IH r l w' (T w' R)))). }
      pose proof (tracked_apart E rel RE (firstn (k - 1) rest) c (skipn i ifs) [] [] w TE' (Forall2_nil _) AM) as X. rewrite firstn_length in X. replace (S (Nat.min (k - 1) (length rest))) with k in X by lia. exact X.
  Qed.
  Lemma group_right_unmodified i k d L c rest : good d (skipn i ifs) L -> L = c :: rest -> 2 <= k -> k <= S (length rest) -> all_merge unsat (ZBool true) c (firstn (k - 1) rest) ->
    forall b, right_merge P run ifs w0 {| first_if := i; merged_with := k - 1; modifying := b |}.
  Proof.
    intros GD -> K1 K2 AM b. unfold right_merge. cbn [first_if merged_with]. replace (S (k - 1)) with k by lia. pose proof (good_length d _ _ GD) as LE. cbn [length] in LE.
    assert (GD' : good d (skipn i ifs) (c :: firstn (k - 1) rest)) by exact (good_first d (S (k - 1)) _ _ GD).
    refine (conj _ (conj _ (conj _ _))).
    - lia.
    - rewrite firstn_length. lia.
    - assert (X : Forall (fun s => otherwise s = None) (firstn (length (c :: firstn (k - 1) rest)) (skipn i ifs))).
      { clear -GD'. revert GD'. generalize (skipn i ifs), (c :: firstn (k - 1) rest). intros r l. revert r. induction l as [|z l IH]; intros [|s r] X; try (cbn [length firstn]; constructor; fail); try (destruct X; fail). destruct X as (O & _ & _ & X). cbn [length firstn]. constructor; [exact O|exact (IH r X)]. }
      cbn [length] in X. rewrite firstn_length in X. replace (S (Nat.min (k - 1) (length rest))) with k in X by lia. exact X.
    - intros w R. apply apart_same. assert (IW : Inv w) by exact (run_all_inv _ (firstn_incl i ifs) w0 w IW0 R).
      pose proof (unmodified_apart d (firstn (k - 1) rest) c (skipn i ifs) [] [] w GD') as X. rewrite firstn_length in X. replace (S (Nat.min (k - 1) (length rest))) with k in X by lia. apply X; [| |reflexivity|constructor|exact AM|exact IW].
      + rewrite Forall_forall in *. intros s IN. apply CLEAR. exact (skipn_incl i ifs s IN).
      + intros s v v' IN. apply KB. exact (skipn_incl i ifs s IN).
  Qed.
  Theorem report_right fuel : forall i rel zl zi ul ui ms, report unsat may_modify I H G blocks fuel ifs i rel zl zi ul ui = Ok ms ->
    tracked_at i rel (skipn zi zl) -> (exists d, good d (skipn i ifs) (skipn ui ul)) -> Forall (right_merge P run ifs w0) ms.
  Proof.
    induction fuel as [|fuel IH]; intros i rel zl zi ul ui ms R TZ TU; [discriminate|]. cbn [report] in R. destruct (Nat.ltb i (length ifs)); [|assert (ms = []) by congruence; subst; constructor].
    assert (Z1 : exists rel1 zl1 zi1, (if Nat.leb (length zl) zi then do r <- blocks i; Ok (fst r, snd r, 0) else Ok (rel, zl, zi)) = Ok (rel1, zl1, zi1) /\ tracked_at i rel1 (skipn zi1 zl1) \/ exists x, (if Nat.leb (length zl) zi then do r <- blocks i; Ok (fst r, snd r, 0) else Ok (rel, zl, zi)) = Raise x).
    { destruct (Nat.leb (length zl) zi).
      - destruct (blocks i) as [[r l]|x] eqn:BI; [|exists rel, zl, zi; right; exists x; reflexivity]. exists r, l, 0. left. split; [reflexivity|]. destruct (BLOCKS i r l BI) as (A & O & T). refine (conj A (conj O _)). intros w RW. exact (T w (run_all_inv _ (firstn_incl i ifs) w0 w IW0 RW)).
      - exists rel, zl, zi. left. split; [reflexivity|exact TZ]. }
    destruct Z1 as (rel1 & zl1 & zi1 & [[Z1 T1]|(x & Z1)]); rewrite Z1 in R; [|discriminate]. cbn [bind] in R. clear Z1.
    destruct (count_mergeable unsat rel1 zl1 zi1) as [[k zl2]|] eqn:CK; [|discriminate]. cbn [bind] in R.
    assert (U1 : exists ul1 ui1, (if Nat.leb (length ul) ui then do r <- unmodified_from may_modify I H G ifs i; Ok (r, 0) else Ok (Some ul, ui)) = Ok (ul1, ui1) /\ (forall l, ul1 = Some l -> exists d, good d (skipn i ifs) (skipn ui1 l)) \/ exists x, (if Nat.leb (length ul) ui then do r <- unmodified_from may_modify I H G ifs i; Ok (r, 0) else Ok (Some ul, ui)) = Raise x).
    { destruct (Nat.leb (length ul) ui).
      - destruct (unmodified_from may_modify I H G ifs i) as [r|x] eqn:UI; [|exists None, 0; right; exists x; reflexivity]. exists r, 0. left. split; [reflexivity|]. intros l ->. exact (unmodified_good ifs i l UI).
      - exists (Some ul), ui. left. split; [reflexivity|]. intros l X. assert (ul = l) by congruence. subst l. exact TU. }
    destruct U1 as (ul1 & ui1 & [[U1 T2]|(x & U1)]); rewrite U1 in R; [|discriminate]. cbn [bind] in R. clear U1. destruct ul1 as [ul1|]; [|assert (ms = []) by congruence; subst; constructor]. destruct (T2 ul1 eq_refl) as (d & GD).
    destruct (count_mergeable unsat (ZBool true) ul1 ui1) as [[ku ul2]|] eqn:CU; [|discriminate]. cbn [bind] in R.
    destruct (counted unsat _ _ _ _ _ CK) as (K1 & CK'). destruct (counted unsat _ _ _ _ _ CU) as (KU1 & CU').
    assert (NZ : forall n, 1 <= n -> tracked_at (i + n) rel1 (skipn (zi1 + n) zl2)).
    { intros n N. destruct CK' as [(-> & -> & _)|(c & rest & _ & _ & _ & _ & SK)].
      - rewrite skipn_nil in *. pose proof (tracked_next i rel1 [] n T1) as X. rewrite skipn_nil in X. exact X.
      - rewrite (SK n N). exact (tracked_next i rel1 _ n T1). }
    assert (NU : forall n, 1 <= n -> exists d, good d (skipn (i + n) ifs) (skipn (ui1 + n) ul2)).
    { intros n N. exists d. rewrite <- (skip_skip n i ifs). destruct CU' as [(-> & -> & _)|(c & rest & _ & _ & _ & _ & SK)].
      - rewrite skipn_nil. exact Logic.I.
      - rewrite (SK n N). exact (good_skip d n _ _ GD). }
    destruct (Nat.ltb ku k) eqn:LT.
    - apply Nat.ltb_lt in LT. destruct (report unsat may_modify I H G blocks fuel ifs (i + k) rel1 zl2 (zi1 + k) ul2 (ui1 + k)) as [ms'|] eqn:RR; [|discriminate]. cbn [bind] in R.
      assert (EM : ms = {| first_if := i; merged_with := k - 1; modifying := might_be_modified may_modify (firstn (k - 1) (skipn i ifs)) |} :: ms') by congruence. subst ms. constructor; [|exact (IH _ _ _ _ _ _ _ RR (NZ k K1) (NU k K1))].
      destruct CK' as [(_ & _ & ->)|(c & rest & SP & KL & AM & _ & _)]; [lia|]. exact (group_right i k _ rel1 c rest T1 SP ltac:(lia) KL AM _).
    - destruct (report unsat may_modify I H G blocks fuel ifs (i + ku) rel1 zl2 (zi1 + ku) ul2 (ui1 + ku)) as [ms'|] eqn:RR; [|discriminate]. cbn [bind] in R.
      assert (EM : ms = (if Nat.ltb 1 ku then [{| first_if := i; merged_with := ku - 1; modifying := false |}] else []) ++ ms') by congruence. subst ms. apply Forall_app. split; [|exact (IH _ _ _ _ _ _ _ RR (NZ ku KU1) (NU ku KU1))].
      destruct (Nat.ltb 1 ku) eqn:L1; [|constructor]. apply Nat.ltb_lt in L1. constructor; [|constructor]. destruct CU' as [(_ & _ & ->)|(c & rest & SP & KL & AM & _ & _)]; [lia|]. exact (group_right_unmodified i ku d _ c rest GD SP ltac:(lia) KL AM _).
  Qed.
  Theorem sequence_right ms : check_sequence unsat may_modify I H G blocks ifs = Ok ms -> Forall (right_merge P run ifs w0) ms.
  Proof.
    unfold check_sequence. destruct (Nat.ltb (length ifs) 2); [intro X; assert (ms = []) by congruence; subst; constructor|]. intro R. refine (report_right _ _ _ _ _ _ _ ms R _ _).
    - exact (nil_tracked 0 (ZBool true) eq_refl).
    - exists []. exact Logic.I.
  Qed.
End Right.
