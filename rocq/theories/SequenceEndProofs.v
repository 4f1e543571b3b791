(** Proofs that the merging of consecutive if statements ends, and without an exception. *)
From Coq Require Import String Ascii List Bool Arith NArith ZArith QArith Lia.
From Verif Require Import Base PyModel PySpec PyProofs IfModel IfSpec IfProofs FoldModel FoldSpec FoldProofs TypeModel LocalModel LocalSpec LocalProofs MergeSpec SolverModel SolverSpec SolverProofs RedundantProofs SortProofs ChainModel ChainSpec ChainProofs ChainRightProofs ChainEndProofs SequenceModel SequenceSpec SequenceProofs.
Import ListNotations.
Local Open Scope string_scope.
Local Open Scope list_scope.
Local Open Scope nat_scope.

Section End.
  Variables (H : host) (G : inspection) (unsat : zexpr -> bool).
  Hypothesis TH : tame_host H.
  Hypothesis NH : numeric_host H.
  Context {B : Type}.
  Variable may_modify : expr -> list (if_statement B) -> bool.
  Variable I : purity.

  Lemma ready_keeps d d' t : ready H G d t -> keeps d d' -> ready H G d' t.
  Proof. intros (F & io & d0 & d1 & IT & K) K'. exact (conj F (ex_intro _ io (ex_intro _ d0 (ex_intro _ d1 (conj IT (keeps_trans _ _ _ K K')))))). Qed.
  Lemma conditions_end later cs : Forall fit cs -> forall d, exists b d1, valid_conditions may_modify I H G later cs d = Ok (b, d1) /\ keeps d d1 /\ (b = true -> Forall (ready H G d1) cs).
  Proof.
    induction 1 as [|c cs FC F IH]; intro d; cbn [valid_conditions]; [exists true, d; split; [reflexivity|]; split; [apply keeps_refl|constructor]|].
    destruct (may_modify c later || negb (is_pure_expression I c))%bool; [exists false, d; split; [reflexivity|]; split; [apply keeps_refl|discriminate]|].
    destruct (initialize_ends H G true TH c FC false true d) as ([ok d1] & IT). rewrite IT. cbn [bind fst snd]. pose proof (initialize_keeps H G true c false true d (ok, d1) IT) as K1. cbn [snd] in K1. destruct ok.
    - destruct (IH d1) as (b & d2 & E & K & R). exists b, d2. split; [exact E|]. split; [exact (keeps_trans _ _ _ K1 K)|]. intro X. constructor; [|exact (R X)]. exact (conj FC (ex_intro _ false (ex_intro _ d (ex_intro _ d1 (conj IT K))))).
    - exists false, d1. split; [reflexivity|]. split; [exact K1|discriminate].
  Qed.
  Lemma ifs_end rest : Forall (fun s => Forall fit (conditions s)) rest -> forall d, exists n d1, valid_ifs may_modify I H G rest d = Ok (n, d1) /\ keeps d d1 /\ Forall (fun s => Forall (ready H G d1) (conditions s)) (firstn n rest).
  Proof.
    induction 1 as [|s rest FS F IH]; intro d; cbn [valid_ifs]; [exists 0, d; split; [reflexivity|]; split; [apply keeps_refl|constructor]|].
    destruct (with_else s || with_end s)%bool; [exists 0, d; split; [reflexivity|]; split; [apply keeps_refl|constructor]|].
    destruct (conditions_end (removelast (s :: rest)) (conditions s) FS d) as (b & d1 & E & K1 & R). rewrite E. cbn [bind fst snd]. destruct b; [|exists 0, d1; split; [reflexivity|]; split; [exact K1|constructor]].
    destruct (IH d1) as (n & d2 & E2 & K2 & R2). rewrite E2. cbn [bind fst snd]. exists (S n), d2. split; [reflexivity|]. split; [exact (keeps_trans _ _ _ K1 K2)|]. cbn [firstn]. constructor; [|exact R2].
    specialize (R eq_refl). rewrite Forall_forall in *. intros t T. exact (ready_keeps _ _ t (R t T) K2).
  Qed.
  Lemma each_ready d cs : Forall (ready H G d) cs -> exists r, convert_each H d cs = Ok r.
  Proof.
    induction 1 as [|c cs (FC & io & d0 & d1 & IT & K) F (r & IH)]; cbn [convert_each]; [eexists; reflexivity|]. destruct (convert_ends H G true TH NH c FC _ _ _ _ d IT K) as (z & cc & -> & _). cbn [bind fst].
    destruct z as [z|]; [|eexists; reflexivity]. rewrite IH. cbn [bind]. eexists. reflexivity.
  Qed.
  Lemma convert_ifs_end d l : Forall (fun s : if_statement B => Forall (ready H G d) (conditions s)) l -> exists r, convert_ifs H d l = Ok r.
  Proof.
    induction 1 as [|s l FS F (r & IH)]; cbn [convert_ifs]; [eexists; reflexivity|]. destruct (each_ready d _ FS) as (q & ->). cbn [bind]. destruct q as [zs|]; [|eexists; reflexivity]. rewrite IH. cbn [bind]. eexists. reflexivity.
  Qed.
  Lemma unmodified_ends ifs i : Forall (fun s => Forall fit (conditions s)) ifs -> exists r, unmodified_from may_modify I H G ifs i = Ok r.
  Proof.
    intro F. unfold unmodified_from. destruct (ifs_end (skipn i ifs) (skipn_forall _ _ _ F) []) as (n & d & -> & _ & R). cbn [bind fst snd]. destruct (Nat.leb n 1); [eexists; reflexivity|]. exact (convert_ifs_end d _ R).
  Qed.
  Lemma count_ends rel l i : l = [] \/ i < length l -> exists k l', count_mergeable unsat rel l i = Ok (k, l') /\ 1 <= k.
  Proof.
    unfold count_mergeable. destruct l as [|x l]; [intros _; exists 1, []; auto|]. intros [X|L]; [discriminate|]. unfold get. destruct (nth_error (x :: l) i) eqn:N; [|apply nth_error_None in N; lia]. cbn [bind]. eexists. eexists. split; [reflexivity|]. lia.
  Qed.
  Variable blocks : nat -> res (zexpr * list (list zexpr)).
  Theorem report_ends ifs : (forall i, exists r, blocks i = Ok r) -> Forall (fun s => Forall fit (conditions s)) ifs ->
    forall fuel i rel zl zi ul ui, length ifs - i < fuel -> exists ms, report unsat may_modify I H G blocks fuel ifs i rel zl zi ul ui = Ok ms.
  Proof.
    intros BL F. induction fuel as [|fuel IH]; intros i rel zl zi ul ui L; [lia|]. cbn [report]. destruct (Nat.ltb i (length ifs)) eqn:LI; [|eexists; reflexivity]. apply Nat.ltb_lt in LI.
    assert (Z : exists rel1 zl1 zi1, (if Nat.leb (length zl) zi then do r <- blocks i; Ok (fst r, snd r, 0) else Ok (rel, zl, zi)) = Ok (rel1, zl1, zi1) /\ (zl1 = [] \/ zi1 < length zl1)).
    { destruct (Nat.leb (length zl) zi) eqn:LE.
      - destruct (BL i) as ([r l] & ->). exists r, l, 0. split; [reflexivity|]. destruct l; [left; reflexivity|right; cbn [length]; lia].
      - apply Nat.leb_gt in LE. exists rel, zl, zi. split; [reflexivity|right; exact LE]. }
    destruct Z as (rel1 & zl1 & zi1 & -> & CZ). cbn [bind]. destruct (count_ends rel1 zl1 zi1 CZ) as (k & zl2 & -> & K). cbn [bind].
    assert (U : exists ul1 ui1, (if Nat.leb (length ul) ui then do r <- unmodified_from may_modify I H G ifs i; Ok (r, 0) else Ok (Some ul, ui)) = Ok (ul1, ui1) /\ forall l, ul1 = Some l -> l = [] \/ ui1 < length l).
    { destruct (Nat.leb (length ul) ui) eqn:LE.
      - destruct (unmodified_ends ifs i F) as (r & ->). exists r, 0. split; [reflexivity|]. intros l ->. destruct l; [left; reflexivity|right; cbn [length]; lia].
      - apply Nat.leb_gt in LE. exists (Some ul), ui. split; [reflexivity|]. intros l X. assert (ul = l) by congruence. subst l. right. exact LE. }
    destruct U as (ul1 & ui1 & -> & CU). cbn [bind]. destruct ul1 as [l|]; [|eexists; reflexivity]. destruct (count_ends (ZBool true) l ui1 (CU l eq_refl)) as (ku & ul2 & -> & KU). cbn [bind].
    destruct (Nat.ltb ku k).
    - destruct (IH (i + k) rel1 zl2 (zi1 + k) ul2 (ui1 + k) ltac:(lia)) as (ms & ->). cbn [bind]. eexists. reflexivity.
    - destruct (IH (i + ku) rel1 zl2 (zi1 + ku) ul2 (ui1 + ku) ltac:(lia)) as (ms & ->). cbn [bind]. eexists. reflexivity.
  Qed.
  Theorem sequence_ends ifs : (forall i, exists r, blocks i = Ok r) -> Forall (fun s => Forall fit (conditions s)) ifs -> exists ms, check_sequence unsat may_modify I H G blocks ifs = Ok ms.
  Proof.
    intros BL F. unfold check_sequence. destruct (Nat.ltb (length ifs) 2); [eexists; reflexivity|]. apply (report_ends ifs BL F). lia.
  Qed.
End End.
