(** Witnesses and examples for the messages that merge comparisons. *)
From Coq Require Import String Ascii List Bool Arith NArith ZArith Lia.
From Verif Require Import Base PyModel PySpec PyProofs IfModel IfSpec IfProofs FoldModel FoldSpec FoldProofs FoldExamples TypeModel LocalModel LocalSpec TextProofs LocalProofs LetterProofs RangeProofs LocalExamples MergeModel MergeSpec MergeProofs BalanceProofs.
Import ListNotations.
Local Open Scope string_scope.
Local Open Scope list_scope.

(** ** A program with max, min, len, a list of two numbers and sets *)
(** The objects from 30 on are sets of numbers, written in binary; a smaller set is a subset. *)
Definition subset (a b : nat) : bool := Nat.eqb (Nat.land a b) a.
Definition rich_compare (c : cmpop) (v u : value) : res value :=
  match c, v, u with
  | Lt, VObj a, VObj b => if Nat.leb 30 a && Nat.leb 30 b then Ok (VBool (subset (a - 30) (b - 30) && negb (Nat.eqb a b))) else Raise TypeError
  | _, VFloat "0.5", VInt _ => match c with Eq => Ok (VBool false) | Ne => Ok (VBool true) | _ => Raise TypeError end
  | _, _, _ => Raise TypeError
  end.
Definition rich_binary (o : binop) (v u : value) : res value :=
  match o, v, u with
  | Mod, VFloat "0.5", VInt z => if Z.eqb z 2 then Ok (VFloat "0.5") else Raise TypeError
  | _, _, _ => Raise TypeError
  end.
Definition rich : host := {| host_unary := fun _ _ => Raise TypeError; host_binary := rich_binary; host_compare := rich_compare |}.
(** [max] and [min]: a later argument replaces the result if it is larger (smaller). *)
Fixpoint best_of (better : value -> value -> res bool) (v : value) (vs : list value) : res value :=
  match vs with
  | [] => Ok v
  | u :: vs => do b <- better u v; best_of better (if b then u else v) vs
  end.
Definition smaller (v u : value) : res bool :=
  match as_int v, as_int u with
  | Some x, Some y => Ok (Z.ltb x y)
  | _, _ => match rich_compare Lt v u with Ok (VBool b) => Ok b | _ => Raise TypeError end
  end.
Definition rich_call (f : value) (args : list value) : res value :=
  match f, args with
  | VObj 0, v :: u :: vs => best_of (fun v u => smaller u v) v (u :: vs)
  | VObj 1, v :: u :: vs => best_of smaller v (u :: vs)
  | VObj 0, [VObj 3] => Ok (VInt 7)
  | VObj 2, [VObj 3] => Ok (VInt 2)
  | _, _ => Raise TypeError
  end.
Definition rich_item (v i : value) : res value :=
  match v, i with VObj 3, VInt z => if Z.ltb z 2 then Ok (VInt 7) else Raise IndexError | _, _ => Raise TypeError end.
Definition rich_name (env : list (string * value)) (x : string) : res value :=
  match find (fun p => String.eqb (fst p) x) (env ++ [("max", VObj 0); ("min", VObj 1); ("len", VObj 2); ("xs", VObj 3)]) with
  | Some (_, v) => Ok v
  | None => Raise (OtherError "NameError")
  end.
Definition program (env : list (string * value)) : python unit := {|
  lookup := fun x _ => rich_name env x;
  opaque := fun _ w => (w, Raise TypeError);
  call := fun f args w => (w, rich_call f args);
  attribute := fun _ _ w => (w, Raise TypeError);
  item := fun v i w => (w, rich_item v i);
  unary_op := fun _ _ w => (w, Raise TypeError);
  binary_op := fun o v u w => (w, rich_binary o v u);
  compare_op := fun c v u w => (w, rich_compare c v u);
  obj_truth := fun _ _ => Ok true
|}.
Lemma rich_closed : closed_host rich.
Proof.
  split; try (intros; discriminate).
  - intros o v u r E. cbn [rich host_binary] in E. unfold rich_binary in E. repeat (match type of E with context [match ?x with _ => _ end] => destruct x; try discriminate E end); injection E as <-; exact Logic.I.
  - intros c v u r E. cbn [rich host_compare] in E. assert (B : exists b, r = VBool b); [|destruct B as (b & ->); exact Logic.I].
    unfold rich_compare in E. repeat (match type of E with context [match ?x with _ => _ end] => destruct x; try discriminate E end); injection E as <-; eauto.
Qed.
Lemma rich_agrees env : agrees (program env) rich.
Proof. split; reflexivity. Qed.
Lemma best_greatest vs zs v z : map as_int vs = map Some zs -> as_int v = Some z ->
  exists u m, best_of (fun v u => smaller u v) v vs = Ok u /\ as_int u = Some m /\ greatest m (z :: zs).
Proof.
  revert zs v z. induction vs as [|x vs IH]; intros zs v z M A; destruct zs as [|y zs]; try discriminate.
  - exists v, z. split; [reflexivity|]. split; [exact A|]. split; [left; reflexivity|]. intros k [->|[]]. lia.
  - cbn [map] in M. injection M as MX M. cbn [best_of]. unfold smaller at 1. rewrite A, MX. cbn [bind].
    destruct (Z.ltb_spec z y) as [L|L].
    + destruct (IH zs x y M MX) as (u & m & B & AU & IM & G). exists u, m. split; [exact B|]. split; [exact AU|]. split; [right; exact IM|]. intros k [<-|K]; [|apply G; exact K]. pose proof (G y (or_introl eq_refl)). lia.
    + destruct (IH zs v z M A) as (u & m & B & AU & IM & G). exists u, m. split; [exact B|]. split; [exact AU|]. split; [destruct IM as [<-|IM]; [left; reflexivity|right; right; exact IM]|].
      intros k [<-|[<-|K]]; [apply G; left; reflexivity| |apply G; right; exact K]. pose proof (G z (or_introl eq_refl)). lia.
Qed.
Lemma best_least vs zs v z : map as_int vs = map Some zs -> as_int v = Some z -> exists u m, best_of smaller v vs = Ok u /\ as_int u = Some m /\ least m (z :: zs).
Proof.
  revert zs v z. induction vs as [|x vs IH]; intros zs v z M A; destruct zs as [|y zs]; try discriminate.
  - exists v, z. split; [reflexivity|]. split; [exact A|]. split; [left; reflexivity|]. intros k [->|[]]. lia.
  - cbn [map] in M. injection M as MX M. cbn [best_of]. unfold smaller at 1. rewrite A, MX. cbn [bind].
    destruct (Z.ltb_spec y z) as [L|L].
    + destruct (IH zs x y M MX) as (u & m & B & AU & IM & G). exists u, m. split; [exact B|]. split; [exact AU|]. split; [right; exact IM|]. intros k [<-|K]; [|apply G; exact K]. pose proof (G y (or_introl eq_refl)). lia.
    + destruct (IH zs v z M A) as (u & m & B & AU & IM & G). exists u, m. split; [exact B|]. split; [exact AU|]. split; [destruct IM as [<-|IM]; [left; reflexivity|right; right; exact IM]|].
      intros k [<-|[<-|K]]; [apply G; left; reflexivity| |apply G; right; exact K]. pose proof (G z (or_introl eq_refl)). lia.
Qed.
Lemma program_max_min env : rich_name env "max" = Ok (VObj 0) -> rich_name env "min" = Ok (VObj 1) -> has_max_min (program env) tt.
Proof.
  intros LX LN. split; [exists (VObj 0)|exists (VObj 1)]; (split; [assumption|]); intros vs zs M L; cbn [call program rich_call];
  destruct vs as [|v [|u vs]], zs as [|z [|y zs]]; try discriminate; try (cbn in L; lia); cbn [map] in M; injection M as MV MU M.
  - destruct (best_greatest (u :: vs) (y :: zs) v z) as (r & m & B & A & G); [cbn [map]; congruence|exact MV|]. exists r, m. split; [f_equal; destruct v; try exact B; discriminate MV|]. split; [exact A|exact G].
  - destruct (best_least (u :: vs) (y :: zs) v z) as (r & m & B & A & G); [cbn [map]; congruence|exact MV|]. exists r, m. split; [f_equal; destruct v; try exact B; discriminate MV|]. split; [exact A|exact G].
Qed.

Definition less (a b : expr) : expr := Compare a [(Lt, b)].
Definition call2 (f : string) (a b : string) : expr := Call (Name f) [var a; var b].
(** The text of [e1 < f(e2, ...)]. *)
Definition less_call (e1 : text) (f : string) (args : list text) : text := e1 ++ [TRel Lt] ++ [TName f; TLP] ++ sep_by [TComma] args ++ [TRP].

(** i < len(xs) and i < xs[i], which becomes i < min(len(xs), xs[i]) *)
Definition guarded : list expr := [less (var "i") (Call (Name "len") [var "xs"]); less (var "i") (Subscript (var "xs") (var "i"))].
Lemma guard_refuted : exists env ms q t s, has_max_min (program env) tt /\ closed_host rich /\ agrees (program env) rich /\ Forall (fun v => fine v = true) guarded /\
  merge_checks all_pure rich And guarded = Ok (ms, Some (q, t)) /\ reads q (BoolOp And guarded) /\ reads t s /\
  test (program env) (BoolOp And guarded) tt = (tt, Ok false) /\ test (program env) s tt = (tt, Raise IndexError).
Proof.
  exists [("i", VInt 3)], [], (as_string (BoolOp And guarded)), (less_call [TName "i"] "min" [as_string (Call (Name "len") [var "xs"]); as_string (Subscript (var "xs") (var "i"))]).
  exists (less (var "i") (Call (Name "min") [Call (Name "len") [var "xs"]; Subscript (var "xs") (var "i")])).
  refine (conj _ (conj rich_closed (conj (rich_agrees _) (conj _ (conj _ (conj _ (conj _ (conj eq_refl eq_refl)))))))).
  - apply program_max_min; reflexivity.
  - repeat constructor.
  - reflexivity.
  - exists 100. vm_compute. reflexivity.
  - exists 100. vm_compute. reflexivity.
Qed.
(** (a or b) < c and (a or b) < d, which becomes a or b < min(c, d) *)
Definition bracketed : list expr := let e := BoolOp Or [var "a"; var "b"] in [less e (var "c"); less e (var "d")].
Lemma bracketed_refuted : exists env ms q t s, has_max_min (program env) tt /\ closed_host rich /\ agrees (program env) rich /\ Forall (fun v => fine v = true) bracketed /\
  merge_checks all_pure rich And bracketed = Ok (ms, Some (q, t)) /\ reads t s /\ (forall x, List.In x ["a"; "b"; "c"; "d"] -> an_int (program env) tt (var x)) /\
  test (program env) (BoolOp And bracketed) tt = (tt, Ok false) /\ test (program env) s tt = (tt, Ok true).
Proof.
  exists [("a", VInt 5); ("b", VInt 0); ("c", VInt 1); ("d", VInt 1)], [],
    (sep_by [TAnd] [[TName "a"; TOr; TName "b"; TRel Lt; TName "c"]; [TName "a"; TOr; TName "b"; TRel Lt; TName "d"]]), (less_call [TName "a"; TOr; TName "b"] "min" [[TName "c"]; [TName "d"]]).
  exists (BoolOp Or [var "a"; less (var "b") (call2 "min" "c" "d")]).
  refine (conj _ (conj rich_closed (conj (rich_agrees _) (conj _ (conj _ (conj _ (conj _ (conj eq_refl eq_refl)))))))).
  - apply program_max_min; reflexivity.
  - repeat constructor.
  - reflexivity.
  - exists 100. vm_compute. reflexivity.
  - intros x [<-|[<-|[<-|[<-|[]]]]]; eexists; eexists; split; reflexivity.
Qed.
(** a < b and a < c for sets, which becomes a < min(b, c) *)
Definition two_less : list expr := [less (var "a") (var "b"); less (var "a") (var "c")].
Lemma sets_refuted : exists env ms q t s, has_max_min (program env) tt /\ closed_host rich /\ agrees (program env) rich /\ Forall (fun v => fine v = true) two_less /\
  merge_checks all_pure rich And two_less = Ok (ms, Some (q, t)) /\ reads q (BoolOp And two_less) /\ reads t s /\
  test (program env) (BoolOp And two_less) tt = (tt, Ok false) /\ test (program env) s tt = (tt, Ok true).
Proof.
  exists [("a", VObj 31); ("b", VObj 33); ("c", VObj 34)], [], (as_string (BoolOp And two_less)), (less_call [TName "a"] "min" [[TName "b"]; [TName "c"]]).
  exists (less (var "a") (call2 "min" "b" "c")).
  refine (conj _ (conj rich_closed (conj (rich_agrees _) (conj _ (conj _ (conj _ (conj _ (conj eq_refl eq_refl)))))))).
  - apply program_max_min; reflexivity.
  - repeat constructor.
  - reflexivity.
  - exists 100. vm_compute. reflexivity.
  - exists 100. vm_compute. reflexivity.
Qed.
(** y < max(a, b) + max(c, d) or y < e, which becomes y < max(a, b) + max(c, d, e) *)
Definition two_maxima : list expr := [less (var "y") (Binary Add (call2 "max" "a" "b") (call2 "max" "c" "d")); less (var "y") (var "e")].
Lemma two_maxima_refuted : exists env ms q t s, has_max_min (program env) tt /\ closed_host rich /\ agrees (program env) rich /\ Forall (fun v => fine v = true) two_maxima /\
  merge_checks all_pure rich Or two_maxima = Ok (ms, Some (q, t)) /\ reads q (BoolOp Or two_maxima) /\ reads t s /\ (forall x, List.In x ["a"; "b"; "c"; "d"; "e"; "y"] -> an_int (program env) tt (var x)) /\
  test (program env) (BoolOp Or two_maxima) tt = (tt, Ok false) /\ test (program env) s tt = (tt, Ok true).
Proof.
  exists [("a", VInt 5); ("b", VInt 5); ("c", VInt 0); ("d", VInt 0); ("e", VInt 1); ("y", VInt 5)], [], (as_string (BoolOp Or two_maxima)),
    ([TName "y"; TRel Lt] ++ as_string (call2 "max" "a" "b") ++ [TBin Add] ++ as_string (Call (Name "max") [var "c"; var "d"; var "e"])).
  exists (less (var "y") (Binary Add (call2 "max" "a" "b") (Call (Name "max") [var "c"; var "d"; var "e"]))).
  refine (conj _ (conj rich_closed (conj (rich_agrees _) (conj _ (conj _ (conj _ (conj _ (conj _ (conj eq_refl eq_refl))))))))).
  - apply program_max_min; reflexivity.
  - repeat constructor.
  - reflexivity.
  - exists 100. vm_compute. reflexivity.
  - exists 100. vm_compute. reflexivity.
  - intros x [<-|[<-|[<-|[<-|[<-|[<-|[]]]]]]]; eexists; eexists; split; reflexivity.
Qed.
(** y < max(xs) or y < e, which becomes y < max(xs, e) *)
Definition one_maximum : list expr := [less (var "y") (Call (Name "max") [var "xs"]); less (var "y") (var "e")].
Lemma one_maximum_refuted : exists env ms q t s, has_max_min (program env) tt /\ closed_host rich /\ agrees (program env) rich /\ Forall (fun v => fine v = true) one_maximum /\
  merge_checks all_pure rich Or one_maximum = Ok (ms, Some (q, t)) /\ reads q (BoolOp Or one_maximum) /\ reads t s /\
  an_int (program env) tt (Call (Name "max") [var "xs"]) /\ an_int (program env) tt (var "y") /\ an_int (program env) tt (var "e") /\
  test (program env) (BoolOp Or one_maximum) tt = (tt, Ok true) /\ test (program env) s tt = (tt, Raise TypeError).
Proof.
  exists [("e", VInt 1); ("y", VInt 5)], [], (as_string (BoolOp Or one_maximum)), (less_call [TName "y"] "max" [[TName "xs"]; [TName "e"]]).
  exists (less (var "y") (call2 "max" "xs" "e")).
  refine (conj _ (conj rich_closed (conj (rich_agrees _) (conj _ (conj _ (conj _ (conj _ (conj _ (conj _ (conj _ (conj eq_refl eq_refl))))))))))).
  - apply program_max_min; reflexivity.
  - repeat constructor.
  - reflexivity.
  - exists 100. vm_compute. reflexivity.
  - exists 100. vm_compute. reflexivity.
  - exists 7%Z, (VInt 7). split; reflexivity.
  - exists 5%Z, (VInt 5). split; reflexivity.
  - exists 1%Z, (VInt 1). split; reflexivity.
Qed.
(** y < max(a, b) + c or y < e, which becomes y < max(a, b) + , e) *)
Definition maximum_plus : list expr := [less (var "y") (Binary Add (call2 "max" "a" "b") (var "c")); less (var "y") (var "e")].
Lemma unbalanced_refuted : exists ms q t, Forall (fun v => fine v = true) maximum_plus /\ Forall (fun v => balanced (as_string v)) maximum_plus /\
  merge_checks all_pure rich Or maximum_plus = Ok (ms, Some (q, t)) /\ ~ balanced t.
Proof.
  eexists _, _, _. refine (conj _ (conj _ (conj eq_refl _))).
  - repeat constructor.
  - constructor; [apply balanced_as_string|]. constructor; [apply balanced_as_string|constructor].
  - intro B. apply balanced_total in B. vm_compute in B. discriminate.
Qed.

(** ** Remainders *)
Definition rem (x : string) (n : N) (c : cmpop) (v : N) : expr := Compare (Binary Mod (var x) (num n)) [(c, num v)].
Definition both (a b : expr) : expr := BoolOp And [a; b].
Definition four_cases : list expr :=
  [both (rem "x" 2 Eq 0) (rem "y" 2 Eq 0); both (rem "x" 2 Eq 0) (rem "y" 2 Eq 1); both (rem "x" 2 Eq 1) (rem "y" 2 Eq 0); both (rem "x" 2 Eq 1) (rem "y" 2 Eq 1)].
Lemma half_refuted : exists env q, closed_host rich /\ agrees (program env) rich /\ Forall (fun v => fine v = true) four_cases /\
  merge_checks all_pure rich Or four_cases = Ok ([(q, [TConst (CBool true)])], None) /\ reads q (BoolOp Or four_cases) /\ gives (program env) tt (var "x") (VFloat "0.5") /\
  test (program env) (BoolOp Or four_cases) tt = (tt, Ok false).
Proof.
  exists [("x", VFloat "0.5"); ("y", VInt 1)], (as_string (BoolOp Or four_cases)).
  refine (conj rich_closed (conj (rich_agrees _) (conj _ (conj _ (conj _ (conj eq_refl eq_refl)))))).
  - repeat constructor.
  - vm_compute. reflexivity.
  - exists 100. vm_compute. reflexivity.
Qed.
