(** Properties of sets of types and of type guesses. *)
From Coq Require Import String List Bool Arith NArith ZArith.
From Verif Require Import Base PyModel PySpec FoldExamples TypeModel TypeSpec TypeProofs TypeExamples.
Import ListNotations.
Local Open Scope string_scope.
Local Open Scope list_scope.

(** C59: the class behaves as a set of types. *)
Theorem C59_none : forall t, has no_types t = false.
Proof. exact has_none. Qed.
Theorem C59_single : forall t u, has (only t) u = true <-> t = u.
Proof. exact has_single. Qed.
Theorem C59_union : forall a b t, has (join a b) t = true <-> has a t = true \/ has b t = true.
Proof. exact has_join. Qed.
Theorem C59_intersection : forall a b t, has (meet a b) t = true <-> has a t = true /\ has b t = true.
Proof. exact has_meet. Qed.
Theorem C59_list : forall a, NoDup (types_get a) /\ forall t, List.In t (types_get a) <-> has a t = true.
Proof. exact (fun a => conj (get_once a) (get_members a)). Qed.
Theorem C59_has_only : forall a l, has_only a l = true <-> forall t, has a t = true -> List.In t l.
Proof. exact only_members. Qed.
Theorem C59_count : forall a, made a -> types_len a = length (types_get a).
Proof. exact len_members. Qed.
Example ex_count : let a := join (only TInt) (meet (join (only TSet) (only TList)) (only TList)) in
  made a /\ types_len a = 2 /\ types_get a = [TInt; TList].
Proof. cbn zeta. split; [repeat constructor|split; reflexivity]. Qed.
Theorem C59_mutable : forall a, any_mutable a = true <-> has a TList = true \/ has a TSet = true \/ has a TDict = true.
Proof. exact mutable_members. Qed.
Theorem C59_container : forall a, any_container a = true <->
  has a TString = true \/ has a TList = true \/ has a TTuple = true \/ has a TSet = true \/ has a TDict = true.
Proof. exact container_members. Qed.

(** C60: guesses are sound for integer arithmetic with operators that give integers, comparisons of integers, constants and
    conditional expressions, over names and calls whose guesses are sound. Missing: floats, strings, and/or, powers, true division. *)
Theorem C60_sound_partial : forall W (P : python W) obj, not_numbers obj -> forall A e t, typed P obj A e t ->
  forall fuel n ts, guess_type fuel A n e = Ok (Some ts) -> sound P obj e ts.
Proof. exact (fun W => typed_sound (W := W)). Qed.
(** x % 7 - 3 *)
Example ex_sound : let e := Binary Sub (Binary Mod (Name "x") (num 7)) (num 3) in
  not_numbers no_objects /\ typed (vars [("x", 5)]%Z) no_objects loop_analysis e TInt /\ guess_type 3 loop_analysis None e = Ok (Some (only TInt)).
Proof.
  cbn zeta. split; [intros n H; discriminate|]. split; [|reflexivity].
  apply t_arith; [reflexivity| |apply t_int]. apply t_arith; [reflexivity| |apply t_int]. apply t_leaf; [reflexivity|apply trusted_x].
Qed.
(** 5 or 0 *)
Theorem C60_or_refuted : exists (P : python unit) A a b fuel ts, guess_type fuel A None (BoolOp Or [a; b]) = Ok (Some ts) /\ ~ sound P no_objects (BoolOp Or [a; b]) ts.
Proof. exact or_refuted. Qed.
(** 2 * 1.5 *)
Theorem C60_times_refuted : exists (P : python unit) A a b fuel ts, guess_type fuel A None (Binary Mul a b) = Ok (Some ts) /\ ~ sound P no_objects (Binary Mul a b) ts.
Proof. exact times_refuted. Qed.
(** abs(1.5) *)
Theorem C60_builtin_refuted : exists (P : python unit) A f a fuel ts, is_builtin_name A f = true /\ guess_type fuel A None (Call (Name f) [a]) = Ok (Some ts) /\ ~ sound P no_objects (Call (Name f) [a]) ts.
Proof. exact builtin_refuted. Qed.
(** 1 + z, where nothing is known about z *)
Theorem C60_unknown_refuted : exists (P : python unit) A a x fuel ts, defs A x = [] /\ guess_type fuel A None (Binary Add a (Name x)) = Ok (Some ts) /\ ~ sound P no_objects (Binary Add a (Name x)) ts.
Proof. exact unknown_refuted. Qed.

(** C82: guessing ends, also when variables are defined by each other. *)
Theorem C82_ends : forall A ids n e, numbered A ids -> exists r, forall fuel, length ids < fuel -> guess_type fuel A n e = Ok r.
Proof. exact guess_ends. Qed.
(** y = y + x in a loop: y is defined by itself *)
Example ex_ends : numbered loop_analysis [0; 1; 2] /\ guess_type 4 loop_analysis (Some 1) loop_y = Ok (Some (only TInt)).
Proof.
  split; [|reflexivity]. intros x n d H. unfold loop_analysis in H. cbn [defs] in H.
  destruct (String.eqb x "x"); [destruct H as [H|[]]; injection H as <- _; cbn; auto|].
  destruct (String.eqb x "y"); [|destruct H]. destruct H as [H|[H|[]]]; injection H as <- _; cbn; auto.
Qed.

Print Assumptions C59_none.
Print Assumptions C59_single.
Print Assumptions C59_union.
Print Assumptions C59_intersection.
Print Assumptions C59_list.
Print Assumptions C59_has_only.
Print Assumptions C59_count.
Print Assumptions C59_mutable.
Print Assumptions C59_container.
Print Assumptions C60_sound_partial.
Print Assumptions C60_or_refuted.
Print Assumptions C60_times_refuted.
Print Assumptions C60_builtin_refuted.
Print Assumptions C60_unknown_refuted.
Print Assumptions C82_ends.
