(** Examples for the checks that count statements, and code for which the claims fail. *)
From Coq Require Import String List Bool Arith Lia.
From Verif Require Import Base PyModel PySpec EarlyModel EarlySpec EarlyProofs.
Import ListNotations.
Local Open Scope string_scope.
Local Open Scope list_scope.
Local Open Scope nat_scope.

(** if x: (four statements) else: return *)
Definition four : list stmt := [Simple 1; Loop 2 [Simple 3] []; Return 4].
Definition short : list stmt := [Simple 5; Return 6].

(** A list of statements computed, to have examples. *)
Fixpoint list_them (defs main : bool) (s : stmt) : list stmt :=
  let all := flat_map (list_them defs main) in
  match s with
  | Import _ => if defs then [s] else []
  | Define _ b => if defs then s :: all b else []
  | If _ b e => if is_main_block s && negb main then [] else s :: all b ++ all e
  | Loop _ b e => s :: all b ++ all e
  | Try _ b hs e f => s :: all b ++ flat_map all hs ++ all e ++ all f
  | With _ b => s :: all b
  | Match _ cs => s :: flat_map all cs
  | _ => [s]
  end.
Lemma all_listed defs main l : Forall (fun s => listed_one defs main s (list_them defs main s)) l -> listed defs main l (flat_map (list_them defs main) l).
Proof. induction 1; cbn [flat_map]; constructor; assumption. Qed.
Lemma flat_concat {A B} (f : A -> list B) l : flat_map f (concat l) = flat_map (flat_map f) l.
Proof. induction l as [|a l IH]; [reflexivity|]. cbn [concat flat_map]. rewrite flat_map_app, IH. reflexivity. Qed.
Lemma list_them_listed defs main s : listed_one defs main s (list_them defs main s).
Proof.
  induction s using stmt_all; cbn [list_them].
  - constructor. eauto.
  - constructor. eauto.
  - constructor. auto.
  - constructor. auto.
  - apply one_import.
  - destruct defs; [apply one_define; [reflexivity|apply all_listed; assumption]|apply one_hidden; reflexivity].
  - destruct (is_main_block (If c b e)) eqn:M; [destruct main; cbn [negb andb]|cbn [andb]].
    + apply one_if; [intros [_ ?]; discriminate| |]; apply all_listed; assumption.
    + apply one_main; [apply (main_block c b e); exact M|reflexivity].
    + apply one_if; [|apply all_listed; assumption|apply all_listed; assumption]. intros [A _]. apply (main_block c b e) in A. congruence.
  - apply one_loop; apply all_listed; assumption.
  - apply one_try. rewrite <- flat_concat, <- !flat_map_app. apply all_listed.
    apply Forall_app. split; [assumption|]. apply Forall_app. split; [apply forall_concat; assumption|]. apply Forall_app. auto.
  - apply one_with. apply all_listed. assumption.
  - apply one_match. rewrite <- flat_concat. apply all_listed. apply forall_concat. assumption.
Qed.
Lemma them_listed defs main l : listed defs main l (flat_map (list_them defs main) l).
Proof. apply all_listed. apply Forall_forall. intros s _. apply list_them_listed. Qed.

(** A function of 22 statements: 20 simple ones in a try statement in a loop, an import, and a definition. *)
Definition long_body : list stmt :=
  [Import 30; Define 31 [Simple 32]; Loop 33 [Try 34 (map Simple (seq 0 19)) [[Simple 40]] [] []] [Return 41]].
(** One match statement with 25 statements inside. *)
Definition long_match : list stmt := [Match 1 [map Simple (seq 2 25)]].
(** Six times: if x: ... else: ... *)
Definition six_ifs : list stmt := repeat (If (Name "x") [Simple 1] [Simple 2]) 6.

Lemma match_refuted : exists body xs, forallb grammatical body = true /\ listed false false body xs /\ List.length xs > 20 /\
  long_function body = None /\ long_script body = None.
Proof.
  exists long_match, (flat_map (list_them false false) long_match). split; [reflexivity|]. split; [apply them_listed|].
  split; [vm_compute; lia|]. split; reflexivity.
Qed.
Lemma else_refuted : exists body xs n, forallb grammatical body = true /\ listed false false body xs /\ List.length xs <= 20 /\
  ~ (exists s, List.In s xs /\ is_match s) /\ long_function body = Some n /\ long_script body = Some n.
Proof.
  exists six_ifs, (flat_map (list_them false false) six_ifs), 24. split; [reflexivity|]. split; [apply them_listed|].
  split; [vm_compute; lia|]. split; [|split; reflexivity].
  intros (s & I & n & cs & ->). vm_compute in I. repeat (destruct I as [I|I]; [discriminate|]). exact I.
Qed.

Lemma tuple_refuted : exists locals t x, binds t x /\ List.In x locals /\ x <> "_" /\ shadowing locals t = [].
Proof.
  exists ["a"], (Tuple [AssignName "a"; AssignName "b"]), "a". split; [apply (binds_tuple _ (AssignName "a")); [left; reflexivity|constructor]|].
  split; [left; reflexivity|]. split; [discriminate|reflexivity].
Qed.

Lemma no_match_long : ~ (exists s, List.In s (flat_map (list_them false false) long_body) /\ is_match s).
Proof. intros (s & I & n & cs & ->). vm_compute in I. repeat (destruct I as [I|I]; [discriminate|]). exact I. Qed.
Ltac count_them := repeat first
  [ apply many_none
  | apply many_no; [solve [cbn; first [tauto | congruence | intros (? & ? & ? & ? & ? & ?); discriminate]]|]
  | apply many_yes; [solve [cbn; first [discriminate | repeat eexists]]|] ].
