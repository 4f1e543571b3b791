(** Properties C133 and C134. *)
From Coq Require Import List Bool Arith.
From Verif Require Import DuringModel DuringSpec DuringProofs DuringExamples.
Import ListNotations.
Local Open Scope list_scope.
Local Open Scope nat_scope.

(** C133: what is reported happens: some iteration modifies what is iterated over, and then the loop goes on. Proved for bodies that do not
    bind the variable to something else in an if, and in which the blocks around a modification can be left by their ends or by a
    continue there, or the block of the modification ends with a break or a return. *)
Theorem C133_right_partial : forall body n, tidy body -> no_inner_rebind body -> In n (check_modifying_iterable body) -> modified_during body n.
Proof. exact reported_right. Qed.
Example ex_right : tidy appending /\ no_inner_rebind appending /\ check_modifying_iterable appending = [1; 4; 3].
Proof. split; [exact appending_tidy|]. split; [exact appending_inner|vm_compute; reflexivity]. Qed.
(** C133: it is wrong if the variable is bound to something else in an if. *)
Theorem C133_rebound_refuted : exists body n, tidy body /\ In n (check_modifying_iterable body) /\ ~ modified_during body n.
Proof. exact rebound_refuted. Qed.
(** C133: it is wrong if a block around that of the modification ends with a break. *)
Theorem C133_leaving_refuted : exists body n,
  no_inner_rebind body /\ last body Other = Jump Break /\ In n (check_modifying_iterable body) /\ ~ modified_during body n.
Proof. exact leaving_refuted. Qed.
(** C133: it is wrong if the block ends with a raise. *)
Theorem C133_raising_refuted : exists body n,
  no_inner_rebind body /\ last body Other = Jump Raise /\ In n (check_modifying_iterable body) /\ ~ modified_during body n.
Proof. exact raising_refuted. Qed.

(** C134: what happens is reported. Proved for modifications by methods, in bodies that do not assign to the variable outside of ifs and
    in which blocks that end with a break or a return have no continue. *)
Theorem C134_found_partial : forall body n, ~ In Rebind body -> (forall m, ~ In (Extend m) body) -> leaves_for_good body ->
  ~ somewhere (Del n) body -> ~ somewhere (Extend n) body -> modified_during body n -> In n (check_modifying_iterable body).
Proof. exact modified_reported. Qed.
Example ex_found : ~ In Rebind appending /\ (forall m, ~ In (Extend m) appending) /\ leaves_for_good appending /\
  ~ somewhere (Del 1) appending /\ ~ somewhere (Extend 1) appending /\ modified_during appending 1.
Proof. destruct appending_far as (A & B & C & D & E). exact (conj A (conj B (conj C (conj D (conj E appending_during))))). Qed.
(** C134: not if [+=] is used on the variable before. *)
Theorem C134_extended_refuted : exists body n, ~ In Rebind body /\ leaves_for_good body /\ ~ somewhere (Del n) body /\ ~ somewhere (Extend n) body /\
  modified_during body n /\ check_modifying_iterable body = [].
Proof. exact extended_refuted. Qed.
(** C134: not if elements are deleted by [del]. *)
Theorem C134_deleted_refuted : exists n, modified_during [Del n] n /\ check_modifying_iterable [Del n] = [].
Proof. exact deleted_refuted. Qed.
(** C134: not if it is in the other branch of an if before an assignment, though it is with the branches exchanged. *)
Theorem C134_hidden_refuted : exists a b n, ~ somewhere Rebind b /\ modified_during [If a b; Rebind] n /\ In n (check_modifying_iterable [If b a; Rebind]) /\
  check_modifying_iterable [If a b; Rebind] = [].
Proof. exact hidden_refuted. Qed.
(** C134: not if a continue keeps the break at the end of the block from being executed. *)
Theorem C134_continued_refuted : exists body n,
  ~ In Rebind body /\ (forall m, ~ In (Extend m) body) /\ modified_during body n /\ check_modifying_iterable body = [].
Proof. exact continued_refuted. Qed.

Print Assumptions C133_right_partial.
Print Assumptions C133_rebound_refuted.
Print Assumptions C133_leaving_refuted.
Print Assumptions C133_raising_refuted.
Print Assumptions C134_found_partial.
Print Assumptions C134_extended_refuted.
Print Assumptions C134_deleted_refuted.
Print Assumptions C134_hidden_refuted.
Print Assumptions C134_continued_refuted.
