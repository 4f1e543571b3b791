(** The properties of reaching definitions. *)
From Coq Require Import String List Bool Arith NArith Lia.
From Verif Require Import Base ReachModel ReachSpec ReachProofs ReachEventProofs ReachAllProofs ReachCallProofs ReachExamples.
Import ListNotations.
Local Open Scope string_scope.
Local Open Scope list_scope.
Local Open Scope nat_scope.

(** C58: in any finite graph and for any placement of definitions the analysis ends without an error. The set of a block's parents holds the
    block k exactly if k defines the variable and there is a walk to the block with no definition in between; the set of the block itself
    holds only the block if it defines the variable, and otherwise the same blocks as that of its parents. *)
Theorem C58_exact : forall order after_block before_block empty reachable killed_vars,
  found_blocks after_block before_block empty reachable order -> forall offset,
  exists c p, (forall fuel, List.length order + List.length order * (List.length (vars order killed_vars) * List.length order) < fuel ->
      reaching order after_block before_block empty reachable killed_vars offset fuel = Ok (c, p)) /\
    List.length c = List.length order /\ List.length p = List.length order /\ (forall j, NoDup (map fst (nth j p []))) /\
    (forall j v b x, nth_error order j = Some b ->
       (N.testbit (dget (nth j p []) v) x = true <->
        exists k a, nth_error order k = Some a /\ x = N.of_nat (offset + k) /\
          reaches (edge_in after_block order) (fun b v => exists i, nth_error order i = Some b /\ List.In v (killed_vars i)) v a b)) /\
    (forall j v b x, nth_error order j = Some b ->
       (N.testbit (dget (nth j c []) v) x = true <->
        exists k a, nth_error order k = Some a /\ x = N.of_nat (offset + k) /\
          ((k = j /\ exists i, nth_error order i = Some b /\ List.In v (killed_vars i)) \/
           (~ (exists i, nth_error order i = Some b /\ List.In v (killed_vars i)) /\
            reaches (edge_in after_block order) (fun b v => exists i, nth_error order i = Some b /\ List.In v (killed_vars i)) v a b)))).
Proof. exact reaching_blocks. Qed.
Example ex_reaching : found_blocks next previous no_statements can_be_reached [0; 1; 2; 3] /\
  reaching [0; 1; 2; 3] next previous no_statements can_be_reached places_of_x 10 100 =
    Ok ([[(7, 1024%N); (8, 1024%N)]; [(7, 5120%N); (8, 1024%N)]; [(7, 4096%N); (8, 1024%N)]; [(7, 5120%N); (8, 1024%N)]],
        [[]; [(7, 5120%N); (8, 1024%N)]; [(7, 1024%N); (8, 1024%N)]; [(7, 5120%N); (8, 1024%N)]]).
Proof. refine (conj loop_found _). vm_compute. reflexivity. Qed.
Example ex_built : found_blocks built_after built_before built_empty (CfgModel.reachable built) built_order /\ List.length built_order = 6.
Proof. refine (conj built_found _). vm_compute. reflexivity. Qed.

(** C92: without calls of functions that touch the variables, the analysis ends without an error; a use is linked to a definition exactly if the
    value can still be there, and a definition is said to replace another one exactly if the value of the other one can still be there. *)
Theorem C92_without_calls_partial : forall after_block before_block empty reachable events,
  (forall b b' e e', List.In e (events b) -> List.In e' (events b') -> name e = name e' -> e = e') -> forall orders,
  Forall (found_blocks after_block before_block empty reachable) orders -> NoDup (concat orders) ->
  exists bound l, (forall fuel, bound < fuel ->
      collect_reaching_definitions after_block before_block empty reachable (fun b => map Own (events b)) fuel orders = Ok l) /\
    (forall u d, List.In (u, d) (definitions l) <->
       exists b p, List.In b (concat orders) /\ nth_error (events b) p = Some u /\ (kind u = Read \/ kind u = Modify) /\
         arrives var_event (fun a b => exists o, List.In o orders /\ edge_in after_block o a b) events (fun e v => kind e <> Read /\ variable e = v) (variable u) d b p) /\
    (forall u d, List.In (u, d) (redefines l) <->
       exists b p, List.In b (concat orders) /\ nth_error (events b) p = Some u /\ kind u <> Read /\
         arrives var_event (fun a b => exists o, List.In o orders /\ edge_in after_block o a b) events (fun e v => kind e <> Read /\ variable e = v) (variable u) d b p).
Proof. exact links_by_kind. Qed.
Example ex_links : collect_reaching_definitions next previous no_statements can_be_reached (fun b => map Own (some_events b)) 100 [[0; 1; 2; 3]] =
    Ok (mk_links [(x_read, x_plus); (x_plus, x_is_1); (x_plus, x_is_2); (x_plus, x_plus)] [(x_is_2, x_is_1); (x_plus, x_is_1); (x_plus, x_is_2); (x_plus, x_plus)]) /\
  (forall b b' e e', List.In e (some_events b) -> List.In e' (some_events b') -> name e = name e' -> e = e') /\
  Forall (found_blocks next previous no_statements can_be_reached) [[0; 1; 2; 3]].
Proof. split; [vm_compute; reflexivity|]. exact (conj some_names (Forall_cons _ loop_found (Forall_nil _))). Qed.
(** With calls, whose events may happen or not, the analysis ends without an error and no use is linked to a definition that cannot arrive. *)
Theorem C92_calls_partial : forall after_block before_block empty reachable items orders,
  Forall (found_blocks after_block before_block empty reachable) orders -> NoDup (concat orders) ->
  exists bound l, (forall fuel, bound < fuel ->
      collect_reaching_definitions after_block before_block empty reachable items fuel orders = Ok l) /\
    (forall u d, List.In (u, d) (definitions l) ->
       exists b p i j, List.In b (concat orders) /\ nth_error (items b) p = Some i /\ ev i = u /\ generating u = true /\ ev j = d /\
         may_arrive item (edge_among after_block orders) items gives surely (variable u) j b p).
Proof. exact links_sound. Qed.
Example ex_calls : Forall (found_blocks branch branch_back branch_empty can_be_reached) [[0; 1; 2]] /\
  analysis call_items = Ok (mk_links [(x_read, x_in_f)] [(x_in_f, x_is_1)]).
Proof. split; [exact (Forall_cons _ branch_found (Forall_nil _)) | vm_compute; reflexivity]. Qed.
(** That a use is linked to all definitions that may arrive is false: in x = 1; if c: pass; f(); print(x), where f may assign x, the value 1 may be
    printed, but the use is not linked to it; without the if statement it is. *)
Theorem C92_calls_refuted : exists l, analysis call_items = Ok l /\
  analysis line_items = Ok (mk_links [(x_read, x_is_1); (x_read, x_in_f)] [(x_in_f, x_is_1)]) /\
  nth_error (call_items 2) 1 = Some (Own x_read) /\
  may_arrive item (edge_among branch [[0; 1; 2]]) call_items gives surely 0 (Own x_is_1) 2 1 /\ ~ List.In (x_read, x_is_1) (definitions l).
Proof. exact call_missed. Qed.
(** That a definition is only said to replace one whose value may be there is false: in x = 1; if c: pass; x = 2; f(), where f may assign x, the
    definition in f is said to replace the first one. *)
Theorem C92_redefines_refuted : exists l, analysis again_items = Ok l /\ List.In (x_in_f, x_is_1) (redefines l) /\
  forall b p i j, nth_error (again_items b) p = Some i -> ev i = x_in_f -> ev j = x_is_1 ->
    ~ may_arrive item (edge_among branch [[0; 1; 2]]) again_items gives surely 0 j b p.
Proof. exact again_linked. Qed.

Print Assumptions C58_exact.
Print Assumptions C92_without_calls_partial.
Print Assumptions C92_calls_partial.
Print Assumptions C92_calls_refuted.
Print Assumptions C92_redefines_refuted.
