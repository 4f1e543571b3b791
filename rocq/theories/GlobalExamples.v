(** Programs for the claims about global variables. *)
From Coq Require Import String List Bool Arith.
From Verif Require Import GlobalModel GlobalSpec GlobalProofs.
Import ListNotations.
Local Open Scope string_scope.
Local Open Scope list_scope.
Local Open Scope nat_scope.

(** Something happens to a variable of the module. *)
Definition on (x : string) (t : event_type) (line scope : nat) : variable * list event := ((x, 0), [mk_event t line scope]).
Lemma happens_on : forall i x t line s rest d, happens (Loc i (on x t line s :: rest) d) (x, 0) (mk_event t line s).
Proof. intros i x t line s rest d. exists [mk_event t line s]. split; left; reflexivity. Qed.
(** [total = 0], [log = \[\]], a function that reads [total] and appends to [log], a class with a method that does [global total; total += 1], [total = 5]. *)
Definition counting : list loc :=
  [Loc false [on "total" ASSIGN 1 0] Plain; Loc false [on "log" ASSIGN 2 0] Plain;
   Loc false [on "f" ASSIGN 3 0] (Function [Loc false [on "total" READ 4 1; on "log" MODIFY 4 1] Plain]);
   Loc false [on "A" ASSIGN 5 0] (Class [Loc false [(("m", 2), [mk_event ASSIGN 6 2])] (Function [Loc false [on "total" READ 8 3; on "total" REASSIGN 8 3] Plain])]);
   Loc false [on "total" REASSIGN 9 0] Plain].

(** [log = \[\]] and a class with [log.append(1)] in it. *)
Definition in_class : list loc :=
  [Loc false [on "log" ASSIGN 1 0] Plain; Loc false [on "A" ASSIGN 2 0] (Class [Loc false [on "log" MODIFY 3 1] Plain])].
Lemma class_refuted : exists locs x line example, global_at locs x line /\ changed_in (inside locs) x example /\ visit_module locs locs = [].
Proof.
  exists in_class, "log", 1, 3. split; [|split; [|vm_compute; reflexivity]].
  - exists (Loc false [on "log" ASSIGN 1 0] Plain), (mk_event ASSIGN 1 0). split; [left; reflexivity|]. split; [reflexivity|].
    split; [apply happens_on|]. split; [left; reflexivity|reflexivity].
  - exists (Loc false [on "log" MODIFY 3 1] Plain), (mk_event MODIFY 3 1).
    split; [apply (inside_class _ false [on "A" ASSIGN 2 0] [Loc false [on "log" MODIFY 3 1] Plain]); [apply inside_here; right; left; reflexivity|left; reflexivity]|].
    split; [apply happens_on|]. split; [discriminate|]. split; [discriminate|reflexivity].
Qed.
(** [total = 0] and a method of a class in a class that does [global total; total = 1]. *)
Definition in_nested : list loc :=
  [Loc false [on "total" ASSIGN 1 0] Plain;
   Loc false [on "A" ASSIGN 2 0] (Class [Loc false [] (Class [Loc false [] (Function [Loc false [on "total" REASSIGN 6 3] Plain])])])].
Lemma nested_refuted : exists locs x line f example,
  global_at locs x line /\ inside locs (Loc false [] (Function f)) /\ changed_in (fun l => In l f) x example /\ visit_module locs locs = [].
Proof.
  exists in_nested, "total", 1, [Loc false [on "total" REASSIGN 6 3] Plain], 6. split; [|split; [|split; [|vm_compute; reflexivity]]].
  - exists (Loc false [on "total" ASSIGN 1 0] Plain), (mk_event ASSIGN 1 0). split; [left; reflexivity|]. split; [reflexivity|].
    split; [apply happens_on|]. split; [left; reflexivity|reflexivity].
  - eapply inside_class; [eapply inside_class; [apply inside_here; right; left; reflexivity|left; reflexivity]|left; reflexivity].
  - exists (Loc false [on "total" REASSIGN 6 3] Plain), (mk_event REASSIGN 6 3). split; [left; reflexivity|].
    split; [apply happens_on|]. split; [discriminate|]. split; [discriminate|reflexivity].
Qed.
(** [def f(): global total; total = 1] and [def g(): print(total)]. *)
Definition in_functions : list loc :=
  [Loc false [on "f" ASSIGN 1 0] (Function [Loc false [on "total" ASSIGN 3 1] Plain]);
   Loc false [on "g" ASSIGN 4 0] (Function [Loc false [on "total" READ 5 2] Plain])].
Lemma functions_refuted : exists locs x example, changed_in (inside_functions locs) x example /\ visit_module locs locs = [].
Proof.
  exists in_functions, "total", 3. split; [|vm_compute; reflexivity]. exists (Loc false [on "total" ASSIGN 3 1] Plain), (mk_event ASSIGN 3 1).
  split; [apply (functions_function _ false [on "f" ASSIGN 1 0] [Loc false [on "total" ASSIGN 3 1] Plain]); [apply functions_here; left; reflexivity|left; reflexivity]|].
  split; [apply happens_on|]. split; [discriminate|]. split; [discriminate|reflexivity].
Qed.
Lemma counting_global : global_at counting "log" 2.
Proof.
  exists (Loc false [on "log" ASSIGN 2 0] Plain), (mk_event ASSIGN 2 0). split; [right; left; reflexivity|]. split; [reflexivity|].
  split; [apply happens_on|]. split; [left; reflexivity|reflexivity].
Qed.
Lemma counting_changed : changed_in (inside_functions counting) "log" 4.
Proof.
  exists (Loc false [on "total" READ 4 1; on "log" MODIFY 4 1] Plain), (mk_event MODIFY 4 1).
  split; [apply (functions_function _ false [on "f" ASSIGN 3 0] [Loc false [on "total" READ 4 1; on "log" MODIFY 4 1] Plain]); [apply functions_here; right; right; left; reflexivity|left; reflexivity]|].
  split; [exists [mk_event MODIFY 4 1]; split; [right; left; reflexivity|left; reflexivity]|]. split; [discriminate|]. split; [discriminate|reflexivity].
Qed.
