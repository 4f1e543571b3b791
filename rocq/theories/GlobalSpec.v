(** What the check of global variables should find. *)
From Coq Require Import String List Bool Arith.
From Verif Require Import GlobalModel.
Import ListNotations.
Local Open Scope string_scope.
Local Open Scope list_scope.
Local Open Scope nat_scope.

(** The locations in code: those of a walk, and those in functions and classes defined there. *)
Inductive inside (locs : list loc) : loc -> Prop :=
| inside_here l : In l locs -> inside locs l
| inside_function i e body m : inside locs (Loc i e (Function body)) -> In m body -> inside locs m
| inside_class i e body m : inside locs (Loc i e (Class body)) -> In m body -> inside locs m.
(** The same, but in classes only what is in the functions defined in the class itself. *)
Inductive inside_functions (locs : list loc) : loc -> Prop :=
| functions_here l : In l locs -> inside_functions locs l
| functions_function i e body m : inside_functions locs (Loc i e (Function body)) -> In m body -> inside_functions locs m
| functions_method i e body j f body' m : inside_functions locs (Loc i e (Class body)) -> In (Loc j f (Function body')) body -> In m body' ->
    inside_functions locs m.

(** Something happens to a variable at a location. *)
Definition happens (l : loc) (x : variable) (e : event) : Prop := exists es, In (x, es) (events_at l) /\ In e es.
(** A variable gets a value. *)
Definition is_assignment (e : event) : Prop := type e = ASSIGN \/ type e = REASSIGN.
(** A global variable: code of the top level other than an import gives it a value, on that line. *)
Definition global_at (locs : list loc) (x : string) (line : nat) : Prop :=
  exists l e, In l locs /\ is_import l = false /\ happens l (x, 0) e /\ is_assignment e /\ lineno e = line.
(** The same of the last such code, in the order of the walk. *)
Definition last_global_at (locs : list loc) (x : string) (line : nat) : Prop :=
  exists l1 l l2 e, locs = l1 ++ l :: l2 /\ is_import l = false /\ happens l (x, 0) e /\ is_assignment e /\ lineno e = line /\
    forall l' e', In l' l2 -> is_import l' = false -> happens l' (x, 0) e' -> ~ is_assignment e'.
(** A global variable is changed on a line of a function, a class or the like. *)
Definition changed_in (P : loc -> Prop) (x : string) (line : nat) : Prop :=
  exists l e, P l /\ happens l (x, 0) e /\ type e <> READ /\ within e <> 0 /\ lineno e = line.
(** The name a message is about. *)
Definition about (m : message) : string := snd (fst m).
