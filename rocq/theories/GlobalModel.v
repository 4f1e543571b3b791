(** The check of global variables. *)
From Coq Require Import String List Bool Arith.
Import ListNotations.
Local Open Scope string_scope.
Local Open Scope list_scope.
Local Open Scope nat_scope.

(** [VarEventType], edulint/linting/analyses/var_events.py:28-33. *)
Inductive event_type := ASSIGN | REASSIGN | MODIFY | READ | DELETE.
(** [Variable]: a name and the number of a scope, edulint/linting/analyses/var_events.py:22-25. *)
Notation variable := (string * nat)%type.
(** What is used of a [VarEvent]: its type, the line of its node, and the scope of the parent of the node (external code),
    edulint/linting/analyses/var_events.py:36-56, edulint/linting/checkers/basic_checker.py:49-53. *)
Record event := mk_event { type : event_type; lineno : nat; within : nat }.
(** [VarEvents]: a dictionary in the order of insertion, edulint/linting/analyses/var_events.py:72-84. *)
Notation var_events := (list (variable * list event))%type.

(** A location: whether its node is an import, its events, and, if its node is a definition, what can be visited in it: of a function the
    locations reached from its arguments on, of a class the locations of the statements in it. Simplified: the location of the node of a
    location is that location. edulint/linting/checkers/basic_checker.py:31-37, edulint/linting/analyses/cfg/utils.py:233-257. *)
Inductive loc := Loc (import : bool) (events : var_events) (d : definition)
(** What is defined, edulint/linting/analyses/cfg/utils.py:233-257. *)
with definition := Plain | Function (body : list loc) | Class (body : list loc).
(** Whether the node is an import, edulint/linting/checkers/basic_checker.py:33. *)
Definition is_import (l : loc) : bool := match l with Loc i _ _ => i end.
(** [loc.var_events], edulint/linting/checkers/basic_checker.py:36, 46. *)
Definition events_at (l : loc) : var_events := match l with Loc _ e _ => e end.

(** [essor_locs_from_locs] with [explore_functions] and [explore_classes], for one of the locations of a walk,
    edulint/linting/analyses/cfg/utils.py:233-269. *)
Fixpoint explore (l : loc) : list loc :=
  l :: match l with
       | Loc _ _ Plain => []
       | Loc _ _ (Function body) => flat_map explore body
       | Loc _ _ (Class body) => flat_map (fun c => match c with Loc _ _ (Function body) => flat_map explore body | _ => [] end) body
       end.

(** Equality of variables, edulint/linting/analyses/var_events.py:22-25. *)
Definition variable_eqb (x y : variable) : bool := String.eqb (fst x) (fst y) && Nat.eqb (snd x) (snd y).
(** [toplevel_vars.get(var)], edulint/linting/checkers/basic_checker.py:47, 52. *)
Fixpoint lookup (x : variable) (d : list (variable * event)) : option event :=
  match d with [] => None | (y, e) :: d => if variable_eqb y x then Some e else lookup x d end.
(** [toplevel_vars[var] = event], edulint/linting/checkers/basic_checker.py:38. *)
Fixpoint store (x : variable) (e : event) (d : list (variable * event)) : list (variable * event) :=
  match d with [] => [(x, e)] | (y, f) :: d => if variable_eqb y x then (y, e) :: d else (y, f) :: store x e d end.
(** [toplevel_vars.pop(var)], edulint/linting/checkers/basic_checker.py:55. *)
Definition pop (x : variable) (d : list (variable * event)) : list (variable * event) := filter (fun e => negb (variable_eqb (fst e) x)) d.

(** [VarEvents.all], edulint/linting/analyses/var_events.py:86-90. *)
Definition all (v : var_events) : list (variable * event) := flat_map (fun p => map (pair (fst p)) (snd p)) v.
(** The scope of the module, edulint/linting/checkers/basic_checker.py:37, 49. *)
Definition module : nat := 0.
(** Whether an event makes a variable one of the top level, edulint/linting/checkers/basic_checker.py:37. *)
Definition assigns_toplevel (p : variable * event) : bool :=
  Nat.eqb (snd (fst p)) module && match type (snd p) with ASSIGN | REASSIGN => true | _ => false end.
(** [toplevel_vars] after the first loop, edulint/linting/checkers/basic_checker.py:30-38. *)
Definition toplevel_vars (locs : list loc) : list (variable * event) :=
  fold_left (fun d p => store (fst p) (snd p) d) (filter assigns_toplevel (flat_map (fun l => if is_import l then [] else all (events_at l)) locs)) [].

(** Whether an event changes a variable outside of the top level, edulint/linting/checkers/basic_checker.py:50. *)
Definition changes (e : event) : bool := match type e with READ => false | _ => true end && negb (Nat.eqb (within e) module).
(** A message: the line of the node, the name, the line given as an example; edulint/linting/checkers/basic_checker.py:51-55. *)
Notation message := (nat * string * nat)%type.
(** One variable of a location, edulint/linting/checkers/basic_checker.py:46-56. *)
Definition check_var (s : list (variable * event) * list message) (p : variable * list event) : list (variable * event) * list message :=
  match lookup (fst p) (fst s) with
  | None => s
  | Some top =>
      match find changes (snd p) with
      | None => s
      | Some e => (pop (fst p) (fst s), snd s ++ [(lineno top, fst (fst p), lineno e)])
      end
  end.
(** [visit_module]: [locs] are the locations reached from the first statement on, [walk] those from the module on (which are the same if
    the module starts with its first statement),
    edulint/linting/checkers/basic_checker.py:25-56. *)
Definition visit_module (locs walk : list loc) : list message :=
  let vars := toplevel_vars locs in
  match vars with
  | [] => []
  | _ => snd (fold_left check_var (flat_map events_at (flat_map explore walk)) (vars, []))
  end.
