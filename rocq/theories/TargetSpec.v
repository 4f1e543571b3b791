(** What loops assign to and what is executed when a module is imported. *)
From Coq Require Import String List Bool Arith.
From Verif Require Import TargetModel.
Import ListNotations.
Local Open Scope string_scope.
Local Open Scope list_scope.
Local Open Scope nat_scope.

(** What a target is made of, Python language reference 7.2. *)
Inductive is_target : expr -> Prop :=
| target_name x : is_target (Name x)
| target_subscript n v i : is_target (Subscript n v i)
| target_attribute n v : is_target (AssignAttr n v)
| target_group l : (forall e, In e l -> is_target e) -> is_target (Group l)
| target_starred e : is_target e -> is_target (Starred e).
(** The parts of a target that are assigned to, one value each; Python language reference 7.2. *)
Inductive assigned : expr -> expr -> Prop :=
| assigned_name x : assigned (Name x) (Name x)
| assigned_subscript n v i : assigned (Subscript n v i) (Subscript n v i)
| assigned_attribute n v : assigned (AssignAttr n v) (AssignAttr n v)
| assigned_group e l p : In e l -> assigned e p -> assigned (Group l) p
| assigned_starred e p : assigned e p -> assigned (Starred e) p.
(** An expression is directly in another. *)
Inductive child : expr -> expr -> Prop :=
| child_value n v i : child (Subscript n v i) v
| child_index n v i : child (Subscript n v i) i
| child_of n v : child (AssignAttr n v) v
| child_attribute v : child (Attribute v) v
| child_starred v : child (Starred v) v
| child_group e l : In e l -> child (Group l) e
| child_other e l : In e l -> child (Other l) e.
(** An expression is in another, at any depth. *)
Inductive inside : expr -> expr -> Prop :=
| inside_child e c : child e c -> inside e c
| inside_deeper e c d : child e c -> inside c d -> inside e d.
(** It is a part of a larger object, by its number. *)
Definition larger (e : expr) (n : nat) : Prop := (exists v i, e = Subscript n v i) \/ exists v, e = AssignAttr n v.

(** A test is the question whether the module is the one that is run. *)
Definition asks_main (t : test) : Prop := t = Compare (Var "__name__") [("==", Text "__main__")].
(** What is executed when a module is imported: not what is for running it. *)
Inductive imported : list stmt -> stmt -> Prop :=
| imported_here l s : In s l -> (forall n t a b, s = If n t a b -> ~ asks_main t) -> imported l s
| imported_body l n t a b s : In (If n t a b) l -> ~ asks_main t -> imported a s -> imported l s
| imported_orelse l n t a b s : In (If n t a b) l -> imported b s -> imported l s.
(** What the documentation of the message allows: imports, definitions and assignments. *)
Definition allowed (s : stmt) : Prop :=
  match s with Import _ | Def _ | Assign _ | AnnAssign _ | AugAssign _ => True | _ => False end.
