(** Whether the variables of an expression may be modified in a block. *)
From Coq Require Import String List Bool Arith.
From Verif Require Import Base.
Import ListNotations.
Local Open Scope string_scope.
Local Open Scope list_scope.
Local Open Scope nat_scope.

(** A definition of a name that is called: a function (or a lambda), or something whose body is not known.
    edulint/linting/analyses/mutability.py:50-63. *)
Inductive definition := Fun (f : nat) | Unknown.
(** What a block does: it changes one of the variables, it calls a name with these definitions, or it calls a method, which is one of these
    functions. Everything else is left out; a name without definitions, such as
    a function of Python, is called without effect. Simplified: there are no definitions in functions; the code looks for changes in them, too.
    edulint/linting/analyses/mutability.py:66-103. *)
Inductive item := Change | Call (x : nat) (definitions : list definition) | Method (functions : list nat).

Section Sure.
(** The bodies of functions, edulint/linting/analyses/mutability.py:50-63. *)
Variable body_of : nat -> list item.
(** [may_contain_mutable_var(node)], edulint/linting/analyses/mutability.py:40-47. *)
Variable mutable : bool.

(** [modified_in], edulint/linting/analyses/data_dependency.py:831-836. *)
Definition modified_in (l : list item) : bool := existsb (fun i => match i with Change => true | _ => false end) l.
(** [_vars_from_node_may_be_directly_modified_in], edulint/linting/analyses/mutability.py:93-96. *)
Definition directly (l : list item) : bool := mutable || modified_in l.

(** [func_name in checked_function_names], edulint/linting/analyses/mutability.py:75. *)
Definition checked_name (x : nat) (checked : list nat) : bool := existsb (Nat.eqb x) checked.
(** The loop over the definitions of a called name; [rec] is the function below. The answer and [checked_function_names] afterwards.
    edulint/linting/analyses/mutability.py:73-88. *)
Fixpoint over_definitions (rec : list item -> list nat -> res (bool * list nat)) (x : nat) (ds : list definition) (checked : list nat) : res (bool * list nat) :=
  match ds with
  | [] => Ok (false, checked)
  | d :: ds =>
      if checked_name x checked then over_definitions rec x ds checked
      else
        match d with
        | Unknown => Ok (true, x :: checked)
        | Fun f =>
            if directly (body_of f) then Ok (true, x :: checked)
            else do r <- rec (body_of f) (x :: checked); if fst r then Ok r else over_definitions rec x ds (snd r)
        end
  end.
(** The loop over what is read: names that are called; edulint/linting/analyses/mutability.py:69-90. *)
Fixpoint over_events (rec : list item -> list nat -> res (bool * list nat)) (l : list item) (checked : list nat) : res (bool * list nat) :=
  match l with
  | [] => Ok (false, checked)
  | Call x ds :: l => do r <- over_definitions rec x ds checked; if fst r then Ok r else over_events rec l (snd r)
  | _ :: l => over_events rec l checked
  end.
(** [_may_contain_global_variable_modified_in_function]; [fuel] bounds the depth of the recursion. edulint/linting/analyses/mutability.py:66-90. *)
Fixpoint in_functions (fuel : nat) (l : list item) (checked : list nat) : res (bool * list nat) :=
  match fuel with
  | 0 => Raise (OtherError "out of fuel")
  | S fuel => over_events (in_functions fuel) l checked
  end.
(** [vars_from_node_may_be_modified_in], edulint/linting/analyses/mutability.py:99-103. *)
Definition may_be_modified_in (fuel : nat) (l : list item) : res bool :=
  if directly l then Ok true else do r <- in_functions fuel l []; Ok (fst r).
End Sure.
