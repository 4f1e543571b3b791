(** What running a block of code does, and what the analysis of conditions after a block and the messages about infinite loops
    promise, in terms of Python's evaluation. *)
From Coq Require Import String List Bool Arith NArith ZArith.
From Verif Require Import Base PyModel PySpec IfModel IfSpec FoldModel FoldSpec LocalModel LocalSpec MergeSpec SolverModel SolverSpec BlockModel.
Import ListNotations.
Local Open Scope string_scope.
Local Open Scope list_scope.
Local Open Scope nat_scope.

(** ** Running statements *)
(** A block comes to its end, is left by return, break, continue or raise, or fails with an exception. *)
Inductive outcome := Done | Left | Failed (x : exn).
(** What the rest of Python does in states [W]: assigning to a name, to another target, making and unpacking tuples, and
    statements outside of the analysis. *)
Record machine (W : Type) := {
  assign : string -> value -> W -> W;
  elsewhere : value -> W -> W * outcome;
  pack : list value -> value;
  unpack : value -> W -> res (list value);
  other : nat -> W -> W * outcome
}.
Arguments assign {W}. Arguments elsewhere {W}. Arguments pack {W}. Arguments unpack {W}. Arguments other {W}.

Section Exec.
  Context {W : Type}.
  Variables (P : python W) (M : machine W).
  Fixpoint eval_list (es : list expr) (w : W) : W * res (list value) :=
    match es with
    | [] => (w, Ok [])
    | e :: es =>
        match eval P e w with
        | (w, Raise x) => (w, Raise x)
        | (w, Ok v) => match eval_list es w with (w, Ok vs) => (w, Ok (v :: vs)) | r => r end
        end
    end.
  Definition store (t : target) (v : value) (w : W) : W * outcome :=
    match t with Var x => (assign M x v w, Done) | Elsewhere => elsewhere M v w end.
  Fixpoint store_all (ts : list target) (vs : list value) (w : W) : W * outcome :=
    match ts, vs with
    | [], [] => (w, Done)
    | t :: ts, v :: vs => match store t v w with (w, Done) => store_all ts vs w | r => r end
    | _, _ => (w, Failed ValueError)
    end.
  (** All values are there before the first target is assigned. *)
  Definition store_values (ts : list target) (vs : list value) (w : W) : W * outcome :=
    if Nat.eqb (length ts) (length vs) then store_all ts vs w else (w, Failed ValueError).
  Definition run_assign (t : goals) (v : rhs) (w : W) : W * outcome :=
    match v with
    | Value e =>
        match eval P e w with
        | (w, Raise x) => (w, Failed x)
        | (w, Ok v) =>
            match t with
            | Single t => store t v w
            | Several ts => match unpack M v w with Ok vs => store_values ts vs w | Raise x => (w, Failed x) end
            end
        end
    | Display es =>
        match eval_list es w with
        | (w, Raise x) => (w, Failed x)
        | (w, Ok vs) => match t with Single t => store t (pack M vs) w | Several ts => store_values ts vs w end
        end
    end.
  Fixpoint exec (s : statement) (w : W) {struct s} : W * outcome :=
    let block := fix block (l : list statement) (w : W) {struct l} : W * outcome :=
      match l with
      | [] => (w, Done)
      | s :: l => match exec s w with (w, Done) => block l w | r => r end
      end in
    match s with
    | SAssign false t v => run_assign t v w
    | SAssign true _ _ => other M 0 w
    | SAnnotated t (Some e) => run_assign (Single t) (Value e) w
    | SAnnotated t None => (w, Done)
    | SAugmented (Var x) o e => run_assign (Single (Var x)) (Value (Binary o (Name x) e)) w
    | SAugmented Elsewhere _ _ => other M 1 w
    | SExpr v =>
        match match v with Value e => let (w, r) := eval P e w in (w, bind r (fun _ => Ok tt))
                         | Display es => let (w, r) := eval_list es w in (w, bind r (fun _ => Ok tt)) end with
        | (w, Ok _) => (w, Done)
        | (w, Raise x) => (w, Failed x)
        end
    | SPass => (w, Done)
    | SEnd => (w, Left)
    | SAssert t => match test P t w with (w, Ok true) => (w, Done) | (w, Ok false) => (w, Failed AssertionError) | (w, Raise x) => (w, Failed x) end
    | SIf branches orelse =>
        (fix all (l : list (expr * list statement)) (w : W) {struct l} : W * outcome :=
           match l with
           | [] => block orelse w
           | (t, b) :: l => match test P t w with (w, Ok true) => block b w | (w, Ok false) => all l w | (w, Raise x) => (w, Failed x) end
           end) branches w
    | SOther n => other M (2 + n) w
    end.
  Fixpoint run (l : list statement) (w : W) : W * outcome :=
    match l with
    | [] => (w, Done)
    | s :: l => match exec s w with (w, Done) => run l w | r => r end
    end.

  (** ** The expressions evaluated on the way, with the states *)
  Definition holds_now (e : expr) (w : W) : bool := match test P e w with (_, Ok true) => true | _ => false end.
  Definition evaluated_value (e : expr) (w : W) : list (expr * W) :=
    match e with IfExp c a b => [(c, w); (if holds_now c w then a else b, w)] | _ => [(e, w)] end.
  Fixpoint evaluated (s : statement) (w : W) {struct s} : list (expr * W) :=
    let block := fix block (l : list statement) (w : W) {struct l} : list (expr * W) :=
      match l with
      | [] => []
      | s :: l => evaluated s w ++ match exec s w with (w, Done) => block l w | _ => [] end
      end in
    match s with
    | SAssign _ _ (Value e) | SAnnotated _ (Some e) => evaluated_value e w
    | SAssign _ _ (Display es) => flat_map (fun e => evaluated_value e w) es
    | SAugmented (Var x) o e => [(Binary o (Name x) e, w)]
    | SAssert t => [(t, w)]
    | SIf branches orelse =>
        (fix all (l : list (expr * list statement)) : list (expr * W) :=
           match l with
           | [] => block orelse w
           | (t, b) :: l => (t, w) :: if holds_now t w then block b w else all l
           end) branches
    | _ => []
    end.
  Fixpoint evaluated_in (l : list statement) (w : W) : list (expr * W) :=
    match l with
    | [] => []
    | s :: l => evaluated s w ++ match exec s w with (w, Done) => evaluated_in l w | _ => [] end
    end.
  (** Where the expression is evaluated, all its numbers are integers, abs is Python's and there are only integer quotients. *)
  Definition integral (p : expr * W) : Prop := has_abs P (snd p) /\ whole P (snd p) (fst p) /\ int_divisions P (snd p) (fst p).
End Exec.

(** ** Blocks within the reach of the analysis *)
(** No quotient "/" and no float. *)
Fixpoint no_fraction (e : expr) : bool :=
  match e with
  | Name _ | Other _ => true
  | Const c => match c with CFloat _ => false | _ => true end
  | Unary _ a | Attribute a _ => no_fraction a
  | Binary o a b => match o with Div => false | _ => true end && no_fraction a && no_fraction b
  | Subscript a b => no_fraction a && no_fraction b
  | BoolOp _ vs => forallb no_fraction vs
  | Compare a ops => no_fraction a && forallb (fun cv => no_fraction (snd cv)) ops
  | Call f args => no_fraction f && forallb no_fraction args
  | IfExp c a b => no_fraction c && no_fraction a && no_fraction b
  end.
Definition is_connective (e : expr) : bool := match e with BoolOp _ _ => true | _ => false end.
(** A value without fractions; in a conditional expression and/or does not choose between values that are numbers. *)
Definition tidy_value (e : expr) : bool :=
  fine e && no_fraction e && match e with IfExp _ a b => negb (is_connective a) && negb (is_connective b) | _ => true end.
(** Values are such values, a tuple of targets gets a tuple, and a condition that is a number is only added, subtracted or
    multiplied. *)
Fixpoint tidy (s : statement) : bool :=
  match s with
  | SAssign _ (Several _) (Value _) => false
  | SAssign _ _ (Value e) | SAnnotated _ (Some e) => tidy_value e
  | SAssign _ _ (Display es) => forallb tidy_value es
  | SAugmented (Var x) o e =>
      tidy_value (Binary o (Name x) e) && negb (is_connective e) && (negb (is_condition e) || is_linear o)
  | SAugmented Elsewhere _ _ => true
  | SAssert t => fine t
  | SIf branches orelse => forallb (fun p => fine (fst p) && forallb tidy (snd p)) branches && forallb tidy orelse
  | _ => true
  end.
(** The names a block assigns to. *)
Definition target_names (ts : list target) : list string := flat_map (fun t => match t with Var x => [x] | Elsewhere => [] end) ts.
Fixpoint assigned_in (s : statement) : list string :=
  match s with
  | SAssign _ (Single t) _ | SAnnotated t _ | SAugmented t _ _ => target_names [t]
  | SAssign _ (Several ts) _ => target_names ts
  | SIf branches orelse => flat_map (fun p => flat_map assigned_in (snd p)) branches ++ flat_map assigned_in orelse
  | _ => []
  end.

(** ** What the analysis relies on *)
(** The variables of an expression; [hidden] are those in opaque expressions. *)
Fixpoint vars (hidden : nat -> list string) (e : expr) : list string :=
  match e with
  | Name x => [x]
  | Const _ => []
  | Other n => hidden n
  | Unary _ a | Attribute a _ => vars hidden a
  | Binary _ a b | Subscript a b => vars hidden a ++ vars hidden b
  | BoolOp _ vs => flat_map (vars hidden) vs
  | Compare a ops => vars hidden a ++ flat_map (fun cv => vars hidden (snd cv)) ops
  | Call f args => vars hidden f ++ flat_map (vars hidden) args
  | IfExp c a b => vars hidden c ++ vars hidden a ++ vars hidden b
  end.
(** Variables are independent, and expressions called pure have no effect and a value that depends on their variables only. *)
Record regular {W} (P : python W) (M : machine W) (I : purity) (hidden : nat -> list string) : Prop := {
  assign_same : forall x v w, lookup P x (assign M x v w) = Ok v;
  assign_other : forall x y v w, x <> y -> lookup P y (assign M x v w) = lookup P y w;
  pure_quiet : forall e w, is_pure_expression I e = true -> fst (eval P e w) = w;
  pure_local : forall e x v w, is_pure_expression I e = true -> ~ List.In x (vars hidden e) ->
    snd (eval P e (assign M x v w)) = snd (eval P e w)
}.
(** A block that is not said to modify the variables of an expression does not assign to them. *)
Definition modifications (hidden : nat -> list string) (modified : expr -> list statement -> bool) : Prop :=
  forall e b x, modified e b = false -> List.In x (vars hidden e) -> ~ List.In x (flat_map assigned_in b).

(** ** Loops *)
Section Loops.
  Context {W : Type}.
  Variables (P : python W) (M : machine W).
  (** The state when the condition of a while loop is tested for the [n]th time, if it is. *)
  Inductive reaches (test : expr) (body : list statement) (w : W) : nat -> W -> Prop :=
  | reaches_first : reaches test body w 0 w
  | reaches_next n w1 w2 w3 : reaches test body w n w1 -> PySpec.test P test w1 = (w2, Ok true) -> run P M body w2 = (w3, Done) ->
      reaches test body w (S n) w3.
  (** The loop ends because its condition does not hold. *)
  Definition ends_normally (test : expr) (body : list statement) (w : W) : Prop :=
    exists n w1 w2, reaches test body w n w1 /\ PySpec.test P test w1 = (w2, Ok false).
  (** All that the loop evaluates is about integers. *)
  Definition integral_loop (test : expr) (body : list statement) (w : W) : Prop :=
    forall n w1, reaches test body w n w1 ->
      integral P (test, w1) /\ forall w2, PySpec.test P test w1 = (w2, Ok true) -> Forall (integral P) (evaluated_in P M body w2).
  (** A body that is not said to modify the variables of a condition leaves them as they were. *)
  Definition leaves_alone (hidden : nat -> list string) (may_modify : expr -> list statement -> bool) : Prop :=
    forall e body x w w', may_modify e body = false -> List.In x (vars hidden e) -> run P M body w = (w', Done) -> lookup P x w' = lookup P x w.
End Loops.
