(** How loops run, and what replacing them as suggested means. *)
From Coq Require Import String List Bool Arith NArith ZArith.
From Verif Require Import Base PyModel PySpec IfSpec FoldModel LocalSpec IterSpec LoopModel.
Import ListNotations.
Local Open Scope string_scope.
Local Open Scope list_scope.

(** How a statement ends: normally, by leaving or continuing the surrounding loop, or by leaving the surrounding
    function with a result or an exception. A statement that never ends has no such outcome. *)
Inductive out := Normal | Broke | Continued | Left (r : res value).

(** What the rest of the program does: storing into a target, an item or an attribute, augmented assignment of other values than integers, the
    elements of an iterable, and the other statements, which go on or leave the function. *)
Record program (W : Type) := {
  py : python W;
  store : expr -> value -> W -> W * res unit;
  set_item : value -> value -> value -> W -> W * res unit;
  set_attribute : value -> string -> value -> W -> W * res unit;
  inplace : binop -> value -> value -> W -> W * res value;
  elements : value -> W -> W * res (list value);
  other : nat -> W -> W * option (res value)
}.
Arguments py {W}. Arguments store {W}. Arguments set_item {W}. Arguments set_attribute {W}. Arguments inplace {W}. Arguments elements {W}. Arguments other {W}.

Section Runs.
  Context {W : Type}.
  (** From one state to another, with an outcome. *)
  Definition run := W -> W -> out -> Prop.
  Definition ends (o : out) : run := fun w w' q => w' = w /\ q = o.
  (** A computation followed by statements, unless it raises. *)
  Definition after {A} (m : comp (W := W) A) (k : A -> run) : run := fun w w' o =>
    match m w with (w1, Ok a) => k a w1 w' o | (w1, Raise e) => w' = w1 /\ o = Left (Raise e) end.
  (** Statements one after another. *)
  Definition sequence (r s : run) : run := fun w w' o =>
    (exists w1, r w w1 Normal /\ s w1 w' o) \/ (o <> Normal /\ r w w' o).

  Definition goes_on (o : out) : Prop := o = Normal \/ o = Continued.

  Inductive while_runs (c : comp (W := W) bool) (body orelse : run) : run :=
  | WRaise w w' e : c w = (w', Raise e) -> while_runs c body orelse w w' (Left (Raise e))
  | WEnd w w1 w' o : c w = (w1, Ok false) -> orelse w1 w' o -> while_runs c body orelse w w' o
  | WNext w w1 w2 w' q o : c w = (w1, Ok true) -> body w1 w2 q -> goes_on q -> while_runs c body orelse w2 w' o -> while_runs c body orelse w w' o
  | WBreak w w1 w' : c w = (w1, Ok true) -> body w1 w' Broke -> while_runs c body orelse w w' Normal
  | WLeave w w1 w' r : c w = (w1, Ok true) -> body w1 w' (Left r) -> while_runs c body orelse w w' (Left r).

  Inductive for_runs (set : value -> comp (W := W) unit) (body orelse : run) : list value -> run :=
  | FEnd w w' o : orelse w w' o -> for_runs set body orelse [] w w' o
  | FRaise v vs w w' e : set v w = (w', Raise e) -> for_runs set body orelse (v :: vs) w w' (Left (Raise e))
  | FNext v vs w w1 w2 w' q o : set v w = (w1, Ok tt) -> body w1 w2 q -> goes_on q -> for_runs set body orelse vs w2 w' o -> for_runs set body orelse (v :: vs) w w' o
  | FBreak v vs w w1 w' : set v w = (w1, Ok tt) -> body w1 w' Broke -> for_runs set body orelse (v :: vs) w w' Normal
  | FLeave v vs w w1 w' r : set v w = (w1, Ok tt) -> body w1 w' (Left r) -> for_runs set body orelse (v :: vs) w w' (Left r).

  (** The same outcomes from the same states; in particular, one ends if and only if the other does. *)
  Definition same_runs (r s : run) : Prop := forall w w' o, r w w' o <-> s w w' o.
End Runs.
Arguments run W : clear implicits.

Section Exec.
  Context {W : Type}.
  Variable P : program W.

  Definition augmented (o : binop) (v u : value) : comp (W := W) value :=
    match as_int v, as_int u with Some _, Some _ => binary (py P) o v u | _, _ => inplace P o v u end.

  (** Storing into a target; the value comes first. *)
  Definition assign (t : expr) (v : value) : comp (W := W) unit :=
    match t with
    | Subscript a k => andthen (eval (py P) a) (fun o => andthen (eval (py P) k) (fun i => set_item P o i v))
    | Attribute a m => andthen (eval (py P) a) (fun o => set_attribute P o m v)
    | _ => store P t v
    end.
  Fixpoint exec (s : stmt) : run W :=
    let fix block (l : list stmt) : run W := match l with [] => ends Normal | s :: r => sequence (exec s) (block r) end in
    match s with
    | SAssign x e => after (andthen (eval (py P) e) (store P (Name x))) (fun _ => ends Normal)
    | SAug x o e =>
        after (andthen (eval (py P) (Name x)) (fun v => andthen (eval (py P) e) (fun u => andthen (augmented o v u) (store P (Name x)))))
              (fun _ => ends Normal)
    | SStore t e => after (andthen (eval (py P) e) (assign t)) (fun _ => ends Normal)
    | SExpr e => after (eval (py P) e) (fun _ => ends Normal)
    | SReturn e => after (eval (py P) e) (fun v => ends (Left (Ok v)))
    | SBreak => ends Broke
    | SContinue => ends Continued
    | SIf c b e => after (test (py P) c) (fun t => if t then block b else block e)
    | SWhile c b e => while_runs (test (py P) c) (block b) (block e)
    | SFor t i b e => after (andthen (eval (py P) i) (elements P)) (fun vs => for_runs (store P t) (block b) (block e) vs)
    | SOther n => fun w w' o => match other P n w with (w1, None) => w' = w1 /\ o = Normal | (w1, Some r) => w' = w1 /\ o = Left r end
    end.
  Fixpoint block (l : list stmt) : run W := match l with [] => ends Normal | s :: r => sequence (exec s) (block r) end.
End Exec.

(** A break of the loop around the statement. *)
Fixpoint breaks (s : stmt) : bool :=
  match s with
  | SBreak => true
  | SIf _ b e => existsb breaks b || existsb breaks e
  | SWhile _ _ e | SFor _ _ _ e => existsb breaks e
  | _ => false
  end.
(** A continue of the loop around the statement. *)
Fixpoint continues (s : stmt) : bool :=
  match s with
  | SContinue => true
  | SIf _ b e => existsb continues b || existsb continues e
  | SWhile _ _ e | SFor _ _ _ e => existsb continues e
  | _ => false
  end.

(** Assigning to a name succeeds and the name has then the value. *)
Definition names_stored {W} (P : program W) (x : string) : Prop :=
  forall v w, exists w', store P (Name x) v w = (w', Ok tt) /\ lookup (py P) x w' = Ok v.
(** Assigning to a name the value that it has changes nothing. *)
Definition stored_again {W} (P : program W) (x : string) : Prop :=
  forall v w, lookup (py P) x w = Ok v -> store P (Name x) v w = (w, Ok tt).
(** The expression is always the integer [z], as a literal is. *)
Definition fixed {W} (P : program W) (e : expr) (z : Z) : Prop := forall w, is_int (py P) w e z.
(** In the state [w], the iterable has the elements [l]. *)
Definition iterates_over {W} (P : program W) (w : W) (it : expr) (l : list Z) : Prop :=
  andthen (eval (py P) it) (elements P) w = (w, Ok (map VInt l)).
(** The name is the integer [z]. *)
Definition counts {W} (P : program W) (w : W) (x : string) (z : Z) : Prop := lookup (py P) x w = Ok (VInt z).
(** An assignment of something minus the variable itself. *)
Definition subtracts_itself (s : stmt) : bool := match s with SAssign x (Binary Sub _ (Name y)) => String.eqb x y | _ => false end.
(** The name that a statement assigns. *)
Definition assigns (s : stmt) : option string := match s with SAssign x _ | SAug x _ _ => Some x | _ => None end.
(** The expressions of the statement are ones that are printed as they were written. *)
Definition fine_stmt (s : stmt) : bool := match s with SAssign _ e | SAug _ _ e => fine e | _ => true end.
