(** What statements do, and what replacing an if statement as suggested means. *)
From Coq Require Import String List Bool Arith NArith.
From Verif Require Import Base PyModel PySpec IfModel.
Import ListNotations.
Local Open Scope string_scope.
Local Open Scope list_scope.

(** How a statement ends. *)
Inductive flow := Next | Returned (v : value) | Jump (n : nat).

(** What the statements that the checks do not look into do: storing into a target, augmented assignment,
    deletion, loops and the others may do anything to the state. Annotations have no effect. *)
Record program (W : Type) := {
  py : python W;
  store_name : string -> value -> W -> W * res unit;
  store_attribute : value -> string -> value -> W -> W * res unit;
  store_item : value -> value -> value -> W -> W * res unit;
  store_other : nat -> value -> W -> W * res unit;
  augment : expr -> binop -> value -> W -> W * res unit;
  delete : expr -> W -> W * res unit;
  loop : expr -> nat -> W -> W * res flow;
  other : nat -> W -> W * res flow
}.
Arguments py {W}. Arguments store_name {W}. Arguments store_attribute {W}. Arguments store_item {W}. Arguments store_other {W}. Arguments augment {W}. Arguments delete {W}. Arguments loop {W}. Arguments other {W}.

Section Exec.
  Context {W : Type}.
  Variable P : program W.

  Definition store (t : expr) (v : value) : comp (W := W) unit :=
    match t with
    | Name x => store_name P x v
    | Attribute a x => andthen (eval (py P) a) (fun o => store_attribute P o x v)
    | Subscript a i => andthen (eval (py P) a) (fun o => andthen (eval (py P) i) (fun k => store_item P o k v))
    | Other n => store_other P n v
    | _ => fun w => (w, Raise TypeError)
    end.
  Fixpoint each {A} (f : A -> comp (W := W) unit) (l : list A) : comp unit :=
    match l with [] => pure tt | a :: r => andthen (f a) (fun _ => each f r) end.

  Fixpoint exec (s : stmt) : comp (W := W) flow :=
    let fix block (l : list stmt) : comp flow :=
      match l with
      | [] => pure Next
      | s :: r => andthen (exec s) (fun f => match f with Next => block r | _ => pure f end)
      end in
    match s with
    | Return None => pure (Returned VNone)
    | Return (Some e) => andthen (eval (py P) e) (fun v => pure (Returned v))
    | Assign ts e => andthen (eval (py P) e) (fun v => andthen (each (fun t => store t v) ts) (fun _ => pure Next))
    | AugAssign t o e => andthen (eval (py P) e) (fun v => andthen (augment P t o v) (fun _ => pure Next))
    | AnnAssign t (Some e) => andthen (eval (py P) e) (fun v => andthen (store t v) (fun _ => pure Next))
    | AnnAssign _ None => pure Next
    | Delete ts => andthen (each (delete P) ts) (fun _ => pure Next)
    | Pass => pure Next
    | If c b o => andthen (test (py P) c) (fun t => block (if t then b else o))
    | For t n => loop P t n
    | OtherStmt n => other P n
    end.
  Fixpoint block (l : list stmt) : comp (W := W) flow :=
    match l with
    | [] => pure Next
    | s :: r => andthen (exec s) (fun f => match f with Next => block r | _ => pure f end)
    end.
End Exec.

(** The program text that the user gets by following a message about the if statement at the head of [old]. *)
Inductive follows : msg -> list stmt -> list stmt -> Prop :=
| f_return : forall c t e test body o orelse rest, reads t e ->
    follows (MReturn c t) (If test body (o :: orelse) :: rest) (Return (Some e) :: rest)
| f_return_next : forall c t e test body next rest, reads t e ->
    follows (MReturn c t) (If test body [] :: next :: rest) (Return (Some e) :: rest)
| f_assign : forall c x t x' e old rest, reads x x' -> reads t e ->
    follows (MAssign c x t) (old :: rest) (Assign [x'] e :: rest)
| f_pass : forall t e test body orelse rest, reads t e ->
    follows (MPass t) (If test body orelse :: rest) (If e orelse [] :: rest)
| f_nested : forall t e test test2 body orelse2 orelse rest, reads t e ->
    follows (MNested t) (If test [If test2 body orelse2] orelse :: rest) (If e body [] :: rest)
| f_seq : forall t e test body orelse next rest, reads t e ->
    follows (MSeq t) (If test body orelse :: next :: rest) (If e body [] :: rest).

(** Two programs that do the same. *)
Definition same_block (a b : list stmt) : Prop := forall W (P : program W) w, block P a w = block P b w.

(** Two computations of a value that do the same as conditions: same effects, same exceptions, both true or both false. *)
Definition alike {W} (P : python W) (m n : comp (W := W) value) : Prop :=
  forall w, andthen m (truth P) w = andthen n (truth P) w.
(** Two programs that return values that are both true or both false, after the same effects. *)
Definition returns_alike (a b : list stmt) : Prop :=
  forall W (P : program W), exists m n, alike (py P) m n /\
    (forall w, block P a w = andthen m (fun v => pure (Returned v)) w) /\
    (forall w, block P b w = andthen n (fun v => pure (Returned v)) w).
(** Two programs that assign to [x] values that are both true or both false, after the same effects, and go on alike. *)
Definition assigns_alike (x : expr) (a b : list stmt) (rest : list stmt) : Prop :=
  forall W (P : program W), exists m n, alike (py P) m n /\
    (forall w, block P a w = andthen m (fun v => andthen (store P x v) (fun _ => block P rest)) w) /\
    (forall w, block P b w = andthen n (fun v => andthen (store P x v) (fun _ => block P rest)) w).

(** The values that a statement returns or assigns. *)
Definition values (s : stmt) : list expr :=
  match s with
  | Return (Some e) | Assign _ e | AugAssign _ _ e | AnnAssign _ (Some e) => [e]
  | _ => []
  end.
Definition is_ifexp (e : expr) : bool := match e with IfExp _ _ _ => true | _ => false end.
(** Trees of statements that Python's parser can produce; no comparison is the first operand of another one. *)
Definition fine (e : expr) : bool := well_formed e && no_nested_compare e.
Fixpoint fine_stmt (s : stmt) : bool :=
  match s with
  | Return (Some e) => fine e
  | Assign ts e => forallb fine ts && fine e
  | AugAssign t _ e => fine t && fine e
  | AnnAssign t (Some e) => fine t && fine e
  | AnnAssign t None => fine t
  | If c b o => fine c && forallb fine_stmt b && forallb fine_stmt o
  | _ => true
  end.
(** An augmented assignment. *)
Definition is_augmented (s : stmt) : bool := match s with AugAssign _ _ _ => true | _ => false end.
(** No value that the if statement or the statement after it returns or assigns is a conditional expression, and neither is the condition. *)
Definition no_ifexp (c : expr) (body orelse rest : list stmt) : bool :=
  negb (is_ifexp c) && forallb (fun e => negb (is_ifexp e)) (flat_map values (body ++ orelse ++ firstn 1 rest)).
(** The expression gives True or False whenever it gives a value. *)
Definition boolean {W} (P : python W) (c : expr) : Prop := forall w w' v, eval P c w = (w', Ok v) -> exists b, v = VBool b.
(** The text negates something. *)
Definition has_negation (t : text) : Prop := List.In TNegOpen t.

(** A statement that is neither a [del] nor a bare annotation. *)
Definition plain_branch (s : stmt) : bool := match s with Delete _ | AnnAssign _ None => false | _ => true end.
