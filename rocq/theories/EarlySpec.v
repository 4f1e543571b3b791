(** What the checks that count statements are about, independently of how they do it: what statements do, and which statements there
    are in a piece of code. *)
From Coq Require Import String List Bool Arith.
From Verif Require Import Base PyModel PySpec EarlyModel.
Import ListNotations.
Local Open Scope string_scope.
Local Open Scope list_scope.
Local Open Scope nat_scope.

(** ** What statements do *)

(** How the execution of a statement ends. Python language reference 7.6 - 7.10. *)
Inductive outcome := Fell | Returned (v : value) | Broke | Continued | Raised (e : exn).

Section Run.
  Context {W : Type} (P : python W).
  (** The value that a return statement gives, and what all the other statements do: anything. An execution that does not end has no
      outcome. Python language reference, chapters 7 and 8. *)
  Variable returned : nat -> comp (W := W) value.
  Variable other : stmt -> W -> W -> outcome -> Prop.

  (** From the world before to the world after. Python language reference 7.6, 7.9, 7.10, 8.1. *)
  Fixpoint run (s : stmt) : W -> W -> outcome -> Prop :=
    let runs := (fix runs (l : list stmt) : W -> W -> outcome -> Prop :=
      match l with
      | [] => fun w w' o => w' = w /\ o = Fell
      | s :: l => fun w w' o => (exists w1, run s w w1 Fell /\ runs l w1 w' o) \/ (o <> Fell /\ run s w w' o)
      end) in
    match s with
    | Return n => fun w w' o => w' = fst (returned n w) /\ o = match snd (returned n w) with Ok v => Returned v | Raise e => Raised e end
    | Break => fun w w' o => w' = w /\ o = Broke
    | Continue => fun w w' o => w' = w /\ o = Continued
    | If c body orelse => fun w w' o =>
        match snd (test P c w) with
        | Ok true => runs body (fst (test P c w)) w' o
        | Ok false => runs orelse (fst (test P c w)) w' o
        | Raise e => w' = fst (test P c w) /\ o = Raised e
        end
    | _ => other s
    end.
  (** One after another. Python language reference, chapter 8. *)
  Fixpoint runs (l : list stmt) : W -> W -> outcome -> Prop :=
    match l with
    | [] => fun w w' o => w' = w /\ o = Fell
    | s :: l => fun w w' o => (exists w1, run s w w1 Fell /\ runs l w1 w' o) \/ (o <> Fell /\ run s w w' o)
    end.
End Run.

(** Following the advice to return early: the short branch (the else branch or, if there is none, the statement after the if) comes first,
    under the negated condition, and the long one is no longer indented. *)
Definition early (c : expr) (body orelse after : list stmt) : list stmt :=
  match orelse, after with
  | [], n :: rest => If (Unary Not c) [n] [] :: body ++ rest
  | [], [] => [If c body []]
  | _, _ => If (Unary Not c) orelse [] :: body ++ after
  end.

(** ** Which statements there are *)

(** Python's grammar: bodies are not empty. Python language reference, chapter 8. *)
Fixpoint grammatical (s : stmt) : bool :=
  let all := forallb grammatical in
  let some := fun l : list stmt => match l with [] => false | _ => true end in
  match s with
  | Define _ b | With _ b => some b && all b
  | If _ b e | Loop _ b e => some b && all b && all e
  | Try _ b hs e f => some b && all b && forallb (fun h => some h && all h) hs && all e && all f
  | Match _ cs => some (concat cs) && forallb (fun h => some h && all h) cs
  | _ => true
  end.

(** The condition of the main block. *)
Definition asks_main (c : expr) : Prop := c = Compare (Name "__name__") [(Eq, Const (CStr "__main__"))].

(** [listed defs main l xs]: xs are the statements in l and inside them, in order, where, unless asked for, imports, definitions with all
    they contain, and the main block with all it contains do not count. *)
Inductive listed (defs main : bool) : list stmt -> list stmt -> Prop :=
| listed_none : listed defs main [] []
| listed_more : forall s l xs ys, listed_one defs main s xs -> listed defs main l ys -> listed defs main (s :: l) (xs ++ ys)
with listed_one (defs main : bool) : stmt -> list stmt -> Prop :=
| one_simple : forall s, (exists n, s = Simple n \/ s = Return n) \/ s = Break \/ s = Continue -> listed_one defs main s [s]
| one_import : forall n, listed_one defs main (Import n) (if defs then [Import n] else [])
| one_define : forall n b xs, defs = true -> listed defs main b xs -> listed_one defs main (Define n b) (Define n b :: xs)
| one_hidden : forall n b, defs = false -> listed_one defs main (Define n b) []
| one_main : forall c b e, asks_main c -> main = false -> listed_one defs main (If c b e) []
| one_if : forall c b e xs ys, ~ (asks_main c /\ main = false) -> listed defs main b xs -> listed defs main e ys ->
    listed_one defs main (If c b e) (If c b e :: xs ++ ys)
| one_loop : forall n b e xs ys, listed defs main b xs -> listed defs main e ys -> listed_one defs main (Loop n b e) (Loop n b e :: xs ++ ys)
| one_try : forall n b hs e f xs, listed defs main (b ++ concat hs ++ e ++ f) xs -> listed_one defs main (Try n b hs e f) (Try n b hs e f :: xs)
| one_with : forall n b xs, listed defs main b xs -> listed_one defs main (With n b) (With n b :: xs)
| one_match : forall n cs xs, listed defs main (concat cs) xs -> listed_one defs main (Match n cs) (Match n cs :: xs).

(** It has a line 'else:' of its own, which an 'elif' does not. *)
Definition writes_else (s : stmt) : Prop :=
  match s with
  | If _ _ orelse => orelse <> [] /\ ~ exists c b e, orelse = [If c b e]
  | Loop _ _ orelse => orelse <> []
  | _ => False
  end.
(** A try statement. *)
Definition is_try (s : stmt) : Prop := exists n b hs e f, s = Try n b hs e f.
(** A match statement. *)
Definition is_match (s : stmt) : Prop := exists n cs, s = Match n cs.

(** How many of the list have the property. *)
Inductive how_many {A} (Q : A -> Prop) : list A -> nat -> Prop :=
| many_none : how_many Q [] 0
| many_yes : forall x l n, Q x -> how_many Q l n -> how_many Q (x :: l) (S n)
| many_no : forall x l n, ~ Q x -> how_many Q l n -> how_many Q (x :: l) n.

(** ** Comprehension variables *)

(** The names a target binds. Python language reference 6.2.4, 7.2. *)
Inductive binds : target -> string -> Prop :=
| binds_name : forall x, binds (AssignName x) x
| binds_tuple : forall l t x, List.In t l -> binds t x -> binds (Tuple l) x
| binds_other : forall l t x, List.In t l -> binds t x -> binds (OtherTarget l) x.
