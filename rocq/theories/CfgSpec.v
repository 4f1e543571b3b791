(** What a control flow graph is supposed to say, independently of how it is built: the executions of a program (with arbitrary
    outcomes of conditions, iterators and exceptions) and the walks through a graph. *)
From Coq Require Import String List Bool Arith.
From Verif Require Import Base CfgModel.
Import ListNotations.
Local Open Scope list_scope.
Local Open Scope nat_scope.

(** ** Reachability in any graph *)

(** There is a path, see the docstring of [reachable], edulint/linting/analyses/cfg/graph.py:193. *)
Inductive path (next : nat -> list nat) : nat -> nat -> Prop :=
| path_here : forall a, path next a a
| path_on : forall a b c, List.In b (next a) -> path next b c -> path next a c.

(** ** Executions *)

(** How the execution of statements ends; [Cut] is an execution that is looked at before its end, so that
    executions without an end are covered by their beginnings. Python language reference, chapter 8. *)
Inductive outcome := Fell | Broke | Continued | Returned | Raised | Cut.

(** The nodes executed so far and the outcome. Python language reference, chapters 7 and 8. *)
Definition execution := list node -> outcome -> Prop.

(** Evaluating one node: it may raise. Python language reference 4.3. *)
Definition event (n : node) : execution :=
  fun tr o => (tr = [] /\ o = Cut) \/ (tr = [n] /\ (o = Fell \/ o = Raised)).
(** One after another. Python language reference, chapter 8. *)
Definition then_ (A B : execution) : execution :=
  fun tr o => (exists t u, tr = t ++ u /\ A t Fell /\ B u o) \/ (A tr o /\ o <> Fell).
(** Python language reference, chapter 8. *)
Definition either (A B : execution) : execution := fun tr o => A tr o \/ B tr o.
(** Several nodes in order. Python language reference 6.16. *)
Fixpoint events (l : list node) : execution :=
  match l with
  | [] => fun tr o => tr = [] /\ o = Fell
  | n :: l => then_ (event n) (events l)
  end.
(** Loops: the test (or asking the iterator for the next item), the body, the else branch.
    Python language reference 8.2, 8.3. *)
Inductive loop (T B E : execution) : execution :=
| loop_stop : forall tr o, T tr o -> o <> Fell -> loop T B E tr o
| loop_exit : forall t tr o, T t Fell -> E tr o -> loop T B E (t ++ tr) o
| loop_break : forall t tr, T t Fell -> B tr Broke -> loop T B E (t ++ tr) Fell
| loop_leave : forall t tr o, T t Fell -> B tr o -> o = Returned \/ o = Raised \/ o = Cut -> loop T B E (t ++ tr) o
| loop_again : forall t tr o tr' o', T t Fell -> B tr o -> o = Fell \/ o = Continued -> loop T B E tr' o' -> loop T B E (t ++ tr ++ tr') o'.

(** How the jumps end. Python language reference 7.6, 7.8 - 7.10. *)
Definition outcome_of (k : jump_kind) : outcome :=
  match k with Break => Broke | Continue => Continued | Return => Returned | RaiseOf _ => Raised end.

(** After the body and handlers comes the finally branch, whose own jumps win. Python language reference 8.4.4. *)
Definition finally (A F : execution) : execution :=
  fun tr o => A tr o /\ o = Cut \/
              exists t u o1 o2, tr = t ++ u /\ A t o1 /\ o1 <> Cut /\ F u o2 /\ o = match o2 with Fell => o1 | _ => o2 end.

Section Executions.
  (** Whether the context managers of this with statement may swallow exceptions. Python language reference 3.3.9. *)
  Variable swallows : nat -> bool.

  (** The executions of a statement; executing a function definition does not execute its body.
      Python language reference, chapters 7 and 8. *)
  Fixpoint run (s : stmt) : execution :=
    let runs := (fix runs (l : list stmt) : execution :=
      match l with
      | [] => fun tr o => tr = [] /\ (o = Fell \/ o = Cut)
      | s :: l => then_ (run s) (runs l)
      end) in
    match s with
    | Simple n | Function n _ => event (Whole n)
    | Opaque n body => then_ (event (Whole n)) (runs body)
    | Jump n k => fun tr o => (tr = [] /\ o = Cut) \/ (tr = [Whole n] /\ (o = outcome_of k \/ o = Raised))
    | Class n body => then_ (event (Whole n)) (runs body)
    | If n body orelse => then_ (event (Part n Test)) (either (runs body) (runs orelse))
    | While n body orelse => loop (event (Part n Test)) (runs body) (runs orelse)
    | For n body orelse => then_ (event (Part n Iter)) (loop (event (Part n Target)) (runs body) (runs orelse))
    | With n items body =>
        fun tr o =>
          then_ (events (with_items n 0 items)) (runs body) tr o \/
          (swallows n = true /\ o = Fell /\ then_ (events (with_items n 0 items)) (runs body) tr Raised)
    | Try n body handlers orelse final =>
        let handled := (fix handled (i : nat) (hs : list (list string * bool * list stmt)) : execution :=
          match hs with
          | [] => fun _ _ => False
          | (types, named, hbody) :: hs =>
              either (then_ (events (if named then [Part n (HandlerName i)] else [])) (runs hbody)) (handled (S i) hs)
          end) in
        finally
          (fun tr o =>
             then_ (runs body) (runs orelse) tr o \/
             exists t u, tr = t ++ u /\ runs body t Raised /\ handled 0 handlers u o)
          (runs final)
    end.
  (** The executions of a list of statements. Python language reference, chapter 8. *)
  Fixpoint runs (l : list stmt) : execution :=
    match l with
    | [] => fun tr o => tr = [] /\ (o = Fell \/ o = Cut)
    | s :: l => then_ (run s) (runs l)
    end.

  (** Python can execute this node of the program. *)
  Definition executed (l : list stmt) (x : node) : Prop := exists tr o, runs l tr o /\ List.In x tr.
End Executions.

(** ** Walks *)

(** A step from a node of the graph to the next one, or, from [None], to the first one: on in the same block, or from the end of a
    block along an edge. Docstring of [CFGBlock] and comments on its fields, edulint/linting/analyses/cfg/graph.py:177-194. *)
Definition step (s : state) (g : nat) (p : option (nat * nat)) (q : nat * nat) (n : node) : Prop :=
  nth_error (locs s (fst q)) (snd q) = Some n /\
  match p with
  | None => q = (start (graph s g), 0)
  | Some (b, i) =>
      (fst q = b /\ snd q = S i) \/
      (S i = List.length (locs s b) /\ snd q = 0 /\ exists e, List.In e (succs s b) /\ target s e = fst q)
  end.
(** A walk that meets these nodes. edulint/linting/analyses/cfg/graph.py:177-194. *)
Inductive walk (s : state) (g : nat) : option (nat * nat) -> list node -> option (nat * nat) -> Prop :=
| walk_here : forall p, walk s g p [] p
| walk_on : forall p q n l r, step s g p q n -> walk s g (Some q) l r -> walk s g p (n :: l) r.

(** ** Programs *)

(** Python's grammar: bodies have at least one statement, with statements at least one item, try statements have handlers or a
    finally branch, else branches of try only with handlers. Python language reference, chapter 8. *)
Fixpoint grammatical (s : stmt) : bool :=
  let all := forallb grammatical in
  let body := fun l : list stmt => match l with [] => false | _ => true end in
  match s with
  | Simple _ | Jump _ _ => true
  | Opaque _ b => all b
  | Function _ b | Class _ b => body b && all b
  | If _ b e | While _ b e | For _ b e => body b && all b && all e
  | With _ items b => match items with [] => false | _ => true end && body b && all b
  | Try _ b hs e f =>
      body b && all b && forallb (fun h => body (snd h) && all (snd h)) hs && all e && all f &&
      match hs, f with [], [] => false | _, _ => true end && match hs, e with [], _ :: _ => false | _, _ => true end
  end.

(** The numbers of all the statements inside; different statements have different numbers. *)
Fixpoint numbers (s : stmt) : list nat :=
  let all := flat_map numbers in
  match s with
  | Simple n | Jump n _ => [n]
  | Opaque n b | Function n b | Class n b | With n _ b => n :: all b
  | If n b e | While n b e | For n b e => n :: all b ++ all e
  | Try n b hs e f => n :: all b ++ flat_map (fun h => all (snd h)) hs ++ all e ++ all f
  end.

(** Programs without try, match, asynchronous loops and classes, whose context managers swallow no exceptions. *)
Fixpoint plain (swallows : nat -> bool) (s : stmt) : bool :=
  let all := forallb (plain swallows) in
  match s with
  | Simple _ | Jump _ _ => true
  | Opaque _ _ | Class _ _ | Try _ _ _ _ _ => false
  | Function _ b => all b
  | If _ b e | While _ b e | For _ b e => all b && all e
  | With n _ b => negb (swallows n) && all b
  end.

(** The function definitions in a program, with their bodies, except those in finally branches and in statements like match. *)
Fixpoint functions (s : stmt) : list (nat * list stmt) :=
  let all := flat_map functions in
  match s with
  | Simple _ | Jump _ _ | Opaque _ _ => []
  | Function n b => (n, b) :: all b
  | Class _ b | With _ _ b => all b
  | If _ b e | While _ b e | For _ b e => all b ++ all e
  | Try _ b hs e _ => all b ++ flat_map (fun h => all (snd h)) hs ++ all e
  end.
