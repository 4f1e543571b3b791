(** Which variable a name means: the scopes that the analysis of variables keeps on a stack, and the events it records. *)
From Coq Require Import String Ascii List Bool Arith.
From Verif Require Import Base.
Import ListNotations.
Local Open Scope string_scope.
Local Open Scope list_scope.

(** Expressions (astroid nodes, external code). Names and scopes are numbered; nodes without a rule of their own have just
    their children. Simplified: modifications (attributes of calls, targets that are not names) are not told from reads.
    edulint/linting/analyses/variable_scope.py:222-252, 325-348. *)
Inductive expr :=
| Name (n : nat) (x : string)
| Node (es : list expr)
| Call (f : expr) (args : list expr)
| Lambda (s : nat) (params : list (nat * string)) (defaults : list expr) (body : expr)
| Comp (s : nat) (gens : list gen) (elts : list expr)
(** One [for] of a comprehension: target, iterable, conditions (in the order of [get_children], external code).
    edulint/linting/analyses/variable_scope.py:229-236. *)
with gen := Gen (t : target) (iter : expr) (ifs : list expr)
(** A target: a name, several, or something with expressions in it. edulint/linting/analyses/variable_scope.py:266-293. *)
with target :=
| TName (n : nat) (x : string)
| TMany (ts : list target)
| TOther (e : expr).

(** Statements; [SBlocks] stands for if, while, with, try and the like: expressions, targets (after [as]) and blocks, and
    [SAssign] for assignments with annotations as well. Of a definition, [outer] has the expressions that are never visited:
    decorators, bases, return annotations, defaults of keyword-only parameters; the annotations visited after the defaults
    stand at the end of [defaults]. Assignment expressions are left out.
    edulint/linting/analyses/variable_scope.py:164-220, 254-323. *)
Inductive stmt :=
| SExpr (e : expr)
| SAssign (ts : list target) (e : expr)
| SAug (t : target) (e : expr)
| SFor (t : target) (iter : expr) (body orelse : list stmt)
| SBlocks (es : list expr) (ts : list target) (blocks : list (list stmt))
| SGlobal (xs : list string)
| SNonlocal (xs : list string)
| SImport (n : nat) (names : list (string * option string))
| SDel (n : nat) (x : string)
| SDef (s n : nat) (x : string) (outer annotations : list expr) (params : list (nat * string)) (defaults : list expr) (body : list stmt)
| SClass (s n : nat) (x : string) (outer : list expr) (body : list stmt).

(** Types of events, edulint/linting/analyses/var_events.py:28-33; MODIFY is left out. *)
Inductive event_type := Assign | Reassign | Read | Delete.
(** An event: the node, the name and the scope of the variable, what happens. edulint/linting/analyses/variable_scope.py:97-100. *)
Record event := { node : nat; name : string; type : event_type; scope : nat }.
(** A dictionary of the stack with the number of its scope, edulint/linting/analyses/variable_scope.py:32-39, 52. *)
Notation frame := (nat * list (string * nat))%type.
(** The stack (the last one first) and the events, edulint/linting/analyses/variable_scope.py:51-56. *)
Notation state := (list frame * list event)%type.

(** [_get_var_scope_index] and [_get_var_node_scope], edulint/linting/analyses/variable_scope.py:123-133. *)
Fixpoint get (x : string) (d : list (string * nat)) : option nat :=
  match d with [] => None | (y, s) :: r => if String.eqb y x then Some s else get x r end.
(** The innermost dictionary that has the name, edulint/linting/analyses/variable_scope.py:123-133. *)
Fixpoint get_scope (x : string) (stack : list frame) : option nat :=
  match stack with
  | [] => None
  | (_, d) :: r => match get x d with Some s => Some s | None => get_scope x r end
  end.
(** [_add_var_event]. Simplified: locations in the control flow graph and the call graph and the events outside
    of a scope are left out. edulint/linting/analyses/variable_scope.py:80-121. *)
Definition add_event (x : string) (n : nat) (t : event_type) (st : state) : state :=
  match get_scope x (fst st) with
  | None => st
  | Some s => (fst st, snd st ++ [{| node := n; name := x; type := t; scope := s |}])
  end.
(** [self.stack[-1][name] = ...], edulint/linting/analyses/variable_scope.py:151, 256, 262. *)
Definition put_top (x : string) (s : nat) (st : state) : state :=
  match st with ((t, d) :: r, evs) => ((t, (x, s) :: d) :: r, evs) | _ => st end.
(** [_init_var_in_scope], edulint/linting/analyses/variable_scope.py:135-154. *)
Definition init_var (x : string) (n : nat) (st : state) : state :=
  match fst st with
  | [] => st
  | (t, d) :: _ =>
      match get x d with
      | None => add_event x n Assign (put_top x t st)
      | Some s => add_event x n Reassign (put_top x s st)
      end
  end.
(** [dict.pop], edulint/linting/analyses/variable_scope.py:162. *)
Definition remove (x : string) (d : list (string * nat)) : list (string * nat) := filter (fun ys => negb (String.eqb (fst ys) x)) d.
(** The dictionary from which the name is removed, edulint/linting/analyses/variable_scope.py:156-162. *)
Fixpoint remove_from (x : string) (stack : list frame) : list frame :=
  match stack with
  | [] => []
  | (t, d) :: r => match get x d with Some _ => (t, remove x d) :: r | None => (t, d) :: remove_from x r end
  end.
(** [_del_var_from_scope], edulint/linting/analyses/variable_scope.py:156-162. *)
Definition del_var (x : string) (n : nat) (st : state) : state :=
  let st' := add_event x n Delete st in (remove_from x (fst st'), snd st').

(** One after another, edulint/linting/analyses/utils.py:110-115. *)
Definition each {A} (f : A -> state -> res state) : list A -> state -> res state :=
  fix go (l : list A) (st : state) : res state := match l with [] => Ok st | a :: r => do st' <- f a st; go r st' end.
(** [in_new_scope], edulint/linting/analyses/variable_scope.py:32-39. *)
Definition in_scope (s : nat) (k : state -> res state) (st : state) : res state :=
  do st' <- k ((s, []) :: fst st, snd st); Ok (tl (fst st'), snd st').
(** Parameters, edulint/linting/analyses/variable_scope.py:189-190, 224-225. *)
Definition init_params (params : list (nat * string)) (st : state) : state := fold_left (fun st p => init_var (snd p) (fst p) st) params st.
(** [visit_call]: the exception, edulint/linting/analyses/variable_scope.py:325-330. *)
Definition unknowable (f : expr) : bool := match f with Name _ x => String.eqb x "locals" || String.eqb x "globals" | _ => false end.

(** [visit] of an expression, edulint/linting/analyses/variable_scope.py:222-252, 325-348. *)
Fixpoint visit_expr (e : expr) (st : state) {struct e} : res state :=
  match e with
  | Name n x => Ok (add_event x n Read st)
  | Node es => each visit_expr es st
  | Call f args =>
      if unknowable f then Raise (OtherError "UnknowableLocalsException")
      else do st' <- visit_expr f st; each visit_expr args st'
  | Lambda s params _ body => in_scope s (fun st' => visit_expr body (init_params params st')) st
  | Comp s gens elts => in_scope s (fun st' => do st'' <- each visit_gen gens st'; each visit_expr elts st'') st
  end
(** A [for] of a comprehension, edulint/linting/analyses/variable_scope.py:229-236. *)
with visit_gen (g : gen) (st : state) {struct g} : res state :=
  match g with Gen t iter ifs => do st' <- visit_target t st; do st'' <- visit_expr iter st'; each visit_expr ifs st'' end
(** [_visit_assigned_to], edulint/linting/analyses/variable_scope.py:266-293. *)
with visit_target (t : target) (st : state) {struct t} : res state :=
  match t with
  | TName n x => Ok (init_var x n st)
  | TMany ts => each visit_target ts st
  | TOther e => visit_expr e st
  end.

(** [visit_global], edulint/linting/analyses/variable_scope.py:254-258. *)
Definition declare_global (xs : list string) (st : state) : state :=
  fold_left (fun st x => put_top x (match last (fst st) (0, []) with (m, _) => m end) st) xs st.
(** [visit_nonlocal], edulint/linting/analyses/variable_scope.py:260-264. *)
Definition declare_nonlocal (xs : list string) (st : state) : state :=
  fold_left (fun st x => match fst st with _ :: (p, _) :: _ => put_top x p st | _ => st end) xs st.
(** [visit_import]: one name, edulint/linting/analyses/variable_scope.py:316-323. *)
Definition imported (na : string * option string) : string := match snd na with Some a => a | None => fst na end.
(** [visit_augassign]: the read, edulint/linting/analyses/variable_scope.py:297-300. *)
Definition read_target (t : target) (st : state) : state := match t with TName n x => add_event x n Read st | _ => st end.

(** [statements_before_definitions]: what is done with a statement at first. edulint/linting/analyses/variable_scope.py:164-174. *)
Definition at_first (visit : stmt -> state -> res state) (c : stmt) (st : state) : res state :=
  match c with SDef _ n x _ _ _ _ _ | SClass _ n x _ _ => Ok (init_var x n st) | _ => visit c st end.
(** What is done with a statement later, edulint/linting/analyses/variable_scope.py:167-178. *)
Definition later (visit : stmt -> state -> res state) (c : stmt) (st : state) : res state :=
  match c with SDef _ _ _ _ _ _ _ _ | SClass _ _ _ _ _ => visit c st | _ => Ok st end.

(** [visit] of a statement, edulint/linting/analyses/variable_scope.py:180-220, 254-334. *)
Fixpoint visit_stmt (c : stmt) (st : state) {struct c} : res state :=
  match c with
  | SExpr e => visit_expr e st
  | SAssign ts e => do st' <- visit_expr e st; each visit_target ts st'
  | SAug t e => do st' <- visit_expr e (read_target t st); visit_target t st'
  | SFor t iter body orelse =>
      do s1 <- visit_target t st; do s2 <- visit_expr iter s1; do s3 <- each visit_stmt body s2; each visit_stmt orelse s3
  | SBlocks es ts blocks => do s1 <- each visit_expr es st; do s2 <- each visit_target ts s1; each (each visit_stmt) blocks s2
  | SGlobal xs => Ok (declare_global xs st)
  | SNonlocal xs => Ok (declare_nonlocal xs st)
  | SImport n names => Ok (fold_left (fun st na => init_var (imported na) n st) names st)
  | SDel n x => Ok (del_var x n st)
  | SDef s _ _ _ annotations params defaults body =>
      in_scope s (fun s0 =>
        do s1 <- each visit_expr annotations s0;
        do s2 <- each visit_expr defaults (init_params params s1);
        do s3 <- each (fun b => match b with SDef _ n x _ _ _ _ _ | SClass _ n x _ _ => fun st => Ok (init_var x n st) | _ => visit_stmt b end) body s2;
        each (fun b => match b with SDef _ _ _ _ _ _ _ _ | SClass _ _ _ _ _ => visit_stmt b | _ => fun st => Ok st end) body s3) st
  | SClass s _ _ _ body =>
      in_scope s (fun s0 =>
        do s3 <- each (fun b => match b with SDef _ n x _ _ _ _ _ | SClass _ n x _ _ => fun st => Ok (init_var x n st) | _ => visit_stmt b end) body s0;
        each (fun b => match b with SDef _ _ _ _ _ _ _ _ | SClass _ _ _ _ _ => visit_stmt b | _ => fun st => Ok st end) body s3) st
  end.
(** The body of a module, a function or a class, edulint/linting/analyses/variable_scope.py:164-178. *)
Definition visit_body (body : list stmt) (st : state) : res state :=
  do st' <- each (at_first visit_stmt) body st; each (later visit_stmt) body st'.
(** [VarEventsAnalysis.collect]: the events of a module with the number [m], edulint/linting/analyses/variable_scope.py:19-29, 176-178. *)
Definition collect (m : nat) (body : list stmt) : res (list event) :=
  do st <- in_scope m (visit_body body) ([], []); Ok (snd st).
