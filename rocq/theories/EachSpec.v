(** What iterating over a structure directly means: the element has a name, and a[i] is replaced by it. *)
From Coq Require Import String List Bool Arith NArith ZArith.
From Verif Require Import Base PyModel PySpec IfSpec LocalSpec LoopModel LoopSpec EachModel.
Import ListNotations.
Local Open Scope string_scope.
Local Open Scope list_scope.

Section Replace.
  Variables a i x : string.
  Definition is_element (v s : expr) : bool := match v, s with Name b, Name j => String.eqb b a && String.eqb j i | _, _ => false end.
  (** a[i] replaced by x, everywhere. *)
  Fixpoint direct (e : expr) : expr :=
    match e with
    | Name _ | Const _ | Other _ => e
    | Unary o b => Unary o (direct b)
    | Binary o b c => Binary o (direct b) (direct c)
    | BoolOp o vs => BoolOp o (map direct vs)
    | Compare b ops => Compare (direct b) (map (fun cv => (fst cv, direct (snd cv))) ops)
    | Call f args => Call (direct f) (map direct args)
    | Attribute b m => Attribute (direct b) m
    | Subscript v s => if is_element v s then Name x else Subscript (direct v) (direct s)
    | IfExp c b d => IfExp (direct c) (direct b) (direct d)
    end.
  (** In a target, its parts are replaced; the target itself is not. *)
  Definition direct_target (t : expr) : expr :=
    match t with
    | Subscript v s => Subscript (direct v) (direct s)
    | Attribute v m => Attribute (direct v) m
    | _ => t
    end.
  Fixpoint direct_stmt (s : stmt) : stmt :=
    match s with
    | SAssign y e => SAssign y (direct e)
    | SAug y o e => SAug y o (direct e)
    | SStore t e => SStore (direct_target t) (direct e)
    | SExpr e => SExpr (direct e)
    | SReturn e => SReturn (direct e)
    | SIf c b e => SIf (direct c) (map direct_stmt b) (map direct_stmt e)
    | SWhile c b e => SWhile (direct c) (map direct_stmt b) (map direct_stmt e)
    | SFor t it b e => SFor (direct_target t) (direct it) (map direct_stmt b) (map direct_stmt e)
    | SBreak | SContinue | SOther _ => s
    end.
End Replace.

(** The name occurs in an expression, a statement. *)
Fixpoint uses (i : string) (e : expr) : bool :=
  match e with
  | Name x => String.eqb i x
  | Const _ | Other _ => false
  | Unary _ a | Attribute a _ => uses i a
  | Binary _ a b | Subscript a b => uses i a || uses i b
  | BoolOp _ vs => existsb (uses i) vs
  | Compare a ops => uses i a || existsb (fun cv => uses i (snd cv)) ops
  | Call f args => uses i f || existsb (uses i) args
  | IfExp c a b => uses i c || uses i a || uses i b
  end.
Fixpoint uses_stmt (i : string) (s : stmt) : bool :=
  match s with
  | SAssign y e | SAug y _ e => String.eqb i y || uses i e
  | SStore t e => uses i t || uses i e
  | SExpr e | SReturn e => uses i e
  | SIf c b e | SWhile c b e => uses i c || existsb (uses_stmt i) b || existsb (uses_stmt i) e
  | SFor t it b e => uses i t || uses i it || existsb (uses_stmt i) b || existsb (uses_stmt i) e
  | SBreak | SContinue | SOther _ => false
  end.
(** The statement, or one in it, assigns the name. *)
Fixpoint assigns_name (i : string) (s : stmt) : bool :=
  match s with
  | SAssign y _ | SAug y _ _ => String.eqb i y
  | SStore (Name y) _ => String.eqb i y
  | SIf _ b e | SWhile _ b e => existsb (assigns_name i) b || existsb (assigns_name i) e
  | SFor t _ b e => (match t with Name y => String.eqb i y | _ => false end) || existsb (assigns_name i) b || existsb (assigns_name i) e
  | _ => false
  end.
(** Parsed code: expressions as parsers make them and printed as they were written, targets that are names (in inner loops), items or attributes. *)
Definition parsed_target (t : expr) : bool := match t with Subscript _ _ | Attribute _ _ => true | _ => false end.
Fixpoint parsed (s : stmt) : bool :=
  match s with
  | SAssign _ e | SAug _ _ e | SExpr e | SReturn e => fine e
  | SStore t e => parsed_target t && fine t && fine e
  | SIf c b e | SWhile c b e => fine c && forallb parsed b && forallb parsed e
  | SFor t it b e => (match t with Name _ => true | _ => false end) && fine it && forallb parsed b && forallb parsed e
  | SBreak | SContinue | SOther _ => true
  end.

(** Computations that end in related states with the same result, and statements that end in related states in the same
    way; each ends if and only if the other does. *)
Section Related.
  Context {W : Type}.
  Variable R : W -> W -> Prop.
  Definition agree {A} (p q : W * res A) : Prop := R (fst p) (fst q) /\ snd p = snd q.
  Definition agree_runs (r s : run W) : Prop := forall w u, R w u ->
    (forall w' o, r w w' o -> exists u', s u u' o /\ R w' u') /\ (forall u' o, s u u' o -> exists w', r w w' o /\ R w' u').
End Related.

(** A state of the one loop and a state of the other: as long as they are related, [a[i]] in the first is [x] in the
    second. Names other than [x] have the same values, [i] too if it is kept; calls and other operations, and
    assignments to names other than the three, give the same results and keep the states related. *)
Record in_step {W} (P : program W) (a i x : string) (keep : bool) (R : W -> W -> Prop) : Prop := {
  s_element : forall w u, R w u -> eval (py P) (Subscript (Name a) (Name i)) w = (w, lookup (py P) x u);
  s_lookup : forall y w u, y <> x -> (keep = true \/ y <> i) -> R w u -> lookup (py P) y w = lookup (py P) y u;
  s_truth : forall n w u, R w u -> obj_truth (py P) n w = obj_truth (py P) n u;
  s_opaque : forall n w u, R w u -> agree R (opaque (py P) n w) (opaque (py P) n u);
  s_call : forall f vs w u, R w u -> agree R (call (py P) f vs w) (call (py P) f vs u);
  s_attribute : forall v m w u, R w u -> agree R (attribute (py P) v m w) (attribute (py P) v m u);
  s_item : forall v k w u, R w u -> agree R (item (py P) v k w) (item (py P) v k u);
  s_unary : forall o v w u, R w u -> agree R (unary_op (py P) o v w) (unary_op (py P) o v u);
  s_binary : forall o v v' w u, R w u -> agree R (binary_op (py P) o v v' w) (binary_op (py P) o v v' u);
  s_compare : forall o v v' w u, R w u -> agree R (compare_op (py P) o v v' w) (compare_op (py P) o v v' u);
  s_store : forall y v w u, y <> a -> y <> i -> y <> x -> R w u -> agree R (store P (Name y) v w) (store P (Name y) v u);
  s_set_item : forall o k v w u, R w u -> agree R (set_item P o k v w) (set_item P o k v u);
  s_set_attribute : forall o m v w u, R w u -> agree R (set_attribute P o m v w) (set_attribute P o m v u);
  s_inplace : forall o v v' w u, R w u -> agree R (inplace P o v v' w) (inplace P o v v' u);
  s_elements : forall v w u, R w u -> agree R (elements P v w) (elements P v u);
  s_other : forall n w u, R w u -> R (fst (other P n w)) (fst (other P n u)) /\ snd (other P n w) = snd (other P n u)
}.
(** The next index in the one loop and the next element in the other, put into the target, make the states related. *)
Definition next_in_step {W} (P : program W) (i : string) (t : expr) (R0 R : W -> W -> Prop) (k v : value) : Prop := forall w u, R0 w u ->
  exists w' u', store P (Name i) k w = (w', Ok tt) /\ store P t v u = (u', Ok tt) /\ R w' u'.
(** What the one does from [w] and the other from [u]: the same outcomes, in related states. *)
Definition agree_outcomes {W} (R : W -> W -> Prop) (r s : W -> out -> Prop) : Prop :=
  (forall w' o, r w' o -> exists u', s u' o /\ R w' u') /\ (forall u' o, s u' o -> exists w', r w' o /\ R w' u').
(** The iterable is range(len(a)); the start 0 and the step 1 may be written, also as False and True, 0.0 and 1.0. *)
Definition zero_const (e : expr) : Prop := e = Const (CInt 0) \/ e = Const (CBool false) \/ e = Const (CFloat "0.0").
Definition one_const (e : expr) : Prop := e = Const (CInt 1) \/ e = Const (CBool true) \/ e = Const (CFloat "1.0").
Definition over_indices (iter : expr) (a : string) : Prop := exists args, iter = Call (Name "range") args /\
  let stop := Call (Name "len") [Name a] in
  (args = [stop] \/ (exists z, zero_const z /\ args = [z; stop]) \/ exists z o, zero_const z /\ one_const o /\ args = [z; stop; o]).
(** With enumerate, the index keeps its name. *)
Definition kept (m : each_message) : bool := match m with UseForeach => false | UseEnumerate => true end.
(** Methods of lists that modify them. *)
Definition list_mutators : list string := ["append"; "clear"; "extend"; "insert"; "pop"; "remove"; "reverse"; "sort"].
(** The expression calls one of them on [a]. *)
Fixpoint calls_mutator (a : string) (e : expr) : bool :=
  match e with
  | Name _ | Const _ | Other _ => false
  | Unary _ b | Attribute b _ => calls_mutator a b
  | Binary _ b c | Subscript b c => calls_mutator a b || calls_mutator a c
  | BoolOp _ vs => existsb (calls_mutator a) vs
  | Compare b ops => calls_mutator a b || existsb (fun cv => calls_mutator a (snd cv)) ops
  | Call f args => (match f with Attribute (Name b) m => String.eqb a b && existsb (String.eqb m) list_mutators | _ => false end) || calls_mutator a f || existsb (calls_mutator a) args
  | IfExp c b d => calls_mutator a c || calls_mutator a b || calls_mutator a d
  end.
(** The block ends with break or return. *)
Definition ends_in_leave (l : list stmt) : bool := match last l SContinue with SBreak | SReturn _ => true | _ => false end.
(** A statement of a block that does not end so calls one of the methods; the statement is in a block for which [lv] tells it. *)
Fixpoint mutates (a : string) (lv : bool) (s : stmt) : bool :=
  match s with
  | SAssign _ e | SAug _ _ e | SExpr e | SReturn e => negb lv && calls_mutator a e
  | SStore t e => negb lv && (calls_mutator a t || calls_mutator a e)
  | SIf c b e | SWhile c b e => (negb lv && calls_mutator a c) || existsb (mutates a (ends_in_leave b)) b || existsb (mutates a (ends_in_leave e)) e
  | SFor t it b e => (negb lv && (calls_mutator a t || calls_mutator a it)) || existsb (mutates a (ends_in_leave b)) b || existsb (mutates a (ends_in_leave e)) e
  | SBreak | SContinue | SOther _ => false
  end.
