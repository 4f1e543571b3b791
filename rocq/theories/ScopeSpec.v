(** Python's own rules: which variable a name means, from the text of a module alone. *)
From Coq Require Import String Ascii List Bool Arith.
From Verif Require Import Base ScopeModel.
Import ListNotations.
Local Open Scope string_scope.
Local Open Scope list_scope.

(** A scope: its number, whether it is a class, the names bound in it, those declared global, those declared nonlocal. *)
Record scope_info := { id : nat; is_class : bool; bound : list string; globals : list string; nonlocals : list string }.
(** A chain: the innermost scope first, the module last. *)
Notation chain := (list scope_info).

Definition has (x : string) (l : list string) : bool := existsb (String.eqb x) l.

(** The variable meant by a name free in some scope: classes are passed over. [m] is the module. *)
Fixpoint resolve_free (m : nat) (c : chain) (x : string) : nat :=
  match c with
  | [] => m
  | sc :: r =>
      if is_class sc then resolve_free m r x
      else if has x (globals sc) then m
      else if has x (nonlocals sc) then resolve_free m r x
      else if has x (bound sc) then id sc else resolve_free m r x
  end.
Definition resolve (m : nat) (c : chain) (x : string) : nat :=
  match c with
  | [] => m
  | sc :: r =>
      if has x (globals sc) then m
      else if has x (nonlocals sc) then resolve_free m r x
      else if has x (bound sc) then id sc else resolve_free m r x
  end.
Definition mentions (sc : scope_info) (x : string) : Prop := List.In x (bound sc) \/ List.In x (globals sc) \/ List.In x (nonlocals sc).

(** What a statement binds in the scope it stands in. *)
Fixpoint bound_target (t : target) : list string :=
  match t with TName _ x => [x] | TMany ts => flat_map bound_target ts | TOther _ => [] end.
Definition bound_gen (g : gen) : list string := match g with Gen t _ _ => bound_target t end.
Fixpoint before_dot (s : string) : string :=
  match s with EmptyString => "" | String a r => if Ascii.eqb a "." then "" else String a (before_dot r) end.
Definition bound_import (na : string * option string) : string := match snd na with Some a => a | None => before_dot (fst na) end.
(** Imports under a name of their own, or of a module whose name has no dot. *)
Definition undotted (na : string * option string) : Prop := snd na = None -> before_dot (fst na) = fst na.
Definition undotted_import (na : string * option string) : list string :=
  match snd na with Some a => [a] | None => if String.eqb (before_dot (fst na)) (fst na) then [fst na] else [] end.
Fixpoint bound_stmt (c : stmt) : list string :=
  match c with
  | SExpr _ | SGlobal _ | SNonlocal _ => []
  | SAssign ts _ => flat_map bound_target ts
  | SAug t _ => bound_target t
  | SFor t _ body orelse => bound_target t ++ flat_map bound_stmt body ++ flat_map bound_stmt orelse
  | SBlocks _ ts blocks => flat_map bound_target ts ++ flat_map (flat_map bound_stmt) blocks
  | SImport _ names => map bound_import names
  | SDel _ x => [x]
  | SDef _ _ x _ _ _ _ _ | SClass _ _ x _ _ => [x]
  end.
(** Declarations of the scope. *)
Fixpoint global_stmt (c : stmt) : list string :=
  match c with
  | SGlobal xs => xs
  | SFor _ _ body orelse => flat_map global_stmt body ++ flat_map global_stmt orelse
  | SBlocks _ _ blocks => flat_map (flat_map global_stmt) blocks
  | _ => []
  end.
Fixpoint nonlocal_stmt (c : stmt) : list string :=
  match c with
  | SNonlocal xs => xs
  | SFor _ _ body orelse => flat_map nonlocal_stmt body ++ flat_map nonlocal_stmt orelse
  | SBlocks _ _ blocks => flat_map (flat_map nonlocal_stmt) blocks
  | _ => []
  end.
Definition scope_of (s : nat) (cls : bool) (params : list (nat * string)) (body : list stmt) : scope_info :=
  {| id := s; is_class := cls; bound := map snd params ++ flat_map bound_stmt body;
     globals := flat_map global_stmt body; nonlocals := flat_map nonlocal_stmt body |}.
Definition small_scope (s : nat) (xs : list string) : scope_info := {| id := s; is_class := false; bound := xs; globals := []; nonlocals := [] |}.

(** An occurrence of a name: its node, the name, the chain Python resolves it in, and the chains of all scopes whose text it
    stands in (the defaults of a function stand in its text, but are resolved outside). *)
Notation occurrence := (nat * string * chain * list chain)%type.

Fixpoint names_expr (c : chain) (v : list chain) (e : expr) {struct e} : list occurrence :=
  match e with
  | Name n x => [(n, x, c, v)]
  | Node es => flat_map (names_expr c v) es
  | Call f args => names_expr c v f ++ flat_map (names_expr c v) args
  | Lambda s params defaults body =>
      let c' := small_scope s (map snd params) :: c in
      flat_map (names_expr c (c' :: v)) defaults ++ map (fun p => (fst p, snd p, c', c' :: v)) params ++ names_expr c' (c' :: v) body
  | Comp s gens elts =>
      let c' := small_scope s (flat_map bound_gen gens) :: c in
      match gens with [] => [] | g :: r => names_gen c' c (c' :: v) g ++ flat_map (names_gen c' c' (c' :: v)) r end
      ++ flat_map (names_expr c' (c' :: v)) elts
  end
with names_gen (c ci : chain) (v : list chain) (g : gen) {struct g} : list occurrence :=
  match g with Gen t iter ifs => names_target c v t ++ names_expr ci v iter ++ flat_map (names_expr c v) ifs end
with names_target (c : chain) (v : list chain) (t : target) {struct t} : list occurrence :=
  match t with TName n x => [(n, x, c, v)] | TMany ts => flat_map (names_target c v) ts | TOther e => names_expr c v e end.

Fixpoint names_stmt (c : chain) (v : list chain) (b : stmt) {struct b} : list occurrence :=
  match b with
  | SExpr e => names_expr c v e
  | SAssign ts e => names_expr c v e ++ flat_map (names_target c v) ts
  | SAug t e => names_target c v t ++ names_expr c v e
  | SFor t iter body orelse =>
      names_target c v t ++ names_expr c v iter ++ flat_map (names_stmt c v) body ++ flat_map (names_stmt c v) orelse
  | SBlocks es ts blocks => flat_map (names_expr c v) es ++ flat_map (names_target c v) ts ++ flat_map (flat_map (names_stmt c v)) blocks
  | SGlobal _ | SNonlocal _ => []
  | SImport n names => map (fun na => (n, bound_import na, c, v)) names
  | SDel n x => [(n, x, c, v)]
  | SDef s n x outer annotations params defaults body =>
      let c' := scope_of s false params body :: c in
      (n, x, c, v) :: flat_map (names_expr c v) outer ++ flat_map (names_expr c (c' :: v)) annotations
      ++ map (fun p => (fst p, snd p, c', c' :: v)) params ++ flat_map (names_expr c (c' :: v)) defaults
      ++ flat_map (names_stmt c' (c' :: v)) body
  | SClass s n x outer body =>
      let c' := scope_of s true [] body :: c in
      (n, x, c, v) :: flat_map (names_expr c v) outer ++ flat_map (names_stmt c' (c' :: v)) body
  end.
Definition module_chain (m : nat) (body : list stmt) : chain := [scope_of m false [] body].
Definition names_of (m : nat) (body : list stmt) : list occurrence :=
  flat_map (names_stmt (module_chain m body) [module_chain m body]) body.

(** Modules kept to. [D] has the names declared global or nonlocal anywhere. *)
Definition declaration (b : stmt) : bool := match b with SGlobal _ | SNonlocal _ => true | _ => false end.
Definition undeclaring (b : stmt) : Prop := global_stmt b = [] /\ nonlocal_stmt b = [].
(** Declarations come first, and none is repeated further down. *)
Definition declared_first (body : list stmt) : Prop :=
  exists ds rest, body = ds ++ rest /\ Forall (fun b => declaration b = true) ds /\ Forall undeclaring rest.

Section Plain.
Variable m : nat.
Variable D : list string.
(** No name declared global or nonlocal is deleted or a parameter of the declaring function; a nonlocal name is a variable of the
    scope directly around; modules are imported under names without dots. *)
Fixpoint plain_stmt (c : chain) (b : stmt) {struct b} : Prop :=
  match b with
  | SFor _ _ body orelse => (fix go l := match l with [] => True | a :: r => plain_stmt c a /\ go r end) body
      /\ (fix go l := match l with [] => True | a :: r => plain_stmt c a /\ go r end) orelse
  | SBlocks _ _ blocks =>
      (fix gos ls := match ls with [] => True
        | l :: rs => (fix go l := match l with [] => True | a :: r => plain_stmt c a /\ go r end) l /\ gos rs end) blocks
  | SGlobal xs => incl xs D
  | SNonlocal xs => incl xs D /\ Forall (fun x => match c with _ :: p :: _ => resolve m c x = id p | _ => False end) xs
  | SImport _ names => Forall undotted names
  | SDel _ x => ~ List.In x D
  | SDef s _ _ _ _ params _ body =>
      declared_first body
      /\ Forall (fun p => ~ List.In (snd p) (flat_map global_stmt body) /\ ~ List.In (snd p) (flat_map nonlocal_stmt body)) params
      /\ (fix go l := match l with [] => True | a :: r => plain_stmt (scope_of s false params body :: c) a /\ go r end) body
  | SClass s _ _ _ body =>
      declared_first body
      /\ (fix go l := match l with [] => True | a :: r => plain_stmt (scope_of s true [] body :: c) a /\ go r end) body
  | _ => True
  end.
End Plain.
Definition plain (m : nat) (D : list string) (body : list stmt) : Prop :=
  declared_first body /\ Forall (plain_stmt m D (module_chain m body)) body.

(** An event's scope is what a scope around the node makes of the name. *)
Definition from_enclosing (m : nat) (x : string) (s : nat) (v : list chain) : Prop :=
  exists sc r, List.In (sc :: r) v /\ mentions sc x /\ s = resolve m (sc :: r) x.
(** All scopes around that mention the name mean the variable that Python means. *)
Definition unambiguous (m : nat) (x : string) (c : chain) (v : list chain) : Prop :=
  forall sc r, List.In (sc :: r) v -> mentions sc x -> resolve m (sc :: r) x = resolve m c x.

(** Calls written [locals(...)] or [globals(...)]. *)
Definition asks_name (f : expr) : bool := match f with Name _ x => has x ["locals"; "globals"] | _ => false end.
Fixpoint asks_expr (e : expr) : bool :=
  match e with
  | Name _ _ => false
  | Node es => existsb asks_expr es
  | Call f args => asks_name f || asks_expr f || existsb asks_expr args
  | Lambda _ _ defaults body => existsb asks_expr defaults || asks_expr body
  | Comp _ gens elts => existsb asks_gen gens || existsb asks_expr elts
  end
with asks_gen (g : gen) : bool := match g with Gen t i ifs => asks_target t || asks_expr i || existsb asks_expr ifs end
with asks_target (t : target) : bool :=
  match t with TName _ _ => false | TMany ts => existsb asks_target ts | TOther e => asks_expr e end.
Fixpoint asks_stmt (b : stmt) : bool :=
  match b with
  | SExpr e => asks_expr e
  | SAssign ts e => existsb asks_target ts || asks_expr e
  | SAug t e => asks_target t || asks_expr e
  | SFor t i body orelse => asks_target t || asks_expr i || existsb asks_stmt body || existsb asks_stmt orelse
  | SBlocks es ts blocks => existsb asks_expr es || existsb asks_target ts || existsb (existsb asks_stmt) blocks
  | SGlobal _ | SNonlocal _ | SImport _ _ | SDel _ _ => false
  | SDef _ _ _ outer annotations _ defaults body =>
      existsb asks_expr outer || existsb asks_expr annotations || existsb asks_expr defaults || existsb asks_stmt body
  | SClass _ _ _ outer body => existsb asks_expr outer || existsb asks_stmt body
  end.

(** Names bound by assignments, loops, [as], parameters and imports, wherever they stand but in defaults of lambdas and in the
    decorators and bases of definitions. *)
Fixpoint written_expr (e : expr) : list (nat * string) :=
  match e with
  | Name _ _ => []
  | Node es => flat_map written_expr es
  | Call f args => written_expr f ++ flat_map written_expr args
  | Lambda _ params _ body => params ++ written_expr body
  | Comp _ gens elts => flat_map written_gen gens ++ flat_map written_expr elts
  end
with written_gen (g : gen) : list (nat * string) :=
  match g with Gen t i ifs => written_target t ++ written_expr i ++ flat_map written_expr ifs end
with written_target (t : target) : list (nat * string) :=
  match t with TName n x => [(n, x)] | TMany ts => flat_map written_target ts | TOther e => written_expr e end.
Fixpoint written_stmt (b : stmt) : list (nat * string) :=
  match b with
  | SExpr e => written_expr e
  | SAssign ts e => written_expr e ++ flat_map written_target ts
  | SAug t e => written_expr e ++ written_target t
  | SFor t i body orelse => written_target t ++ written_expr i ++ flat_map written_stmt body ++ flat_map written_stmt orelse
  | SBlocks es ts blocks => flat_map written_expr es ++ flat_map written_target ts ++ flat_map (flat_map written_stmt) blocks
  | SGlobal _ | SNonlocal _ | SDel _ _ => []
  | SImport n names => flat_map (fun na => map (pair n) (undotted_import na)) names
  | SDef _ _ _ _ annotations params defaults body =>
      flat_map written_expr annotations ++ params ++ flat_map written_expr defaults
      ++ flat_map (fun c => match c with SDef _ n x _ _ _ _ _ | SClass _ n x _ _ => [(n, x)] | _ => [] end) body
      ++ flat_map written_stmt body
  | SClass _ _ _ _ body =>
      flat_map (fun c => match c with SDef _ n x _ _ _ _ _ | SClass _ n x _ _ => [(n, x)] | _ => [] end) body
      ++ flat_map written_stmt body
  end.
(** The names of the definitions that stand in a body itself, not in a block of it. *)
Definition defined (body : list stmt) : list (nat * string) :=
  flat_map (fun c => match c with SDef _ n x _ _ _ _ _ | SClass _ n x _ _ => [(n, x)] | _ => [] end) body.
Definition written_of (body : list stmt) : list (nat * string) := defined body ++ flat_map written_stmt body.

(** Names read or bound, in the same places. *)
Fixpoint used_expr (e : expr) : list (nat * string) :=
  match e with
  | Name n x => [(n, x)]
  | Node es => flat_map used_expr es
  | Call f args => used_expr f ++ flat_map used_expr args
  | Lambda _ params _ body => params ++ used_expr body
  | Comp _ gens elts => flat_map used_gen gens ++ flat_map used_expr elts
  end
with used_gen (g : gen) : list (nat * string) :=
  match g with Gen t i ifs => used_target t ++ used_expr i ++ flat_map used_expr ifs end
with used_target (t : target) : list (nat * string) :=
  match t with TName n x => [(n, x)] | TMany ts => flat_map used_target ts | TOther e => used_expr e end.
Fixpoint used_stmt (b : stmt) : list (nat * string) :=
  match b with
  | SExpr e => used_expr e
  | SAssign ts e => used_expr e ++ flat_map used_target ts
  | SAug t e => used_expr e ++ used_target t
  | SFor t i body orelse => used_target t ++ used_expr i ++ flat_map used_stmt body ++ flat_map used_stmt orelse
  | SBlocks es ts blocks => flat_map used_expr es ++ flat_map used_target ts ++ flat_map (flat_map used_stmt) blocks
  | SGlobal _ | SNonlocal _ => []
  | SDel n x => [(n, x)]
  | SImport n names => flat_map (fun na => map (pair n) (undotted_import na)) names
  | SDef _ _ _ _ annotations params defaults body =>
      flat_map used_expr annotations ++ params ++ flat_map used_expr defaults ++ flat_map used_stmt body
  | SClass _ _ _ _ body => flat_map used_stmt body
  end.
(** Names that the statements of a body bind without a definition in a block. *)
Fixpoint sets_stmt (b : stmt) : list string :=
  match b with
  | SAssign ts _ => flat_map bound_target ts
  | SAug t _ => bound_target t
  | SFor t _ body orelse => bound_target t ++ flat_map sets_stmt body ++ flat_map sets_stmt orelse
  | SBlocks _ ts blocks => flat_map bound_target ts ++ flat_map (flat_map sets_stmt) blocks
  | SImport _ names => flat_map undotted_import names
  | _ => []
  end.
Definition sets_of (body : list stmt) : list string := map snd (defined body) ++ flat_map sets_stmt body.
(** Names deleted, in functions and classes as well. *)
Fixpoint deleted_stmt (b : stmt) : list string :=
  match b with
  | SDel _ x => [x]
  | SFor _ _ body orelse => flat_map deleted_stmt body ++ flat_map deleted_stmt orelse
  | SBlocks _ _ blocks => flat_map (flat_map deleted_stmt) blocks
  | SDef _ _ _ _ _ _ _ body | SClass _ _ _ _ body => flat_map deleted_stmt body
  | _ => []
  end.
Definition definition (b : stmt) : bool := match b with SDef _ _ _ _ _ _ _ _ | SClass _ _ _ _ _ => true | _ => false end.

(** Each node stands for one occurrence of a name. *)
Definition node_name (o : occurrence) : nat * string := match o with (n, x, _, _) => (n, x) end.
Definition one_each (m : nat) (body : list stmt) : Prop := NoDup (map node_name (names_of m body)).
