(** The analysis of what a condition says after a block of code, and the check for infinite loops. Definitions only.
    edulint/linting/analyses/z3_block_analysis.py; edulint/linting/checkers/unsuited_loop.py:236-249;
    edulint/linting/analyses/utils.py:267-284; edulint/linting/analyses/z3_analysis.py:376-393, 417-430.
    Simplified: an if statement is given with its elif branches (an else with a single if statement is an elif branch for the
    code too); the value of a return and the message of an assert are left out (the code does not look at them); sets of changed
    variables are lists in the order of insertion; the solver, the guess of types and which names code modifies are oracles. *)
From Coq Require Import String List Bool Arith NArith ZArith.
From Verif Require Import Base PyModel PySpec IfModel FoldModel TypeModel LocalModel SolverModel.
Import ListNotations.
Local Open Scope string_scope.
Local Open Scope list_scope.
Local Open Scope nat_scope.

(** ** Statements *)
(** Targets of assignments: names and others (attributes, items, lists, starred and nested targets).
    edulint/linting/analyses/z3_block_analysis.py:461, 496. *)
Inductive target := Var (x : string) | Elsewhere.
(** One target or a tuple of targets, edulint/linting/analyses/utils.py:271-284. *)
Inductive goals := Single (t : target) | Several (ts : list target).
(** The value of an assignment; a tuple is given by its elements. edulint/linting/analyses/z3_block_analysis.py:82, 134-136. *)
Inductive rhs := Value (e : expr) | Display (es : list expr).
(** Statements; [SEnd] is return, raise, break or continue, [SOther] a statement the analysis does not know.
    edulint/linting/analyses/z3_block_analysis.py:42-64, 530-571. *)
Inductive statement :=
| SAssign (chained : bool) (t : goals) (v : rhs)
| SAnnotated (t : target) (v : option expr)
| SAugmented (t : target) (o : binop) (v : expr)
| SExpr (v : rhs)
| SPass
| SEnd
| SAssert (t : expr)
| SIf (branches : list (expr * list statement)) (orelse : list statement)
| SOther (n : nat).
(** What is validated: conditions and statements, edulint/linting/analyses/z3_block_analysis.py:652-656. *)
Inductive item := Condition (e : expr) | Statement (s : statement).

(** ** Which nodes are allowed *)
(** [ALLOWED_EXPR_NODES_FOR_Z3_BLOCK_ANALYSIS]; tuples are not expressions here.
    edulint/linting/analyses/z3_block_analysis.py:31-40. *)
Definition allowed_expression (e : expr) : bool :=
  match e with Binary _ _ _ | BoolOp _ _ | Call _ _ | Compare _ _ | Const _ | Name _ | Unary _ _ => true | _ => false end.
(** [check_purity_for_Z3_block_analysis] for expressions, edulint/linting/analyses/z3_block_analysis.py:75-92. *)
Definition pure_value (I : purity) (e : expr) : bool :=
  match e with
  | IfExp c a b => is_pure_expression I c && is_pure_expression I a && is_pure_expression I b
  | _ => allowed_expression e && is_pure_expression I e
  end.
(** The same for values of assignments, edulint/linting/analyses/z3_block_analysis.py:75-92. *)
Definition pure_rhs (I : purity) (v : rhs) : bool :=
  match v with Value e => pure_value I e | Display es => forallb (is_pure_expression I) es end.
(** [get_children] of an expression (external code); nothing is known about opaque ones, which are not pure here.
    edulint/linting/analyses/z3_block_analysis.py:134, 485. *)
Definition children (e : expr) : list expr :=
  match e with
  | Name _ | Const _ | Other _ => []
  | Unary _ a | Attribute a _ => [a]
  | Binary _ a b | Subscript a b => [a; b]
  | BoolOp _ vs => vs
  | Compare a ops => a :: map snd ops
  | Call f args => f :: args
  | IfExp c a b => [c; a; b]
  end.
(** [node.value.get_children()], edulint/linting/analyses/z3_block_analysis.py:134, 485. *)
Definition parts (v : rhs) : list expr := match v with Value e => children e | Display es => es end.
(** Lines 138-143: a conditional expression is taken apart. edulint/linting/analyses/z3_block_analysis.py:138-143. *)
Definition pieces (e : expr) : list expr := match e with IfExp c a b => [c; a; b] | _ => [e] end.

Section Validate.
  Variables (H : host) (G : inspection) (I : purity).
  (** [modified_in(vars_in(node), nodes)]; [may_contain_mutable_var]. edulint/linting/analyses/z3_block_analysis.py:106, 177. *)
  Variables (modified : expr -> list statement -> bool) (mutable : item -> bool).
  Variable context : list statement.

  (** Lines 145-158, edulint/linting/analyses/z3_block_analysis.py:145-158. *)
  Fixpoint initialize_all (l : list expr) (d : variables) : res (bool * variables) :=
    match l with
    | [] => Ok (true, d)
    | e :: l =>
        if allowed_expression e
        then do r <- initialize H G (negb (modified e context)) false true e d; if fst r then initialize_all l (snd r) else Ok r
        else Ok (false, d)
    end.
  (** [_initialize_variables_in_node] for expressions, edulint/linting/analyses/z3_block_analysis.py:117-158. *)
  Definition initialize_values (es : list expr) (d : variables) : res (bool * variables) := initialize_all (flat_map pieces es) d.
  (** An expression that is no statement, edulint/linting/analyses/z3_block_analysis.py:113, 189-201. *)
  Definition validate_condition (e : expr) (d : variables) : res (bool * variables) :=
    if allowed_expression e && is_pure_expression I e then initialize_values [e] d else Ok (false, d).
  (** The values of an assignment that are initialized, edulint/linting/analyses/z3_block_analysis.py:133-136.
      A tuple that is assigned to one target is refused later, its class having no variables
      (edulint/linting/analyses/z3_analysis.py:87-96). *)
  Definition initialize_assigned (t : goals) (v : rhs) (d : variables) : res (bool * variables) :=
    match t, v with
    | Several _, v => initialize_values (parts v) d
    | Single _, Value e => initialize_values [e] d
    | Single _, Display _ => Ok (false, d)
    end.
  (** A statement other than if; [end_allowed] is [current_node.parent is not node].
      edulint/linting/analyses/z3_block_analysis.py:189-201, 109-114, 127-131. *)
  Definition validate_simple (end_allowed : bool) (s : statement) (d : variables) : res (bool * variables) :=
    match s with
    | SAssign chained t v => if negb chained && pure_rhs I v then initialize_assigned t v d else Ok (false, d)
    | SAnnotated t (Some e) => if pure_value I e then initialize_values [e] d else Ok (false, d)
    | SAnnotated t None => Ok (false, d)
    | SAugmented t o e =>
        if pure_value I e
        then match t with
             | Elsewhere => Ok (false, d)
             | Var x => do n <- nonlinear H (Binary o (Name x) e); if n then Ok (false, d) else initialize_values [e] d
             end
        else Ok (false, d)
    | SExpr v => Ok (pure_rhs I v, d)
    | SPass => Ok (true, d)
    | SEnd => Ok (end_allowed, d)
    | SAssert e => if is_pure_expression I e then initialize_values [e] d else Ok (false, d)
    | SIf _ _ | SOther _ => Ok (false, d)
    end.
  (** [validate_and_initialize_variables_for_Z3_block_analysis] without its first check: nodes are taken from the end of the
      list, so the last statement of the last branch is the first. A branch ends directly in the node only if it is the first
      or the else of the only one. edulint/linting/analyses/z3_block_analysis.py:180-203. *)
  Fixpoint validate_statement (end_allowed : bool) (top : bool) (s : statement) (d : variables) {struct s} : res (bool * variables) :=
    let block := fix block (allowed : bool) (l : list statement) (d : variables) {struct l} : res (bool * variables) :=
      match l with
      | [] => Ok (true, d)
      | s :: l => do r <- block allowed l d; if fst r then validate_statement allowed false s (snd r) else Ok r
      end in
    match s with
    | SIf branches orelse =>
        let all := fix all (first : bool) (l : list (expr * list statement)) (d : variables) {struct l} : res (bool * variables) :=
          match l with
          | [] => block (negb (top && Nat.leb (length branches) 1)) orelse d
          | (t, b) :: l =>
              do r <- all false l d;
              if fst r
              then do r <- block (negb (top && first)) b (snd r); if fst r then validate_condition t (snd r) else Ok r
              else Ok r
          end in
        all true branches d
    | _ => validate_simple end_allowed s d
    end.
  (** [validate_and_initialize_variables_for_Z3_block_analysis], edulint/linting/analyses/z3_block_analysis.py:161-203. *)
  Definition validate (n : item) (d : variables) : res (bool * variables) :=
    if mutable n then Ok (false, d)
    else match n with Condition e => validate_condition e d | Statement s => validate_statement true true s d end.
  (** Lines 652-662 without [_allowed_node_for_Z3_block_analysis], which [validate] asks again of every node.
      edulint/linting/analyses/z3_block_analysis.py:650-662. *)
  Fixpoint validate_all (l : list item) (d : variables) : res (bool * variables) :=
    match l with
    | [] => Ok (true, d)
    | n :: l => do r <- validate n d; if fst r then validate_all l (snd r) else Ok r
    end.
End Validate.

(** ** Variables that change *)
(** How often a variable has been written; variables that are written get new names. edulint/linting/analyses/z3_block_analysis.py:292-295, 602. *)
Definition counts := text -> nat.
(** [create_prefixed_var]: the name of a variable after some writes, which no expression has; its sort stays.
    edulint/linting/analyses/z3_analysis.py:417-430. *)
Definition prefixed (k : text) (n : nat) : text := match n with 0 => k | S _ => TNegOpen :: TConst (CInt (N.of_nat n)) :: k end.
(** The names of variables in a term after some writes, edulint/linting/analyses/z3_block_analysis.py:346-348, 448, 517. *)
Fixpoint rename (cur : counts) (z : zexpr) : zexpr :=
  match z with
  | ZVar k int => ZVar (prefixed k (cur k)) int
  | ZBool _ | ZInt _ | ZReal _ => z
  | ZAbs a => ZAbs (rename cur a)
  | ZNeg a => ZNeg (rename cur a)
  | ZNot a => ZNot (rename cur a)
  | ZAdd a b => ZAdd (rename cur a) (rename cur b)
  | ZSub a b => ZSub (rename cur a) (rename cur b)
  | ZMul a b => ZMul (rename cur a) (rename cur b)
  | ZMod a n => ZMod (rename cur a) n
  | ZQuot a n => ZQuot (rename cur a) n
  | ZOver a v => ZOver (rename cur a) v
  | ZRel c a b => ZRel c (rename cur a) (rename cur b)
  | ZAnd l => ZAnd (map (rename cur) l)
  | ZOr l => ZOr (map (rename cur) l)
  end.
(** [z3.If] with terms at the leaves (external code), edulint/linting/analyses/z3_block_analysis.py:271-282, 446. *)
Inductive choice := One (z : zexpr) | Choose (c : zexpr) (yes no : choice).
(** [z3.is_bool] of a term, edulint/linting/analyses/z3_block_analysis.py:298. *)
Definition is_bool_term (z : zexpr) : bool := match sort_of z with Some SBool => true | _ => false end.
(** [z3.is_bool] of a value; in a [z3.If] with a number a condition becomes a number.
    edulint/linting/analyses/z3_block_analysis.py:298. *)
Fixpoint is_bool_choice (v : choice) : bool :=
  match v with One z => is_bool_term z | Choose _ a b => is_bool_choice a && is_bool_choice b end.
(** [z3.Implies] (external code), edulint/linting/analyses/z3_block_analysis.py:220, 399. *)
Definition z_implies (a b : zexpr) : zexpr := ZOr [ZNot a; b].
(** [a == b] for conditions (external code), edulint/linting/analyses/z3_block_analysis.py:298. *)
Definition z_iff (a b : zexpr) : zexpr := ZAnd [z_implies a b; z_implies b a].
(** Line 298, one leaf: [as_bool] if the whole value is a condition. edulint/linting/analyses/z3_block_analysis.py:297-299. *)
Definition equals_leaf (as_bool : bool) (var z : zexpr) : zexpr :=
  if as_bool then z_iff (ZRel Ne var (ZInt 0)) z
  else if is_bool_term z
  then ZAnd [z_implies z (ZRel Eq var (ZInt 1)); z_implies (ZNot z) (ZRel Eq var (ZInt 0))]
  else ZRel Eq var z.
(** Line 298, the [z3.If] written out. edulint/linting/analyses/z3_block_analysis.py:297-299. *)
Fixpoint equals (as_bool : bool) (var : zexpr) (v : choice) : zexpr :=
  match v with
  | One z => equals_leaf as_bool var z
  | Choose c a b => ZAnd [z_implies c (equals as_bool var a); z_implies (ZNot c) (equals as_bool var b)]
  end.
(** Changed variables with their numbers of writes, edulint/linting/analyses/z3_block_analysis.py:493, 515, 527. *)
Definition changes := list (string * nat).
(** [new_vars[name] = var], edulint/linting/analyses/z3_block_analysis.py:420, 515. *)
Definition set_change (x : string) (n : nat) (l : changes) : changes := filter (fun p => negb (String.eqb (fst p) x)) l ++ [(x, n)].
(** [new_vars.update], edulint/linting/analyses/z3_block_analysis.py:542, 561. *)
Definition merge_changes (l m : changes) : changes := fold_left (fun l p => set_change (fst p) (snd p) l) m l.
(** [new_vars.get(name)], edulint/linting/analyses/z3_block_analysis.py:259, 273. *)
Definition find_change (l : changes) (x : string) : option nat := option_map snd (find (fun p => String.eqb (fst p) x) l).
(** [initialized_variables.update(new_vars)], edulint/linting/analyses/z3_block_analysis.py:517, 562, 626. *)
Definition update (cur : counts) (l : changes) : counts :=
  fun k => match k with [TName x] => match find_change l x with Some n => n | None => cur k end | _ => cur k end.
(** [var_rewrite_counts] and [accumulated_relations_between_vars], edulint/linting/analyses/z3_block_analysis.py:599-602. *)
Record written := { count : counts; relations : list zexpr }.
(** What a block does: changed variables, assertions, whether it always ends early; see
    edulint/linting/analyses/z3_block_analysis.py:526. *)
Record effect := { changed : changes; assertions : list zexpr; ends : bool }.

Section Translate.
  Variables (H : host) (d : variables).
  (** [convert_condition_to_z3_expression] with the variables of this moment; an ill-sorted term raises an exception of Z3.
      edulint/linting/analyses/z3_block_analysis.py:346-348, 438-448, 565-567, 607. *)
  Definition translate (cur : counts) (bp : bool) (e : expr) : res (option zexpr) :=
    do r <- convert H d bp e;
    match fst r with
    | None => Ok None
    | Some z =>
        match sort_of z with
        | None => Raise (OtherError "Z3Exception")
        | Some _ => if bp && negb (is_bool_term z) then Raise (OtherError "Z3Exception") else Ok (Some (rename cur z))
        end
    end.
  (** What [convert_condition_to_z3_expression] makes of [x += e], [x -= e] and [x *= e] where [e] is a condition: Z3 turns the
      condition into 1 or 0. edulint/linting/analyses/z3_block_analysis.py:448, 452-475; edulint/linting/analyses/z3_analysis.py:322-332. *)
  Definition translate_coerced (cur : counts) (o : binop) (x : string) (e : expr) : res (option choice) :=
    match find_var d [TName x] with
    | None => Raise KeyError
    | Some int =>
        do z <- translate cur false e;
        let var := ZVar (prefixed [TName x] (cur [TName x])) int in
        let change n := One (match o with Add => ZAdd var (ZInt n) | Sub => ZSub var (ZInt n) | _ => ZMul var (ZInt n) end) in
        Ok (option_map (fun z => Choose z (change 1%Z) (change 0%Z)) z)
    end.
  (** Expressions translated to conditions, edulint/linting/analyses/z3_analysis.py:205-215, 242, 282-293, 349-351. *)
  Definition is_condition (e : expr) : bool :=
    match e with BoolOp _ _ | Compare _ _ | Unary Not _ | Const (CBool _) => true | _ => false end.
  (** The operators whose operands are both translated, edulint/linting/analyses/z3_analysis.py:322-332. *)
  Definition is_linear (o : binop) : bool := match o with Add | Sub | Mul => true | _ => false end.
  (** [_convert_expression_in_assignment_to_Z3], edulint/linting/analyses/z3_block_analysis.py:433-448. *)
  Definition translate_value (cur : counts) (bp : bool) (e : expr) : res (option choice) :=
    let default := do r <- translate cur bp e; Ok (option_map One r) in
    match e with
    | IfExp c a b =>
        do x <- translate cur true c; do y <- translate cur bp a; do z <- translate cur bp b;
        match x, y, z with
        | Some x, Some y, Some z => Ok (Some (Choose x (One y) (One z)))
        | _, _, _ => Ok None
        end
    | Binary o (Name x) a => if is_linear o && is_condition a then translate_coerced cur o x a else default
    | _ => default
    end.
  (** [_update_relations_between_vars], edulint/linting/analyses/z3_block_analysis.py:285-301.
      The variable exists, which the callers have checked. *)
  Definition update_relations (x : string) (int : bool) (v : choice) (s : written) : nat * written :=
    let n := S (count s [TName x]) in
    (n, {| count := fun k => if text_eqb k [TName x] then n else count s k;
           relations := relations s ++ [equals (is_bool_choice v) (ZVar (prefixed [TName x] n) int) v] |}).
  (** Lines 495-515; [bp] is whether the parent of the values is a bool node. edulint/linting/analyses/z3_block_analysis.py:491-518. *)
  Fixpoint assign_all (cur : counts) (bp : bool) (ts : list target) (values : list expr) (s : written) (done : changes) : res (option (changes * written)) :=
    match ts with
    | [] => Ok (Some (done, s))
    | Elsewhere :: _ => Ok None
    | Var x :: ts =>
        match find_var d [TName x] with
        | None => assign_all cur bp ts (tl values) s done
        | Some int =>
            match values with
            | [] => Raise IndexError
            | e :: values =>
                do v <- translate_value cur bp e;
                match v with
                | None => Ok None
                | Some v => let (n, s) := update_relations x int v s in assign_all cur bp ts values s (set_change x n done)
                end
            end
        end
    end.
  (** The targets of an assignment, edulint/linting/analyses/utils.py:275-284. *)
  Definition goals_list (t : goals) : list target := match t with Single t => [t] | Several ts => ts end.
  (** [_is_bool_node(node.parent)] for the values, edulint/linting/analyses/z3_block_analysis.py:485, 448. *)
  Definition parent_bool (t : goals) (v : rhs) : bool := match t, v with Several _, Value e => is_bool_node e | _, _ => false end.
  (** The values, edulint/linting/analyses/z3_block_analysis.py:484-489; a tuple for one target is no value that was initialized. *)
  Definition values_of (t : goals) (v : rhs) : list expr :=
    match t, v with Several _, v => parts v | Single _, Value e => [e] | Single _, Display _ => [] end.
  (** [_update_vars_after_assignment], edulint/linting/analyses/z3_block_analysis.py:478-518, 451-475. *)
  Definition after_assignment (s : statement) (cur : counts) (st : written) : res (option (changes * written)) :=
    match s with
    | SAssign _ t v => assign_all cur (parent_bool t v) (goals_list t) (values_of t v) st []
    | SAnnotated t (Some e) => assign_all cur false [t] [e] st []
    | SAugmented (Var x) o e => assign_all cur false [Var x] [Binary o (Name x) e] st []
    | SAugmented Elsewhere _ _ => Ok None
    | _ => Ok None
    end.

  (** [_change_assertions_and_vars_after_elif_block]: the assertions a branch adds.
      edulint/linting/analyses/z3_block_analysis.py:206-242. *)
  Definition branch_assertions (conditions : list zexpr) (c : zexpr) (f : effect) : list zexpr :=
    let negated := map ZNot conditions in
    if ends f then [match conditions with [] => ZNot c | _ => z_implies (ZAnd negated) (ZNot c) end]
    else map (fun a => z_implies (match conditions with [] => c | _ => ZAnd (negated ++ [c]) end) a) (assertions f).
  (** The else branch, edulint/linting/analyses/z3_block_analysis.py:393-405. *)
  Definition else_assertions (conditions : list zexpr) (f : effect) : list zexpr :=
    if ends f then [ZOr conditions] else map (z_implies (ZAnd (map ZNot conditions))) (assertions f).
  (** The variable at the end of a branch, edulint/linting/analyses/z3_block_analysis.py:259, 273. *)
  Definition leaf (x : string) (int : bool) (cur : counts) (l : changes) : choice :=
    One (ZVar (prefixed [TName x] (update cur l [TName x])) int).
  (** [_how_var_changed_after_if] for branches that do not end early, which are the only ones in the list.
      edulint/linting/analyses/z3_block_analysis.py:245-282. *)
  Fixpoint how_changed (x : string) (int : bool) (cur : counts) (conditions : list zexpr) (l : list changes) (has_else : bool) {struct l} : res choice :=
    match l with
    | [] => if has_else then Raise IndexError else Ok (leaf x int cur [])
    | c :: l =>
        if has_else && match l with [] => true | _ => false end then Ok (leaf x int cur c)
        else
          match conditions with
          | [] => Raise IndexError
          | z :: conditions => do r <- how_changed x int cur conditions l has_else; Ok (Choose z (leaf x int cur c) r)
          end
    end.
  (** Lines 419-428 and [_create_new_var_after_if]; all of these variables exist.
      edulint/linting/analyses/z3_block_analysis.py:304-328, 419-428. *)
  Fixpoint new_variables (xs : list string) (cur : counts) (conditions : list zexpr) (l : list changes) (has_else : bool) (s : written) (done : changes)
    : res (changes * written) :=
    match xs with
    | [] => Ok (done, s)
    | x :: xs =>
        match find_var d [TName x] with
        | None => Raise KeyError
        | Some int =>
            do v <- how_changed x int cur conditions l has_else;
            let (n, s) := update_relations x int v s in new_variables xs cur conditions l has_else s (set_change x n done)
        end
    end.
  (** [changed_vars_in_any_branch], edulint/linting/analyses/z3_block_analysis.py:237-238, 402-403. *)
  Definition names_changed (l : list changes) : list string := nodup string_dec (flat_map (map fst) l).

  (** [_changed_vars_after_block] and [_changed_vars_after_if]: [after_statement] is the body of the loop of the former with the
      latter written out, [None] meaning that the analysis gives up. edulint/linting/analyses/z3_block_analysis.py:331-430, 521-573. *)
  Fixpoint after_statement (s : statement) (cur : counts) (st : written) {struct s} : res (option (effect * written)) :=
    let block := fix block (l : list statement) (cur : counts) (st : written) (done : changes) (so_far : list zexpr) {struct l}
      : res (option (effect * written)) :=
      match l with
      | [] => Ok (Some ({| changed := done; assertions := so_far; ends := false |}, st))
      | s :: l =>
          do r <- after_statement s cur st;
          match r with
          | None => Ok None
          | Some (f, st) =>
              if ends f then Ok (Some ({| changed := []; assertions := []; ends := true |}, st))
              else block l (update cur (changed f)) st (merge_changes done (changed f)) (so_far ++ assertions f)
          end
      end in
    match s with
    | SAssign _ _ _ | SAnnotated _ _ | SAugmented _ _ _ =>
        do r <- after_assignment s cur st;
        Ok (option_map (fun p => ({| changed := fst p; assertions := []; ends := false |}, snd p)) r)
    | SEnd => Ok (Some ({| changed := []; assertions := []; ends := true |}, st))
    | SAssert t =>
        do r <- translate cur true t;
        Ok (option_map (fun z => ({| changed := []; assertions := [z]; ends := false |}, st)) r)
    | SExpr _ | SPass | SOther _ => Ok (Some ({| changed := []; assertions := []; ends := false |}, st))
    | SIf branches orelse =>
        let finish (st : written) (conditions : list zexpr) (branch_changes : list changes) (asserted : list zexpr) (has_else always : bool) :=
          if always then Ok (Some ({| changed := []; assertions := []; ends := true |}, st))
          else
            do r <- new_variables (names_changed branch_changes) cur conditions branch_changes has_else st [];
            Ok (Some ({| changed := fst r; assertions := asserted; ends := false |}, snd r)) in
        (fix all (l : list (expr * list statement)) (st : written) (conditions : list zexpr) (branch_changes : list changes)
             (asserted : list zexpr) (always : bool) {struct l} : res (option (effect * written)) :=
           match l with
           | [] =>
               match orelse with
               | [] => finish st conditions branch_changes asserted false false
               | _ =>
                   do r <- block orelse cur st [] [];
                   match r with
                   | None => Ok None
                   | Some (f, st) =>
                       finish st conditions (if ends f then branch_changes else branch_changes ++ [changed f])
                         (asserted ++ else_assertions conditions f) true (always && ends f)
                   end
               end
           | (t, b) :: l =>
               do c <- translate cur true t;
               do r <- block b cur st [] [];
               match c, r with
               | Some c, Some (f, st) =>
                   all l st (if ends f then conditions else conditions ++ [c]) (if ends f then branch_changes else branch_changes ++ [changed f])
                     (asserted ++ branch_assertions conditions c f) (always && ends f)
               | _, _ => Ok None
               end
           end) branches st [] [] [] true
    end.
  (** [_changed_vars_after_block], edulint/linting/analyses/z3_block_analysis.py:521-573. *)
  Fixpoint after_block (l : list statement) (cur : counts) (st : written) (done : changes) (so_far : list zexpr) : res (option (effect * written)) :=
    match l with
    | [] => Ok (Some ({| changed := done; assertions := so_far; ends := false |}, st))
    | s :: l =>
        do r <- after_statement s cur st;
        match r with
        | None => Ok None
        | Some (f, st) =>
            if ends f then Ok (Some ({| changed := []; assertions := []; ends := true |}, st))
            else after_block l (update cur (changed f)) st (merge_changes done (changed f)) (so_far ++ assertions f)
        end
    end.
  (** Lines 606-611, edulint/linting/analyses/z3_block_analysis.py:606-611. *)
  Fixpoint translate_all (cur : counts) (l : list expr) : res (option (list zexpr)) :=
    match l with
    | [] => Ok (Some [])
    | e :: l =>
        do z <- translate cur true e;
        match z with
        | None => Ok None
        | Some z => do zs <- translate_all cur l; Ok (option_map (cons z) zs)
        end
    end.
  (** The loop of [convert_conditions_with_blocks_after_each_to_Z3]; a block precedes all lists of conditions but the first.
      edulint/linting/analyses/z3_block_analysis.py:599-629. *)
  Fixpoint convert_rest (l : list (list statement * list expr)) (cur : counts) (st : written) (done : list (list zexpr))
    : res (option (list zexpr * list (list zexpr))) :=
    match l with
    | [] => Ok (Some (relations st, done))
    | (b, conditions) :: l =>
        do r <- after_block b cur st [] [];
        match r with
        | None => Ok None
        | Some (f, st) =>
            let cur := update cur (changed f) in
            let st := {| count := count st; relations := relations st ++ assertions f |} in
            do zs <- translate_all cur conditions;
            match zs with
            | None => Ok None
            | Some zs => convert_rest l cur st (done ++ [zs])
            end
        end
    end.
  (** [convert_conditions_with_blocks_after_each_to_Z3]; giving up gives no conditions.
      edulint/linting/analyses/z3_block_analysis.py:576-629. *)
  Definition convert_with_blocks (first : list expr) (l : list (list statement * list expr)) : res (zexpr * list (list zexpr)) :=
    do zs <- translate_all (fun _ => 0) first;
    match zs with
    | None => Ok (ZAnd [], [])
    | Some zs =>
        do r <- convert_rest l (fun _ => 0) {| count := fun _ => 0; relations := [] |} [zs];
        match r with None => Ok (ZAnd [], []) | Some (rs, zs) => Ok (ZAnd rs, zs) end
    end.
End Translate.

Section Check.
  Variables (H : host) (G : inspection) (I : purity).
  (** See [Validate] above; [unsat] is the solver, [sat] its answer about a single condition.
      edulint/linting/analyses/z3_block_analysis.py:106, 177; edulint/linting/analyses/z3_analysis.py:385-393. *)
  Variables (modified : expr -> list statement -> bool) (mutable : item -> bool) (unsat : zexpr -> bool) (sat : zexpr -> option bool).

  (** [condition_implies_another_with_block_in_between]; [inside] is [condition1.parent is block[0]].
      edulint/linting/analyses/z3_block_analysis.py:632-670. *)
  Definition condition_implies (inside : bool) (c1 : expr) (block : list statement) (c2 : expr) : res bool :=
    let rest := map Statement block ++ [Condition c2] in
    do r <- validate_all H G I modified mutable block (if inside then rest else Condition c1 :: rest) [];
    if fst r
    then
      do t <- convert_with_blocks H (snd r) [c1] [(block, [c2])];
      match snd t with
      | [[z1]; [z2]] => Ok (implies unsat (fst t) (z_implies z1 z2))
      | _ => Ok false
      end
    else Ok false.

  (** [sat_condition], edulint/linting/analyses/z3_analysis.py:376-388. *)
  Definition sat_condition (e : expr) : res (option bool) :=
    do r <- initialize H G false false true e [];
    if fst r
    then do z <- convert H (snd r) true e; match fst z with Some z => Ok (sat z) | None => Ok None end
    else Ok None.
  (** The messages about infinite loops, edulint/linting/checkers/unsuited_loop.py:243, 248. *)
  Inductive infinite := Explicit | Implicit.
  (** [_check_infinite_loop]; [in_try] is whether the loop is inside a try statement, [leaves] whether it contains a return, raise,
      break, continue, assert, yield or a call of exit, [may_modify] the answer about the variables of the condition.
      edulint/linting/checkers/unsuited_loop.py:236-249. *)
  Definition check_infinite_loop (in_try leaves : bool) (may_modify : expr -> list statement -> bool) (test : expr) (body : list statement)
    : res (option infinite) :=
    if in_try || leaves then Ok None
    else
      do v <- get_const_value H test;
      if const_truth v then Ok (Some Explicit)
      else
        do s <- sat_condition test;
        match s with
        | Some true =>
            if negb (may_modify test body) then Ok (Some Implicit)
            else do b <- condition_implies false test body test; Ok (if b then Some Implicit else None)
        | _ => Ok None
        end.
End Check.
