(** Suggestions to iterate over a structure directly, or by enumerate: for i in range(len(a)) where a is a name. *)
From Coq Require Import String Ascii List Bool Arith NArith ZArith.
From Verif Require Import Base PyModel PySpec IfModel FoldModel TypeModel LoopModel.
Import ListNotations.
Local Open Scope string_scope.
Local Open Scope list_scope.

(** What happens to a variable, edulint/linting/analyses/var_events.py:27-33. *)
Inductive event_type := Read | Modify | Assigned.
(** Kinds of nodes that are told apart, edulint/linting/checkers/unsuited_loop.py:434-436; edulint/linting/analyses/var_events.py:72-74. *)
Inductive kind := KSubscript | KAttribute | KCall | KOther.
(** The parent of a name: the subscript whose value it is (with the slice, and whether it is loaded), the subscript whose
    slice it is (with the value), an attribute, or something else.
    edulint/linting/checkers/unsuited_loop.py:419, 426, 451, 459-462, 472-474. *)
Inductive parent := ValueOf (slice : expr) (load : bool) | SliceOf (value : expr) | ExprOf | ChildOf (k : kind).
(** An event: the name, what happens, the parent, the kind of the parent's parent, and whether the last statement of the
    surrounding block is break or return. edulint/linting/analyses/var_events.py:36-74; edulint/linting/checkers/unsuited_loop.py:338-344. *)
Record event := { name : string; type : event_type; par : parent; grand : kind; leaves : bool }.

(** The kind of a parent, edulint/linting/analyses/var_events.py:72-74. *)
Definition kind_of (p : parent) : kind :=
  match p with ValueOf _ _ | SliceOf _ => KSubscript | ExprOf => KAttribute | ChildOf k => k end.

(** [re.match] of one of the alternatives: the name starts with it. edulint/linting/analyses/variable_scope.py:47-49. *)
Definition non_pure_start (m : string) : bool :=
  existsb (fun p => String.prefix p m) ["append"; "clear"; "extend"; "insert"; "pop"; "remove"; "reverse"; "sort"; "add"; "write"].
(** [.*update]: the name contains it. edulint/linting/analyses/variable_scope.py:47-49. *)
Fixpoint contains_update (m : string) : bool :=
  String.prefix "update" m || match m with EmptyString => false | String _ r => contains_update r end.
(** [NON_PURE_METHODS.match], edulint/linting/analyses/variable_scope.py:47-49, 343. *)
Definition non_pure (m : string) : bool := non_pure_start m || contains_update m.

(** [strip_to_name], with the parent of the name, edulint/linting/analyses/var_events.py:129-140. *)
Fixpoint strip_to_name (e : expr) (p : parent) (g : kind) : option (string * parent * kind) :=
  match e with
  | Name x => Some (x, p, g)
  | Subscript v s => strip_to_name v (ValueOf s true) (kind_of p)
  | Attribute v _ => strip_to_name v ExprOf (kind_of p)
  | _ => None
  end.

Section Events.
  (** The last statement of the block, edulint/linting/checkers/unsuited_loop.py:338-344, 446. *)
  Variable lv : bool.
  (** Events of an expression, edulint/linting/analyses/variable_scope.py:325-348. *)
  Fixpoint events_of (e : expr) (p : parent) (g : kind) : list event :=
    match e with
    | Name x => [{| name := x; type := Read; par := p; grand := g; leaves := lv |}]
    | Const _ | Other _ => []
    | Unary _ a => events_of a (ChildOf KOther) (kind_of p)
    | Binary _ a b => events_of a (ChildOf KOther) (kind_of p) ++ events_of b (ChildOf KOther) (kind_of p)
    | BoolOp _ vs => flat_map (fun v => events_of v (ChildOf KOther) (kind_of p)) vs
    | Compare a ops => events_of a (ChildOf KOther) (kind_of p) ++ flat_map (fun cv => events_of (snd cv) (ChildOf KOther) (kind_of p)) ops
    | Call f args => events_of f (ChildOf KCall) (kind_of p) ++ flat_map (fun v => events_of v (ChildOf KCall) (kind_of p)) args
    | Attribute a m =>
        (match kind_of p, non_pure m, strip_to_name a ExprOf (kind_of p) with
         | KCall, true, Some (x, q, h) => [{| name := x; type := Modify; par := q; grand := h; leaves := lv |}]
         | _, _, _ => []
         end) ++ events_of a ExprOf (kind_of p)
    | Subscript a s => events_of a (ValueOf s true) (kind_of p) ++ events_of s (SliceOf a) (kind_of p)
    | IfExp c a b => events_of c (ChildOf KOther) (kind_of p) ++ events_of a (ChildOf KOther) (kind_of p) ++ events_of b (ChildOf KOther) (kind_of p)
    end.
  (** Events of an expression that belongs to a statement, edulint/linting/analyses/variable_scope.py:289-303. *)
  Definition top (e : expr) : list event := events_of e (ChildOf KOther) KOther.
  (** Events of a target, edulint/linting/analyses/variable_scope.py:266-276. *)
  Definition target_events (t : expr) : list event :=
    let modified r := match r with Some (x, q, h) => [{| name := x; type := Modify; par := q; grand := h; leaves := lv |}] | None => [] end in
    match t with
    | Name x => [{| name := x; type := Assigned; par := ChildOf KOther; grand := KOther; leaves := lv |}]
    | Subscript a s => events_of a (ValueOf s false) KOther ++ events_of s (SliceOf a) KOther ++ modified (strip_to_name a (ValueOf s false) KOther)
    | Attribute a m => events_of a (ChildOf KOther) KOther ++ modified (strip_to_name a (ChildOf KOther) KOther)
    | _ => []
    end.
End Events.

(** [isinstance(last line, (nodes.Break, nodes.Return))], edulint/linting/checkers/unsuited_loop.py:338-344, 446. *)
Fixpoint block_leaves (l : list stmt) : bool :=
  match l with
  | [] => false
  | [SBreak] => true
  | [SReturn _] => true
  | _ :: r => block_leaves r
  end.
(** Events of a statement in a block; [lv] tells how the block ends. Simplified: other statements have none.
    edulint/linting/analyses/variable_scope.py:285-337. *)
Fixpoint stmt_events (lv : bool) (s : stmt) : list event :=
  match s with
  | SAssign x e => top lv e ++ target_events lv (Name x)
  | SAug x _ e => [{| name := x; type := Read; par := ChildOf KOther; grand := KOther; leaves := lv |}] ++ top lv e ++ target_events lv (Name x)
  | SStore t e => top lv e ++ target_events lv t
  | SExpr e | SReturn e => top lv e
  | SBreak | SContinue | SOther _ => []
  | SIf c b e | SWhile c b e => top lv c ++ flat_map (stmt_events (block_leaves b)) b ++ flat_map (stmt_events (block_leaves e)) e
  | SFor t i b e => target_events lv t ++ top lv i ++ flat_map (stmt_events (block_leaves b)) b ++ flat_map (stmt_events (block_leaves e)) e
  end.
(** [get_events_by_var] of a body, edulint/linting/analyses/data_dependency.py:689-706. *)
Definition body_events (l : list stmt) : list event := flat_map (stmt_events (block_leaves l)) l.
(** The events of one variable, edulint/linting/analyses/data_dependency.py:703-706. *)
Definition events_for (x : string) (l : list event) : list event := filter (fun ev => String.eqb x (name ev)) l.

(** [start.value == 0] and [step.value == 1], edulint/linting/checkers/unsuited_loop.py:406-407, 411-412. *)
Definition is_const (e : expr) (z : Z) : bool :=
  match e with
  | Const (CInt n) => Z.eqb (Z.of_N n) z
  | Const (CBool b) => Z.eqb (Z.b2z b) z
  | Const (CFloat r) => (Z.eqb z 0 && String.eqb r "0.0") || (Z.eqb z 1 && String.eqb r "1.0")
  | _ => false
  end.
(** [is_for_range_len]: the structure. Simplified: "len" is the builtin. edulint/linting/checkers/unsuited_loop.py:399-413. *)
Definition range_len (iter : expr) : option expr :=
  match get_range_params iter with
  | Some (start, Call (Name f) [a], step) => if is_const start 0 && is_const step 1 && String.eqb f "len" then Some a else None
  | _ => None
  end.
(** [get_indexing_events]: slices and whether they are loaded, edulint/linting/checkers/unsuited_loop.py:415-420. *)
Definition indexing (ev : event) : option (expr * bool) := match par ev with ValueOf s l => Some (s, l) | _ => None end.
(** [is_structure_read], edulint/linting/checkers/unsuited_loop.py:450-451. *)
Definition is_structure_read (l : list event) : bool := existsb (fun ev => match indexing ev with Some (_, b) => b | None => false end) l.
(** [is_structure_indexed_just_by], edulint/linting/checkers/unsuited_loop.py:422-429. *)
Definition indexed_just_by (i : string) (l : list event) : bool :=
  forallb (fun ev => match indexing ev with Some (Name y, _) => String.eqb y i | Some _ => false | None => true end) l.
(** [is_structure_assigned_into], edulint/linting/checkers/unsuited_loop.py:431-438. *)
Definition assigned_into (l : list event) : bool :=
  existsb (fun ev => match type ev with Read => false | _ => match grand ev with KOther => true | _ => false end end) l.
(** [is_structure_directly_modified], edulint/linting/checkers/unsuited_loop.py:440-448; edulint/linting/analyses/var_events.py:69-74. *)
Definition directly_modified (l : list event) : bool :=
  existsb (fun ev =>
    match type ev with
    | Read => false
    | Modify => match par ev, grand ev with ExprOf, KCall => true | _, _ => false end
    | Assigned => true
    end && negb (leaves ev)) l.
(** [is_index_modified], edulint/linting/checkers/unsuited_loop.py:453-454. *)
Definition index_modified (l : list event) : bool := existsb (fun ev => match type ev with Read => false | _ => true end) l.
(** [is_index_used_just_for], edulint/linting/checkers/unsuited_loop.py:456-465. *)
Definition index_used_just_for (a : expr) (l : list event) : bool :=
  forallb (fun ev => match par ev with SliceOf v => text_eqb (as_string v) (as_string a) | _ => true end) l.
(** [is_index_used_outside_subscript], edulint/linting/checkers/unsuited_loop.py:467-477. *)
Definition used_outside (a : expr) (l : list event) : bool :=
  existsb (fun ev => match par ev with SliceOf v => negb (text_eqb (as_string v) (as_string a)) | _ => true end) l.

(** The two messages, edulint/linting/checkers/unsuited_loop.py:510-513. *)
Inductive each_message := UseForeach | UseEnumerate.
(** [_check_improve_for_loop] for a structure that is a name, edulint/linting/checkers/unsuited_loop.py:479-513. *)
Definition improve_for_loop (s : stmt) : option each_message :=
  match s with
  | SFor (Name i) iter body _ =>
      match range_len iter with
      | Some (Name a) =>
          let evs := body_events body in
          let sa := events_for a evs in
          let ia := events_for i evs in
          if negb (is_structure_read sa) || negb (indexed_just_by i sa) || negb (index_used_just_for (Name a) ia) ||
             index_modified ia || directly_modified sa || assigned_into sa
          then None
          else Some (if used_outside (Name a) ia then UseEnumerate else UseForeach)
      | _ => None
      end
  | _ => None
  end.
