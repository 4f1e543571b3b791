(** Model of the anti-unification of code fragments: edulint/linting/analyses/antiunify.py. Positions in the control flow graph
    ([cfg_loc], [sub_locs]) and the readable ends of the names of variables are left out. *)
From Coq Require Import String List Bool Arith ZArith QArith.
From Verif Require Import Base.
Import ListNotations.
Local Open Scope string_scope.
Local Open Scope list_scope.
Local Open Scope nat_scope.

(** ** Values *)

(** Values of attributes that are neither nodes nor lists, edulint/linting/analyses/antiunify.py:507-510. *)
Inductive atom :=
| AStr (s : string) | AInt (z : Z) | ABool (b : bool) | AFloat (q : Q) | AComplex (re im : Q) | ABytes (s : string)
| ANone | AEllipsis | AEnum (name : string).

(** What anti-unification works with: plain values, lists, tuples, nodes with their attributes, and variables. A node of a core also keeps
    the nodes it was made from (its [subs], absent in a node of the program); a variable keeps its number and the values it stands for.
    edulint/linting/analyses/antiunify.py:17-23, 226-227 *)
Inductive val :=
| VAtom (a : atom)
| VList (l : list val)
| VTup (l : list val)
| VNode (kind : string) (attrs : list (string * val)) (subs : option (list val))
| VVar (num : nat) (subs : list val).

(** A number as Python sees it: [True == 1 == 1.0 == 1+0j], edulint/linting/analyses/antiunify.py:109. *)
Definition number (a : atom) : option (Q * Q) :=
  match a with
  | AInt z => Some (inject_Z z, 0%Q)
  | ABool b => Some (if b then 1%Q else 0%Q, 0%Q)
  | AFloat q => Some (q, 0%Q)
  | AComplex re im => Some (re, im)
  | _ => None
  end.

(** [v == w] of plain values, edulint/linting/analyses/antiunify.py:109. *)
Definition atom_eq (a b : atom) : bool :=
  match number a, number b with
  | Some (x, y), Some (u, v) => Qeq_bool x u && Qeq_bool y v
  | None, None =>
      match a, b with
      | AStr s, AStr t => String.eqb s t
      | ABytes s, ABytes t => String.eqb s t
      | ANone, ANone => true
      | AEllipsis, AEllipsis => true
      | AEnum s, AEnum t => String.eqb s t
      | _, _ => false
      end
  | _, _ => false
  end.

(** [v == vals[0]] where no value is a node and the first is neither a list nor a tuple, edulint/linting/analyses/antiunify.py:109. *)
Definition const_eq (v w : val) : bool := match v, w with VAtom a, VAtom b => atom_eq a b | _, _ => false end.

(** [isinstance(n, AunifyVar)], edulint/linting/analyses/antiunify.py:134. *)
Definition is_var (v : val) : bool := match v with VVar _ _ => true | _ => false end.
(** [isinstance(n, (list, tuple))], edulint/linting/analyses/antiunify.py:137-138. *)
Definition is_seq (v : val) : bool := match v with VList _ | VTup _ => true | _ => false end.
(** [isinstance(v, list)], edulint/linting/checkers/duplication/utils.py:18. *)
Definition is_list (v : val) : bool := match v with VList _ => true | _ => false end.
(** [isinstance(n, tuple)], edulint/linting/analyses/antiunify.py:185. *)
Definition is_tuple (v : val) : bool := match v with VTup _ => true | _ => false end.
(** [isinstance(n, nodes.NodeNG)]; a variable is a node as well, edulint/linting/analyses/antiunify.py:17, 141. *)
Definition is_node (v : val) : bool := match v with VNode _ _ _ | VVar _ _ => true | _ => false end.
(** The elements of a list or a tuple, edulint/linting/analyses/antiunify.py:182. *)
Definition elements (v : val) : list val := match v with VList l | VTup l => l | _ => [] end.

(** Reading an attribute from the attributes of a node, edulint/linting/analyses/antiunify.py:201. *)
Fixpoint attr_of (attrs : list (string * val)) (a : string) : option val :=
  match attrs with [] => None | (b, v) :: attrs => if String.eqb a b then Some v else attr_of attrs a end.
(** [getattr(n, attr)], edulint/linting/analyses/antiunify.py:201. *)
Definition getattr (v : val) (a : string) : res val :=
  match v with
  | VNode _ attrs _ => match attr_of attrs a with Some v => Ok v | None => Raise AttributeError end
  | _ => Raise AttributeError
  end.

(** [ASTROID_EXTRA_FIELDS], edulint/linting/analyses/antiunify.py:58-82. *)
Definition extra_fields (kind : string) : list string :=
  if str_in kind ["Name"; "AssignName"; "FunctionDef"; "DelName"] then ["name"]
  else if str_in kind ["Attribute"; "AssignAttr"; "DelAttr"] then ["attrname"]
  else if str_in kind ["BoolOp"; "BinOp"; "UnaryOp"; "AugAssign"] then ["op"]
  else if str_in kind ["Const"; "MatchSingleton"] then ["value"]
  else if str_in kind ["Nonlocal"; "Global"; "Import"] then ["names"]
  else if str_in kind ["ImportFrom"] then ["modname"; "names"]
  else if str_in kind ["Keyword"] then ["arg"]
  else if str_in kind ["Subscript"; "Starred"] then ["ctx"]
  else [].

(** Setting the parents of what an attribute of a core holds, [set_parents] with [recursive=False]: an assertion fails for a value of a
    type that is not listed, edulint/linting/analyses/antiunify.py:495-510. *)
Fixpoint parents_settable (v : val) : bool :=
  match v with
  | VNode _ _ _ | VVar _ _ => true
  | VList l | VTup l => forallb parents_settable l
  | VAtom (AComplex _ _) => false
  | VAtom _ => true
  end.

(** Raised to stop the anti-unification, edulint/linting/analyses/antiunify.py:54-55. *)
Definition Disallowed : exn := OtherError "DisallowedAntiunification".

(** A state is the number of the last variable made; the result of a step is the core, its variables and the new state,
    edulint/linting/analyses/antiunify.py:90-94. *)
Notation outcome := (res (val * list val * nat)).

(** What [new_node] needs to know about a class of nodes: the parameters of its constructor (positions excluded) and which of them have no
    default, and the parameters of [postinit]: those annotated as lists have the empty list as their default, others [None].
    edulint/linting/analyses/utils.py:17-31, 46-68 *)
Record node_class := mk_class { init_params : list string; init_required : list string; postinit_params : list (string * bool) }.

Section Unify.
  (** [type(node)._astroid_fields], which astroid defines, edulint/linting/analyses/antiunify.py:86. *)
  Variable astroid_fields : string -> list string.
  (** [is_subclass k k']: nodes of the class [k] are instances of the class [k'], edulint/linting/analyses/antiunify.py:144. *)
  Variable is_subclass : string -> string -> bool.
  (** The parameters with which nodes are made, edulint/linting/analyses/utils.py:17-31. *)
  Variable class_of : string -> node_class.
  (** [stop_on], any function of the variables; what it reads through [avar.parent] is not followed, edulint/linting/analyses/antiunify.py:103. *)
  Variable stop_on : list val -> res bool.

  (** [get_all_fields], edulint/linting/analyses/antiunify.py:85-86. *)
  Definition all_fields (kind : string) : list string := astroid_fields kind ++ extra_fields kind.

  (** [if stop_on(avars): raise DisallowedAntiunification()], edulint/linting/analyses/antiunify.py:103-104, 126-127, 246-247. *)
  Definition check_stop (avars : list val) : res unit := do b <- stop_on avars; if b then Raise Disallowed else Ok tt.

  (** [_new_aunifier], edulint/linting/analyses/antiunify.py:92-106. *)
  Definition new_aunifier (subs : list val) (num : nat) : outcome :=
    let avar := VVar (S num) subs in
    do _ <- check_stop [avar];
    Ok (avar, [avar], S num).

  (** [_aunify_consts], edulint/linting/analyses/antiunify.py:108-112. *)
  Definition aunify_consts (vals : list val) (num : nat) : outcome :=
    match vals with
    | [] => Raise IndexError
    | v :: _ => if forallb (fun w => const_eq w v) vals then Ok (v, [], num) else new_aunifier vals num
    end.

  (** [_aunify_avars], edulint/linting/analyses/antiunify.py:114-129. *)
  Definition aunify_avars (vals : list val) (num : nat) : outcome :=
    let avar := VVar (S num) (flat_map (fun v => match v with VVar _ subs => subs | _ => [v] end) vals) in
    do _ <- check_stop [avar];
    Ok (avar, [avar], S num).

  (** [isinstance(n, type(some))] for a node [some], edulint/linting/analyses/antiunify.py:144, 217. *)
  Definition instance_of (kind : string) (v : val) : bool := match v with VNode k _ _ => is_subclass k kind | _ => false end.

  (** [new_node]: [attrs] that are not parameters of [postinit] go to the constructor, the others to [postinit]; parameters of [postinit]
      that are not given get their default. What [postinit] sets wins, so it goes first. (The parameter of
      [ImportFrom] that sets [modname] is called [fromname]; here it has the name of the attribute.) edulint/linting/analyses/utils.py:46-70 *)
  Definition new_node (kind : string) (attrs : list (string * val)) : res (list (string * val)) :=
    let after := postinit_params (class_of kind) in
    let is_after a := str_in a (map fst after) in
    let before := filter (fun '(a, _) => negb (is_after a)) attrs in
    let before := if String.eqb kind "Arguments"
                  then before ++ filter (fun '(a, _) => negb (str_in a (map fst before)))
                                        [("kwarg", VAtom (AStr "")); ("vararg", VAtom (AStr ""))]
                  else before in
    if forallb (fun '(a, _) => str_in a (init_params (class_of kind))) before
       && forallb (fun a => str_in a (map fst before)) (init_required (class_of kind))
    then Ok (map (fun '(a, list_) => (a, match attr_of attrs a with Some v => v | None => if list_ : bool then VList [] else VAtom ANone end))
                 after ++ before)
    else Raise TypeError.

  (** The end of [_aunify_by_attrs], from [new_node] on, edulint/linting/analyses/antiunify.py:226-249. *)
  Definition make_core (kind : string) (to_aunify : list val) (cores : list (string * val)) (avars : list val) (num : nat) : outcome :=
    do attrs <- new_node kind cores;
    if forallb (fun '(_, c) => parents_settable c) cores then
      do _ <- check_stop avars;
      Ok (VNode kind attrs (Some to_aunify), avars, num)
    else Raise AssertionError.

  (** What a list of sequences of different lengths gets as its core, edulint/linting/analyses/antiunify.py:161-177. *)
  Definition list_core (avar some : val) (num : nat) : res (val * nat) :=
    match some with
    | VTup [first; second] =>
        match first, second with
        | VAtom (AStr _), VAtom (AStr _) | VAtom (AStr _), VAtom ANone => Ok (VList [VTup [avar; VAtom ANone]], num)
        | VAtom (AStr _), _ => if is_node second then Ok (VList [VTup [VAtom (AStr ""); avar]], num) else Ok (VList [avar], num)
        | _, _ =>
            if is_node first && is_node second then
              do (other, _, num) <- new_aunifier [] num;
              Ok (VList [VTup [avar; other]], num)
            else Ok (VList [avar], num)
        end
    | VTup _ => Raise ValueError
    | _ => Ok (VList [avar], num)
    end.

  (** [tuple(child_core) if isinstance(children[0], tuple) else child_core], edulint/linting/analyses/antiunify.py:185. *)
  Definition as_tuple (children : list val) (core : val) : res val :=
    match children with
    | VTup _ :: _ => match core with VList l | VTup l => Ok (VTup l) | _ => Raise TypeError end
    | _ => Ok core
    end.

  Section Parts.
    (** The anti-unification of parts. *)
    Variable recur : list val -> nat -> outcome.

    (** The elements at each position, edulint/linting/analyses/antiunify.py:179-192. *)
    Fixpoint positions (columns : list (list val)) (num : nat) : res (list val * list val * nat) :=
      match columns with
      | [] => Ok ([], [], num)
      | children :: columns =>
          do (core, avars, num) <- recur children num;
          do core <- as_tuple children core;
          do (cores, more, num) <- positions columns num;
          Ok (core :: cores, avars ++ more, num)
      end.

    (** [_aunify_many_attrs], edulint/linting/analyses/antiunify.py:194-208. *)
    Fixpoint many (to_aunify : list val) (attrs : list string) (num : nat) : res (list (string * val) * list val * nat) :=
      match attrs with
      | [] => Ok ([], [], num)
      | a :: attrs =>
          do vals <- mapM (fun v => getattr v a) to_aunify;
          do (core, avars, num) <- recur vals num;
          do (cores, more, num) <- many to_aunify attrs num;
          Ok ((a, core) :: cores, avars ++ more, num)
      end.
  End Parts.

  (** [Antiunify.antiunify] with [_antiunify_lists], [_aunify_many_attrs] and [_aunify_by_attrs]; [fuel] bounds the depth of the recursion,
      which Python bounds too. edulint/linting/analyses/antiunify.py:131-249 *)
  Fixpoint unify (fuel : nat) (to_aunify : list val) (num : nat) : outcome :=
    match fuel with
    | 0 => Raise RecursionError
    | S fuel =>
        if existsb is_var to_aunify then aunify_avars to_aunify num
        else
          match to_aunify with
          | [] => Raise IndexError
          | some :: _ =>
              if is_seq some then
                if forallb is_seq to_aunify then
                  let n := length (elements some) in
                  if forallb (fun v => Nat.eqb (length (elements v)) n) to_aunify then
                    do (cores, avars, num) <-
                      positions (unify fuel) (map (fun i => map (fun v => nth i (elements v) (VAtom ANone)) to_aunify) (seq 0 n)) num;
                    Ok (VList cores, avars, num)
                  else
                    do (avar, avars, num) <- new_aunifier to_aunify num;
                    match flat_map elements to_aunify with
                    | [] => Raise IndexError
                    | first :: _ =>
                        do (core, num) <- list_core avar first num;
                        Ok (core, avars, num)
                    end
                else Raise AssertionError
              else if negb (existsb is_node to_aunify) then aunify_consts to_aunify num
              else
                match some with
                | VNode kind _ _ =>
                    if forallb (instance_of kind) to_aunify then
                      if str_in kind ["Name"; "AssignName"] then
                        do names <- mapM (fun v => getattr v "name") to_aunify;
                        do (core, avars, num) <- new_aunifier names num;
                        make_core kind to_aunify [("name", core)] avars num
                      else
                        do (cores, avars, num) <- many (unify fuel) to_aunify (all_fields kind) num;
                        make_core kind to_aunify cores avars num
                    else new_aunifier to_aunify num
                | _ => new_aunifier to_aunify num
                end
          end
    end.

  (** [result] that collects the variables, edulint/linting/analyses/antiunify.py:270. *)
  Fixpoint concatM (l : list (res (list val))) : res (list val) :=
    match l with [] => Ok [] | r :: l => do avars <- r; do more <- concatM l; Ok (avars ++ more) end.
  (** [get_avars], edulint/linting/analyses/antiunify.py:269-284; [getattr] of an attribute that a node does not have raises. *)
  Fixpoint get_avars (core : val) : res (list val) :=
    match core with
    | VVar _ _ => Ok [core]
    | VNode kind attrs _ =>
        let found := map (fun '(a, v) => (a, get_avars v)) attrs in
        concatM (map (fun a => match find (fun '(b, _) => String.eqb a b) found with Some (_, r) => r | None => Raise AttributeError end)
                     (all_fields kind))
    | VList l | VTup l => concatM (map get_avars l)
    | VAtom _ => Ok []
    end.
End Unify.

(** ** Merging variables *)

(** A variable as the merging looks at it: its number, what it stands for, and the class of its parent (absent if it has none),
    edulint/linting/analyses/antiunify.py:379-397. *)
Record avar := mk_avar { avar_num : nat; avar_subs : list val; avar_parent : option string }.

(** [isinstance(avar.parent, (nodes.Name, nodes.AssignName))], edulint/linting/analyses/antiunify.py:389. *)
Definition named (a : avar) : bool := match avar_parent a with Some k => str_in k ["Name"; "AssignName"] | None => false end.

(** Equality of values as keys of dictionaries: plain values by [==]; two nodes are equal only when they are one object, which numbers
    ([node_id]) would tell; as keys with nodes are stored but never looked up, nodes are taken to be different.
    edulint/linting/analyses/antiunify.py:398-404 *)
Fixpoint keys_eq (u v : list val) : bool :=
  match u, v with
  | [], [] => true
  | x :: u, y :: v => const_eq x y && keys_eq u v
  | _, _ => false
  end.

(** [value_owner], edulint/linting/analyses/antiunify.py:375: the last entry for a key counts, so new entries go first. *)
Notation owners := (list ((nat * val) * list val)).
(** [value_owner[(i, v)]], edulint/linting/analyses/antiunify.py:391-397. *)
Fixpoint owner (o : owners) (i : nat) (v : val) : option (list val) :=
  match o with
  | [] => None
  | ((j, w), subs) :: o => if Nat.eqb i j && const_eq v w then Some subs else owner o i v
  end.

(** The pairs of an index and a value at which the owners are looked up, edulint/linting/analyses/antiunify.py:389-397. *)
Definition looked_up (a : avar) : list (nat * val) :=
  let indexed := combine (seq 0 (length (avar_subs a))) (avar_subs a) in
  if named a then indexed
  else flat_map (fun '(i, v) => match v with
                                | VNode k attrs _ =>
                                    if str_in k ["Name"; "AssignName"]
                                    then match attr_of attrs "name" with Some n => [(i, n)] | None => [] end
                                    else []
                                | _ => []
                                end) indexed.

(** [canonicals], a set, edulint/linting/analyses/antiunify.py:390-397. *)
Fixpoint add_key (k : list val) (l : list (list val)) : list (list val) :=
  match l with [] => [k] | k' :: l' => if keys_eq k k' then l else k' :: add_key k l' end.
(** edulint/linting/analyses/antiunify.py:390-397. *)
Definition canonicals (o : owners) (a : avar) : list (list val) :=
  fold_left (fun acc '(i, v) => match owner o i v with Some subs => add_key subs acc | None => acc end) (looked_up a) [].

(** [groups] and [forced_groups], dictionaries, edulint/linting/analyses/antiunify.py:376-377. *)
Notation groups := (list (list val * list avar)).
(** [canon in groups], edulint/linting/analyses/antiunify.py:408. *)
Definition in_groups (g : groups) (k : list val) : bool := existsb (fun '(k', _) => keys_eq k k') g.
(** [groups.setdefault(k, []).extend(l)] and [groups[k].append(a)], edulint/linting/analyses/antiunify.py:385, 401, 409, 421. *)
Fixpoint extend_group (g : groups) (k : list val) (l : list avar) : groups :=
  match g with
  | [] => [(k, l)]
  | (k', l') :: g => if keys_eq k k' then (k', l' ++ l) :: g else (k', l') :: extend_group g k l
  end.
(** [groups.pop(canon, None)], edulint/linting/analyses/antiunify.py:413, 418. *)
Fixpoint pop_group (g : groups) (k : list val) : groups :=
  match g with [] => [] | (k', l') :: g => if keys_eq k k' then g else (k', l') :: pop_group g k end.

(** [all(s == subs[0] for s in subs)]; as above two nodes are taken to differ, edulint/linting/analyses/antiunify.py:384. *)
Definition all_same (subs : list val) : bool := match subs with [] => true | s :: _ => forallb (fun t => const_eq t s) subs end.

(** The loop of [get_merge_candidates]; [None] when names are not consistent, edulint/linting/analyses/antiunify.py:379-418. *)
Fixpoint merge_loop (consistent : bool) (avars : list avar) (o : owners) (g forced : groups) : res (option (groups * groups)) :=
  match avars with
  | [] => Ok (Some (g, forced))
  | a :: avars =>
      match avar_subs a with
      | [] => Raise IndexError
      | VList _ :: _ => merge_loop consistent avars o g forced
      | _ =>
          let subs := avar_subs a in
          if negb consistent && all_same subs then merge_loop consistent avars o g (extend_group forced subs [a])
          else
            match canonicals o a with
            | [] => merge_loop consistent avars (rev (map (fun p => (p, subs)) (combine (seq 0 (length subs)) subs)) ++ o)
                               (if named a then extend_group g subs [a] else g) forced
            | [canon] =>
                if named a && keys_eq canon subs && in_groups g canon
                then merge_loop consistent avars o (extend_group g canon [a]) forced
                else if consistent then Ok None
                else merge_loop consistent avars o (pop_group g canon) forced
            | canons =>
                if consistent then Ok None
                else merge_loop consistent avars o (fold_left pop_group canons g) forced
            end
      end
  end.

(** [get_merge_candidates], edulint/linting/analyses/antiunify.py:372-423. *)
Definition get_merge_candidates (consistent : bool) (avars : list avar) : res (option groups) :=
  do r <- merge_loop consistent avars [] [] [];
  match r with
  | None => Ok None
  | Some (g, forced) => Ok (Some (fold_left (fun g '(k, l) => extend_group g k l) forced g))
  end.

(** The names of the classes of the parents of variables in a core, edulint/linting/analyses/antiunify.py:243-244, 495-505. *)
Fixpoint parents_in (parent : option string) (core : val) : list (nat * option string) :=
  match core with
  | VVar n _ => [(n, parent)]
  | VNode kind attrs _ => flat_map (fun '(_, v) => parents_in (Some kind) v) attrs
  | VList l | VTup l => flat_map (parents_in parent) l
  | VAtom _ => []
  end.

(** A variable with its parent in the core, edulint/linting/analyses/antiunify.py:379-397. *)
Definition with_parent (core v : val) : avar :=
  match v with
  | VVar n subs =>
      mk_avar n subs (match find (fun '(m, _) => Nat.eqb n m) (parents_in None core) with Some (_, p) => p | None => None end)
  | _ => mk_avar 0 [] None
  end.

(** [avar.parent.name = avar.subs[0]] for the variables of the merged groups; only the attribute [name] of a name is set, as
    merged variables are names. edulint/linting/analyses/antiunify.py:462-465 *)
Fixpoint rename (merged : list nat) (core : val) : val :=
  match core with
  | VNode kind attrs subs =>
      VNode kind
        (map (fun '(a, v) =>
                (a, match v with
                    | VVar n (s :: _) =>
                        if str_in kind ["Name"; "AssignName"] && String.eqb a "name" && existsb (Nat.eqb n) merged then s else v
                    | _ => rename merged v
                    end)) attrs) subs
  | VList l => VList (map (rename merged) l)
  | VTup l => VTup (map (rename merged) l)
  | v => v
  end.

Section Merge.
  Variable astroid_fields : string -> list string.
  (** [vars_can_be_merged] for a group of variables whose values are not all equal: what the variables of the program mean is not modelled,
      edulint/linting/analyses/antiunify.py:430-447. *)
  Variable scopes_allow : val -> list val -> list avar -> bool.

  (** [vars_can_be_merged], edulint/linting/analyses/antiunify.py:426-447. *)
  Definition vars_can_be_merged (core : val) (names : list val) (group : list avar) : bool :=
    if all_same names then true else scopes_allow core names group.

  (** The groups that are merged, edulint/linting/analyses/antiunify.py:462-463. *)
  Definition merged_groups (core : val) (g : groups) : groups := filter (fun '(k, l) => vars_can_be_merged core k l) g.

  (** [merge_indistinguishable_vars], edulint/linting/analyses/antiunify.py:450-467. *)
  Definition merge_indistinguishable_vars (consistent : bool) (core : val) (avars : list val) : res (option (val * list val)) :=
    do r <- get_merge_candidates consistent (map (with_parent core) avars);
    match r with
    | None => Ok None
    | Some g =>
        let core := rename (flat_map (fun '(_, l) => map avar_num l) (merged_groups core g)) core in
        do avars <- get_avars astroid_fields core;
        Ok (Some (core, avars))
    end.
End Merge.

(** ** The whole *)

Section Whole.
  Variable astroid_fields : string -> list string.
  Variable is_subclass : string -> string -> bool.
  Variable class_of : string -> node_class.
  Variable stop_on : list val -> res bool.
  (** [stop_on_after_renamed_identical], edulint/linting/analyses/antiunify.py:473, 489-490. *)
  Variable stop_after : val -> list val -> res bool.
  Variable scopes_allow : val -> list val -> list avar -> bool.

  (** [antiunify]; the control flow graph made of the core, with which [scopes_allow] is answered, is not modelled,
      edulint/linting/analyses/antiunify.py:470-491. *)
  Definition antiunify (fuel : nat) (to_aunify : list val) (consistent : bool) : res (option (val * list val)) :=
    match unify astroid_fields is_subclass class_of stop_on fuel to_aunify 0 with
    | Raise (OtherError what) => if String.eqb what "DisallowedAntiunification" then Ok None else Raise (OtherError what)
    | Raise e => Raise e
    | Ok (core, avars, _) =>
        do r <- merge_indistinguishable_vars astroid_fields scopes_allow consistent core avars;
        match r with
        | None => Ok None
        | Some (core, avars) =>
            do b <- stop_after core avars;
            Ok (if b then None else Some (core, avars))
        end
    end.
End Whole.

(** [get_sub_variant], edulint/linting/analyses/antiunify.py:513-517. *)
Definition sub_of (i : nat) (v : val) : res val :=
  match v with
  | VNode _ _ (Some subs) | VVar _ subs => match nth_error subs i with Some s => Ok s | None => Raise IndexError end
  | _ => Raise AttributeError
  end.
(** edulint/linting/analyses/antiunify.py:513-517. *)
Definition get_sub_variant (core : val) (i : nat) : res val :=
  match core with
  | VList l => do subs <- mapM (sub_of i) l; Ok (VList subs)
  | _ => sub_of i core
  end.

(** ** The conditions with which the checkers stop *)

(** [any(len(s) != len(some) for s in avar.subs)], edulint/linting/checkers/duplication/utils.py:20. *)
Fixpoint differs (n : nat) (subs : list val) : res bool :=
  match subs with
  | [] => Ok false
  | s :: subs => if is_seq s then if Nat.eqb (length (elements s)) n then differs n subs else Ok true else Raise TypeError
  end.

(** [length_mismatch], edulint/linting/checkers/duplication/utils.py:15-22; [len] of a value that is neither a list nor a tuple is taken to
    raise. *)
Fixpoint length_mismatch (avars : list val) : res bool :=
  match avars with
  | [] => Ok false
  | VVar _ [] :: _ => Raise IndexError
  | VVar _ ((some :: _) as subs) :: avars =>
      if negb (is_list some) && existsb is_list subs then Ok true
      else if is_list some then
        do b <- differs (length (elements some)) subs;
        if b then Ok true else length_mismatch avars
      else length_mismatch avars
  | _ :: _ => Raise AttributeError
  end.

(** [type(sub)], edulint/linting/checkers/duplication/utils.py:28. *)
Definition type_of (v : val) : string :=
  match v with
  | VAtom (AStr _) => "str" | VAtom (AInt _) => "int" | VAtom (ABool _) => "bool" | VAtom (AFloat _) => "float"
  | VAtom (AComplex _ _) => "complex" | VAtom (ABytes _) => "bytes" | VAtom ANone => "NoneType" | VAtom AEllipsis => "ellipsis"
  | VAtom (AEnum _) => "Context"
  | VList _ => "list" | VTup _ => "tuple" | VNode k _ _ => "nodes." ++ k | VVar _ _ => "AunifyVar"
  end.

(** [type_mismatch], edulint/linting/checkers/duplication/utils.py:25-33. *)
Definition type_mismatch (allowed : list (list string)) (avars : list val) : bool :=
  existsb (fun v =>
    match v with
    | VVar _ subs =>
        let types := map type_of subs in
        negb (existsb (fun am => forallb (fun t => str_in t am) types) allowed)
        && match types with [] => false | t :: _ => negb (forallb (String.eqb t) types) end
    | _ => false
    end) avars.

(** [stop_on] of the check of if statements, edulint/linting/checkers/duplication/duplicate_if.py:888-892. *)
Definition if_stop_on (avars : list val) : res bool := do b <- length_mismatch avars; Ok (b || type_mismatch [] avars).

(** [assignment_to_aunify_var], edulint/linting/checkers/duplication/utils.py:56-57. *)
Definition assignment_to_aunify_var (core : val) (avars : list val) : res bool :=
  Ok (existsb (fun v => match avar_parent (with_parent core v) with
                        | Some k => str_in k ["AssignName"; "AssignAttr"]
                        | None => false
                        end) avars).

Section Identical.
  Variable astroid_fields : string -> list string.
  Variable is_subclass : string -> string -> bool.
  Variable class_of : string -> node_class.
  Variable scopes_allow : val -> list val -> list avar -> bool.

  (** [core_avars], edulint/linting/checkers/duplication/duplicate_if.py:886-892. *)
  Definition core_avars (fuel : nat) (branches : list val) : res (option (val * list val)) :=
    antiunify astroid_fields is_subclass class_of if_stop_on assignment_to_aunify_var scopes_allow fuel branches false.

  (** When "identical-if-branches" is reported for branches with different texts: [others] are the conditions of [shared_for_similar] that
      do not concern the core. edulint/linting/checkers/duplication/duplicate_if.py:926-933, 1008-1018 *)
  Definition reports_identical (fuel : nat) (branches : list val) (others : bool) : res bool :=
    do r <- core_avars fuel branches;
    Ok (match r with Some (_, []) => others | _ => false end).
End Identical.
