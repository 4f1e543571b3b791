(** Model of the control flow graphs: edulint/linting/analyses/cfg/graph.py and cfg/visitor.py.
    The visitor is modelled with its default options (no function filter, conditions are not put in separate blocks), the only ones
    the linter uses (edulint/linting/analyses/patcher.py:18, antiunify.py:482).
    Blocks, edges and graphs are numbers; the attributes of the objects are functions from these numbers. *)
From Coq Require Import String List Bool Arith.
From Verif Require Import Base.
Import ListNotations.
Local Open Scope string_scope.
Local Open Scope list_scope.
Local Open Scope nat_scope.

(** ** Syntax trees *)

(** The parts of statements that get a place in the graph, edulint/linting/analyses/cfg/visitor.py:149, 173-178, 219, 260-265, 369, 419-422. *)
Inductive part := Args | Test | Iter | Target | Context (i : nat) | ContextName (i : nat) | HandlerName (i : nat) | Handler (i : nat) | WholeModule.
(** A node of the syntax tree: the statement number [n] or a part of it; expressions inside of parts are left out,
    edulint/linting/analyses/cfg/graph.py:160-165. *)
Inductive node := Whole (n : nat) | Part (n : nat) (p : part).

(** The jumps; a raise statement comes with the first name in it, edulint/linting/analyses/cfg/visitor.py:296-310, 445-458. *)
Inductive jump_kind := Break | Continue | Return | RaiseOf (name : option string).

(** Statements, each with its number. [Simple] is any statement without statements inside. [Opaque] is a statement with
    statements inside for which the visitor has no method (match, async for, async with, try with starred handlers), see
    edulint/linting/analyses/cfg/visitor.py:52-61. A handler has the names in its type (none for a bare except), whether it names
    the exception, and its body. [With] has one flag for each item: whether it has a name. Decorators, bases and default values are
    part of the definition's node. edulint/linting/analyses/cfg/visitor.py:63-425. *)
Inductive stmt :=
| Simple (n : nat)
| Opaque (n : nat) (body : list stmt)
| Jump (n : nat) (k : jump_kind)
| Function (n : nat) (body : list stmt)
| Class (n : nat) (body : list stmt)
| If (n : nat) (body orelse : list stmt)
| While (n : nat) (body orelse : list stmt)
| For (n : nat) (body orelse : list stmt)
| Try (n : nat) (body : list stmt) (handlers : list (list string * bool * list stmt)) (orelse final : list stmt)
| With (n : nat) (items : list bool) (body : list stmt).

(** The number of a statement, edulint/linting/analyses/cfg/graph.py:160-165. *)
Definition stmt_number (s : stmt) : nat :=
  match s with
  | Simple n | Opaque n _ | Jump n _ | Function n _ | Class n _ | If n _ _ | While n _ _ | For n _ _ | Try n _ _ _ _ | With n _ _ => n
  end.

(** Nodes are compared by identity, edulint/linting/analyses/cfg/graph.py:220. *)
Definition part_eqb (p q : part) : bool :=
  match p, q with
  | Args, Args | Test, Test | Iter, Iter | Target, Target | WholeModule, WholeModule => true
  | Context i, Context j | ContextName i, ContextName j | HandlerName i, HandlerName j | Handler i, Handler j => Nat.eqb i j
  | _, _ => false
  end.
(** edulint/linting/analyses/cfg/graph.py:220. *)
Definition node_eqb (a b : node) : bool :=
  match a, b with
  | Whole n, Whole m => Nat.eqb n m
  | Part n p, Part m q => Nat.eqb n m && part_eqb p q
  | _, _ => false
  end.

(** ** Graphs *)

(** A graph: its first and last block and the blocks not known to be reachable, and the node it was made for,
    edulint/linting/analyses/cfg/graph.py:13-30. [cfg_id] and [block_count] are not needed, blocks are numbered by creation. *)
Record cfg := mk_cfg { start : nat; final : nat; unreachable : list nat; owner : node }.

(** All the objects: blocks (statements, edges in and out, the flag), edges, graphs, and the [cfg_loc] attributes of nodes,
    edulint/linting/analyses/cfg/graph.py:160-203, 258-275. Edge labels are left out: nothing reads them but the drawing. *)
Record state := mk_state {
  blocks : nat;
  locs : nat -> list node;
  preds : nat -> list nat;
  succs : nat -> list nat;
  reachable : nat -> bool;
  edges : nat;
  source : nat -> nat;
  target : nat -> nat;
  graphs : nat;
  graph : nat -> cfg;
  places : list (node * (nat * nat)) }.

(** Setting an attribute of an object, edulint/linting/analyses/cfg/graph.py:198-203. *)
Definition set_at {A} (f : nat -> A) (k : nat) (v : A) : nat -> A := fun x => if Nat.eqb x k then v else f x.

(** No objects, edulint/linting/analyses/cfg/visitor.py:38-50. *)
Definition nothing : state :=
  mk_state 0 (fun _ => []) (fun _ => []) (fun _ => []) (fun _ => false) 0 (fun _ => 0) (fun _ => 0) 0
           (fun _ => mk_cfg 0 0 [] (Whole 0)) [].

(** The field [locs] of a block, edulint/linting/analyses/cfg/graph.py:200. *)
Definition with_locs (s : state) (b : nat) (l : list node) : state :=
  mk_state (blocks s) (set_at (locs s) b l) (preds s) (succs s) (reachable s) (edges s) (source s) (target s) (graphs s) (graph s) (places s).
(** The field [cfg_loc] of a node, edulint/linting/analyses/cfg/graph.py:212, 245. *)
Definition with_place (s : state) (n : node) (p : nat * nat) : state :=
  mk_state (blocks s) (locs s) (preds s) (succs s) (reachable s) (edges s) (source s) (target s) (graphs s) (graph s) ((n, p) :: places s).
(** The fields of a graph, edulint/linting/analyses/cfg/graph.py:25-30. *)
Definition with_graph (s : state) (g : nat) (c : cfg) : state :=
  mk_state (blocks s) (locs s) (preds s) (succs s) (reachable s) (edges s) (source s) (target s) (graphs s) (set_at (graph s) g c) (places s).
(** The field [reachable] of blocks, edulint/linting/analyses/cfg/graph.py:155. *)
Definition with_reachable (s : state) (r : nat -> bool) : state :=
  mk_state (blocks s) (locs s) (preds s) (succs s) r (edges s) (source s) (target s) (graphs s) (graph s) (places s).

(** [block.successors] as blocks, edulint/linting/analyses/cfg/graph.py:117. *)
Definition next_blocks (s : state) (b : nat) : list nat := map (target s) (succs s b).

(** ** Enumerating blocks *)

Section Enumerating.
  (** The blocks after each block, edulint/linting/analyses/cfg/graph.py:117. *)
  Variable next : nat -> list nat.

  (** The loop of [get_blocks]: the stack has its top first, [fuel] bounds the rounds,
      edulint/linting/analyses/cfg/graph.py:103-122. *)
  Fixpoint blocks_from (fuel : nat) (stack : list (nat * nat)) (visited : list nat) : res (list nat) :=
    match fuel with
    | 0 => Raise (OtherError "out of fuel")
    | S fuel =>
        match stack with
        | [] => Ok []
        | (i, b) :: stack =>
            let yielded := if Nat.eqb i 0 then [b] else [] in
            do rest <-
              (if Nat.leb (List.length (next b)) i then blocks_from fuel stack visited
               else
                 let n := nth i (next b) 0 in
                 if existsb (Nat.eqb n) visited then blocks_from fuel ((S i, b) :: stack) visited
                 else blocks_from fuel ((0, n) :: (S i, b) :: stack) (n :: visited));
            Ok (yielded ++ rest)
        end
    end.
  (** [get_blocks] of a graph with the given first block, edulint/linting/analyses/cfg/graph.py:103-106. *)
  Definition get_blocks (fuel first : nat) : res (list nat) := blocks_from fuel [(0, first)] [first].

  (** [_get_blocks_postorder]: the yielded blocks and the visited ones; [depth] bounds the recursion,
      edulint/linting/analyses/cfg/graph.py:129-137. *)
  Fixpoint postorder_from (depth : nat) (b : nat) (visited : list nat) : res (list nat * list nat) :=
    match depth with
    | 0 => Raise RecursionError
    | S depth =>
        if existsb (Nat.eqb b) visited then Ok ([], visited)
        else
          do r <- (fix children (l : list nat) (visited : list nat) : res (list nat * list nat) :=
                     match l with
                     | [] => Ok ([], visited)
                     | c :: l => do r <- postorder_from depth c visited; do r' <- children l (snd r); Ok (fst r ++ fst r', snd r')
                     end) (next b) (b :: visited);
          Ok (fst r ++ [b], snd r)
    end.
  (** [get_blocks_postorder], edulint/linting/analyses/cfg/graph.py:124-127. *)
  Definition get_blocks_postorder (depth first : nat) : res (list nat) := do r <- postorder_from depth first []; Ok (fst r).

  (** [_get_edges], an edge being its two blocks, edulint/linting/analyses/cfg/graph.py:143-151. *)
  Fixpoint edges_from (depth : nat) (b : nat) (visited : list nat) : res (list (nat * nat) * list nat) :=
    match depth with
    | 0 => Raise RecursionError
    | S depth =>
        if existsb (Nat.eqb b) visited then Ok ([], visited)
        else
          (fix children (l : list nat) (visited : list nat) : res (list (nat * nat) * list nat) :=
             match l with
             | [] => Ok ([], visited)
             | c :: l => do r <- edges_from depth c visited; do r' <- children l (snd r); Ok ((b, c) :: fst r ++ fst r', snd r')
             end) (next b) (b :: visited)
    end.
  (** [get_edges], edulint/linting/analyses/cfg/graph.py:139-141. *)
  Definition get_edges (depth first : nat) : res (list (nat * nat)) := do r <- edges_from depth first []; Ok (fst r).
End Enumerating.

(** Enough rounds for the blocks that exist, see [C57_exact]; edulint/linting/analyses/cfg/graph.py:108. *)
Definition enough (s : state) : nat := S (list_sum (map (fun b => S (List.length (next_blocks s b))) (seq 0 (blocks s)))).

(** Removing from a set or a list, [KeyError] and [ValueError] respectively if it is not there,
    edulint/linting/analyses/cfg/graph.py:77, 96. *)
Fixpoint remove_one (e : exn) (x : nat) (l : list nat) : res (list nat) :=
  match l with
  | [] => Raise e
  | y :: l => if Nat.eqb x y then Ok l else do r <- remove_one e x l; Ok (y :: r)
  end.

(** Taking the block out of [unreachable_blocks], edulint/linting/analyses/cfg/graph.py:77. *)
Definition not_unreachable (g b : nat) (s : state) : res state :=
  do u <- remove_one KeyError b (unreachable (graph s g));
  Ok (with_graph s g (mk_cfg (start (graph s g)) (final (graph s g)) u (owner (graph s g)))).

(** [update_block_reachability], edulint/linting/analyses/cfg/graph.py:153-157. *)
Definition update_block_reachability (g : nat) (s : state) : res state :=
  do l <- get_blocks (next_blocks s) (enough s) (start (graph s g));
  let c := graph s g in
  let s := with_reachable s (fun b => existsb (Nat.eqb b) l || reachable s b) in
  Ok (with_graph s g (mk_cfg (start c) (final c) (filter (fun b => negb (existsb (Nat.eqb b) l)) (unreachable c)) (owner c))).

(** ** Building *)

(** [CFGEdge.__init__], edulint/linting/analyses/cfg/graph.py:268-275. *)
Definition add_edge (a b : nat) (s : state) : state :=
  mk_state (blocks s) (locs s) (set_at (preds s) b (preds s b ++ [edges s])) (set_at (succs s) a (succs s a ++ [edges s]))
           (reachable s) (S (edges s)) (set_at (source s) (edges s) a) (set_at (target s) (edges s) b) (graphs s) (graph s) (places s).

(** [is_jump] asks whether a [CFGLoc] is a break, continue, return or raise node, which it never is,
    edulint/linting/analyses/cfg/graph.py:247-255. *)
Definition is_jump (s : state) (b : nat) : bool := false.

(** [link], edulint/linting/analyses/cfg/graph.py:49-52. *)
Definition link (a b : nat) (s : state) : state := if is_jump s a then s else add_edge a b s.

(** One edge gets another target, edulint/linting/analyses/cfg/graph.py:72-74. *)
Definition redirect (b : nat) (s : state) (e : nat) : state :=
  mk_state (blocks s) (locs s) (set_at (preds s) b (preds s b ++ [e])) (succs s) (reachable s) (edges s) (source s)
           (set_at (target s) e b) (graphs s) (graph s) (places s).

(** [link_or_merge]; with an empty block and itself the loop over the growing list would not end,
    edulint/linting/analyses/cfg/graph.py:54-79. *)
Definition link_or_merge (g a b : nat) (s : state) : res state :=
  if is_jump s a then Ok s
  else
    match locs s a with
    | [] =>
        if Nat.eqb a (start (graph s g)) then
          not_unreachable g a
            (with_graph s g (mk_cfg b (final (graph s g)) (unreachable (graph s g)) (owner (graph s g))))
        else if Nat.eqb a b && negb (Nat.eqb (List.length (preds s a)) 0) then Raise (OtherError "endless loop")
        else not_unreachable g a (fold_left (redirect b) (preds s a) s)
    | _ => Ok (add_edge a b s)
    end.

(** The edges in to the merged block are replaced, edulint/linting/analyses/cfg/graph.py:93-96. *)
Fixpoint spread (targets : list nat) (es : list nat) (s : state) : res state :=
  match es with
  | [] => Ok s
  | e :: es =>
      let s := fold_left (fun s t => add_edge (source s e) t s) targets s in
      do l <- remove_one ValueError e (succs s (source s e));
      spread targets es
        (mk_state (blocks s) (locs s) (preds s) (set_at (succs s) (source s e) l) (reachable s) (edges s) (source s) (target s)
                  (graphs s) (graph s) (places s))
  end.

(** [multiple_link_or_merge]; an empty block among its own targets would make the loop endless,
    edulint/linting/analyses/cfg/graph.py:81-101. *)
Definition multiple_link_or_merge (g a : nat) (targets : list nat) (s : state) : res state :=
  match locs s a with
  | [] =>
      if existsb (Nat.eqb a) targets && negb (Nat.eqb (List.length (preds s a)) 0) then Raise (OtherError "endless loop")
      else
        do s <- spread targets (preds s a) s;
        not_unreachable g a
          (mk_state (blocks s) (locs s) (set_at (preds s) a []) (succs s) (reachable s) (edges s) (source s) (target s)
                    (graphs s) (graph s) (places s))
  | _ => Ok (fold_left (fun s t => link a t s) targets s)
  end.

(** [create_block] without a predecessor, edulint/linting/analyses/cfg/graph.py:41-44, 196-203. *)
Definition new_block (g : nat) (s : state) : state * nat :=
  let b := blocks s in
  let c := graph s g in
  (with_graph
     (mk_state (S b) (set_at (locs s) b []) (set_at (preds s) b []) (set_at (succs s) b []) (set_at (reachable s) b false)
               (edges s) (source s) (target s) (graphs s) (graph s) (places s))
     g (mk_cfg (start c) (final c) (b :: unreachable c) (owner c)), b).
(** [create_block] with a predecessor, edulint/linting/analyses/cfg/graph.py:32-47. *)
Definition block_after (g p : nat) (s : state) : res (state * nat) :=
  let r := new_block g s in
  do s <- link_or_merge g p (snd r) (fst r);
  Ok (s, snd r).

(** [ControlFlowGraph()], edulint/linting/analyses/cfg/graph.py:25-30. *)
Definition new_graph (o : node) (s : state) : state * nat :=
  let g := graphs s in
  let s := mk_state (blocks s) (locs s) (preds s) (succs s) (reachable s) (edges s) (source s) (target s) (S g)
                    (set_at (graph s) g (mk_cfg 0 0 [] o)) (places s) in
  let r := new_block g s in
  let r' := new_block g (fst r) in
  let s := fst r' in
  (with_graph s g (mk_cfg (snd r) (snd r') (unreachable (graph s g)) o), g).

(** [add_statement], edulint/linting/analyses/cfg/graph.py:208-212. *)
Definition add_statement (b : nat) (n : node) (s : state) : state :=
  if is_jump s b then s else with_place (with_locs s b (locs s b ++ [n])) n (b, List.length (locs s b)).

(** The attribute [cfg_loc] of a node, edulint/linting/analyses/cfg/graph.py:229. *)
Definition place_of (n : node) (s : state) : res (nat * nat) :=
  match find (fun p => node_eqb (fst p) n) (places s) with Some p => Ok (snd p) | None => Raise AttributeError end.
(** The node in the graph at a place, edulint/linting/analyses/cfg/graph.py:230. *)
Definition node_at (p : nat * nat) (s : state) : res node :=
  match nth_error (locs s (fst p)) (snd p) with Some n => Ok n | None => Raise IndexError end.

(** The ways in which a statement that is not itself in the graph gets a place there: the node the statement's position is
    compared with comes first or last, edulint/linting/analyses/cfg/graph.py:214-240. *)
Inductive position := First (nodes : list node) | Last (n : node) | Next | Zero.

(** [_CF_statement_to_pos], edulint/linting/analyses/cfg/graph.py:214-240. *)
Definition position_of (b : nat) (p : position) (s : state) : res nat :=
  match p with
  | Zero => Ok 0
  | Next => Ok (List.length (locs s b))
  | Last n =>
      match rev (locs s b) with
      | [] => Raise IndexError
      | m :: _ => if node_eqb m n then Ok (List.length (locs s b) - 1) else Raise AssertionError
      end
  | First ns =>
      match locs s b with
      | [] => Raise IndexError
      | m :: _ => if existsb (node_eqb m) ns then Ok 0 else Raise AssertionError
      end
  end.
(** [add_CF_statement], edulint/linting/analyses/cfg/graph.py:242-245. *)
Definition add_CF_statement (b : nat) (n : node) (p : position) (s : state) : res state :=
  do i <- position_of b p s;
  Ok (with_place s n (b, i)).

(** ** The visitor *)

(** The keys of [_control_boundaries]: the names of the jumps, with the exception for a raise that is handled,
    edulint/linting/analyses/cfg/visitor.py:143-144, 229, 347, 365. *)
Inductive exit_key := KBreak | KContinue | KReturn | KRaise (name : option string).
(** edulint/linting/analyses/cfg/visitor.py:321, 325. *)
Definition key_eqb (a b : exit_key) : bool :=
  match a, b with
  | KBreak, KBreak | KContinue, KContinue | KReturn, KReturn => true
  | KRaise None, KRaise None => true
  | KRaise (Some x), KRaise (Some y) => String.eqb x y
  | _, _ => false
  end.
(** [_control_boundaries], the innermost first, edulint/linting/analyses/cfg/visitor.py:36, 317. *)
Notation boundaries := (list (list (exit_key * nat))).

(** [exits[key]] if there is such a key, edulint/linting/analyses/cfg/visitor.py:321-326. *)
Definition exit_of (k : exit_key) (exits : list (exit_key * nat)) : option nat :=
  match find (fun x => key_eqb k (fst x)) exits with Some x => Some (snd x) | None => None end.
(** The keys a jump is looked up with, in this order, edulint/linting/analyses/cfg/visitor.py:318-327, 445-458. *)
Definition keys_of (k : jump_kind) : list exit_key :=
  match k with
  | Break => [KBreak]
  | Continue => [KContinue]
  | Return => [KReturn]
  | RaiseOf e => [KRaise e; KRaise None]
  end.
(** Where a jump goes within one boundary, edulint/linting/analyses/cfg/visitor.py:318-327. *)
Fixpoint exit_for (ks : list exit_key) (exits : list (exit_key * nat)) : option nat :=
  match ks with
  | [] => None
  | k :: ks => match exit_of k exits with Some b => Some b | None => exit_for ks exits end
  end.
(** Where a jump goes, edulint/linting/analyses/cfg/visitor.py:317-327. *)
Fixpoint jump_target (ks : list exit_key) (bs : boundaries) : option nat :=
  match bs with
  | [] => None
  | exits :: bs => match exit_for ks exits with Some b => Some b | None => jump_target ks bs end
  end.

(** The items of a with statement, edulint/linting/analyses/cfg/visitor.py:419-422. *)
Fixpoint with_items (n i : nat) (items : list bool) : list node :=
  match items with
  | [] => []
  | named :: items => Part n (Context i) :: (if named then [Part n (ContextName i)] else []) ++ with_items n (S i) items
  end.

(** The boundaries a handler adds, the last one innermost, edulint/linting/analyses/cfg/visitor.py:357-366. *)
Definition handler_boundaries (types : list string) (h : nat) : boundaries :=
  match types with
  | [] => [[(KRaise None, h)]]
  | _ => rev (map (fun e => [(KRaise (Some e), h)]) types)
  end.

(** [accept]: the methods of [CFGVisitor], given the current graph, the boundaries, and the state with the current block;
    edulint/linting/analyses/cfg/visitor.py:58-425. *)
Fixpoint visit (g : nat) (bs : boundaries) (s : stmt) (x : state * nat) {struct s} : res (state * nat) :=
  let visit_all := (fix visit_all (g : nat) (bs : boundaries) (l : list stmt) (x : state * nat) {struct l} : res (state * nat) :=
    match l with
    | [] => Ok x
    | s :: l => do x <- visit g bs s x; visit_all g bs l x
    end) in
  let (s0, c) := x in
  match s with
  (* visit_generic, edulint/linting/analyses/cfg/visitor.py:58-61 *)
  | Simple n | Opaque n _ => Ok (add_statement c (Whole n) s0, c)
  (* _visit_jump, edulint/linting/analyses/cfg/visitor.py:308-329 *)
  | Jump n k =>
      let s1 := add_statement c (Whole n) s0 in
      let s2 := match jump_target (keys_of k) bs with Some b => link c b s1 | None => s1 end in
      Ok (new_block g s2)
  (* visit_functiondef, edulint/linting/analyses/cfg/visitor.py:117-162 *)
  | Function n body =>
      let s1 := add_statement c (Whole n) s0 in
      let (s2, g') := new_graph (Whole n) s1 in
      let bs := [(KReturn, final (graph s2 g')); (KRaise None, final (graph s2 g'))] :: bs in
      let s3 := add_statement (start (graph s2 g')) (Part n Args) s2 in
      do x <- block_after g' (start (graph s3 g')) s3;
      do x <- visit_all g' bs body x;
      do s4 <- link_or_merge g' (snd x) (final (graph (fst x) g')) (fst x);
      do s5 <- update_block_reachability g' s4;
      Ok (s5, c)
  (* visit_classdef, edulint/linting/analyses/cfg/visitor.py:86-112 *)
  | Class n body =>
      let s1 := add_statement c (Whole n) s0 in
      let (s2, g') := new_graph (Whole n) s1 in
      do x <- visit_all g' bs body (new_block g' s2);
      do s4 <- link_or_merge g' (snd x) (final (graph (fst x) g')) (fst x);
      do s5 <- update_block_reachability g' s4;
      Ok (s5, c)
  (* visit_if, edulint/linting/analyses/cfg/visitor.py:164-208 *)
  | If n body orelse =>
      let s1 := add_statement c (Part n Test) s0 in
      do s2 <- add_CF_statement c (Whole n) (Last (Part n Test)) s1;
      do x <- block_after g c s2;
      do x <- visit_all g bs body x;
      let end_if := snd x in
      do x <- match orelse with
              | [] => Ok (fst x, c)
              | _ => do x <- block_after g c (fst x); visit_all g bs orelse x
              end;
      let end_else := snd x in
      let (s3, after) := new_block g (fst x) in
      do s4 <- link_or_merge g end_if after s3;
      do s5 <- link_or_merge g end_else after s4;
      Ok (s5, after)
  (* visit_while, edulint/linting/analyses/cfg/visitor.py:210-252 *)
  | While n body orelse =>
      let (s1, test) := new_block g s0 in
      let s2 := add_statement test (Part n Test) s1 in
      do s3 <- add_CF_statement test (Whole n) (First [Part n Test]) s2;
      do s4 <- link_or_merge g c test s3;
      let (s5, after) := new_block g s4 in
      do x <- block_after g test s5;
      do x <- visit_all g ([(KBreak, after); (KContinue, test)] :: bs) body x;
      do s6 <- link_or_merge g (snd x) test (fst x);
      do x <- block_after g test s6;
      do x <- visit_all g bs orelse x;
      do s7 <- link_or_merge g (snd x) after (fst x);
      Ok (s7, after)
  (* visit_for, edulint/linting/analyses/cfg/visitor.py:254-294 *)
  | For n body orelse =>
      let s1 := add_statement c (Part n Iter) s0 in
      do s2 <- add_CF_statement c (Whole n) (Last (Part n Iter)) s1;
      let (s3, test) := new_block g s2 in
      let s4 := add_statement test (Part n Target) s3 in
      do s5 <- link_or_merge g c test s4;
      let (s6, after) := new_block g s5 in
      do x <- block_after g test s6;
      do x <- visit_all g ([(KBreak, after); (KContinue, test)] :: bs) body x;
      do s7 <- link_or_merge g (snd x) test (fst x);
      do x <- block_after g test s7;
      do x <- visit_all g bs orelse x;
      do s8 <- link_or_merge g (snd x) after (fst x);
      Ok (s8, after)
  (* visit_try, edulint/linting/analyses/cfg/visitor.py:331-411; the finally body is not visited *)
  | Try n body handlers orelse _ =>
      do x <- match locs s0 c with [] => Ok (s0, c) | _ => block_after g c s0 end;
      let (s1, node_block) := (x : state * nat) in
      let (s2, temp) := new_block g s1 in
      let (s3, finally_block) := new_block g s2 in
      let (s4, end_block) := new_block g s3 in
      do y <-
        (fix visit_handlers (i : nat) (hs : list (list string * bool * list stmt)) (bs : boundaries) (s : state) {struct hs}
           : res (state * boundaries * list nat) :=
           match hs with
           | [] => Ok (s, bs, [])
           | (types, named, hbody) :: hs =>
               (* the handlers are visited from the last one to the first one *)
               do y <- visit_handlers (S i) hs bs s;
               let '(s, bs, after_body) := (y : state * boundaries * list nat) in
               let (s, h) := new_block g s in
               let bs := handler_boundaries types h ++ bs in
               let s := if named then add_statement h (Part n (HandlerName i)) s else s in
               do x <- visit_all g bs hbody (s, h);
               let (s, end_handler) := (x : state * nat) in
               do s <- match locs s h with
                       | [] =>
                           match hbody with
                           | [] => Raise AssertionError
                           | f :: _ =>
                               do p <- place_of (Whole (stmt_number f)) s;
                               do m <- node_at p s;
                               add_CF_statement (fst p) (Part n (Handler i)) (First [m]) s
                           end
                       | _ =>
                           match hbody with
                           | [] => Raise IndexError
                           | f :: _ =>
                               do p <- place_of (Whole (stmt_number f)) s;
                               do m <- node_at p s;
                               add_CF_statement h (Part n (Handler i)) (First ((if named then [Part n (HandlerName i)] else []) ++ [m])) s
                           end
                       end;
               do s <- link_or_merge g end_handler finally_block s;
               Ok (s, bs, after_body ++ [h])
           end) 0 handlers ([(KRaise None, end_block)] :: bs) s4;
      let '(s5, bs', after_body) := (y : state * boundaries * list nat) in
      do y <- match orelse with
              | [] => Ok (s5, after_body ++ [finally_block])
              | _ =>
                  let (s, e) := new_block g s5 in
                  do x <- visit_all g bs' orelse (s, e);
                  do s <- link_or_merge g (snd x) finally_block (fst x);
                  Ok (s, after_body ++ [e])
              end;
      let (s6, after_body) := (y : state * list nat) in
      do x <- visit_all g bs' body (s6, node_block);
      let (s7, end_body) := (x : state * nat) in
      do s8 <- match body with
               | [] => Raise AssertionError
               | f :: _ =>
                   do p <- place_of (Whole (stmt_number f)) s7;
                   do m <- node_at p s7;
                   add_CF_statement (fst p) (Whole n) (First [m]) s7
               end;
      do s9 <- link_or_merge g temp end_body s8;
      do s10 <- multiple_link_or_merge g end_body after_body s9;
      do s11 <- link_or_merge g finally_block end_block s10;
      Ok (s11, end_block)
  (* visit_with, edulint/linting/analyses/cfg/visitor.py:413-425 *)
  | With n items body =>
      do s1 <- add_CF_statement c (Whole n) Next s0;
      visit_all g bs body (fold_left (fun s m => add_statement c m s) (with_items n 0 items) s1, c)
  end.

(** The statements of a list one after another, edulint/linting/analyses/cfg/visitor.py:78-79. *)
Fixpoint visit_all (g : nat) (bs : boundaries) (l : list stmt) (x : state * nat) {struct l} : res (state * nat) :=
  match l with
  | [] => Ok x
  | s :: l => do x <- visit g bs s x; visit_all g bs l x
  end.

(** [visit_module], edulint/linting/analyses/cfg/visitor.py:63-84. The number of the module is 0. *)
Definition visit_module (body : list stmt) : res state :=
  let (s1, g) := new_graph (Part 0 WholeModule) nothing in
  do x <- visit_all g [] body (s1, start (graph s1 g));
  let (s2, c) := (x : state * nat) in
  do s3 <- add_CF_statement (start (graph s2 g)) (Part 0 WholeModule) Zero s2;
  do s4 <- link_or_merge g c (final (graph s3 g)) s3;
  update_block_reachability g s4.
