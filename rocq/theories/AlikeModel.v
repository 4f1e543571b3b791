(** Which pieces of code are compared for being extracted into a function: the candidates of the duplication checker and how they are
    grouped. What is found when pieces are compared is given. *)
From Coq Require Import List Bool Arith.
Import ListNotations.
Local Open Scope list_scope.
Local Open Scope nat_scope.

(** The first and one past the last position of a piece of code among the statements; nothing if its last statement is not among them,
    edulint/linting/checkers/duplication/checker.py:75-79. *)
Notation range := (nat * option nat)%type.
(** A piece of code with its range, a key of the dictionary of candidates, edulint/linting/checkers/duplication/checker.py:405-407. *)
Notation piece := (range * list nat)%type.

(** Equal ranges, edulint/linting/checkers/duplication/checker.py:405. *)
Definition range_eqb (r s : range) : bool :=
  Nat.eqb (fst r) (fst s) && match snd r, snd s with Some a, Some b => Nat.eqb a b | None, None => true | _, _ => false end.
(** Equal tuples of statements, edulint/linting/checkers/duplication/checker.py:405. *)
Fixpoint nats_eqb (l m : list nat) : bool :=
  match l, m with
  | [], [] => true
  | x :: l, y :: m => Nat.eqb x y && nats_eqb l m
  | _, _ => false
  end.
(** Equal keys, edulint/linting/checkers/duplication/checker.py:405. *)
Definition piece_eqb (p q : piece) : bool := range_eqb (fst p) (fst q) && nats_eqb (snd p) (snd q).

(** [candidates.get], edulint/linting/checkers/duplication/checker.py:405. *)
Fixpoint get (d : list (piece * nat)) (k : piece) : option nat :=
  match d with
  | [] => None
  | (p, i) :: d => if piece_eqb p k then Some i else get d k
  end.
(** [candidates[k] = i]: a key that is there keeps its place, edulint/linting/checkers/duplication/checker.py:406-407. *)
Fixpoint set (d : list (piece * nat)) (k : piece) (i : nat) : list (piece * nat) :=
  match d with
  | [] => [(k, i)]
  | (p, j) :: d => if piece_eqb p k then (p, i) :: d else (p, j) :: set d k i
  end.
(** One candidate pair is entered, edulint/linting/checkers/duplication/checker.py:404-407. *)
Definition enter (d : list (piece * nat)) (p : piece * piece) : list (piece * nat) :=
  let i := match get d (fst p) with Some i => i | None => List.length d end in
  set (set d (fst p) i) (snd p) i.

(** Insertion into a sorted list after what is equal, edulint/linting/checkers/duplication/checker.py:222-227 (stable sorting). *)
Fixpoint insert {A} (less : A -> A -> bool) (x : A) (l : list A) : list A :=
  match l with
  | [] => [x]
  | y :: l => if less x y then x :: y :: l else y :: insert less x l
  end.
(** [sort] and [sorted] (external code), edulint/linting/checkers/duplication/checker.py:222-227. *)
Definition sort {A} (less : A -> A -> bool) (l : list A) : list A := fold_left (fun s x => insert less x s) l [].
(** Ranges in order; those of candidates have an end, edulint/linting/checkers/duplication/checker.py:223. *)
Definition range_less (r s : range) : bool :=
  Nat.ltb (fst r) (fst s) || (Nat.eqb (fst r) (fst s) && match snd r, snd s with Some a, Some b => Nat.ltb a b | _, _ => false end).
(** The pieces with a number, edulint/linting/checkers/duplication/checker.py:215-220. *)
Definition with_id (d : list (piece * nat)) (i : nat) : list piece := map fst (filter (fun e => Nat.eqb (snd e) i) d).
(** The numbers in the order in which they appear, edulint/linting/checkers/duplication/checker.py:215-220. *)
Fixpoint ids (seen : list nat) (d : list (piece * nat)) : list nat :=
  match d with
  | [] => []
  | (_, i) :: d => if existsb (Nat.eqb i) seen then ids seen d else i :: ids (i :: seen) d
  end.
(** Groups in order: by their first statement, and those with a longer first piece first,
    edulint/linting/checkers/duplication/checker.py:225-228. *)
Definition group_less (g h : list piece) : bool :=
  match g, h with
  | p :: _, q :: _ =>
      Nat.ltb (fst (fst p)) (fst (fst q)) ||
      (Nat.eqb (fst (fst p)) (fst (fst q)) && match snd (fst p), snd (fst q) with Some a, Some b => Nat.ltb b a | _, _ => false end)
  | _, _ => false
  end.
(** [get_ordered_candidates], edulint/linting/checkers/duplication/checker.py:212-228. *)
Definition get_ordered_candidates (d : list (piece * nat)) : list (list piece) :=
  sort group_less (map (fun i => sort (fun p q => range_less (fst p) (fst q)) (with_id d i)) (ids [] d)).

Section Candidates.
  (** The statements in the order of the program; nodes are numbers. Their lines, whether a node is of the class of another, whether a
      single such node is no candidate, and the remembered siblings (see [get_memoized_siblings] in SwitchModel),
      edulint/linting/checkers/duplication/checker.py:157-167, 180-184. *)
  Variable stmt_nodes : list nat.
  Variable fromlineno tolineno : nat -> nat.
  Variable is_type_of : nat -> nat -> bool.
  Variable no_one_line : nat -> bool.
  Variable siblings : nat -> list nat.

  (** [stmt_to_index.get], edulint/linting/checkers/duplication/checker.py:78, 380. *)
  Fixpoint index_in (l : list nat) (x : nat) : option nat :=
    match l with
    | [] => None
    | y :: l => if Nat.eqb y x then Some 0 else option_map S (index_in l x)
    end.
  (** [get_stmt_range] of a piece that starts at the given position, edulint/linting/checkers/duplication/checker.py:75-79. *)
  Definition get_stmt_range (i : nat) (ns : list nat) : range :=
    (i, option_map S (index_in stmt_nodes (last ns 0))).
  (** [overlap], edulint/linting/checkers/duplication/checker.py:82-92. *)
  Definition overlap (r s : range) : bool :=
    match snd r, snd s with
    | Some last1, Some _ => Nat.leb (fromlineno (nth (fst s) stmt_nodes 0)) (tolineno (nth (last1 - 1) stmt_nodes 0))
    | _, _ => true
    end.
  (** The statements in a range, edulint/linting/checkers/duplication/checker.py:201. *)
  Definition slice (r : range) : list nat :=
    match snd r with Some e => firstn (e - fst r) (skipn (fst r) stmt_nodes) | None => skipn (fst r) stmt_nodes end.
  (** [is_duplication_candidate] of two lists, edulint/linting/checkers/duplication/utils.py:63-67. *)
  Definition is_duplication_candidate (l m : list nat) : bool :=
    forallb (fun p => is_type_of (fst p) (fst p) && is_type_of (snd p) (fst p)) (combine l m).
  (** [candidate_snd]: the positions that may be second, edulint/linting/checkers/duplication/checker.py:32-40. *)
  Fixpoint skip_inside (line : nat) (positions : list nat) : list nat :=
    match positions with
    | [] => []
    | j :: rest => if Nat.leb (fromlineno (nth j stmt_nodes 0)) line then skip_inside line rest else positions
    end.
  (** [candidate_snd], edulint/linting/checkers/duplication/checker.py:32-40. *)
  Definition candidate_snd (i : nat) : list nat :=
    skip_inside (tolineno (nth i stmt_nodes 0)) (seq (S i) (List.length stmt_nodes - S i)).
  (** How many nodes at the start are of the classes of the others, edulint/linting/checkers/duplication/checker.py:186-191. *)
  Fixpoint common_length (n : nat) (l m : list nat) : nat :=
    match n, l, m with
    | S n, x :: l, y :: m => if is_type_of x y then S (common_length n l m) else 0
    | _, _, _ => 0
    end.
  (** The loop over lengths, from the longest on, edulint/linting/checkers/duplication/checker.py:193-205. *)
  Fixpoint longest (i j length : nat) : option (piece * piece) :=
    match length with
    | 0 => None
    | S shorter =>
        let x := nth i stmt_nodes 0 in
        let y := nth j stmt_nodes 0 in
        let a := firstn length (siblings x) in
        let b := firstn length (siblings y) in
        if Nat.eqb length 1 && (no_one_line x || no_one_line y) then None
        else
          let r := get_stmt_range i a in
          let s := get_stmt_range j b in
          if negb (overlap r s) && is_duplication_candidate (slice r) (slice s) then Some ((r, a), (s, b))
          else longest i j shorter
    end.
  (** The pair for two positions, edulint/linting/checkers/duplication/checker.py:183-205. *)
  Definition candidate_pair (i j : nat) : list (piece * piece) :=
    let a := siblings (nth i stmt_nodes 0) in
    let b := siblings (nth j stmt_nodes 0) in
    match longest i j (common_length (Nat.min (Nat.min (List.length a) (List.length b)) (j - i)) a b) with
    | Some p => [p]
    | None => []
    end.
  (** [get_similar_to_block_candidates] with its messages enabled, edulint/linting/checkers/duplication/checker.py:168-205. *)
  Definition get_similar_to_block_candidates (i : nat) : list (piece * piece) := flat_map (candidate_pair i) (candidate_snd i).

  (** The dictionary after looking at the statements at these positions, which are those for which nothing else was found,
      edulint/linting/checkers/duplication/checker.py:384-407. *)
  Definition candidates (positions : list nat) : list (piece * nat) :=
    fold_left enter (flat_map get_similar_to_block_candidates positions) [].

  (** What is found: the statement after one in its block, whether pieces are in one statement, whether they are similar, and the nodes in
      them, edulint/linting/checkers/duplication/checker.py:208-262. *)
  Variable next_sibling : nat -> option nat.
  Variable all_children_of_one_statement : list (list nat) -> bool.
  Variable similar_to_block : list (list nat) -> bool.
  Variable nodes_of : list nat -> list nat.

  (** [may_be_similar_to_loop], edulint/linting/checkers/duplication/checker.py:209-210. *)
  Fixpoint may_be_similar_to_loop (l : list (list nat)) : bool :=
    match l with
    | a :: (b :: _) as rest =>
        match next_sibling (last a 0) with Some x => Nat.eqb x (hd 0 b) | None => false end && may_be_similar_to_loop rest
    | _ => true
    end.
  (** The loop of [is_any_similar_to_block]: the groups about which a message is reported,
      edulint/linting/checkers/duplication/checker.py:247-262. *)
  Fixpoint similar_groups (duplicate : list nat) (groups : list (list piece)) : list (list piece) :=
    match groups with
    | [] => []
    | g :: groups =>
        let to_aunify := map snd g in
        if may_be_similar_to_loop to_aunify then similar_groups duplicate groups
        else if existsb (Nat.eqb (hd 0 (hd [] to_aunify))) duplicate then similar_groups duplicate groups
        else if all_children_of_one_statement to_aunify then similar_groups duplicate groups
        else if similar_to_block to_aunify then g :: similar_groups (flat_map nodes_of to_aunify ++ duplicate) groups
        else similar_groups duplicate groups
    end.
  (** [is_any_similar_to_block], edulint/linting/checkers/duplication/checker.py:208-262. *)
  Definition is_any_similar_to_block (duplicate : list nat) (positions : list nat) : list (list piece) :=
    similar_groups duplicate (get_ordered_candidates (candidates positions)).
End Candidates.
