(** Model of the analysis of reaching definitions: edulint/linting/analyses/data_dependency.py. Blocks are numbers; what the analysis asks
    about the control flow graph is given by functions of these numbers. *)
From Coq Require Import String List Bool Arith NArith.
From Verif Require Import Base.
Import ListNotations.
Local Open Scope string_scope.
Local Open Scope list_scope.
Local Open Scope nat_scope.

(** ** Events *)

(** [VarEventType], edulint/linting/analyses/var_events.py:26-31. *)
Inductive event_kind := Assign | Reassign | Modify | Read | Delete.
(** An event: its variable and its type; the number stands for the identity of the object, edulint/linting/analyses/var_events.py:46-56. *)
Record var_event := mk_event { variable : nat; kind : event_kind; name : nat }.
(** [KILLING_EVENTS], edulint/linting/analyses/data_dependency.py:28-33. *)
Definition killing (e : var_event) : bool := match kind e with Read => false | _ => true end.
(** [GENERATING_EVENTS], edulint/linting/analyses/data_dependency.py:34. *)
Definition generating (e : var_event) : bool := match kind e with Read | Modify => true | _ => false end.

(** What happens in a block, in the order in which the analysis looks at it: events of the functions called from a statement (found with
    the call graph, which is not modelled) and events of the statement itself, edulint/linting/analyses/data_dependency.py:191-258. *)
Inductive item := InCall (e : var_event) | Own (e : var_event).

(** ** Dictionaries with default 0, [defaultdict(int)]; that reading a missing key adds it with 0 is left out, as values of 0 are never
    used. edulint/linting/analyses/data_dependency.py:275, 295 *)
Notation dict := (list (nat * N)).
(** edulint/linting/analyses/data_dependency.py:318. *)
Fixpoint dget (d : dict) (v : nat) : N :=
  match d with [] => 0%N | (w, x) :: d => if Nat.eqb v w then x else dget d v end.
(** edulint/linting/analyses/data_dependency.py:319. *)
Fixpoint dset (d : dict) (v : nat) (x : N) : dict :=
  match d with [] => [(v, x)] | (w, y) :: d => if Nat.eqb v w then (w, x) :: d else (w, y) :: dset d v x end.
(** Reading an element of a list, edulint/linting/analyses/data_dependency.py:312-314. *)
Definition get {A} (l : list A) (i : nat) : res A := match nth_error l i with Some x => Ok x | None => Raise IndexError end.
(** Setting an element of a list, edulint/linting/analyses/data_dependency.py:319, 331. *)
Fixpoint set_nth {A} (i : nat) (x : A) (l : list A) : list A :=
  match l, i with
  | [], _ => []
  | _ :: l, 0 => x :: l
  | y :: l, S i => y :: set_nth i x l
  end.

(** [ones_indices], edulint/linting/analyses/data_dependency.py:124-130. *)
Definition ones_indices (n : N) : list nat := filter (fun i => N.testbit (N.shiftr n (N.of_nat i)) 0) (seq 0 (N.to_nat (N.size n))).

(** ** One graph *)

Section Graph.
  (** The blocks found by the traversal, the keys of [blocks], edulint/linting/analyses/data_dependency.py:188-189. *)
  Variable order : list nat.
  (** The blocks of the edges out and in, edulint/linting/analyses/data_dependency.py:297-298, 322-323. *)
  Variables after_block before_block : nat -> list nat.
  (** [len(block.locs) == 0] and [block.reachable], edulint/linting/analyses/data_dependency.py:299, 323. *)
  Variables empty reachable : nat -> bool.
  (** The variables with a definition in the i-th block, the keys of [kills] with events, edulint/linting/analyses/data_dependency.py:279-281. *)
  Variable killed_vars : nat -> list nat.
  (** [init_occupied_blocks], edulint/linting/analyses/data_dependency.py:424. The lists below start with this graph. *)
  Variable offset : nat.

  (** [blocks[b]], edulint/linting/analyses/data_dependency.py:302, 325. *)
  Fixpoint index_from (k : nat) (l : list nat) (b : nat) : res nat :=
    match l with [] => Raise KeyError | c :: l => if Nat.eqb b c then Ok k else index_from (S k) l b end.
  (** edulint/linting/analyses/data_dependency.py:302, 325. *)
  Definition index (b : nat) : res nat := index_from 0 order b.
  (** [len(original_kill[var_i]) > 0], edulint/linting/analyses/data_dependency.py:318. *)
  Definition killed (i v : nat) : bool := existsb (Nat.eqb v) (killed_vars i).

  (** [collect_computed_kills], edulint/linting/analyses/data_dependency.py:263-283. *)
  Definition collect_computed_kills : list dict :=
    map (fun i => map (fun v => (v, N.shiftl 1 (N.of_nat (offset + i)))) (killed_vars i)) (seq 0 (List.length order)).

  (** [result[var_i] |= val] for all of a parent, edulint/linting/analyses/data_dependency.py:302-303. *)
  Definition or_all (result d : dict) : dict := fold_left (fun r vx => dset r (fst vx) (N.lor (dget r (fst vx)) (snd vx))) d result.
  (** The loop over the edges in, edulint/linting/analyses/data_dependency.py:296-303. *)
  Fixpoint from_parents (computed : list dict) (parents : list nat) (result : dict) : res dict :=
    match parents with
    | [] => Ok result
    | p :: parents =>
        if reachable p then
          do i <- index p;
          do d <- get computed i;
          from_parents computed parents (or_all result d)
        else from_parents computed parents result
    end.
  (** [collect_kills_from_parents], edulint/linting/analyses/data_dependency.py:285-304. *)
  Definition collect_kills_from_parents (computed : list dict) : res (list dict) :=
    mapM (fun b => match before_block b with [] => Ok [] | ps => from_parents computed ps [] end) order.

  (** The first loop of a round, edulint/linting/analyses/data_dependency.py:316-320. *)
  Definition update (i : nat) (parent computed : dict) : dict * dict :=
    fold_left (fun (acc : dict * dict) (vx : nat * N) =>
                 if negb (N.eqb (dget (fst acc) (fst vx)) (snd vx)) && negb (killed i (fst vx))
                 then (dset (fst acc) (fst vx) (snd vx), snd acc ++ [vx]) else acc)
              parent (computed, []).
  (** Handing the updated values to one successor, edulint/linting/analyses/data_dependency.py:326-331. *)
  Fixpoint hand_over (updated : dict) (j : nat) (parents : list dict) (queue : list nat) : res (list dict * list nat) :=
    match updated with
    | [] => Ok (parents, queue)
    | (v, x) :: updated =>
        do child <- get parents j;
        if N.eqb (N.land x (dget child v)) x then hand_over updated j parents queue
        else hand_over updated j (set_nth j (dset child v (N.lor (dget child v) x)) parents)
               (if existsb (Nat.eqb j) queue then queue else queue ++ [j])
    end.
  (** The loop over the successors, edulint/linting/analyses/data_dependency.py:322-331. *)
  Fixpoint to_successors (updated : dict) (targets : list nat) (parents : list dict) (queue : list nat) : res (list dict * list nat) :=
    match targets with
    | [] => Ok (parents, queue)
    | t :: targets =>
        if empty t then to_successors updated targets parents queue
        else
          do j <- index t;
          do r <- hand_over updated j parents queue;
          to_successors updated targets (fst r) (snd r)
    end.
  (** The loop of [fixpoint]; [fuel] bounds the rounds, edulint/linting/analyses/data_dependency.py:309-331. *)
  Fixpoint rounds (fuel : nat) (computed parents : list dict) (queue : list nat) : res (list dict * list dict) :=
    match fuel with
    | 0 => Raise (OtherError "out of fuel")
    | S fuel =>
        match queue with
        | [] => Ok (computed, parents)
        | i :: queue =>
            do parent <- get parents i;
            do own <- get computed i;
            do b <- get order i;
            let (own, updated) := update i parent own in
            do r <- to_successors updated (after_block b) parents queue;
            rounds fuel (set_nth i own computed) (fst r) (snd r)
        end
    end.
  (** What is done for one graph, edulint/linting/analyses/data_dependency.py:433-437, 309. *)
  Definition reaching (fuel : nat) : res (list dict * list dict) :=
    let computed := collect_computed_kills in
    do parents <- collect_kills_from_parents computed;
    rounds fuel computed parents (seq 0 (List.length order)).
End Graph.

(** ** Events in blocks *)

(** The links between events: pairs of a use and a definition, and of a definition and an earlier one it replaces,
    edulint/linting/analyses/var_events.py:46-56. *)
Record links := mk_links { definitions : list (var_event * var_event); redefines : list (var_event * var_event) }.
(** Events are compared by identity, edulint/linting/analyses/data_dependency.py:221. *)
Definition same (a b : var_event) : bool := Nat.eqb (name a) (name b).
(** [if kill_event not in event.definitions: ... append], edulint/linting/analyses/data_dependency.py:221-223, 228-230, 244-246, 252-254. *)
Definition add_link (l : list (var_event * var_event)) (use : var_event) (d : var_event) : list (var_event * var_event) :=
  if existsb (fun p => same use (fst p) && same d (snd p)) l then l else l ++ [(use, d)].
(** edulint/linting/analyses/data_dependency.py:220-223. *)
Definition add_links (l : list (var_event * var_event)) (use : var_event) (ds : list var_event) : list (var_event * var_event) :=
  fold_left (fun l d => add_link l use d) ds l.

(** The events of a block before the first definition and the groups of definitions, for each variable,
    edulint/linting/analyses/data_dependency.py:190. *)
Record found := mk_found { gens : nat -> list var_event; kill : nat -> list (list var_event) }.
(** edulint/linting/analyses/data_dependency.py:190. *)
Definition nothing_found : found := mk_found (fun _ => []) (fun _ => []).
(** Adding to a dictionary of lists, edulint/linting/analyses/data_dependency.py:218, 232. *)
Definition at_key {A} (f : nat -> A) (v : nat) (x : A) : nat -> A := fun w => if Nat.eqb w v then x else f w.

(** One event, edulint/linting/analyses/data_dependency.py:215-233 (in a call), 235-256 (in the statement itself). *)
Definition one_item (i : item) (f : found) (l : links) : found * links :=
  let e := match i with InCall e | Own e => e end in
  let v := variable e in
  let groups := kill f v in
  let last_group := last groups [] in
  let used :=
    if generating e then
      match groups with
      | [] => (mk_found (at_key (gens f) v (gens f v ++ [e])) (kill f), l)
      | _ => (f, mk_links (add_links (definitions l) e last_group) (redefines l))
      end
    else (f, l) in
  if killing e then
    let l := match groups with
             | [] => snd used
             | _ => mk_links (definitions (snd used)) (add_links (redefines (snd used)) e last_group)
             end in
    let new := match i with
               | InCall _ => match groups with [] => [[e]] | _ => removelast groups ++ [last_group ++ [e]] end
               | Own _ => groups ++ [[e]]
               end in
    (mk_found (gens (fst used)) (at_key (kill (fst used)) v new), l)
  else used.
(** The events of a block, edulint/linting/analyses/data_dependency.py:191-258. *)
Fixpoint items_of_block (items : list item) (f : found) (l : links) : found * links :=
  match items with [] => (f, l) | i :: items => let (f, l) := one_item i f l in items_of_block items f l end.
(** All the blocks, edulint/linting/analyses/data_dependency.py:187-258. *)
Fixpoint items_of_blocks (blocks : list (list item)) (l : links) : list found * links :=
  match blocks with
  | [] => ([], l)
  | items :: blocks =>
      let (f, l) := items_of_block items nothing_found l in
      let (fs, l) := items_of_blocks blocks l in
      (f :: fs, l)
  end.
(** The variables defined in a block: the keys of [kills], edulint/linting/analyses/data_dependency.py:279-281. *)
Definition defined_vars (items : list item) : list nat :=
  nodup Nat.eq_dec (map variable (filter killing (map (fun i => match i with InCall e | Own e => e end) items))).

(** [kill_event] for one block and variable, edulint/linting/analyses/data_dependency.py:339-352. *)
Definition connect_var (all : list found) (f : found) (v : nat) (val : N) (l : links) : res links :=
  match gens f v, kill f v with
  | [], [] => Ok l
  | _, _ =>
      do groups <- mapM (fun k => do g <- get all k; match rev (kill g v) with [] => Raise IndexError | last :: _ => Ok last end) (ones_indices val);
      Ok (fold_left (fun l d =>
            mk_links (fold_left (fun ds u => ds ++ [(u, d)]) (gens f v) (definitions l))
                     (match kill f v with [] => redefines l | first :: _ => fold_left (fun rs o => rs ++ [(o, d)]) first (redefines l) end))
          (concat groups) l)
  end.
(** edulint/linting/analyses/data_dependency.py:338-352. *)
Fixpoint connect_block (all : list found) (f : found) (parent : dict) (l : links) : res links :=
  match parent with [] => Ok l | (v, val) :: parent => do l <- connect_var all f v val l; connect_block all f parent l end.
(** [connect_events], edulint/linting/analyses/data_dependency.py:333-352. *)
Fixpoint connect_events (all : list found) (blocks : list (found * dict)) (l : links) : res links :=
  match blocks with [] => Ok l | (f, parent) :: blocks => do l <- connect_block all f parent l; connect_events all blocks l end.

(** ** The whole analysis *)

(** The loop over the functions and the module. [orders] are the blocks found from each start, [items] what happens in a block. The order
    of the entries of dictionaries is left out. edulint/linting/analyses/data_dependency.py:424-437. *)
Fixpoint all_graphs (after_block before_block : nat -> list nat) (empty reachable : nat -> bool) (items : nat -> list item)
    (fuel offset : nat) (orders : list (list nat)) (l : links) : res (list found * list dict * list dict * links) :=
  match orders with
  | [] => Ok ([], [], [], l)
  | order :: orders =>
      let (fs, l) := items_of_blocks (map items order) l in
      do r <- reaching order after_block before_block empty reachable (fun i => defined_vars (items (nth i order 0))) offset fuel;
      do rest <- all_graphs after_block before_block empty reachable items fuel (offset + List.length order) orders l;
      match rest with (fs', cs', ps', l) => Ok (fs ++ fs', fst r ++ cs', snd r ++ ps', l) end
  end.
(** [collect_reaching_definitions] without [make_up_calls] (lines 354-411, which adds links for functions that are never called),
    edulint/linting/analyses/data_dependency.py:133-457. *)
Definition collect_reaching_definitions (after_block before_block : nat -> list nat) (empty reachable : nat -> bool) (items : nat -> list item)
    (fuel : nat) (orders : list (list nat)) : res links :=
  do r <- all_graphs after_block before_block empty reachable items fuel 0 orders (mk_links [] []);
  match r with (fs, _, ps, l) => connect_events fs (combine fs ps) l end.
