(** Walking over a control flow graph from some places on, in either direction. *)
From Coq Require Import String List Bool Arith.
From Verif Require Import Base.
Import ListNotations.
Local Open Scope string_scope.
Local Open Scope list_scope.
Local Open Scope nat_scope.

Section Walk.
(** [len(block.locs)], edulint/linting/analyses/cfg/utils.py:117. *)
Variable size : nat -> nat.
(** [Direction.get_essors]: the blocks of the outgoing (incoming) edges, edulint/linting/analyses/cfg/utils.py:35-39. *)
Variable essors : nat -> list nat.
(** [direction == Direction.SUCCESSORS], edulint/linting/analyses/cfg/utils.py:15-17. *)
Variable forward : bool.
(** [stop_on_loc] at a place of a block, edulint/linting/analyses/cfg/utils.py:45. *)
Variable stop_on_loc : option (nat -> nat -> bool).
(** [stop_on_block], edulint/linting/analyses/cfg/utils.py:46. *)
Variable stop_on_block : option (nat -> nat -> nat -> bool).
(** [include_start] and [include_end], edulint/linting/analyses/cfg/utils.py:47-48. *)
Variables include_start include_end : bool.

(** [range(from_pos, to_pos)] or the same backwards: the first place to stop at, [n] places being left.
    edulint/linting/analyses/cfg/utils.py:66-73. *)
Fixpoint stop_up (p : nat -> bool) (from n : nat) : option nat :=
  match n with 0 => None | S n => if p from then Some from else stop_up p (S from) n end.
(** The same from the end, edulint/linting/analyses/cfg/utils.py:69-73. *)
Fixpoint stop_down (p : nat -> bool) (from n : nat) : option nat :=
  match n with 0 => None | S n => if p (from + n) then Some (from + n) else stop_down p from n end.

(** [triage_block]: whether to stop, whether to yield, the positions. edulint/linting/analyses/cfg/utils.py:51-86. *)
Definition triage (b from to : nat) (first : bool) : bool * bool * (nat * nat) :=
  let stop := match stop_on_block with None => false | Some f => f b from to end in
  if stop && negb include_end && (negb include_start || negb first) && (match stop_on_loc with None => true | Some _ => false end)
  then (true, false, (0, 0))
  else
    match (if (match stop_on_block with None => true | Some _ => false end) || stop then stop_on_loc else None) with
    | None => (stop, true, (from, to))
    | Some p =>
        match (if forward then stop_up (p b) from (to - from) else stop_down (p b) from (to - from)) with
        | None => (stop, true, (from, to))
        | Some i =>
            (true, true,
             if include_end then (if forward then (from, S i) else (i, to)) else (if forward then (from, i) else (S i, to)))
        end
    end.

(** An entry of the stack: block, positions, [is_first], [essor_i]; edulint/linting/analyses/cfg/utils.py:89. *)
Notation entry := (nat * nat * nat * bool * nat)%type.
(** [visited], edulint/linting/analyses/cfg/utils.py:137. *)
Notation table := (nat -> option (nat * nat)).
(** [visited[block] = ...], edulint/linting/analyses/cfg/utils.py:117, 134, 150, 161, 166. *)
Definition put (v : table) (b : nat) (r : nat * nat) : table := fun c => if Nat.eqb c b then Some r else v c.

(** Whether the walk goes on to other blocks, edulint/linting/analyses/cfg/utils.py:109-111. *)
Definition at_end (b from to : nat) : bool := if forward then Nat.eqb to (size b) else Nat.eqb from 0.
(** What is done with one of the blocks after (before) a block: the stack and [visited] afterwards.
    edulint/linting/analyses/cfg/utils.py:112-135. *)
Definition enter (c : nat) (stack : list entry) (visited : table) : res (list entry * table) :=
  if Nat.eqb (size c) 0 then Ok (stack, visited)
  else
    match visited c with
    | None => Ok ((c, 0, size c, false, 0) :: stack, put visited c (0, size c))
    | Some (vfrom, vto) =>
        if Nat.eqb vfrom 0 && Nat.eqb vto (size c) then Ok (stack, visited)
        else if forward then
          if Nat.eqb vto (size c) then Ok ((c, 0, vfrom, false, 0) :: stack, put visited c (0, size c)) else Raise AssertionError
        else
          if Nat.eqb vfrom 0 then Ok ((c, vto, size c, false, 0) :: stack, put visited c (0, size c)) else Raise AssertionError
    end.
(** The loop of [dfs_iter]: what is yielded and [visited] at the end; [fuel] bounds the rounds.
    edulint/linting/analyses/cfg/utils.py:88-135. *)
Fixpoint dfs (fuel : nat) (stack : list entry) (visited : table) : res (list (nat * nat * nat) * table) :=
  match fuel with
  | 0 => Raise (OtherError "out of fuel")
  | S fuel =>
      match stack with
      | [] => Ok ([], visited)
      | (b, from, to, first, i) :: stack =>
          let '(stops, yields, (from, to)) := if Nat.eqb i 0 then triage b from to first else (false, false, (from, to)) in
          let yielded := if yields && negb (Nat.eqb from to) then [(b, from, to)] else [] in
          do r <-
            (if stops then dfs fuel stack visited
             else if Nat.leb (List.length (essors b)) i then dfs fuel stack visited
             else
               let stack := (b, from, to, first, S i) :: stack in
               if at_end b from to then do e <- enter (nth i (essors b) 0) stack visited; dfs fuel (fst e) (snd e)
               else dfs fuel stack visited);
          Ok (yielded ++ fst r, snd r)
      end
  end.

(** One of the places to start from, edulint/linting/analyses/cfg/utils.py:138-168. *)
Definition start_at (fuel : nat) (b pos : nat) (visited : table) : res (list (nat * nat * nat) * table) :=
  match visited b with
  | None =>
      let '(from, to) := if forward then ((if include_start then pos else S pos), size b) else (0, (if include_start then S pos else pos)) in
      dfs fuel [(b, from, to, true, 0)] (put visited b (from, to))
  | Some (vfrom, vto) =>
      if Nat.leb vfrom pos && Nat.ltb pos vto then Ok ([], visited)
      else if forward then
        if Nat.eqb vto (size b) then
          let from := if include_start then pos else S pos in dfs fuel [(b, from, vfrom, true, 0)] (put visited b (from, vto))
        else Raise AssertionError
      else
        if Nat.eqb vfrom 0 then
          let to := if include_start then S pos else pos in dfs fuel [(b, vto, to, true, 0)] (put visited b (vfrom, to))
        else Raise AssertionError
  end.
(** [essor_blocks_from_locs]; the places are those of the unwrapped locations. edulint/linting/analyses/cfg/utils.py:42-168. *)
Fixpoint blocks_from_locs (fuel : nat) (locs : list (nat * nat)) (visited : table) : res (list (nat * nat * nat)) :=
  match locs with
  | [] => Ok []
  | (b, pos) :: locs => do r <- start_at fuel b pos visited; do r' <- blocks_from_locs fuel locs (snd r); Ok (fst r ++ r')
  end.
(** The places of a yielded block, in the order of [essor_locs_from_locs] without functions and classes.
    edulint/linting/analyses/cfg/utils.py:259-267. *)
Definition places (y : nat * nat * nat) : list (nat * nat) :=
  match y with (b, from, to) => let l := map (pair b) (seq from (to - from)) in if forward then l else rev l end.
(** [essor_locs_from_locs] without functions and classes, edulint/linting/analyses/cfg/utils.py:223-269. *)
Definition locs_from_locs (fuel : nat) (locs : list (nat * nat)) : res (list (nat * nat)) :=
  do ys <- blocks_from_locs fuel locs (fun _ => None); Ok (flat_map places ys).
End Walk.
