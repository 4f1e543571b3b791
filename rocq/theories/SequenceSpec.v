(** What the messages about consecutive if statements promise. *)
From Coq Require Import String List Bool Arith NArith ZArith.
From Verif Require Import Base PyModel PySpec LocalSpec MergeSpec SolverModel SolverSpec SequenceModel.
Import ListNotations.
Local Open Scope string_scope.
Local Open Scope list_scope.
Local Open Scope nat_scope.

(** ** Running if statements *)
Section Run.
  Context {W B : Type}.
  Variable P : python W.
  (** What a body does; anything but its normal end is an exception here. *)
  Variable run : B -> W -> W * res unit.
  Fixpoint run_branches (l : list (expr * B)) (e : option B) (w : W) : W * res unit :=
    match l with
    | [] => match e with Some b => run b w | None => (w, Ok tt) end
    | (t, b) :: l =>
        match test P t w with
        | (w, Ok true) => run b w
        | (w, Ok false) => run_branches l e w
        | (w, Raise x) => (w, Raise x)
        end
    end.
  Definition run_if (s : if_statement B) (w : W) : W * res unit := run_branches (branches s) (otherwise s) w.
  Fixpoint run_all (l : list (if_statement B)) (w : W) : W * res unit :=
    match l with
    | [] => (w, Ok tt)
    | s :: l => match run_if s w with (w, Ok _) => run_all l w | r => r end
    end.
  (** There are several; after the if statements before, from state [w0] on, they do the same as one if statement with all their
      branches. *)
  Definition right_merge (ifs : list (if_statement B)) (w0 : W) (m : merge_message) : Prop :=
    let group := firstn (S (merged_with m)) (skipn (first_if m) ifs) in
    0 < merged_with m /\ length group = S (merged_with m) /\ Forall (fun s => otherwise s = None) group /\
    forall w, run_all (firstn (first_if m) ifs) w0 = (w, Ok tt) -> run_all group w = run_branches (concat (map branches group)) None w.

  (** ** Assumptions *)
  Definition bodies (s : if_statement B) : list B := map snd (branches s) ++ match otherwise s with Some b => [b] | None => [] end.
  (** A set of states that the if statements do not leave. *)
  Definition kept_by (Inv : W -> Prop) (ifs : list (if_statement B)) : Prop :=
    forall s w w', List.In s ifs -> Inv w -> run_if s w = (w', Ok tt) -> Inv w'.
  (** If a condition is not said to be modified in some if statements, their bodies do not change its numbers. *)
  Definition modifications_known (Inv : W -> Prop) (may_modify : expr -> list (if_statement B) -> bool) : Prop :=
    forall c later s b w w', may_modify c later = false -> List.In s later -> List.In b (bodies s) -> Inv w -> run b w = (w', Ok tt) ->
    forall e z, List.In e (numbers c) -> is_int P w e z -> is_int P w' e z.
  (** The conditions of if statements have the values of their translations, state after state. *)
  Fixpoint tracks (E : environment) (w : W) (ifs : list (if_statement B)) (zs : list (list zexpr)) {struct zs} : Prop :=
    match zs, ifs with
    | [], _ => True
    | _, [] => False
    | z :: zs, s :: ifs =>
        otherwise s = None /\ Forall2 (fun t z => exists b, test P t w = (w, Ok b) /\ zeval E z = Some (ZB b)) (conditions s) z /\
        forall w', run_if s w = (w', Ok tt) -> tracks E w' ifs zs
    end.
  Definition blocks_right (Inv : W -> Prop) (ifs : list (if_statement B)) (blocks : nat -> res (zexpr * list (list zexpr))) : Prop :=
    forall i relations zs, blocks i = Ok (relations, zs) ->
      length zs <= length (skipn i ifs) /\ Forall (fun s => otherwise s = None) (firstn (length zs) (skipn i ifs)) /\
      forall w, Inv w -> exists E, zeval E relations = Some (ZB true) /\ tracks E w (skipn i ifs) zs.
End Run.
